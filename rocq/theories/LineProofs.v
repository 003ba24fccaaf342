(** * Proofs about polycap_read_input_line *)
From Coq Require Import ZArith List Bool Lia String.
From Verif Require Import Num Mem SpecHeap ErrorModel ErrorProofs ProfileModel ProfileProofs HeapLib LineModel.
Import ListNotations.

Section Proofs.
Context {T : Type}.
Implicit Types s : st T.

Lemma wp_realloc l b n (Q : ptr -> st T -> Prop) s :
  mem s l = Some b -> orc s (cnt s) = true ->
  Q (Some (nxt s)) (mkSt (upd (upd (mem s) l None) (nxt s) (Some (firstn n b ++ repeat Vundef (n - List.length b))))
                        (S (nxt s)) (orc s) (S (cnt s))) ->
  wp (realloc (Some l) n) Q s.
Proof. unfold wp, realloc. intros -> ->. auto. Qed.

(** What the loop needs and keeps: the characters read so far are at the start of the
    buffer, which has room for at least one more; nothing else is different from [s0]. *)
Definition reading s0 (done : list Z) (p : loc) (size : nat) s : Prop :=
  wf s /\ memory_available s /\ nxt s0 <= p /\ nxt s0 <= nxt s /\
  mem s p = Some (List.map Vint done ++ repeat Vundef (size - List.length done)) /\
  List.length done < size /\ same_memory_except [p] s0 s.

Lemma wp_read_loop s0 line rest : wf s0 -> ~ In newline line ->
  forall stream done p size s (Q : _ -> st T -> Prop),
    (stream = line ++ newline :: rest \/ (stream = line /\ rest = [])) ->
    reading s0 done p size s ->
    (forall q size' s', reading s0 (done ++ line) q size' s' ->
        Q (Some q, List.length (done ++ line), rest) s') ->
    wp (read_loop stream (Some p) (List.length done) size) Q s.
Proof.
  intros W0. induction line as [|c line IH]; intros Nn stream done p size s Q Hs I HQ.
  - rewrite app_nil_r in HQ. destruct Hs as [->|[-> ->]]; cbn [app read_loop].
    + rewrite Z.eqb_refl. apply wp_ret. eauto.
    + apply wp_ret. eauto.
  - assert (Hc : Z.eqb c newline = false) by (apply Z.eqb_neq; intros ->; apply Nn; now left).
    assert (Nn' : ~ In newline line) by (intros K; apply Nn; now right).
    assert (Es : exists t, stream = c :: t /\ (t = line ++ newline :: rest \/ (t = line /\ rest = []))).
    { destruct Hs as [->|[-> ->]]; cbn [app]; eauto. }
    clear Hs. destruct Es as (t & -> & Ht). cbn [read_loop]. rewrite Hc.
    destruct I as (W & A & Lp & Ln & Mp & Lt & X).
    apply wp_bind. eapply wp_store; [exact Mp| |].
    { rewrite app_length, map_length, repeat_length. lia. }
    assert (Ed : set_nth (List.map Vint done ++ repeat (@Vundef T) (size - List.length done)) (List.length done) (Vint c)
                 = List.map Vint (done ++ [c]) ++ repeat Vundef (size - List.length (done ++ [c]))).
    { replace (size - List.length done) with (S (size - List.length (done ++ [c]))) by (rewrite app_length; cbn; lia).
      cbn [repeat]. rewrite <- (map_length (@Vint T) done), set_nth_app, map_app, <- app_assoc. reflexivity. }
    rewrite Ed. clear Ed.
    replace (S (List.length done)) with (List.length (done ++ [c])) by (rewrite app_length; cbn; lia).
    assert (HQ' : forall q size' s', reading s0 ((done ++ [c]) ++ line) q size' s' ->
        Q (Some q, List.length ((done ++ [c]) ++ line), rest) s').
    { intros q size' s'. rewrite <- app_assoc. cbn [app]. apply HQ. }
    assert (Lp2 : p < nxt s) by (destruct (le_lt_dec (nxt s) p) as [K|K]; auto; rewrite W in Mp by auto; discriminate).
    destruct (Nat.eqb_spec (List.length (done ++ [c])) size) as [Eq|Ne].
    + apply wp_bind. eapply wp_realloc; [cbn [mem]; apply upd_same|apply A|]. cbn [mem nxt orc cnt].
      apply (IH Nn' t (done ++ [c])); auto.
      assert (Ll : List.length (List.map (@Vint T) (done ++ [c])) = List.length (done ++ [c])) by apply map_length.
      unfold reading. cbn [mem nxt].
      split; [|split; [|split; [|split; [|split; [|split]]]]].
      * intros l Hl. cbn [mem nxt] in *. rewrite !upd_other by lia. apply W. lia.
      * intros k. apply A.
      * lia.
      * lia.
      * rewrite upd_same. f_equal. rewrite <- Eq at 1 2.
        rewrite Nat.sub_diag. cbn [repeat]. rewrite app_nil_r, firstn_all2 by lia.
        f_equal. f_equal. lia.
      * lia.
      * intros l Hl. nin_split Hl. cbn [mem]. rewrite upd_other by auto.
        destruct (Nat.eq_dec l p) as [->|Np].
        { rewrite upd_same. symmetry. apply W0. exact Lp. }
        rewrite !upd_other by auto. apply X. nin.
    + apply (IH Nn' t (done ++ [c])); auto. unfold reading. cbn [mem nxt].
      split; [|split; [|split; [|split; [|split; [|split]]]]]; auto.
      * intros l Hl. cbn [mem nxt] in *. rewrite !upd_other by lia. apply W. lia.
      * apply upd_same.
      * rewrite app_length in *. cbn in *. lia.
      * intros l Hl. nin_split Hl. cbn [mem]. rewrite upd_other by auto. apply X. nin.
Qed.

Lemma wp_read_input_line line rest stream err s :
  wf s -> memory_available s -> ~ In newline line ->
  (stream = line ++ newline :: rest \/ (stream = line /\ rest = [])) ->
  wp (read_input_line (Some stream) err)
     (fun r s' => exists l, r = (Some l, rest) /\ mem s l = None /\
        mem s' l = Some (List.map Vint (line ++ [0%Z])) /\ same_memory_except [l] s s') s.
Proof.
  intros W A Nn Hs. unfold read_input_line. unfold malloc.
  apply wp_bind. apply wp_alloc; [intros _|intros K; rewrite A in K; discriminate].
  apply wp_bind. change 0 with (List.length (@nil Z)).
  eapply (wp_read_loop s line rest W Nn stream [] (nxt s) 128); [exact Hs| |].
  - unfold reading. cbn [mem nxt List.length List.map app Nat.sub].
    split; [|split; [|split; [|split; [|split; [|split]]]]]; auto.
    + intros l Hl. cbn [mem nxt] in *. rewrite upd_other by lia. apply W. lia.
    + apply upd_same.
    + lia.
    + intros l Hl. nin_split Hl. cbn [mem]. apply upd_other. auto.
  - cbn [app]. intros q size s' (W' & A' & Lq & Ln & Mq & Lt & X).
    apply wp_bind. eapply wp_store; [exact Mq| |].
    { rewrite app_length, map_length, repeat_length. lia. }
    assert (Ed : set_nth (List.map Vint line ++ repeat (@Vundef T) (size - List.length line)) (List.length line) (Vint 0)
                 = List.map Vint (line ++ [0%Z]) ++ repeat Vundef (size - S (List.length line))).
    { replace (size - List.length line) with (S (size - S (List.length line))) by lia.
      cbn [repeat]. rewrite <- (map_length (@Vint T) line) at 2. rewrite set_nth_app, map_app, <- app_assoc. reflexivity. }
    rewrite Ed. clear Ed.
    assert (Lq2 : q < nxt s') by (destruct (le_lt_dec (nxt s') q) as [K|K]; auto; rewrite W' in Mq by auto; discriminate).
    apply wp_bind. eapply wp_realloc; [cbn [mem]; apply upd_same|apply A'|]. cbn [mem nxt orc cnt].
    apply wp_ret. exists (nxt s'). split; [reflexivity|]. split; [apply W; exact Ln|]. cbn [mem]. split.
    + rewrite upd_same. f_equal.
      assert (Ll : List.length (List.map (@Vint T) (line ++ [0%Z])) = S (List.length line)) by (rewrite map_length, app_length; cbn; lia).
      rewrite firstn_app, firstn_all2 by lia. rewrite Ll, Nat.sub_diag. cbn [firstn]. rewrite app_nil_r.
      replace (S (List.length line) - _) with 0 by (rewrite app_length, Ll; lia). cbn [repeat]. apply app_nil_r.
    + intros l Hl. nin_split Hl. cbn [mem]. rewrite upd_other by auto.
      destruct (Nat.eq_dec l q) as [->|Nq]; [rewrite upd_same; symmetry; apply W; exact Lq|].
      rewrite !upd_other by auto. apply X. nin.
Qed.

(** A NULL buffer is written to, whatever comes next. *)
Lemma read_loop_null {B} stream j size s (k : ptr * nat * list Z -> M T B) :
  (forall j rest s', k (NULL, j, rest) s' = UB) -> bind (read_loop stream NULL j size) k s = UB.
Proof.
  intros K. destruct stream as [|c rest]; cbn [read_loop]; [apply K|].
  destruct (Z.eqb c newline); [apply K|reflexivity].
Qed.

Lemma read_loop_grow_fails {B} p size (k : ptr * nat * list Z -> M T B) :
  (forall j rest s', k (NULL, j, rest) s' = UB) ->
  forall n stream j s (b : @block T), size = S (j + n) ->
    mem s p = Some b -> List.length b = size -> orc s (cnt s) = false ->
    size - j <= List.length stream -> ~ In newline (firstn (size - j) stream) ->
    bind (read_loop stream (Some p) j size) k s = UB.
Proof.
  intros K. unfold bind. induction n as [|n IH]; intros stream j s b Es Mp Lb O Ls Nn.
  - destruct stream as [|c rest]; [cbn in Ls; lia|]. cbn [read_loop].
    replace (size - j) with 1 in Nn by lia. cbn in Nn.
    destruct (Z.eqb_spec c newline); [tauto|]. unfold bind, store. rewrite Mp.
    assert (E : Nat.ltb j (List.length b) = true) by (apply Nat.ltb_lt; lia). rewrite E.
    assert (E2 : Nat.eqb (S j) size = true) by (apply Nat.eqb_eq; lia). rewrite E2.
    unfold realloc. cbn [mem orc cnt]. rewrite upd_same, O.
    exact (read_loop_null rest _ _ _ k K).
  - destruct stream as [|c rest]; [cbn in Ls; lia|]. cbn [read_loop].
    replace (size - j) with (S (size - S j)) in Nn, Ls by lia. cbn [firstn In List.length] in Nn, Ls.
    destruct (Z.eqb_spec c newline); [tauto|]. unfold bind, store. rewrite Mp.
    assert (E : Nat.ltb j (List.length b) = true) by (apply Nat.ltb_lt; lia). rewrite E.
    assert (E2 : Nat.eqb (S j) size = false) by (apply Nat.eqb_neq; lia). rewrite E2.
    refine (IH rest (S j) _ (set_nth b j (Vint c)) _ _ _ _ _ _).
    + lia.
    + cbn [mem]. apply upd_same.
    + rewrite length_set_nth. exact Lb.
    + exact O.
    + lia.
    + tauto.
Qed.

Lemma read_input_line_grow_fails stream err s :
  128 <= List.length stream -> ~ In newline (firstn 128 stream) ->
  orc s (cnt s) = true -> orc s (S (cnt s)) = false ->
  read_input_line (Some stream) err s = UB.
Proof.
  intros L Nn O1 O2. unfold read_input_line, malloc, alloc. unfold bind at 1. rewrite O1.
  eapply (read_loop_grow_fails (nxt s) 128) with (n := 127) (b := repeat Vundef 128).
  - intros j rest s'. reflexivity.
  - reflexivity.
  - cbn [mem]. apply upd_same.
  - apply repeat_length.
  - exact O2.
  - exact L.
  - exact Nn.
Qed.

End Proofs.
