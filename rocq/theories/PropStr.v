(** * Property theorems: copies of strings (C146) *)
From Coq Require Import ZArith List Bool Lia.
From Verif Require Import Mem SpecHeap SpecStr StrModel.
Import ListNotations.
Local Notation ret := Mem.ret.
Local Notation bind := Mem.bind.

Section Any.
Context {T : Type}.
Implicit Types (s : st T).

Lemma set_nth_app {A} (a : list A) x b v : set_nth (a ++ x :: b) (List.length a) v = a ++ v :: b.
Proof. induction a as [|h a IH]; cbn; [reflexivity|]. rewrite IH. reflexivity. Qed.
Lemma nth_error_app_mid {A} (a : list A) x b : nth_error (a ++ x :: b) (List.length a) = Some x.
Proof. induction a as [|h a IH]; cbn; [reflexivity|exact IH]. Qed.
Lemma app_mid_len {A} (a : list A) x b : Nat.ltb (List.length a) (List.length (a ++ x :: b)) = true.
Proof. apply Nat.ltb_lt. rewrite app_length. cbn. lia. Qed.

(** Block [d] becomes [b], nothing else changes. *)
Definition only (d : loc) (b : list (val T)) s s' : Prop :=
  mem s' d = Some b /\ (forall x, x <> d -> mem s' x = mem s x) /\ nxt s' = nxt s /\ orc s' = orc s /\ cnt s' = cnt s.

Lemma only_trans d b b' s s1 s2 : only d b s s1 -> only d b' s1 s2 -> only d b' s s2.
Proof.
  intros (A1 & A2 & A3 & A4 & A5) (B1 & B2 & B3 & B4 & B5). split; [exact B1|]. split; [|split; [|split]]; try congruence.
  intros x Hx. rewrite B2 by exact Hx. apply A2. exact Hx.
Qed.

Lemma store_only d pre x post v s : mem s d = Some (pre ++ x :: post) ->
  exists s', store (Some d) (List.length pre) v s = Ok (tt, s') /\ only d (pre ++ v :: post) s s'.
Proof.
  intros H. unfold store. rewrite H, app_mid_len, set_nth_app. eexists. split; [reflexivity|].
  split; [|split; [|split; [|split]]]; cbn [mem nxt orc cnt]; try reflexivity; unfold upd.
  - rewrite Nat.eqb_refl. reflexivity.
  - intros y Hy. rewrite (proj2 (Nat.eqb_neq y d)) by exact Hy. reflexivity.
Qed.

Lemma read_int l pre z rest s : mem s l = Some (pre ++ Vint z :: rest) -> load_int (Some l) (List.length pre) s = Ok (z, s).
Proof. intros H. unfold load_int, bind, load. rewrite H, nth_error_app_mid. reflexivity. Qed.

Lemma read_at l i pre z rest s : mem s l = Some (pre ++ Vint z :: rest) -> i = List.length pre -> load_int (Some l) i s = Ok (z, s).
Proof. intros H ->. apply (read_int l pre z rest s H). Qed.

Lemma scan_ok l rest : forall w pre fuel s, mem s l = Some (pre ++ map Vint w ++ Vint 0 :: rest) -> Forall (fun z => z <> 0%Z) w ->
  List.length w < fuel -> scan fuel (List.length pre) (Some l) s = Ok (List.length pre + List.length w, s).
Proof.
  induction w as [|z w IH]; intros pre fuel s Hm Hz Hf; (destruct fuel as [|fuel]; [cbn in Hf; lia|]); cbn [scan].
  - unfold bind at 1. rewrite (read_int l pre 0%Z rest s Hm). cbn. unfold ret. rewrite Nat.add_0_r. reflexivity.
  - apply Forall_cons_iff in Hz. destruct Hz as [Hz0 Hz]. unfold bind at 1. rewrite (read_int l pre z _ s Hm).
    rewrite (proj2 (Z.eqb_neq z 0)) by exact Hz0. specialize (IH (pre ++ [Vint z]) fuel s). rewrite <- app_assoc in IH.
    specialize (IH Hm Hz). rewrite app_length in IH. cbn in IH, Hf |- *. rewrite Nat.add_1_r in IH. rewrite IH by lia. f_equal. f_equal. lia.
Qed.

Lemma strlen_ok l w s : c_string s l w -> c_strlen (Some l) s = Ok (List.length w, s).
Proof.
  intros [Hz [rest Hm]]. unfold c_strlen, bind, block_size. rewrite Hm. apply (scan_ok l rest w [] _ s Hm Hz).
  rewrite app_length, map_length. cbn. lia.
Qed.

Lemma scan_most_ok l rest : forall w pre n s, mem s l = Some (pre ++ map Vint w ++ rest) -> Forall (fun z => z <> 0%Z) w ->
  (List.length w = n \/ List.length w < n /\ exists r, rest = Vint 0 :: r) ->
  scan_at_most n (List.length pre) (Some l) s = Ok (List.length pre + List.length w, s).
Proof.
  induction w as [|z w IH]; intros pre n s Hm Hz Hn.
  - destruct n as [|n]; cbn [scan_at_most].
    + unfold ret. cbn. rewrite Nat.add_0_r. reflexivity.
    + destruct Hn as [Hn|[_ [r ->]]]; [discriminate|]. unfold bind at 1. rewrite (read_int l pre 0%Z r s Hm). cbn. unfold ret. rewrite Nat.add_0_r. reflexivity.
  - destruct n as [|n]; [cbn in Hn; destruct Hn as [Hn|[Hn _]]; lia|]. cbn [scan_at_most].
    apply Forall_cons_iff in Hz. destruct Hz as [Hz0 Hz]. unfold bind at 1. rewrite (read_int l pre z _ s Hm).
    rewrite (proj2 (Z.eqb_neq z 0)) by exact Hz0. specialize (IH (pre ++ [Vint z]) n s). rewrite <- app_assoc in IH.
    specialize (IH Hm Hz). rewrite app_length in IH. cbn in IH, Hn |- *. rewrite Nat.add_1_r in IH. rewrite IH; [f_equal; f_equal; lia|].
    destruct Hn as [Hn|[Hn Hr]]; [left; lia|right; split; [lia|exact Hr]].
Qed.

Lemma copy_ok l d rest post : l <> d -> forall w pre spre mid fuel s,
  List.length pre = List.length spre -> List.length mid = S (List.length w) ->
  mem s l = Some (spre ++ map Vint w ++ Vint 0 :: rest) -> mem s d = Some (pre ++ mid ++ post) ->
  Forall (fun z => z <> 0%Z) w -> List.length w < fuel ->
  exists s', copy_bytes fuel (List.length pre) (Some d) (Some l) s = Ok (tt, s') /\ only d (pre ++ map Vint w ++ Vint 0 :: post) s s'.
Proof.
  intros Hld. induction w as [|z w IH]; intros pre spre mid fuel s HL HM Hs Hd Hz Hf; (destruct fuel as [|fuel]; [cbn in Hf; lia|]); cbn [copy_bytes].
  - destruct mid as [|x [|]]; try discriminate. unfold bind at 1. rewrite (read_at l _ spre 0%Z rest s Hs HL).
    destruct (store_only d pre x post (Vint 0) s Hd) as (s1 & E1 & O1). unfold bind at 1. rewrite E1. cbn. exists s1. split; [reflexivity|exact O1].
  - destruct mid as [|x mid]; [discriminate|]. apply Forall_cons_iff in Hz. destruct Hz as [Hz0 Hz]. unfold bind at 1. rewrite (read_at l _ spre z _ s Hs HL).
    destruct (store_only d pre x (mid ++ post) (Vint z) s Hd) as (s1 & E1 & O1). unfold bind at 1. rewrite E1. rewrite (proj2 (Z.eqb_neq z 0)) by exact Hz0.
    destruct O1 as (O1a & O1b & O1c). destruct (IH (pre ++ [Vint z]) (spre ++ [Vint z]) mid fuel s1) as (s2 & E2 & O2).
    + rewrite !app_length. cbn. lia.
    + cbn in HM. lia.
    + rewrite O1b by exact Hld. rewrite <- app_assoc. exact Hs.
    + rewrite <- app_assoc. exact O1a.
    + exact Hz.
    + cbn in Hf. lia.
    + rewrite app_length in E2. cbn in E2. rewrite Nat.add_1_r in E2. exists s2. split; [exact E2|].
      rewrite <- app_assoc in O2. cbn in O2 |- *. eapply only_trans; [|exact O2]. split; [exact O1a|]. split; [exact O1b|]. exact O1c.
Qed.

Lemma pad_ok d post : forall mid pre s, mem s d = Some (pre ++ mid ++ post) ->
  exists s', for_n (List.length mid) (List.length pre) (fun j => store (Some d) j (Vint 0)) s = Ok (tt, s') /\
    only d (pre ++ repeat (Vint 0) (List.length mid) ++ post) s s'.
Proof.
  induction mid as [|x mid IH]; intros pre s Hd; cbn [List.length for_n].
  - exists s. split; [reflexivity|]. cbn in *. split; [exact Hd|]. split; [reflexivity|]. split; [reflexivity|]. split; reflexivity.
  - destruct (store_only d pre x (mid ++ post) (Vint 0) s Hd) as (s1 & E1 & O1). unfold bind at 1. rewrite E1.
    destruct (IH (pre ++ [Vint 0]) s1) as (s2 & E2 & O2); [rewrite <- app_assoc; apply O1|].
    rewrite app_length in E2. cbn in E2. rewrite Nat.add_1_r in E2. exists s2. split; [exact E2|]. rewrite <- app_assoc in O2. cbn in O2 |- *.
    eapply only_trans; [exact O1|exact O2].
Qed.

Lemma ncopy_ok l d rest post : l <> d -> forall w pre spre mid s,
  List.length pre = List.length spre ->
  mem s l = Some (spre ++ map Vint w ++ rest) -> mem s d = Some (pre ++ mid ++ post) ->
  Forall (fun z => z <> 0%Z) w ->
  (List.length w = List.length mid \/ List.length w < List.length mid /\ exists r, rest = Vint 0 :: r) ->
  exists s', c_strncpy (List.length mid) (List.length pre) (Some d) (Some l) s = Ok (tt, s') /\
    only d (pre ++ map Vint w ++ repeat (Vint 0) (List.length mid - List.length w) ++ post) s s'.
Proof.
  intros Hld. induction w as [|z w IH]; intros pre spre mid s HL Hs Hd Hz Hn.
  - destruct mid as [|x mid]; cbn [List.length c_strncpy].
    + exists s. split; [reflexivity|]. cbn in *. split; [exact Hd|]. split; [reflexivity|]. split; [reflexivity|]. split; reflexivity.
    + destruct Hn as [Hn|[_ [r ->]]]; [discriminate|]. unfold bind at 1. rewrite (read_at l _ spre 0%Z r s Hs HL).
      destruct (store_only d pre x (mid ++ post) (Vint 0) s Hd) as (s1 & E1 & O1). unfold bind at 1. rewrite E1. cbn [Z.eqb].
      destruct (pad_ok d post mid (pre ++ [Vint 0]) s1) as (s2 & E2 & O2); [rewrite <- app_assoc; apply O1|].
      rewrite app_length in E2. cbn in E2. rewrite Nat.add_1_r in E2. exists s2. split; [exact E2|]. rewrite <- app_assoc in O2. cbn in O2 |- *.
      eapply only_trans; [exact O1|exact O2].
  - destruct mid as [|x mid]; [cbn in Hn; destruct Hn as [Hn|[Hn _]]; lia|]. cbn [List.length c_strncpy].
    apply Forall_cons_iff in Hz. destruct Hz as [Hz0 Hz]. unfold bind at 1. rewrite (read_at l _ spre z _ s Hs HL).
    destruct (store_only d pre x (mid ++ post) (Vint z) s Hd) as (s1 & E1 & O1). unfold bind at 1. rewrite E1. rewrite (proj2 (Z.eqb_neq z 0)) by exact Hz0.
    destruct (IH (pre ++ [Vint z]) (spre ++ [Vint z]) mid s1) as (s2 & E2 & O2).
    + rewrite !app_length. cbn. lia.
    + rewrite (proj1 (proj2 O1)) by exact Hld. rewrite <- app_assoc. exact Hs.
    + rewrite <- app_assoc. apply O1.
    + exact Hz.
    + cbn in Hn. destruct Hn as [Hn|[Hn Hr]]; [left; lia|right; split; [lia|exact Hr]].
    + rewrite app_length in E2. cbn in E2. rewrite Nat.add_1_r in E2. exists s2. split; [exact E2|]. rewrite <- app_assoc in O2. cbn in O2 |- *.
      eapply only_trans; [exact O1|exact O2].
Qed.

Lemma malloc_cases n s : wf s ->
  (orc s (cnt s) = false /\ exists s', @malloc T n s = Ok (NULL, s') /\ same_memory s s') \/
  (orc s (cnt s) = true /\ mem s (nxt s) = None /\ exists s', malloc n s = Ok (Some (nxt s), s') /\ mem s' (nxt s) = Some (repeat Vundef n) /\
     forall x, x <> nxt s -> mem s' x = mem s x).
Proof.
  intros W. unfold malloc, alloc. destruct (orc s (cnt s)) eqn:E.
  - right. split; [reflexivity|]. split; [apply W; lia|]. eexists. split; [reflexivity|]. cbn [mem]. unfold upd. rewrite Nat.eqb_refl. split; [reflexivity|].
    intros x Hx. rewrite (proj2 (Nat.eqb_neq x _)) by exact Hx. reflexivity.
  - left. split; [reflexivity|]. eexists. split; [reflexivity|]. intros x. reflexivity.
Qed.

Lemma size_small n : (Z.of_nat n + 1 < 2 ^ 64)%Z -> Z.to_nat (size_t (Z.of_nat n + 1)) = S n.
Proof. intros H. unfold size_t. rewrite Z.mod_small by lia. lia. Qed.

Lemma memcpy_ok d l n bd br s : mem s d = Some bd -> mem s l = Some br -> n <= List.length bd -> n <= List.length br ->
  exists s', memcpy (Some d) (Some l) n s = Ok (tt, s') /\ only d (firstn n br ++ skipn n bd) s s'.
Proof.
  intros Hd Hl H1 H2. unfold memcpy. rewrite Hd, Hl, (proj2 (Nat.leb_le _ _) H1), (proj2 (Nat.leb_le _ _) H2). cbn [andb]. eexists. split; [reflexivity|].
  split; [|split; [|split; [|split]]]; cbn [mem nxt orc cnt]; try reflexivity; unfold upd.
  - rewrite Nat.eqb_refl. reflexivity.
  - intros y Hy. rewrite (proj2 (Nat.eqb_neq y d)) by exact Hy. reflexivity.
Qed.

(** C146: polycap_strdup returns a new block that holds the same string and no byte more,
    or NULL if there is no memory, however it was compiled. *)
Theorem C146_copy :
  forall own l w s, wf s -> c_string s l w -> (Z.of_nat (List.length w) + 1 < 2 ^ 64)%Z ->
    wp (polycap_strdup own (Some l)) (fun r s' => copied w r s s' /\ no_longer_than w r s') s.
Proof.
  intros own l w s W H HS. pose proof H as [Hz [rest Hm]]. unfold wp, polycap_strdup. unfold bind at 1. rewrite (strlen_ok l w s H). unfold bind at 1. rewrite size_small by exact HS.
  destruct (malloc_cases (S (List.length w)) s W) as [(E & s1 & E1 & M1)|(E & Hn & s1 & E1 & M1 & K1)]; rewrite E1.
  - unfold ret. split; [left; auto|]. intros d Hd. discriminate.
  - assert (Hl : l <> nxt s) by (intros ->; congruence).
    assert (C : exists s2, (if own then c_strcpy (Some (nxt s)) (Some l) else memcpy (Some (nxt s)) (Some l) (S (List.length w))) s1 = Ok (tt, s2) /\ only (nxt s) (map Vint w ++ [Vint 0]) s1 s2).
    { destruct own.
      - unfold c_strcpy, bind, block_size. rewrite K1 by exact Hl. rewrite Hm.
        destruct (copy_ok l (nxt s) rest [] Hl w [] [] (repeat Vundef (S (List.length w))) (List.length (map (@Vint T) w ++ Vint 0 :: rest)) s1) as (s2 & E2 & O2).
        + reflexivity.
        + apply repeat_length.
        + rewrite K1 by exact Hl. exact Hm.
        + cbn [app]. rewrite app_nil_r. exact M1.
        + exact Hz.
        + rewrite app_length, map_length. cbn. lia.
        + exists s2. split; [exact E2|exact O2].
      - destruct (memcpy_ok (nxt s) l (S (List.length w)) _ _ s1 M1 (eq_trans (K1 l Hl) Hm)) as (s2 & E2 & O2).
        + rewrite repeat_length. lia.
        + rewrite app_length, map_length. cbn. lia.
        + exists s2. split; [exact E2|]. rewrite (skipn_all2 (repeat Vundef _)) in O2 by (rewrite repeat_length; lia). rewrite app_nil_r in O2.
          replace (firstn (S (List.length w)) (map Vint w ++ Vint 0 :: rest)) with (map (@Vint T) w ++ [Vint 0]) in O2; [exact O2|].
          rewrite <- (map_length (@Vint T) w). change (Vint 0 :: rest) with ([@Vint T 0] ++ rest). rewrite app_assoc.
          rewrite firstn_app, firstn_all2 by (rewrite app_length; cbn; lia). rewrite app_length. cbn [List.length]. replace (S _ - _) with 0 by lia. cbn. rewrite app_nil_r. reflexivity. }
    destruct C as (s2 & E2 & O2a & O2b & _). unfold bind at 1. rewrite E2. unfold ret. split.
    + right. exists (nxt s). split; [reflexivity|]. split; [exact E|]. split; [exact Hn|]. split; [split; [exact Hz|exists []; exact O2a]|].
      intros x Hx. cbn in Hx. rewrite O2b by (intros ->; tauto). apply K1. intros ->; tauto.
    + intros d [= <-]. exact O2a.
Qed.

(** Compiled as a call of the C library, polycap_strndup returns a new block that holds the
    first bytes of the string, at most [n], and not a byte more, for every [n]; it reads
    nothing behind the end of the string, and nothing behind the first [n] bytes. *)
Theorem C146_bounded_copy_library :
  forall l n w s, wf s -> c_string_upto s l n w -> (0 <= n < 2 ^ 64)%Z -> (Z.of_nat (List.length w) + 1 < 2 ^ 64)%Z ->
    wp (polycap_strndup false (Some l) n) (fun r s' => copied w r s s' /\ no_longer_than w r s') s.
Proof.
  intros l n w s W (Hz & rest & Hm & Hw) Hn HS. unfold wp, polycap_strndup.
  assert (Hw' : List.length w = Z.to_nat n \/ List.length w < Z.to_nat n /\ exists r, rest = Vint 0 :: r) by (destruct Hw as [Hw|[Hw Hr]]; [left; lia|right; split; [lia|exact Hr]]).
  pose proof (scan_most_ok l rest w [] (Z.to_nat n) s Hm Hz Hw') as ESC. cbn [List.length Nat.add] in ESC. unfold bind at 1. rewrite ESC. unfold bind at 1. rewrite size_small by exact HS.
    destruct (malloc_cases (S (List.length w)) s W) as [(E & s1 & E1 & M1)|(E & Hn1 & s1 & E1 & M1 & K1)]; rewrite E1.
    + unfold ret. split; [left; auto|]. intros d Hd. discriminate.
    + assert (Hl : l <> nxt s) by (intros ->; congruence).
      destruct (memcpy_ok (nxt s) l (List.length w) _ _ s1 M1 (eq_trans (K1 l Hl) Hm)) as (s2 & E2 & O2a & O2b & _).
      * rewrite repeat_length. lia.
      * rewrite app_length, map_length. lia.
      * unfold bind at 1. rewrite E2.
        assert (EB : firstn (List.length w) (map Vint w ++ rest) ++ skipn (List.length w) (repeat Vundef (S (List.length w))) = map (@Vint T) w ++ [Vundef]).
        { f_equal.
          - rewrite <- (map_length (@Vint T) w), firstn_app, firstn_all, Nat.sub_diag. cbn. apply app_nil_r.
          - rewrite <- Nat.add_1_r, repeat_app, skipn_app, repeat_length, Nat.sub_diag, skipn_all2 by (rewrite repeat_length; lia). reflexivity. }
        rewrite EB in O2a. destruct (store_only (nxt s) _ _ _ (Vint 0) s2 O2a) as (s3 & E3 & O3a & O3b & _). rewrite map_length in E3. unfold bind at 1. rewrite E3. unfold ret.
        split; [|intros d [= <-]; exact O3a]. right. exists (nxt s). split; [reflexivity|]. split; [exact E|]. split; [exact Hn1|]. split; [split; [exact Hz|exists []; exact O3a]|].
        intros x Hx. cbn in Hx. rewrite O3b, O2b, K1 by (intros ->; tauto). reflexivity.
Qed.

(** With the loops of polycap-aux.c it does so too (the block may be longer).  This is proved for all [n] but the largest
    value of size_t; *)
Theorem C146_bounded_copy_partial :
  forall own l n w s, wf s -> c_string_upto s l n w -> (0 <= n < 2 ^ 64 - 1)%Z ->
    wp (polycap_strndup own (Some l) n) (fun r s' => copied w r s s') s.
Proof.
  intros own l n w s W (Hz & rest & Hm & Hw) Hn. unfold wp, polycap_strndup.
  assert (Hw' : List.length w = Z.to_nat n \/ List.length w < Z.to_nat n /\ exists r, rest = Vint 0 :: r) by (destruct Hw as [Hw|[Hw Hr]]; [left; lia|right; split; [lia|exact Hr]]).
  destruct own.
  - assert (ES : Z.to_nat (size_t (n + 1)) = S (Z.to_nat n)) by (unfold size_t; rewrite Z.mod_small by lia; lia). unfold bind at 1. rewrite ES.
    destruct (malloc_cases (S (Z.to_nat n)) s W) as [(E & s1 & E1 & M1)|(E & Hn1 & s1 & E1 & M1 & K1)]; rewrite E1.
    + left; auto.
    + assert (Hl : l <> nxt s) by (intros ->; congruence).
      destruct (ncopy_ok l (nxt s) rest [Vundef] Hl w [] [] (repeat Vundef (Z.to_nat n)) s1) as (s2 & E2 & O2).
      * reflexivity.
      * rewrite K1 by exact Hl. exact Hm.
      * cbn [app]. rewrite M1. f_equal. rewrite <- Nat.add_1_r, repeat_app. reflexivity.
      * exact Hz.
      * rewrite repeat_length. exact Hw'.
      * rewrite repeat_length in E2, O2. cbn [List.length app] in E2, O2. unfold bind at 1. rewrite E2. destruct O2 as (O2a & O2b & _).
        rewrite app_assoc in O2a. destruct (store_only (nxt s) _ _ _ (Vint 0) s2 O2a) as (s3 & E3 & O3a & O3b & _).
        rewrite app_length, map_length, repeat_length in E3. replace (List.length w + (Z.to_nat n - List.length w)) with (Z.to_nat n) in E3 by (destruct Hw' as [?|[? _]]; lia).
        unfold bind at 1. rewrite E3. unfold ret. right. exists (nxt s). split; [reflexivity|]. split; [exact E|]. split; [exact Hn1|]. split.
        { split; [exact Hz|]. rewrite <- app_assoc in O3a. destruct (Z.to_nat n - List.length w) as [|k]; [exists []|exists (repeat (Vint 0) k ++ [Vint 0])]; exact O3a. }
        intros x Hx. cbn in Hx. rewrite O3b, O2b, K1 by (intros ->; tauto). reflexivity.
  - assert (HS : (Z.of_nat (List.length w) + 1 < 2 ^ 64)%Z) by (destruct Hw as [?|[? _]]; lia).
    pose proof (C146_bounded_copy_library l n w s W (conj Hz (ex_intro _ rest (conj Hm Hw))) ltac:(lia) HS) as G.
    unfold wp, polycap_strndup in G. destruct (bind _ _ s) as [[r s']|]; [exact (proj1 G)|exact G].
Qed.

(** with the largest, whatever the string, they ask for 0 bytes and write outside of what
    they get: undefined behaviour. *)
Theorem C146_huge_limit_refuted :
  forall l w s, wf s -> c_string s l w -> orc s (cnt s) = true ->
    polycap_strndup true (Some l) (2 ^ 64 - 1) s = UB.
Proof.
  intros l w s W [_ [rest Hm]] Ho. unfold polycap_strndup. unfold bind at 1. replace (2 ^ 64 - 1 + 1)%Z with (2 ^ 64)%Z by ring.
  unfold size_t. rewrite Z.mod_same by discriminate. change (Z.to_nat 0) with 0.
  destruct (malloc_cases 0 s W) as [(E & _)|(E & Hn1 & s1 & E1 & M1 & K1)]; [congruence|]. rewrite E1.
  assert (Hl : l <> nxt s) by (intros ->; congruence).
  assert (EN : exists k, Z.to_nat (2 ^ 64 - 1) = S k).
  { exists (Z.to_nat (2 ^ 64 - 2)). rewrite <- Z2Nat.inj_succ by discriminate. reflexivity. }
  destruct EN as [k ->]. cbn [c_strncpy]. unfold bind at 1. unfold bind at 1. unfold load_int, bind at 1, load. rewrite K1 by exact Hl. rewrite Hm.
  destruct w as [|z w]; cbn [map app nth_error]; unfold ret, bind at 1, store; rewrite M1; reflexivity.
Qed.

(** Freeing the copy gives back all the memory it took. *)
Theorem C146_released :
  forall w r s s', copied w r s s' -> wp (free r) (fun _ s'' => same_memory s s'') s'.
Proof.
  intros w r s s' [(-> & _ & H)|(d & -> & _ & Hn & [_ [rest Hd]] & H)].
  - exact H.
  - unfold wp, free. rewrite Hd. intros x. cbn [mem]. unfold upd. destruct (Nat.eqb_spec x d) as [->|Hx]; [symmetry; exact Hn|].
    apply H. cbn. intros [<-|[]]. apply Hx. reflexivity.
Qed.
End Any.

(** The hypotheses are met: the string "abc" in a block of six bytes, and three bytes
    without an end. *)
Definition abc_state : st Z :=
  mkSt (fun l => match l with 0 => Some [Vint 97; Vint 98; Vint 99; Vint 0; Vint 7; Vundef] | 1 => Some [Vint 97; Vint 98; Vint 99] | _ => None end) 2 (fun _ => true) 0.
Example C146_met :
  wf abc_state /\ c_string abc_state 0 [97; 98; 99]%Z /\ c_string_upto abc_state 1 3 [97; 98; 99]%Z /\ c_string_upto abc_state 0 5 [97; 98; 99]%Z /\
  wp (polycap_strndup true (Some 0) 2) (fun r s' => r = Some 2 /\ mem s' 2 = Some [Vint 97; Vint 98; Vint 0]) abc_state /\
  wp (polycap_strndup true (Some 0) 5) (fun r s' => r = Some 2 /\ mem s' 2 = Some [Vint 97; Vint 98; Vint 99; Vint 0; Vint 0; Vint 0]) abc_state /\
  wp (polycap_strdup false (Some 0)) (fun r s' => r = Some 2 /\ mem s' 2 = Some [Vint 97; Vint 98; Vint 99; Vint 0]) abc_state.
Proof.
  split; [intros l H; cbn in *; destruct l as [|[|l]]; [lia|lia|reflexivity]|].
  assert (F : Forall (fun z => z <> 0%Z) [97; 98; 99]%Z) by (repeat constructor; discriminate).
  split; [split; [exact F|exists [Vint 7; Vundef]; reflexivity]|].
  split; [split; [exact F|exists []; split; [reflexivity|left; reflexivity]]|].
  split; [split; [exact F|exists [Vint 0; Vint 7; Vundef]; split; [reflexivity|right; split; [reflexivity|exists [Vint 7; Vundef]; reflexivity]]]|].
  split; [|split]; vm_compute; split; reflexivity.
Qed.
