(** * Proofs about polycap_profile_new_from_file *)
From Coq Require Import ZArith List Bool Lia String.
From Verif Require Import Num Mem SpecHeap ErrorModel ErrorProofs ProfileModel ProfileProofs FromFile SpecFiles ProfFile.
Import ListNotations.

Section Proofs.
Context {T : Type}.
Local Notation token := (token T).
Implicit Types s : st T.

(** ** Arrays described by a function *)
Definition arr (n : nat) (g : nat -> val T) : @block T := List.map g (seq 0 n).
Definition over (f : nat -> option T) (g : nat -> val T) (k : nat) : val T :=
  match f k with Some v => Vdbl v | None => g k end.
(** Rows below [i] written. *)
Definition part (i : nat) (f : nat -> option T) (g : nat -> val T) (k : nat) : val T :=
  if Nat.ltb k i then over f g k else g k.

Lemma arr_length n g : List.length (arr n g) = n.
Proof. unfold arr. now rewrite map_length, seq_length. Qed.
Lemma arr_nth n g i : i < n -> nth_error (arr n g) i = Some (g i).
Proof.
  intros H. unfold arr. rewrite nth_error_map.
  rewrite (nth_error_nth' _ 0) by (rewrite seq_length; lia). rewrite seq_nth by lia. reflexivity.
Qed.
Lemma arr_ext n g h : (forall i, i < n -> g i = h i) -> arr n g = arr n h.
Proof. intros H. unfold arr. apply map_ext_in. intros i Hi. apply in_seq in Hi. apply H. lia. Qed.
Lemma arr_undef n : repeat Vundef n = arr n (fun _ => Vundef).
Proof.
  unfold arr. generalize 0. induction n as [|n IH]; intros i; cbn; [reflexivity|]. now rewrite (IH (S i)).
Qed.
Lemma set_nth_map (g : nat -> val T) v : forall n a i, set_nth (List.map g (seq a n)) i v = List.map (fun k => if Nat.eqb k (a + i) then v else g k) (seq a n).
Proof.
  induction n as [|n IH]; intros a i; cbn; [destruct i; reflexivity|]. destruct i as [|i]; cbn.
  - rewrite Nat.add_0_r, Nat.eqb_refl. f_equal. apply map_ext_in. intros k Hk. apply in_seq in Hk.
    destruct (Nat.eqb_spec k a); [lia|reflexivity].
  - destruct (Nat.eqb_spec a (a + S i)); [lia|]. f_equal. rewrite IH.
    apply map_ext. intros k. now replace (S a + i) with (a + S i) by lia.
Qed.
Lemma arr_set n g i v : set_nth (arr n g) i v = arr n (fun k => if Nat.eqb k i then v else g k).
Proof. unfold arr. rewrite set_nth_map. reflexivity. Qed.

Lemma part_step n i f g v : f i = Some v -> set_nth (arr n (part i f g)) i (Vdbl v) = arr n (part (S i) f g).
Proof.
  intros E. rewrite arr_set. apply arr_ext. intros k _. unfold part, over.
  destruct (Nat.eqb_spec k i) as [->|Hne].
  - destruct (Nat.ltb_spec i (S i)); [|lia]. now rewrite E.
  - destruct (Nat.ltb_spec k i), (Nat.ltb_spec k (S i)); try lia; reflexivity.
Qed.
Lemma part_skip n i f g : f i = None -> arr n (part i f g) = arr n (part (S i) f g).
Proof.
  intros E. apply arr_ext. intros k _. unfold part, over.
  destruct (Nat.ltb_spec k i), (Nat.ltb_spec k (S i)); try lia; try reflexivity.
  assert (k = i) by lia. subst. now rewrite E.
Qed.
Lemma part_all n f g : arr n (part n f g) = arr n (over f g).
Proof. apply arr_ext. intros k Hk. unfold part. destruct (Nat.ltb_spec k n); [reflexivity|lia]. Qed.
Lemma part_0 n f g : arr n (part 0 f g) = arr n g.
Proof. apply arr_ext. intros k Hk. reflexivity. Qed.

(** ** Reading rows *)
Lemma numbers_nil_nth (ts : list token) (nums : list T) i w : (forall r, nth_error (numbers ts) r = nth_error nums (i * w + r)) ->
  numbers ts = [] -> forall r, nth_error nums (i * w + r) = None.
Proof. intros H E r. rewrite <- H, E. destruct r; reflexivity. Qed.

Lemma rows2_loop n z c (nums : list T) g h (Q : list token -> st T -> Prop) : z <> c -> forall k i ts s,
  i + k = n ->
  mem s z = Some (arr n (part i (fun i => nth_error nums (i * 2 + 0)) g)) ->
  mem s c = Some (arr n (part i (fun i => nth_error nums (i * 2 + 1)) h)) ->
  (forall r, nth_error (numbers ts) r = nth_error nums (i * 2 + r)) ->
  (forall ts' s', nxt s' = nxt s -> orc s' = orc s -> cnt s' = cnt s ->
     mem s' z = Some (arr n (over (fun i => nth_error nums (i * 2 + 0)) g)) ->
     mem s' c = Some (arr n (over (fun i => nth_error nums (i * 2 + 1)) h)) ->
     same_memory_except [z; c] s s' -> Q ts' s') ->
  wp (scan_rows k i (row2 (Some z) (Some c)) ts) Q s.
Proof.
  intros D. induction k as [|k IH]; intros i ts s Hk Hz Hc Hn HQ.
  - cbn. assert (i = n) by lia. subst i. rewrite part_all in Hz, Hc. apply HQ; auto. intros l _. reflexivity.
  - cbn [scan_rows]. apply wp_bind. unfold row2, fscan_cells.
    assert (N0 := Hn 0). assert (N1 := Hn 1).
    assert (Step : forall ts' s', nxt s' = nxt s -> orc s' = orc s -> cnt s' = cnt s ->
       mem s' z = Some (arr n (part (S i) (fun i => nth_error nums (i * 2 + 0)) g)) ->
       mem s' c = Some (arr n (part (S i) (fun i => nth_error nums (i * 2 + 1)) h)) ->
       same_memory_except [z; c] s s' -> (forall r, nth_error (numbers ts') r = nth_error nums (S i * 2 + r)) ->
       wp (scan_rows k (S i) (row2 (Some z) (Some c)) ts') Q s').
    { intros ts' s' n1 o1 c1 z1 c2 x1 N. apply IH; auto; [lia|]. intros ts2 s2 n2 o2 cn2 Z2 C2 X2.
      apply HQ; try congruence. intros l Hl. rewrite X2, x1; auto. }
    destruct ts as [|t ts].
    { apply wp_ret. cbn [numbers] in *. apply Step; auto.
      - rewrite <- part_skip; [auto|]. rewrite <- N0. reflexivity.
      - rewrite <- part_skip; [auto|]. rewrite <- N1. reflexivity.
      - intros l _. reflexivity.
      - intros r. cbn [numbers]. replace (S i * 2 + r) with (i * 2 + (2 + r)) by lia. rewrite <- Hn. destruct r; reflexivity. }
    cbn [numbers] in *. destruct (as_dbl t) as [v|] eqn:Et.
    2:{ apply wp_ret. apply Step; auto.
      - rewrite <- part_skip; [auto|]. rewrite <- N0. reflexivity.
      - rewrite <- part_skip; [auto|]. rewrite <- N1. reflexivity.
      - intros l _. reflexivity.
      - intros r. cbn [numbers]. rewrite Et. replace (S i * 2 + r) with (i * 2 + (2 + r)) by lia. rewrite <- Hn. destruct r; reflexivity. }
    apply wp_bind. eapply wp_store; [exact Hz|rewrite arr_length; lia|].
    rewrite part_step by (rewrite <- N0; reflexivity).
    assert (Fst : forall ts', numbers ts' = [] -> numbers ts = [] ->
       wp (scan_rows k (S i) (row2 (Some z) (Some c)) ts') Q
          (mkSt (upd (mem s) z (Some (arr n (part (S i) (fun i0 => nth_error nums (i0 * 2 + 0)) g)))) (nxt s) (orc s) (cnt s))).
    { intros ts' E1 E2. apply Step; auto.
      - cbn [mem]. now rewrite upd_same.
      - cbn [mem]. rewrite upd_other by congruence. rewrite <- part_skip; [auto|]. rewrite <- N1. cbn. rewrite E2. reflexivity.
      - intros l Hl. cbn [mem]. rewrite upd_other; [reflexivity|]. intros ->. apply Hl. cbn. auto.
      - intros r. rewrite E1. replace (S i * 2 + r) with (i * 2 + (2 + r)) by lia. rewrite <- Hn. cbn. rewrite E2. destruct r; reflexivity. }
    destruct ts as [|t2 ts]; [apply wp_ret; apply Fst; reflexivity|].
    cbn [numbers] in *. destruct (as_dbl t2) as [v2|] eqn:Et2.
    2:{ apply wp_ret. apply Fst; cbn [numbers]; try rewrite Et2; reflexivity. }
    apply wp_bind. eapply wp_store with (b := arr n (part i (fun i => nth_error nums (i * 2 + 1)) h)).
    { cbn [mem]. rewrite upd_other by congruence. exact Hc. } { rewrite arr_length; lia. }
    rewrite part_step by (rewrite <- N1; reflexivity).
    apply wp_ret. apply Step; auto; cbn [mem].
    + rewrite upd_other by congruence. now rewrite upd_same.
    + now rewrite upd_same.
    + intros l Hl. cbn [mem]. rewrite !upd_other; [reflexivity| |]; intros ->; apply Hl; cbn; auto.
    + intros r. replace (S i * 2 + r) with (i * 2 + (2 + r)) by lia. rewrite <- Hn. reflexivity.
Qed.

Lemma rows3_loop n z (nums : list T) g (Q : list token -> st T -> Prop) : forall k i ts s,
  i + k = n ->
  mem s z = Some (arr n (part i (fun i => nth_error nums (i * 3 + 0)) g)) ->
  (forall r, nth_error (numbers ts) r = nth_error nums (i * 3 + r)) ->
  (forall ts' s', nxt s' = nxt s -> orc s' = orc s -> cnt s' = cnt s ->
     mem s' z = Some (arr n (over (fun i => nth_error nums (i * 3 + 0)) g)) ->
     same_memory_except [z] s s' -> Q ts' s') ->
  wp (scan_rows k i (row3 (Some z)) ts) Q s.
Proof.
  induction k as [|k IH]; intros i ts s Hk Hz Hn HQ.
  - cbn. assert (i = n) by lia. subst i. rewrite part_all in Hz. apply HQ; auto. intros l _. reflexivity.
  - cbn [scan_rows]. apply wp_bind. unfold row3, fscan_cells.
    assert (N0 := Hn 0).
    assert (Step : forall ts' s', nxt s' = nxt s -> orc s' = orc s -> cnt s' = cnt s ->
       mem s' z = Some (arr n (part (S i) (fun i => nth_error nums (i * 3 + 0)) g)) ->
       same_memory_except [z] s s' -> (forall r, nth_error (numbers ts') r = nth_error nums (S i * 3 + r)) ->
       wp (scan_rows k (S i) (row3 (Some z)) ts') Q s').
    { intros ts' s' n1 o1 c1 z1 x1 N. apply IH; auto; [lia|]. intros ts2 s2 n2 o2 cn2 Z2 X2.
      apply HQ; try congruence. intros l Hl. rewrite X2, x1; auto. }
    destruct ts as [|t ts].
    { apply wp_ret. cbn [numbers] in *. apply Step; auto.
      - rewrite <- part_skip; [auto|]. rewrite <- N0. reflexivity.
      - intros l _. reflexivity.
      - intros r. cbn [numbers]. replace (S i * 3 + r) with (i * 3 + (3 + r)) by lia. rewrite <- Hn. destruct r; reflexivity. }
    cbn [numbers] in *. destruct (as_dbl t) as [v|] eqn:Et.
    2:{ apply wp_ret. apply Step; auto.
      - rewrite <- part_skip; [auto|]. rewrite <- N0. reflexivity.
      - intros l _. reflexivity.
      - intros r. cbn [numbers]. rewrite Et. replace (S i * 3 + r) with (i * 3 + (3 + r)) by lia. rewrite <- Hn. destruct r; reflexivity. }
    apply wp_bind. eapply wp_store; [exact Hz|rewrite arr_length; lia|].
    rewrite part_step by (rewrite <- N0; reflexivity).
    assert (Fst : forall ts', (forall r, nth_error (numbers ts') r = nth_error (numbers ts) (2 + r)) ->
       wp (scan_rows k (S i) (row3 (Some z)) ts') Q
          (mkSt (upd (mem s) z (Some (arr n (part (S i) (fun i0 => nth_error nums (i0 * 3 + 0)) g)))) (nxt s) (orc s) (cnt s))).
    { intros ts' E1. apply Step; auto.
      - cbn [mem]. now rewrite upd_same.
      - intros l Hl. cbn [mem]. rewrite upd_other; [reflexivity|]. intros ->. apply Hl. cbn. auto.
      - intros r. rewrite E1. replace (S i * 3 + r) with (i * 3 + (3 + r)) by lia. rewrite <- Hn. reflexivity. }
    destruct ts as [|t2 ts]; [apply wp_ret; apply Fst; intros [|r]; reflexivity|].
    destruct (as_dbl t2) as [v2|] eqn:Et2.
    2:{ apply wp_ret; apply Fst. cbn [numbers]. rewrite Et2. intros [|r]; reflexivity. }
    apply wp_bind, wp_ret.
    destruct ts as [|t3 ts]; [apply wp_ret; apply Fst; cbn [numbers]; rewrite Et2; intros [|r]; reflexivity|].
    destruct (as_dbl t3) as [v3|] eqn:Et3.
    2:{ apply wp_ret; apply Fst. cbn [numbers]. rewrite Et2, Et3. intros [|r]; reflexivity. }
    apply wp_bind, wp_ret. apply wp_ret. apply Fst. intros r. cbn [numbers]. rewrite Et2, Et3. reflexivity.
Qed.

Lemma wp_rows2 n z c g h ts (Q : list token -> st T -> Prop) s : z <> c ->
  mem s z = Some (arr n g) -> mem s c = Some (arr n h) ->
  (forall ts' s', nxt s' = nxt s -> orc s' = orc s -> cnt s' = cnt s ->
     mem s' z = Some (arr n (over (entry 2 0 ts) g)) -> mem s' c = Some (arr n (over (entry 2 1 ts) h)) ->
     same_memory_except [z; c] s s' -> Q ts' s') ->
  wp (scan_rows n 0 (row2 (Some z) (Some c)) ts) Q s.
Proof.
  intros D Hz Hc HQ. apply rows2_loop with (n := n) (nums := numbers ts) (g := g) (h := h); auto.
Qed.
Lemma wp_rows3 n z g ts (Q : list token -> st T -> Prop) s :
  mem s z = Some (arr n g) ->
  (forall ts' s', nxt s' = nxt s -> orc s' = orc s -> cnt s' = cnt s ->
     mem s' z = Some (arr n (over (entry 3 0 ts) g)) ->
     same_memory_except [z] s s' -> Q ts' s') ->
  wp (scan_rows n 0 (row3 (Some z)) ts) Q s.
Proof.
  intros Hz HQ. apply rows3_loop with (n := n) (nums := numbers ts) (g := g); auto.
Qed.

Lemma scan_count_announced n o (ts : list token) : announces n ts -> scan_count o ts = (Some n, table ts).
Proof. intros (t & r & -> & E). unfold scan_count, scan1, table. rewrite E. reflexivity. Qed.
Lemma scan_count_absent n (ts : list token) : (forall m, ~ announces m ts) -> scan_count (Some n) ts = (Some n, table ts).
Proof.
  intros H. unfold scan_count, scan1, table. destruct ts as [|t r]; [reflexivity|].
  destruct (as_int t) as [m|] eqn:E; [|reflexivity]. exfalso. apply (H m). exists t, r. auto.
Qed.
Lemma announces_dec (ts : list token) : (exists m, announces m ts) \/ (forall m, ~ announces m ts).
Proof.
  destruct ts as [|t r]; [right; intros m (? & ? & E & _); discriminate|].
  destruct (as_int t) as [m|] eqn:E; [left; exists m, t, r; auto|right].
  intros m (? & ? & X & Y). injection X as <- <-. congruence.
Qed.
Lemma announces_fun m n (ts : list token) : announces m ts -> announces n ts -> m = n.
Proof. intros (t & r & -> & E) (t' & r' & X & E'). injection X as <- <-. congruence. Qed.
Lemma scan_count_agreed n (ts : list token) : ~ disagrees n ts -> scan_count (Some n) ts = (Some n, table ts).
Proof.
  intros H. destruct (announces_dec ts) as [[m Hm]|Hm].
  - destruct (Z.eq_dec m n) as [->|Hne]; [now apply scan_count_announced|]. exfalso. apply H. exists m. auto.
  - now apply scan_count_absent.
Qed.

(** ** Memory *)
Lemma file_alloc_ok n err (k : ptr -> ptr -> ptr -> ptr -> M T (ptr * nat)) (Q : ptr * nat -> st T -> Prop) s :
  wf s -> allocs_succeed 4 s ->
  (forall s' p z c e,
     p = nxt s -> z = S (nxt s) -> c = S (S (nxt s)) -> e = S (S (S (nxt s))) ->
     wf s' -> orc s' = orc s -> cnt s' = 4 + cnt s -> nxt s' = 4 + nxt s ->
     mem s' p = Some [Vint n; Vptr (Some z); Vptr (Some c); Vptr (Some e)] ->
     mem s' z = Some (repeat Vundef (Z.to_nat (n + 1))) ->
     mem s' c = Some (repeat Vundef (Z.to_nat (n + 1))) ->
     mem s' e = Some (repeat Vundef (Z.to_nat (n + 1))) ->
     same_memory_except [p; z; c; e] s s' ->
     wp (k (Some p) (Some z) (Some c) (Some e)) Q s') ->
  wp (file_alloc n err k) Q s.
Proof.
  intros Hwf Ho HQ. unfold file_alloc.
  pose proof (Ho 0 ltac:(lia)) as O0. pose proof (Ho 1 ltac:(lia)) as O1.
  pose proof (Ho 2 ltac:(lia)) as O2. pose proof (Ho 3 ltac:(lia)) as O3.
  replace (cnt s + 0) with (cnt s) in O0 by lia. replace (cnt s + 1) with (S (cnt s)) in O1 by lia.
  replace (cnt s + 2) with (S (S (cnt s))) in O2 by lia. replace (cnt s + 3) with (S (S (S (cnt s)))) in O3 by lia.
  repeat (wstep; try congruence).
  eapply HQ; try reflexivity; cbn [mem nxt orc cnt]; upd_simpl; auto.
  - intros l Hl. cbn [mem nxt] in *. upd_simpl. apply Hwf. lia.
  - intros l Hl. cbn [mem nxt] in *.
    rewrite !upd_other by (intro; subst; apply Hl; cbn; tauto). reflexivity.
Qed.

Lemma file_alloc_fail n err (k : ptr -> ptr -> ptr -> ptr -> M T (ptr * nat)) s :
  wf s -> legal_err s err -> ~ allocs_succeed 4 s ->
  (err <> None -> isolated_failures s) ->
  wp (file_alloc n err k)
     (fun p s' => p = (NULL, 1) /\ exists m, error_reported err POLYCAP_ERROR_MEMORY m s s') s.
Proof.
  intros Hwf Hle Ho Hiso.
  assert (HE : forall err', err = err' -> forall l, mem s l = None -> err' <> Some l).
  { intros err' <- l Hl ->. destruct Hle as [q Hq]. unfold slot_holds in Hq. congruence. }
  assert (Rep : forall L s1 m (cont : M T (ptr * nat)),
     wf s1 -> orc s1 = orc s -> (exists n, cnt s1 = S n /\ orc s n = false) ->
     (forall l, In l L -> mem s l = None /\ mem s1 l <> None) ->
     same_memory_except L s s1 ->
     (forall s2, wf s2 -> (forall l b, mem s1 l = Some b -> err <> Some l -> mem s2 l = Some b) ->
        wp cont (fun p s3 => p = (NULL, 1) /\ (forall l, In l L -> mem s3 l = None) /\
                             (forall l, ~ In l L -> mem s3 l = mem s2 l)) s2) ->
     wp (bind (mem_error err m) (fun _ => cont))
       (fun p s' => p = (NULL, 1) /\ exists m, error_reported err POLYCAP_ERROR_MEMORY m s s') s1).
  { intros L s1 m cont Hwf1 Ho1 (n0 & Hn & Hf) HL Hx Hcont.
    apply wp_bind. change (mem_error err m) with (report_fn false err POLYCAP_ERROR_MEMORY m : M T unit).
    apply wp_report; auto.
    - destruct err as [l|]; [|exact I]. cbn. destruct Hle as [q Hq]. exists q.
      unfold slot_holds in *. rewrite Hx; auto.
      intros Hin. destruct (HL l Hin) as [X _]. congruence.
    - intros Hne. rewrite Ho1, Hn. apply Hiso; auto.
    - intros s2 Hwf2 Ho2 Hn2 Hpres Hrep.
      eapply wp_mono; [apply Hcont; auto|].
      intros p s3 (-> & G1 & G2). split; auto. exists m.
      eapply error_reported_frame with (L := L); eauto. }
  unfold file_alloc.
  apply wp_bind. unfold malloc. apply wp_alloc; intros O0; wsimp.
  2:{ eapply Rep with (L := []); cbn; auto.
      - exists (cnt s); auto.
      - intros l [].
      - intros l _. reflexivity.
      - intros s2 Hwf2 Hp. repeat split; auto. intros l []. }
  assert (F0 : mem s (nxt s) = None) by (apply Hwf; lia).
  assert (F1 : mem s (S (nxt s)) = None) by (apply Hwf; lia).
  assert (F2 : mem s (S (S (nxt s))) = None) by (apply Hwf; lia).
  pose proof (HE err eq_refl _ F0) as E0.
  pose proof (HE err eq_refl _ F1) as E1.
  pose proof (HE err eq_refl _ F2) as E2.
  wstep. wstep. wstep. unfold malloc. apply wp_alloc; intros O1; wsimp; cbn [orc cnt] in O1.
  2:{ wstep. wstep.
      eapply Rep with (L := [nxt s]); cbn [mem nxt orc cnt]; auto.
      - intros l Hl. cbn [mem nxt] in *. upd_simpl. apply Hwf. lia.
      - exists (S (cnt s)); auto.
      - intros l [<-|[]]. split; auto. cbn [mem]. upd_simpl. congruence.
      - intros l Hl. cbn [mem]. rewrite !upd_other by (intro; subst; apply Hl; cbn; tauto). reflexivity.
      - intros s2 Hwf2 Hp.
        assert (P0 : mem s2 (nxt s) = Some [Vint n; Vptr None; Vundef; Vundef])
          by (apply Hp; auto; cbn [mem]; upd_simpl; reflexivity).
        repeat wstep. repeat split.
        + intros l [<-|[]]. cbn [mem]. now upd_simpl.
        + intros l Hl. cbn [mem]. rewrite !upd_other by (intro; subst; apply Hl; cbn; tauto). reflexivity. }
  wstep. wstep. wstep. unfold malloc. apply wp_alloc; intros O2; wsimp; cbn [orc cnt] in O2.
  2:{ wstep. wstep.
      eapply Rep with (L := [nxt s; S (nxt s)]); cbn [mem nxt orc cnt]; auto.
      - intros l Hl. cbn [mem nxt] in *. upd_simpl. apply Hwf. lia.
      - exists (S (S (cnt s))); auto.
      - intros l [<-|[<-|[]]]; (split; [auto|]); cbn [mem]; upd_simpl; congruence.
      - intros l Hl. cbn [mem]. rewrite !upd_other by (intro; subst; apply Hl; cbn; tauto). reflexivity.
      - intros s2 Hwf2 Hp.
        assert (P0 : mem s2 (nxt s) = Some [Vint n; Vptr (Some (S (nxt s))); Vptr None; Vundef])
          by (apply Hp; auto; cbn [mem]; upd_simpl; reflexivity).
        assert (P1 : mem s2 (S (nxt s)) = Some (repeat Vundef (Z.to_nat (n + 1))))
          by (apply Hp; auto; cbn [mem]; upd_simpl; reflexivity).
        repeat wstep. repeat split.
        + intros l [<-|[<-|[]]]; cbn [mem]; now upd_simpl.
        + intros l Hl. cbn [mem]. rewrite !upd_other by (intro; subst; apply Hl; cbn; tauto). reflexivity. }
  wstep. wstep. wstep. unfold malloc. apply wp_alloc; intros O3; wsimp; cbn [orc cnt] in O3.
  2:{ wstep. wstep.
      eapply Rep with (L := [nxt s; S (nxt s); S (S (nxt s))]); cbn [mem nxt orc cnt]; auto.
      - intros l Hl. cbn [mem nxt] in *. upd_simpl. apply Hwf. lia.
      - exists (S (S (S (cnt s)))); auto.
      - intros l [<-|[<-|[<-|[]]]]; (split; [auto|]); cbn [mem]; upd_simpl; congruence.
      - intros l Hl. cbn [mem]. rewrite !upd_other by (intro; subst; apply Hl; cbn; tauto). reflexivity.
      - intros s2 Hwf2 Hp.
        assert (P0 : mem s2 (nxt s) = Some [Vint n; Vptr (Some (S (nxt s))); Vptr (Some (S (S (nxt s)))); Vptr None])
          by (apply Hp; auto; cbn [mem]; upd_simpl; reflexivity).
        assert (P1 : mem s2 (S (nxt s)) = Some (repeat Vundef (Z.to_nat (n + 1))))
          by (apply Hp; auto; cbn [mem]; upd_simpl; reflexivity).
        assert (P2 : mem s2 (S (S (nxt s))) = Some (repeat Vundef (Z.to_nat (n + 1))))
          by (apply Hp; auto; cbn [mem]; upd_simpl; reflexivity).
        repeat wstep. repeat split.
        + intros l [<-|[<-|[<-|[]]]]; cbn [mem]; now upd_simpl.
        + intros l Hl. cbn [mem]. rewrite !upd_other by (intro; subst; apply Hl; cbn; tauto). reflexivity. }
  exfalso. apply Ho. intros j Hj.
  destruct j as [|[|[|[|j]]]]; [replace (cnt s + 0) with (cnt s) by lia
    |replace (cnt s + 1) with (S (cnt s)) by lia
    |replace (cnt s + 2) with (S (S (cnt s))) by lia
    |replace (cnt s + 3) with (S (S (S (cnt s)))) by lia|lia]; assumption.
Qed.

(** ** The whole function *)
Definition zcell (t1 t2 t3 : list token) (i : nat) : val T :=
  first_of [entry 2 0 (table t3) i; entry 3 0 (table t2) i; entry 2 0 (table t1) i].

Lemma from_file_reads n t1 t2 t3 err s :
  wf s -> allocs_succeed 4 s ->
  announces n t1 -> (100 < n < int_max)%Z -> ~ disagrees n t2 -> ~ disagrees n t3 ->
  wp (profile_new_from_file (Some (Some t1)) (Some (Some t2)) (Some (Some t3)) err)
     (fun r s' => wf s' /\ orc s' = orc s /\ cnt s' = 4 + cnt s /\ exists l lz lc le, r = (Some l, 0) /\ NoDup [l; lz; lc; le] /\
        mem s' l = Some [Vint n; Vptr (Some lz); Vptr (Some lc); Vptr (Some le)] /\
        mem s' lz = Some (List.map (zcell t1 t2 t3) (seq 0 (Z.to_nat (n + 1)))) /\
        mem s' lc = Some (List.map (fun i => first_of [entry 2 1 (table t1) i]) (seq 0 (Z.to_nat (n + 1)))) /\
        mem s' le = Some (List.map (fun i => first_of [entry 2 1 (table t3) i]) (seq 0 (Z.to_nat (n + 1)))) /\
        all_free s [l; lz; lc; le] /\ same_memory_except [l; lz; lc; le] s s') s.
Proof.
  intros Hwf Ho A1 Hn D2 D3. unfold profile_new_from_file.
  rewrite (scan_count_announced n _ _ A1).
  destruct (Z.leb_spec n 100); [lia|]. destruct (Z.leb_spec int_max n); [lia|].
  apply file_alloc_ok; auto. intros s1 p z c e Ep Ez Ec Ee W1 O1 C1 X1 Mp Mz Mc Me Sx.
  rewrite arr_undef in Mz, Mc, Me. remember (Z.to_nat (n + 1)) as nn eqn:Enn.
  apply wp_bind. eapply wp_rows2; [|exact Mz|exact Mc|]; [lia|].
  intros ts2 s2 n2 o2 c2 Mz2 Mc2 Sx2.
  unfold next_file at 1. rewrite (scan_count_agreed n t2 D2), Z.eqb_refl, <- ?Enn.
  apply wp_bind. eapply wp_rows3; [exact Mz2|].
  intros ts3 s3 n3 o3 c3 Mz3 Sx3.
  unfold next_file. rewrite (scan_count_agreed n t3 D3), Z.eqb_refl, <- ?Enn.
  apply wp_bind. eapply wp_rows2 with (c := e); [|exact Mz3| |].
  { lia. } { rewrite Sx3, Sx2; [exact Me| |]; cbn; lia. }
  intros ts4 s4 n4 o4 c4 Mz4 Me4 Sx4. apply wp_ret.
  assert (Out : same_memory_except [p; z; c; e] s s4).
  { intros l Hl. cbn in Hl. rewrite Sx4, Sx3, Sx2, Sx; auto; cbn; tauto. }
  split; [|split; [congruence|split; [lia|]]].
  { intros l Hl. rewrite Out; [apply Hwf; lia|]. cbn. lia. }
  exists p, z, c, e. split; [reflexivity|]. split; [repeat constructor; cbn; lia|].
  split; [|split; [|split; [|split; [|split]]]].
  - rewrite Sx4, Sx3, Sx2; auto; cbn; lia.
  - rewrite Mz4. reflexivity.
  - rewrite Sx4, Sx3, Mc2; try (cbn; lia). f_equal.
  - rewrite Me4. f_equal.
  - intros l Hl. cbn in Hl. apply Hwf. lia.
  - exact Out.
Qed.

(** A report followed by the release of the profile. *)
Lemma wp_report_free err m n p z c e (bz bc be : @block T) (k : nat) s0 s :
  wf s0 -> legal_err s0 err -> wf s -> NoDup [p; z; c; e] -> all_free s0 [p; z; c; e] ->
  mem s p = Some [Vint n; Vptr (Some z); Vptr (Some c); Vptr (Some e)] ->
  mem s z = Some bz -> mem s c = Some bc -> mem s e = Some be ->
  same_memory_except [p; z; c; e] s0 s ->
  (err <> None -> allocs_succeed 2 s) ->
  wp (bind (set_error err POLYCAP_ERROR_IO (Some m)) (fun _ => bind (profile_free (Some p)) (fun _ => ret (NULL, k))))
     (fun r s' => r = (NULL, k) /\ error_reported err POLYCAP_ERROR_IO m s0 s') s.
Proof.
  intros W0 Hle W ND Fr Mp Mz Mc Me Sx Ho.
  assert (D : p <> z /\ p <> c /\ p <> e /\ z <> c /\ z <> e /\ c <> e).
  { inversion ND as [|? ? h1 ND1]; subst. inversion ND1 as [|? ? h2 ND2]; subst.
    inversion ND2 as [|? ? h3 ND3]; subst. cbn in *. intuition. }
  destruct D as (d1 & d2 & d3 & d4 & d5 & d6).
  assert (NE : forall l, In l [p; z; c; e] -> err <> Some l).
  { intros l Hin ->. destruct Hle as [q Hq]. unfold slot_holds in Hq. rewrite (Fr l Hin) in Hq. discriminate. }
  apply wp_bind.
  change (set_error err POLYCAP_ERROR_IO (Some m)) with (report_fn false err POLYCAP_ERROR_IO m : M T unit).
  apply wp_report; auto.
  - destruct err as [l|]; [|exact I]. destruct Hle as [q Hq]. exists q.
    unfold slot_holds in *. rewrite Sx; auto. intros Hin. apply (NE l Hin eq_refl).
  - intros Hne. specialize (Ho Hne). split.
    + replace (cnt s) with (cnt s + 0) by lia. apply Ho. lia.
    + replace (S (cnt s)) with (cnt s + 1) by lia. apply Ho. lia.
  - intros s2 Hwf2 Ho2 Hn2 Hpres Hrep.
    assert (P0 : mem s2 p = Some [Vint n; Vptr (Some z); Vptr (Some c); Vptr (Some e)])
      by (apply Hpres; auto; apply NE; cbn; tauto).
    assert (P1 : mem s2 z = Some bz) by (apply Hpres; auto; apply NE; cbn; tauto).
    assert (P2 : mem s2 c = Some bc) by (apply Hpres; auto; apply NE; cbn; tauto).
    assert (P3 : mem s2 e = Some be) by (apply Hpres; auto; apply NE; cbn; tauto).
    unfold profile_free, free_if. repeat wstep. split; [reflexivity|].
    eapply error_reported_frame with (L := [p; z; c; e]) (s := s) (s' := s2); eauto.
    + intros l Hl. split; [apply Fr, Hl|]. destruct Hl as [<-|[<-|[<-|[<-|[]]]]]; congruence.
    + intros l [<-|[<-|[<-|[<-|[]]]]]; cbn [mem]; now upd_simpl.
    + intros l Hl. cbn [mem]. rewrite !upd_other by (intro; subst; apply Hl; cbn; tauto). reflexivity.
Qed.

(** The second file stands in the way. *)
Definition bad_file (n : Z) (f : option (list token)) : Prop :=
  match f with None => True | Some ts => disagrees n ts end.
Definition open_after (f : option (list token)) : nat := match f with None => 0 | Some _ => 1 end.

Lemma scan_count_disagreed n (ts : list token) : disagrees n ts -> exists m, m <> n /\ scan_count (Some n) ts = (Some m, table ts).
Proof. intros (m & A & Hne). exists m. split; [auto|]. now apply scan_count_announced. Qed.

Lemma wp_next_bad name err n p z c e (bz bc be : @block T) row f (k : M T (ptr * nat)) s0 s :
  bad_file n f ->
  wf s0 -> legal_err s0 err -> wf s -> NoDup [p; z; c; e] -> all_free s0 [p; z; c; e] ->
  mem s p = Some [Vint n; Vptr (Some z); Vptr (Some c); Vptr (Some e)] ->
  mem s z = Some bz -> mem s c = Some bc -> mem s e = Some be ->
  same_memory_except [p; z; c; e] s0 s ->
  (err <> None -> allocs_succeed 2 s) ->
  wp (next_file name (Some p) n n row f err k)
     (fun r s' => r = (NULL, open_after f) /\ exists m, error_reported err POLYCAP_ERROR_IO m s0 s') s.
Proof.
  intros B W0 Hle W ND Fr Mp Mz Mc Me Sx Ho. unfold next_file. destruct f as [ts|]; cbn in B.
  - destruct (scan_count_disagreed n ts B) as (m & Hne & ->). destruct (Z.eqb_spec n m); [congruence|].
    eapply wp_mono; [eapply (wp_report_free err _ n p z c e bz bc be _ s0 s); assumption|]. cbn. intros r s' [-> E]. eauto.
  - eapply wp_mono; [eapply (wp_report_free err _ n p z c e bz bc be _ s0 s); assumption|]. cbn. intros r s' [-> E]. eauto.
Qed.

Lemma from_file_bad n t1 f2 f3 err s :
  wf s -> legal_err s err -> allocs_succeed 4 s -> (err <> None -> allocs_succeed 6 s) ->
  announces n t1 -> (100 < n < int_max)%Z -> bad_file n f2 \/ bad_file n f3 ->
  wp (profile_new_from_file (Some (Some t1)) (Some f2) (Some f3) err)
     (fun r s' => fst r = NULL /\ snd r <= 1 /\ exists m, error_reported err POLYCAP_ERROR_IO m s s') s.
Proof.
  intros Hwf Hle Ho4 Ho A1 Hn B. unfold profile_new_from_file.
  rewrite (scan_count_announced n _ _ A1).
  destruct (Z.leb_spec n 100); [lia|]. destruct (Z.leb_spec int_max n); [lia|].
  apply file_alloc_ok; auto. intros s1 p z c e Ep Ez Ec Ee W1 O1 C1 X1 Mp Mz Mc Me Sx.
  rewrite arr_undef in Mz, Mc, Me. remember (Z.to_nat (n + 1)) as nn eqn:Enn.
  assert (ND : NoDup [p; z; c; e]) by (repeat constructor; cbn; lia).
  assert (Fr : all_free s [p; z; c; e]) by (intros l Hl; cbn in Hl; apply Hwf; lia).
  assert (A2 : forall s' : st T, orc s' = orc s1 -> cnt s' = cnt s1 -> err <> None -> allocs_succeed 2 s').
  { intros s' Eo Ec' Hne j Hj. rewrite Eo, Ec', O1, C1. replace (4 + cnt s + j) with (cnt s + (4 + j)) by lia. apply Ho; [auto|lia]. }
  apply wp_bind. eapply wp_rows2; [|exact Mz|exact Mc|]; [lia|].
  intros ts2 s2 n2 o2 c2 Mz2 Mc2 Sx2.
  assert (Mp2 : mem s2 p = Some [Vint n; Vptr (Some z); Vptr (Some c); Vptr (Some e)]) by (rewrite Sx2; auto; cbn; lia).
  assert (Me2 : mem s2 e = Some (arr nn (fun _ => Vundef))) by (rewrite Sx2; auto; cbn; lia).
  assert (Out2 : same_memory_except [p; z; c; e] s s2) by (intros l Hl; cbn in Hl; rewrite Sx2, Sx; auto; cbn; tauto).
  assert (W2 : wf s2).
  { intros l Hl. rewrite Out2; [apply Hwf; lia|]. cbn. lia. }
  assert (Fin : forall (b : bool) f (r : ptr * nat) (s' : st T), r = (NULL, open_after f) /\ (exists m, error_reported err POLYCAP_ERROR_IO m s s') ->
     fst r = NULL /\ snd r <= 1 /\ exists m, error_reported err POLYCAP_ERROR_IO m s s').
  { intros _ f r s' [-> E]. cbn. split; [reflexivity|]. split; [destruct f; cbn; lia|exact E]. }
  assert (Cut : bad_file n f2 \/ (exists t2, f2 = Some t2 /\ ~ disagrees n t2 /\ bad_file n f3)).
  { destruct f2 as [t2|]; [|left; exact I]. destruct B as [B|B]; [left; exact B|].
    destruct (announces_dec t2) as [[m Hm]|Hm].
    - destruct (Z.eq_dec m n) as [->|Hne].
      + right. exists t2. split; [reflexivity|]. split; [|exact B]. intros (m & Am & Hne). apply Hne. eapply announces_fun; eauto.
      + left. exists m. auto.
    - right. exists t2. split; [reflexivity|]. split; [|exact B]. intros (m & Am & _). exact (Hm m Am). }
  destruct Cut as [B2|(t2 & -> & D2 & B3)].
  - eapply wp_mono; [eapply (wp_next_bad _ err n p z c e _ _ _ _ f2 _ s s2 B2); eauto|]. apply Fin. exact true.
  - unfold next_file at 1. rewrite (scan_count_agreed n t2 D2), Z.eqb_refl, <- ?Enn.
    apply wp_bind. eapply wp_rows3; [exact Mz2|]. intros ts3 s3 n3 o3 c3 Mz3 Sx3.
    assert (Out3 : same_memory_except [p; z; c; e] s s3) by (intros l Hl; rewrite Sx3; [apply Out2; auto|cbn in *; tauto]).
    assert (W3 : wf s3).
    { intros l Hl. rewrite Out3; [apply Hwf; lia|]. cbn. lia. }
    eapply wp_mono; [eapply (wp_next_bad _ err n p z c e _ _ _ _ f3 _ s s3 B3); eauto|apply Fin; exact true].
    + rewrite Sx3; auto; cbn; lia.
    + rewrite Sx3; [exact Mc2|cbn; lia].
    + rewrite Sx3; [exact Me2|cbn; lia].
    + apply A2; congruence.
Qed.

Lemma from_file_second n t1 t2 f3 err s :
  wf s -> legal_err s err -> allocs_succeed 6 s ->
  announces n t1 -> (100 < n < int_max)%Z -> disagrees n t2 ->
  wp (profile_new_from_file (Some (Some t1)) (Some (Some t2)) (Some f3) err)
     (fun r s' => r = (NULL, 1) /\ exists m, error_reported err POLYCAP_ERROR_IO m s s') s.
Proof.
  intros Hwf Hle Ho A1 Hn B. unfold profile_new_from_file.
  rewrite (scan_count_announced n _ _ A1).
  destruct (Z.leb_spec n 100); [lia|]. destruct (Z.leb_spec int_max n); [lia|].
  apply file_alloc_ok; auto. { intros k Hk. apply Ho. lia. } intros s1 p z c e Ep Ez Ec Ee W1 O1 C1 X1 Mp Mz Mc Me Sx.
  rewrite arr_undef in Mz, Mc, Me. remember (Z.to_nat (n + 1)) as nn eqn:Enn.
  assert (ND : NoDup [p; z; c; e]) by (repeat constructor; cbn; lia).
  assert (Fr : all_free s [p; z; c; e]) by (unfold all_free; cbn [In]; intros l Hl; apply Hwf; lia).
  apply wp_bind. eapply wp_rows2; [|exact Mz|exact Mc|]; [lia|].
  intros ts2 s2 n2 o2 c2 Mz2 Mc2 Sx2.
  assert (Mp2 : mem s2 p = Some [Vint n; Vptr (Some z); Vptr (Some c); Vptr (Some e)]) by (rewrite Sx2; auto; cbn; lia).
  assert (Me2 : mem s2 e = Some (arr nn (fun _ => Vundef))) by (rewrite Sx2; auto; cbn; lia).
  assert (Out2 : same_memory_except [p; z; c; e] s s2) by (intros l Hl; cbn in Hl; rewrite Sx2, Sx; auto; cbn; tauto).
  assert (W2 : wf s2).
  { intros l Hl. rewrite Out2; [apply Hwf; lia|]. cbn. lia. }
  eapply (wp_next_bad _ err n p z c e _ _ _ _ (Some t2) _ s s2 B); eauto.
  intros _ j Hj. rewrite o2, c2, O1, C1. replace (4 + cnt s + j) with (cnt s + (4 + j)) by lia. apply Ho. lia.
Qed.

Lemma from_file_plain lit err c m k s : wf s -> legal_err s err -> (err <> None -> allocs_succeed 2 s) ->
  wp (bind (report_fn lit err c m) (fun _ => ret (NULL, k)))
     (fun (r : ptr * nat) s' => r = (NULL, k) /\ error_reported err c m s s') s.
Proof.
  intros W Hle Ho. apply wp_bind. apply wp_report; auto.
  - intros Hne. specialize (Ho Hne). split.
    + replace (cnt s) with (cnt s + 0) by lia. apply Ho. lia.
    + replace (S (cnt s)) with (cnt s + 1) by lia. apply Ho. lia.
  - intros s' _ _ _ _ Hr. apply wp_ret. auto.
Qed.

Lemma from_file_null f1 f2 f3 err s : wf s -> legal_err s err -> (err <> None -> allocs_succeed 2 s) ->
  f1 = None \/ f2 = None \/ f3 = None ->
  wp (profile_new_from_file f1 f2 f3 err)
     (fun r s' => r = (NULL, 0) /\ exists m, error_reported err POLYCAP_ERROR_INVALID_ARGUMENT m s s') s.
Proof.
  intros W Hle Ho H. unfold profile_new_from_file.
  assert (E : forall m, wp (bind (set_error_literal err POLYCAP_ERROR_INVALID_ARGUMENT (Some m)) (fun _ => ret (NULL, 0)))
     (fun (r : ptr * nat) s' => r = (NULL, 0) /\ exists m, error_reported err POLYCAP_ERROR_INVALID_ARGUMENT m s s') s).
  { intros m. eapply wp_mono; [apply (from_file_plain true err _ m 0 s W Hle Ho)|]. cbn. intros r s' [-> X]. eauto. }
  destruct f1 as [f1|]; [|apply E]. destruct f2 as [f2|]; [|apply E]. destruct f3 as [f3|]; [|apply E].
  destruct H as [H|[H|H]]; discriminate.
Qed.
Lemma from_file_unopened f2 f3 err s : wf s -> legal_err s err -> (err <> None -> allocs_succeed 2 s) ->
  wp (profile_new_from_file (Some None) (Some f2) (Some f3) err)
     (fun r s' => r = (NULL, 0) /\ exists m, error_reported err POLYCAP_ERROR_IO m s s') s.
Proof.
  intros W Hle Ho. unfold profile_new_from_file.
  eapply wp_mono; [apply (from_file_plain false err _ _ 0 s W Hle Ho)|]. cbn. intros r s' [-> X]. eauto.
Qed.
Lemma from_file_short n t1 f2 f3 err s : wf s -> legal_err s err -> (err <> None -> allocs_succeed 2 s) ->
  announces n t1 -> (n <= 100)%Z ->
  wp (profile_new_from_file (Some (Some t1)) (Some f2) (Some f3) err)
     (fun r s' => r = (NULL, 1) /\ exists m, error_reported err POLYCAP_ERROR_INVALID_ARGUMENT m s s') s.
Proof.
  intros W Hle Ho A1 Hn. unfold profile_new_from_file. rewrite (scan_count_announced n _ _ A1).
  destruct (Z.leb_spec n 100); [|lia].
  eapply wp_mono; [apply (from_file_plain true err _ _ 1 s W Hle Ho)|]. cbn. intros r s' [-> X]. eauto.
Qed.
Lemma from_file_oom n t1 f2 f3 err s : wf s -> legal_err s err -> ~ allocs_succeed 4 s -> (err <> None -> isolated_failures s) ->
  announces n t1 -> (100 < n < int_max)%Z ->
  wp (profile_new_from_file (Some (Some t1)) (Some f2) (Some f3) err)
     (fun r s' => r = (NULL, 1) /\ exists m, error_reported err POLYCAP_ERROR_MEMORY m s s') s.
Proof.
  intros W Hle Ho Hiso A1 Hn. unfold profile_new_from_file. rewrite (scan_count_announced n _ _ A1).
  destruct (Z.leb_spec n 100); [lia|]. destruct (Z.leb_spec int_max n); [lia|].
  apply file_alloc_fail; auto.
Qed.

End Proofs.
