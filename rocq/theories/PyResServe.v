(** * Proofs about the Python result object: iterating, making and ending it *)
From Coq Require Import ZArith List Bool Lia String Permutation.
From Verif Require Import Num Mem SpecHeap SpecPhoton ErrorModel ProfileModel ProfileProofs Geometry ConsModel HeapLib
  ResultModel SpecResult ResultProofs ResultExit ResultLeak ResultLeakGet ResultMore PropResult SepLib FlightRep FlightHeap FlightHeap2 PyModel SpecPy PyResult PyResProofs PyResInv.
Import ListNotations.

Section Serve.
Context {T : Type} {N : Num T}.
Local Notation blocks := (list (loc * @block T)).
Implicit Types (s : st T).

(** ** Reading *)
Lemma wp_vec3 l vs i v (Q : vec3 T -> st T -> Prop) s :
  mem s l = Some (cells3 vs) -> nth_error vs i = Some v -> Q v s -> wp (load_vec3 (Some l) (3 * i)) Q s.
Proof.
  intros E Hi HQ. destruct (cells3_nth vs i v Hi) as (C1 & C2 & C3). unfold load_vec3.
  apply wp_bind. eapply wp_load_dbl; [exact E|exact C1|]. apply wp_bind. eapply wp_load_dbl; [exact E|replace (3 * i + 1) with (S (3 * i)) by lia; exact C2|].
  apply wp_bind. eapply wp_load_dbl; [exact E|replace (3 * i + 2) with (S (S (3 * i))) by lia; exact C3|]. apply wp_ret. destruct v; exact HQ.
Qed.
Lemma wp_vec3_at l b i v (Q : vec3 T -> st T -> Prop) s :
  mem s l = Some b -> nth_error b i = Some (Vdbl (vx v)) -> nth_error b (i + 1) = Some (Vdbl (vy v)) -> nth_error b (i + 2) = Some (Vdbl (vz v)) ->
  Q v s -> wp (load_vec3 (Some l) i) Q s.
Proof.
  intros E C1 C2 C3 HQ. unfold load_vec3. apply wp_bind. eapply wp_load_dbl; [exact E|exact C1|]. apply wp_bind. eapply wp_load_dbl; [exact E|exact C2|].
  apply wp_bind. eapply wp_load_dbl; [exact E|exact C3|]. apply wp_ret. destruct v; exact HQ.
Qed.

Lemma lkbs_nth ev : forall ls ks i l w k, nth_error ls i = Some (l, w) -> nth_error ks i = Some k ->
  In (l, vcells (k_coords k) ++ vcells (completed (k_dir k)) ++ match ev k with Some v => vcells v | None => [Vundef; Vundef; Vundef] end ++
         [Vint (Z.of_nat (List.length (k_weights k))); Vptr (Some w); Vint (k_nrefl k)]) (lkbs ev ls ks) /\
  In (w, map Vdbl (k_weights k)) (lkbs (T := T) ev ls ks).
Proof.
  induction ls as [|[l0 w0] ls IH]; intros [|k0 ks] [|i] l w k E1 E2; try discriminate.
  - injection E1 as -> ->. injection E2 as ->. cbn [lkbs In]. auto.
  - destruct (IH _ _ _ _ _ E1 E2). cbn [lkbs In]. auto.
Qed.
Lemma arrs_nth : forall ls xss i l xs, nth_error ls i = Some l -> nth_error xss i = Some xs -> In (l, map Vdbl xs) (arrs (T := T) ls xss).
Proof.
  induction ls as [|l0 ls IH]; intros [|x0 xss] [|i] l xs E1 E2; try discriminate.
  - injection E1 as ->. injection E2 as ->. left. reflexivity.
  - right. eapply IH; eauto.
Qed.

Variables (o : te) (eff im : loc) (pen peff src : ptr) (p1 p2 p3 : list ptr) (r : result T).
Local Notation RB := (result_blocks eff im pen peff p1 p2 p3).
Variables (F : loc -> option (@block T)) (s0 : st T).
Hypothesis Obj : result_object s0 eff im pen peff src p1 p2 p3 r.
Hypothesis HF : forall l, In l RB -> F l = mem s0 l.
Hypothesis Started : q_started r <> 0%Z.
Hypothesis Rows : q_rows r <> [].
Local Notation heapC := (heapC o eff r).

Definition inv (C : caches) s : Prop :=
  lens_ok r C /\ exists e ns nx ne x y z,
    (c_start C <> None \/ c_exit C <> None -> nx = num (List.length (q_rows r))) /\
    (c_exit C <> None -> ne = num (List.length (q_energies r))) /\
    hs F (heapC C e ns nx ne x y z) s.

Lemma in_ext C e ns nx ne x y z p : In p (extg o r (c_ext C)) -> In p (heapC C e ns nx ne x y z).
Proof. intros H. unfold PyResInv.heapC. rewrite !in_app_iff. tauto. Qed.
Lemma in_int C e ns nx ne x y z p : In p (intg o r (c_int C)) -> In p (heapC C e ns nx ne x y z).
Proof. intros H. unfold PyResInv.heapC. rewrite !in_app_iff. tauto. Qed.
Lemma in_start C e ns nx ne x y z p : In p (startg o r (c_start C)) -> In p (heapC C e ns nx ne x y z).
Proof. intros H. unfold PyResInv.heapC. rewrite !in_app_iff. tauto. Qed.
Lemma in_exit C e ns nx ne x y z p : In p (exitg o r (c_exit C)) -> In p (heapC C e ns nx ne x y z).
Proof. intros H. unfold PyResInv.heapC. rewrite !in_app_iff. tauto. Qed.
Lemma in_misc C e ns nx ne x y z p : In p (miscb o eff e ns nx ne x y z) -> In p (heapC C e ns nx ne x y z).
Proof. intros H. unfold PyResInv.heapC. rewrite !in_app_iff. tauto. Qed.

Lemma nth_map_some {A B} (f : A -> B) l i v : nth_error (map f l) i = Some v -> exists a, nth_error l i = Some a /\ v = f a.
Proof. rewrite nth_error_map. destruct (nth_error l i); cbn; intros [= <-]; eauto. Qed.

Lemma leak_create_ok (L : blocks) s vl vn ev ks q ls i k :
  hs F L s -> (forall p, In p (leakg vl vn ev ks (Some (q, ls))) -> In p L) -> List.length ls = List.length ks -> nth_error ks i = Some k ->
  wp (bind (load_ptr (Some q) i) (fun l => leak_create l))
     (fun v s' => v = PLeak (k_coords k) (completed (k_dir k)) (match ev k with Some v => vec_cells v | None => [Vundef; Vundef; Vundef] end) (k_nrefl k) (k_weights k) /\ s' = s) s.
Proof.
  intros H I Len E. assert (exists lw, nth_error ls i = Some lw) as [[l w] El].
  { assert (i < List.length ls) by (rewrite Len; apply nth_error_Some; congruence). destruct (nth_error ls i) eqn:X; [eauto|]. apply nth_error_None in X. lia. }
  destruct (lkbs_nth ev ls ks i l w k El E) as [I1 I2].
  assert (M1 : mem s q = Some (map (fun lw => Vptr (Some (fst lw))) ls)) by (eapply hs_in; [exact H|apply I; cbn; auto]).
  assert (M2 := hs_in _ _ _ _ _ H (I _ (or_intror (or_intror (or_intror I1))))).
  assert (M3 := hs_in _ _ _ _ _ H (I _ (or_intror (or_intror (or_intror I2))))).
  apply wp_bind. eapply wp_load_ptr; [exact M1|rewrite nth_error_map, El; reflexivity|]. cbn [fst]. unfold leak_create. cbn [is_null].
  apply wp_bind. eapply (wp_vec3_at _ _ _ (k_coords k)); [exact M2|reflexivity|reflexivity|reflexivity|].
  apply wp_bind. eapply (wp_vec3_at _ _ _ (completed (k_dir k))); [exact M2|reflexivity|reflexivity|reflexivity|].
  assert (exists a b c, match ev k with Some v => vcells v | None => [Vundef; Vundef; Vundef] end = [a; b; c] /\
    match ev k with Some v => vec_cells v | None => [Vundef; Vundef; Vundef] end = [a; b; c]) as (a & b & c & E1 & E2).
  { destruct (ev k) as [v|]; do 3 eexists; split; reflexivity. }
  rewrite E1 in M2. rewrite E2.
  apply wp_bind. eapply wp_load; [exact M2|reflexivity|]. apply wp_bind. eapply wp_load; [exact M2|reflexivity|]. apply wp_bind. eapply wp_load; [exact M2|reflexivity|].
  apply wp_bind. eapply wp_load_int; [exact M2|reflexivity|]. apply wp_bind. eapply wp_load_ptr; [exact M2|reflexivity|].
  apply wp_bind. eapply hs_read_dbls; [exact H|apply I; right; right; right; exact I2|apply Nat2Z.id|].
  apply wp_bind. eapply wp_load_int; [exact M2|reflexivity|]. apply wp_ret. auto.
Qed.

Lemma yielded_ok C s a l i v : inv C s -> loaded C a -> contents r a = inl l -> nth_error l i = Some v ->
  wp (yielded o a i) (fun v' s' => v' = v /\ s' = s) s.
Proof.
  intros (LO & e & ns & nx & ne & x & y & z & _ & Hne & H) Lo Ec En. destruct LO as (L1 & L2 & L3). unfold yielded.
  destruct a; cbn [loaded cache contents] in *;
    try (destruct (c_ext C) as [[q ls]|] eqn:EX; [|contradiction]); try (destruct (c_int C) as [[q ls]|] eqn:EI; [|contradiction]).
  - destruct (L1 _ _ eq_refl) as [_ Len]. destruct (q_ext r) as [|k0 ks] eqn:Er; [discriminate|]. rewrite <- Er in *. injection Ec as <-.
    apply nth_map_some in En. destruct En as (k & En & ->).
    assert (I : forall p, In p (leakg (v_ext o) (v_next o) ev_ext (q_ext r) (Some (q, ls))) -> In p (heapC C e ns nx ne x y z)).
    { intros p Ip. apply in_ext. rewrite EX. exact Ip. }
    apply wp_bind. eapply hs_load_ptr; [exact H|apply I; cbn; auto|reflexivity|].
    eapply (leak_create_ok _ s _ _ ev_ext); eauto.
  - destruct (L2 _ _ eq_refl) as [_ Len]. destruct (q_int r) as [|k0 ks] eqn:Er; [discriminate|]. rewrite <- Er in *. injection Ec as <-.
    apply nth_map_some in En. destruct En as (k & En & ->).
    assert (I : forall p, In p (leakg (v_int o) (v_nint o) ev_int (q_int r) (Some (q, ls))) -> In p (heapC C e ns nx ne x y z)).
    { intros p Ip. apply in_int. rewrite EI. exact Ip. }
    apply wp_bind. eapply hs_load_ptr; [exact H|apply I; cbn; auto|reflexivity|].
    eapply (leak_create_ok _ s _ _ ev_int); eauto.
  - destruct (c_exit C) as [[[[[[[l1 l2] l3] l4] l5] l6] lw]|] eqn:EE; [|contradiction]. injection Ec as <-.
    assert (I : forall p, In p (exitg o r (Some (l1, l2, l3, l4, l5, l6, lw))) -> In p (heapC C e ns nx ne x y z)) by (intros p Ip; apply in_exit; rewrite EE; exact Ip).
    apply nth_map_some in En. destruct En as (k & En & ->).
    apply wp_bind. eapply hs_load_ptr; [exact H|apply I; cbn; auto 20|reflexivity|].
    apply wp_bind. eapply wp_vec3; [eapply hs_in; [exact H|apply I; cbn; auto 20]|rewrite nth_error_map, En; reflexivity|]. apply wp_ret. auto.
  - destruct (c_exit C) as [[[[[[[l1 l2] l3] l4] l5] l6] lw]|] eqn:EE; [|contradiction]. injection Ec as <-.
    assert (I : forall p, In p (exitg o r (Some (l1, l2, l3, l4, l5, l6, lw))) -> In p (heapC C e ns nx ne x y z)) by (intros p Ip; apply in_exit; rewrite EE; exact Ip).
    apply nth_map_some in En. destruct En as (k & En & ->).
    apply wp_bind. eapply hs_load_ptr; [exact H|apply I; cbn; auto 20|reflexivity|].
    apply wp_bind. eapply wp_vec3; [eapply hs_in; [exact H|apply I; cbn; auto 20]|rewrite nth_error_map, En; reflexivity|]. apply wp_ret. auto.
  - destruct (c_exit C) as [[[[[[[l1 l2] l3] l4] l5] l6] lw]|] eqn:EE; [|contradiction]. injection Ec as <-.
    assert (I : forall p, In p (exitg o r (Some (l1, l2, l3, l4, l5, l6, lw))) -> In p (heapC C e ns nx ne x y z)) by (intros p Ip; apply in_exit; rewrite EE; exact Ip).
    apply nth_map_some in En. destruct En as (k & En & ->).
    apply wp_bind. eapply hs_load_ptr; [exact H|apply I; cbn; auto 20|reflexivity|].
    apply wp_bind. eapply wp_vec3; [eapply hs_in; [exact H|apply I; cbn; auto 20]|rewrite nth_error_map, En; reflexivity|]. apply wp_ret. auto.
  - destruct (c_exit C) as [[[[[[[l1 l2] l3] l4] l5] l6] lw]|] eqn:EE; [|contradiction]. injection Ec as <-.
    assert (I : forall p, In p (exitg o r (Some (l1, l2, l3, l4, l5, l6, lw))) -> In p (heapC C e ns nx ne x y z)) by (intros p Ip; apply in_exit; rewrite EE; exact Ip).
    apply nth_map_some in En. destruct En as (k & En & ->).
    apply wp_bind. eapply hs_load_ptr; [exact H|apply I; cbn; auto 20|reflexivity|].
    apply wp_bind. eapply wp_load_int; [eapply hs_in; [exact H|apply I; cbn; auto 20]|rewrite !nth_error_map, En; reflexivity|]. apply wp_ret. auto.
  - destruct (c_exit C) as [[[[[[[l1 l2] l3] l4] l5] l6] lw]|] eqn:EE; [|contradiction]. injection Ec as <-.
    assert (I : forall p, In p (exitg o r (Some (l1, l2, l3, l4, l5, l6, lw))) -> In p (heapC C e ns nx ne x y z)) by (intros p Ip; apply in_exit; rewrite EE; exact Ip).
    apply nth_map_some in En. destruct En as (k & En & ->).
    apply wp_bind. eapply hs_load_ptr; [exact H|apply I; cbn; auto 20|reflexivity|].
    apply wp_bind. eapply hs_load_int; [exact H|apply in_misc; cbn; auto 20|rewrite Hne by congruence; reflexivity|].
    assert (Len := L3 _ _ eq_refl). assert (exists w, nth_error lw i = Some w) as [w Ew].
    { assert (i < List.length lw) by (rewrite Len; apply nth_error_Some; congruence). destruct (nth_error lw i) eqn:X; [eauto|]. apply nth_error_None in X. lia. }
    apply wp_bind. eapply hs_load_ptr; [exact H|apply I; cbn; auto 20|rewrite nth_error_map, Ew; reflexivity|].
    apply wp_bind. eapply (hs_read_dbls _ _ _ w (r_weights k)); [exact H| | |apply wp_ret; auto].
    + apply I. cbn [exitg]. apply in_or_app. right. eapply arrs_nth; [exact Ew|rewrite nth_error_map, En; reflexivity].
    + rewrite Nat2Z.id. destruct Obj as ((_ & G & _) & _). symmetry. rewrite Forall_forall in G. apply G. eapply nth_error_In. exact En.
  - destruct (c_exit C) as [[[[[[[l1 l2] l3] l4] l5] l6] lw]|] eqn:EE; [|contradiction]. injection Ec as <-.
    assert (I : forall p, In p (exitg o r (Some (l1, l2, l3, l4, l5, l6, lw))) -> In p (heapC C e ns nx ne x y z)) by (intros p Ip; apply in_exit; rewrite EE; exact Ip).
    apply nth_map_some in En. destruct En as (k & En & ->).
    apply wp_bind. eapply hs_load_ptr; [exact H|apply I; cbn; auto 20|reflexivity|].
    apply wp_bind. eapply wp_load_dbl; [eapply hs_in; [exact H|apply I; cbn; auto 20]|rewrite !nth_error_map, En; reflexivity|]. apply wp_ret. auto.
  - destruct (c_start C) as [[[[l1 l2] l3] l4]|] eqn:EE; [|contradiction]. injection Ec as <-.
    assert (I : forall p, In p (startg o r (Some (l1, l2, l3, l4))) -> In p (heapC C e ns nx ne x y z)) by (intros p Ip; apply in_start; rewrite EE; exact Ip).
    apply nth_map_some in En. destruct En as (k & En & ->).
    apply wp_bind. eapply hs_load_ptr; [exact H|apply I; cbn; auto 20|reflexivity|].
    apply wp_bind. eapply wp_vec3; [eapply hs_in; [exact H|apply I; cbn; auto 20]|rewrite nth_error_map, En; reflexivity|]. apply wp_ret. auto.
  - destruct (c_start C) as [[[[l1 l2] l3] l4]|] eqn:EE; [|contradiction]. injection Ec as <-.
    assert (I : forall p, In p (startg o r (Some (l1, l2, l3, l4))) -> In p (heapC C e ns nx ne x y z)) by (intros p Ip; apply in_start; rewrite EE; exact Ip).
    apply nth_map_some in En. destruct En as (k & En & ->).
    apply wp_bind. eapply hs_load_ptr; [exact H|apply I; cbn; auto 20|reflexivity|].
    apply wp_bind. eapply wp_vec3; [eapply hs_in; [exact H|apply I; cbn; auto 20]|rewrite nth_error_map, En; reflexivity|]. apply wp_ret. auto.
  - destruct (c_start C) as [[[[l1 l2] l3] l4]|] eqn:EE; [|contradiction]. injection Ec as <-.
    assert (I : forall p, In p (startg o r (Some (l1, l2, l3, l4))) -> In p (heapC C e ns nx ne x y z)) by (intros p Ip; apply in_start; rewrite EE; exact Ip).
    apply nth_map_some in En. destruct En as (k & En & ->).
    apply wp_bind. eapply hs_load_ptr; [exact H|apply I; cbn; auto 20|reflexivity|].
    apply wp_bind. eapply wp_vec3; [eapply hs_in; [exact H|apply I; cbn; auto 20]|rewrite nth_error_map, En; reflexivity|]. apply wp_ret. auto.
  - destruct (c_start C) as [[[[l1 l2] l3] l4]|] eqn:EE; [|contradiction]. injection Ec as <-.
    assert (I : forall p, In p (startg o r (Some (l1, l2, l3, l4))) -> In p (heapC C e ns nx ne x y z)) by (intros p Ip; apply in_start; rewrite EE; exact Ip).
    apply nth_map_some in En. destruct En as (k & En & ->).
    apply wp_bind. eapply hs_load_ptr; [exact H|apply I; cbn; auto 20|reflexivity|].
    apply wp_bind. eapply wp_vec3; [eapply hs_in; [exact H|apply I; cbn; auto 20]|rewrite nth_error_map, En; reflexivity|]. apply wp_ret. auto.
Qed.

Definition inv_e (C : caches) (e : val T) s : Prop :=
  lens_ok r C /\ exists ns nx ne x y z,
    (c_start C <> None \/ c_exit C <> None -> nx = num (List.length (q_rows r))) /\
    (c_exit C <> None -> ne = num (List.length (q_energies r))) /\
    hs F (heapC C e ns nx ne x y z) s.
Lemma inv_of C e s : inv_e C e s -> inv C s.
Proof. intros (L & ns & nx & ne & x & y & z & H). split; [exact L|]. exists e, ns, nx, ne, x, y, z. exact H. Qed.

Lemma loaded_contents C s a : inv C s -> loaded C a ->
  exists l q, contents r a = inl l /\ l <> [] /\ mem s (count o a) = Some [num (List.length l)] /\ mem s (cache o a) = Some [Vptr (Some q)].
Proof.
  intros (LO & e & ns & nx & ne & x & y & z & Hnx & _ & H) Lo. destruct LO as (L1 & L2 & L3).
  destruct a; cbn [loaded] in Lo;
    lazymatch goal with
    | |- context [contents r extleak_data] => idtac
    | |- context [contents r intleak_data] => idtac
    | |- _ =>
        assert (NX : mem s (v_nexit o) = Some [num (List.length (q_rows r))])
          by (eapply hs_in; [exact H|]; rewrite <- Hnx by auto; apply in_misc; cbn; auto 20);
        cbn [contents count cache];
        first [ destruct (c_exit C) as [[[[[[[l1 l2] l3] l4] l5] l6] lw]|] eqn:EE; [|contradiction];
                assert (I : forall p, In p (exitg o r (Some (l1, l2, l3, l4, l5, l6, lw))) -> In p (heapC C e ns nx ne x y z)) by (intros p Ip; apply in_exit; rewrite EE; exact Ip)
              | destruct (c_start C) as [[[[l1 l2] l3] l4]|] eqn:EE; [|contradiction];
                assert (I : forall p, In p (startg o r (Some (l1, l2, l3, l4))) -> In p (heapC C e ns nx ne x y z)) by (intros p Ip; apply in_start; rewrite EE; exact Ip) ];
        eexists _, _; (split; [reflexivity|]); rewrite map_length; (split; [destruct (q_rows r); [contradiction|discriminate]|]); (split; [exact NX|]);
        eapply hs_in; [exact H|apply I; cbn; auto 20]
    end.
  - destruct (c_ext C) as [[q ls]|] eqn:EX; [|contradiction]. destruct (L1 _ _ eq_refl) as [Hn _].
    assert (I : forall p, In p (leakg (v_ext o) (v_next o) ev_ext (q_ext r) (Some (q, ls))) -> In p (heapC C e ns nx ne x y z)).
    { intros p Ip. apply in_ext. rewrite EX. exact Ip. }
    cbn [contents]. destruct (q_ext r) as [|k0 ks] eqn:Er; [contradiction|]. rewrite <- Er in *. eexists _, q. split; [reflexivity|]. rewrite map_length.
    split; [rewrite Er; discriminate|]. split; eapply hs_in; try exact H; apply I; cbn; auto.
  - destruct (c_int C) as [[q ls]|] eqn:EX; [|contradiction]. destruct (L2 _ _ eq_refl) as [Hn _].
    assert (I : forall p, In p (leakg (v_int o) (v_nint o) ev_int (q_int r) (Some (q, ls))) -> In p (heapC C e ns nx ne x y z)).
    { intros p Ip. apply in_int. rewrite EX. exact Ip. }
    cbn [contents]. destruct (q_int r) as [|k0 ks] eqn:Er; [contradiction|]. rewrite <- Er in *. eexists _, q. split; [reflexivity|]. rewrite map_length.
    split; [rewrite Er; discriminate|]. split; eapply hs_in; try exact H; apply I; cbn; auto.
Qed.

Lemma unloaded C s a : inv C s -> ~ loaded C a -> mem s (if is_leaks a then count o a else cache o a) = Some [if is_leaks a then Vint 0 else Vptr NULL].
Proof.
  intros (_ & e & ns & nx & ne & x & y & z & _ & _ & H) Lo. eapply hs_in; [exact H|].
  assert (D : forall A (v : option A), ~ (v <> None) -> v = None) by (intros A [v|] D; [exfalso; apply D; discriminate|reflexivity]).
  destruct a; cbn [loaded is_leaks count cache] in *; apply D in Lo;
    first [ apply in_ext; rewrite Lo; cbn; tauto | apply in_int; rewrite Lo; cbn; tauto | apply in_exit; rewrite Lo; cbn; tauto | apply in_start; rewrite Lo; cbn; tauto ].
Qed.

Lemma missing_ok C s a (Q : bool -> st T -> Prop) : inv C s -> (loaded C a -> Q false s) -> (~ loaded C a -> Q true s) -> wp (missing o a) Q s.
Proof.
  intros H H1 H2. assert (D : loaded C a \/ ~ loaded C a).
  { destruct a; cbn [loaded]; match goal with |- (?v <> None) \/ _ => destruct v end; ((left; discriminate) || (right; intros K; apply K; reflexivity)). }
  unfold missing. destruct D as [D|D].
  - destruct (loaded_contents C s a H D) as (l & q & _ & Ne & M1 & M2). destruct (is_leaks a).
    + apply wp_bind. eapply wp_load_int; [exact M1|reflexivity|]. apply wp_ret. replace (Z.of_nat (List.length l) =? 0)%Z with false; [auto|].
      destruct l; [contradiction|]. reflexivity.
    + apply wp_bind. eapply wp_load_ptr; [exact M2|reflexivity|]. apply wp_ret. auto.
  - pose proof (unloaded C s a H D) as M. destruct (is_leaks a).
    + apply wp_bind. eapply wp_load_int; [exact M|reflexivity|]. apply wp_ret. auto.
    + apply wp_bind. eapply wp_load_ptr; [exact M|reflexivity|]. apply wp_ret. auto.
Qed.

(** Generators and cursors. *)
Definition rel (C : caches) (ag : acc * gen) (c : cursor) : Prop :=
  fst ag = fst c /\
  match snd ag, snd c with
  | Fresh, Some O => True
  | Round i n, Some j => i = j /\ loaded C (fst ag) /\ exists l, contents r (fst ag) = inl l /\ n = List.length l
  | Finished, None => True
  | _, _ => False
  end.

Lemma round_ok C s a l i : inv C s -> loaded C a -> contents r a = inl l ->
  wp (round o a i (List.length l)) (fun xg s' => s' = s /\ fst xg = fst (advance r (a, Some i)) /\ rel C (a, snd xg) (snd (advance r (a, Some i)))) s.
Proof.
  intros H Lo Ec. unfold round, advance. rewrite Ec. destruct (Nat.ltb_spec i (List.length l)) as [Hi|Hi].
  - destruct (nth_error l i) as [v|] eqn:En; [|apply nth_error_None in En; lia].
    apply wp_bind. eapply wp_mono; [eapply yielded_ok; eauto|]. intros v' s' [-> ->]. apply wp_ret. cbn [fst snd].
    split; [reflexivity|]. split; [reflexivity|]. split; [reflexivity|]. cbn [fst snd]. split; [reflexivity|]. split; [exact Lo|]. eauto.
  - assert (En : nth_error l i = None) by (apply nth_error_None; lia). rewrite En. apply wp_ret. cbn [fst snd]. split; [reflexivity|]. split; [reflexivity|]. split; reflexivity || exact I.
Qed.

Lemma start_rounds_ok C s a : inv C s -> loaded C a ->
  wp (start_rounds o a) (fun xg s' => s' = s /\ fst xg = fst (advance r (a, Some 0)) /\ rel C (a, snd xg) (snd (advance r (a, Some 0)))) s.
Proof.
  intros H Lo. destruct (loaded_contents C s a H Lo) as (l & q & Ec & Ne & M1 & M2). unfold start_rounds.
  apply wp_bind. eapply wp_load_int; [exact M1|reflexivity|]. rewrite Nat2Z.id. destruct (is_leaks a).
  - replace (0 <? Z.of_nat (List.length l))%Z with true by (destruct l; [contradiction|reflexivity]). apply round_ok; auto.
  - apply wp_bind. eapply wp_load_ptr; [exact M2|reflexivity|]. cbn [is_null]. apply round_ok; auto.
Qed.

(** The calls of the library. *)
Definition grows (C C' : caches) : Prop := forall a, loaded C a -> loaded C' a.
Definition refused C s : Prop :=
  lens_ok r C /\ exists e t m ns nx ne x y z,
    (c_start C <> None \/ c_exit C <> None -> nx = num (List.length (q_rows r))) /\
    (c_exit C <> None -> ne = num (List.length (q_energies r))) /\
    hs F ((v_err o, [Vptr (Some e)]) :: (e, [Vint POLYCAP_ERROR_INVALID_ARGUMENT; Vptr (Some t)]) :: (t, [Vstr m]) ::
          [(v_eff o, [Vptr (Some eff)]); (v_nstart o, [ns]); (v_nexit o, [nx]); (v_nen o, [ne]); (v_n o, [x]); (v_en o, [y]); (v_ef o, [z])] ++
          extg o r (c_ext C) ++ intg o r (c_int C) ++ startg o r (c_start C) ++ exitg o r (c_exit C)) s.

Ltac lens_tac L1 L2 L3 :=
  unfold lens_ok; repeat split; cbn [c_ext c_int c_start c_exit] in *; intros;
  first [ congruence | eapply L1; eassumption | eapply L2; eassumption | eapply L3; eassumption
        | match goal with E : Some _ = Some _ |- _ => inversion E; subst; first [assumption|congruence] end ].
Lemma fetch_ok C s a : inv_e C (Vptr NULL) s -> ~ loaded C a ->
  wp (fetch o a (Some eff)) (fun _ s' =>
    (exists C', inv_e C' (Vptr NULL) s' /\ grows C C' /\ loaded C' a) \/ (contents r a = inr ValueError /\ refused C s')) s.
Proof.
  intros (LO & ns & nx & ne & x & y & z & Hnx & Hne & H) Lo.
  assert (D : forall A (v : option A), ~ (v <> None) -> v = None) by (intros A [v|] D; [exfalso; apply D; discriminate|reflexivity]).
  assert (OB := obj_at eff im pen peff src p1 p2 p3 r F s0 Obj HF _ _ H).
  assert (LN := lens s eff im pen peff src p1 p2 p3 r OB). destruct LN as (N1 & N2 & N3).
  destruct OB as (_ & _ & Mim & _). destruct LO as (L1 & L2 & L3).
  assert (SE : c_exit C = None -> wp (get_exit_data (Some eff) (Some (v_nexit o)) (Some (v_xc o)) (Some (v_xd o)) (Some (v_xe o)) (Some (v_refl o))
                 (Some (v_trav o)) (Some (v_nen o)) (Some (v_xw o)) (Some (v_err o))) (fun _ s' => exists C', inv_e C' (Vptr NULL) s' /\ grows C C' /\ c_exit C' <> None) s).
  { intros E. eapply wp_mono; [eapply exit_ok; eauto|]. intros _ s' (c & lw & Len & H'). exists (mkC (c_ext C) (c_int C) (c_start C) (Some (c, lw))). split; [|split; [|cbn; discriminate]].
    - split; [lens_tac L1 L2 L3|].
      exists ns, (num (List.length (q_rows r))), (num (List.length (q_energies r))), x, y, z. split; [auto|]. split; [auto|]. exact H'.
    - intros b Lb. destruct b; cbn [loaded c_ext c_int c_start c_exit] in *; auto; discriminate. }
  assert (SS : c_start C = None -> wp (get_start_data (Some eff) (Some (v_nstart o)) (Some (v_nexit o)) (Some (v_sc o)) (Some (v_sd o)) (Some (v_se o)) (Some (v_ss o)) (Some (v_err o)))
     (fun _ s' => exists C', inv_e C' (Vptr NULL) s' /\ grows C C' /\ c_start C' <> None) s).
  { intros E. eapply wp_mono; [eapply start_ok; eauto|]. intros _ s' (c & H'). exists (mkC (c_ext C) (c_int C) (Some c) (c_exit C)). split; [|split; [|cbn; discriminate]].
    - split; [lens_tac L1 L2 L3|].
      exists (Vint (q_started r)), (num (List.length (q_rows r))), ne, x, y, z. split; [auto|]. split; [exact Hne|]. exact H'.
    - intros b Lb. destruct b; cbn [loaded c_ext c_int c_start c_exit] in *; auto; discriminate. }
  destruct a; cbn [loaded] in Lo; apply D in Lo; cbn [fetch];
    try (eapply wp_mono; [apply SE; exact Lo|]; intros _ s' (C' & A1 & A2 & A3); left; exists C'; auto);
    try (eapply wp_mono; [apply SS; exact Lo|]; intros _ s' (C' & A1 & A2 & A3); left; exists C'; auto).
  - destruct (q_ext r) as [|k0 ks] eqn:Er.
    + unfold get_extleak_data. eapply wp_mono; [eapply (none_gen o eff im pen peff src p1 p2 p3 r F s0 Obj HF _ _ _ _ _ _ (v_ext o) (v_next o)
        ([(v_eff o, [Vptr (Some eff)]); (v_nstart o, [ns]); (v_nexit o, [nx]); (v_nen o, [ne]); (v_n o, [x]); (v_en o, [y]); (v_ef o, [z])] ++
          intg o r (c_int C) ++ startg o r (c_start C) ++ exitg o r (c_exit C))); [exact Mim| |]|].
      * match goal with |- nth_error (_ :: _ :: ?L) _ = ?R => change (nth_error L 18 = R) end.
        rewrite nth_error_app2; rewrite map_length, N1; [|lia]. reflexivity.
      * eapply hs_perm; [|exact H]. unfold PyResInv.heapC, extg. rewrite Lo. cbn [leakg]. unfold miscb. perm.
      * intros _ s' (e & t & m & H'). right. cbn [contents]. rewrite Er. split; [reflexivity|]. split; [lens_tac L1 L2 L3|].
        exists e, t, m, ns, nx, ne, x, y, z. split; [exact Hnx|]. split; [exact Hne|]. eapply hs_perm; [|exact H'].
        unfold extg. rewrite Lo. cbn [leakg]. perm.
    + eapply wp_mono; [eapply ext_ok; eauto; rewrite Er; discriminate|]. intros _ s' (q & ls & Len & H'). left. exists (mkC (Some (q, ls)) (c_int C) (c_start C) (c_exit C)). split; [|split; [|cbn; discriminate]].
      * split; [lens_tac L1 L2 L3|].
        exists ns, nx, ne, x, y, z. split; [exact Hnx|]. split; [exact Hne|]. exact H'.
      * intros b Lb. destruct b; cbn [loaded c_ext c_int c_start c_exit] in *; auto; discriminate.
  - destruct (q_int r) as [|k0 ks] eqn:Er.
    + unfold get_intleak_data. eapply wp_mono; [eapply (none_gen o eff im pen peff src p1 p2 p3 r F s0 Obj HF _ _ _ _ _ _ (v_int o) (v_nint o)
        ([(v_eff o, [Vptr (Some eff)]); (v_nstart o, [ns]); (v_nexit o, [nx]); (v_nen o, [ne]); (v_n o, [x]); (v_en o, [y]); (v_ef o, [z])] ++
          extg o r (c_ext C) ++ startg o r (c_start C) ++ exitg o r (c_exit C))); [exact Mim| |]|].
      * match goal with |- nth_error (_ :: _ :: ?L) _ = ?R => change (nth_error L 26 = R) end.
        rewrite nth_error_app2; rewrite map_length, N1; [|lia].
        match goal with |- nth_error (_ :: ?L) _ = ?R => change (nth_error L 7 = R) end.
        rewrite nth_error_app2; rewrite map_length, N2; [|lia]. reflexivity.
      * eapply hs_perm; [|exact H]. unfold PyResInv.heapC, intg. rewrite Lo. cbn [leakg]. unfold miscb. perm.
      * intros _ s' (e & t & m & H'). right. cbn [contents]. rewrite Er. split; [reflexivity|]. split; [lens_tac L1 L2 L3|].
        exists e, t, m, ns, nx, ne, x, y, z. split; [exact Hnx|]. split; [exact Hne|]. eapply hs_perm; [|exact H'].
        unfold intg. rewrite Lo. cbn [leakg]. perm.
    + eapply wp_mono; [eapply int_ok; eauto; rewrite Er; discriminate|]. intros _ s' (q & ls & Len & H'). left. exists (mkC (c_ext C) (Some (q, ls)) (c_start C) (c_exit C)). split; [|split; [|cbn; discriminate]].
      * split; [lens_tac L1 L2 L3|].
        exists ns, nx, ne, x, y, z. split; [exact Hnx|]. split; [exact Hne|]. exact H'.
      * intros b Lb. destruct b; cbn [loaded c_ext c_int c_start c_exit] in *; auto; discriminate.
Qed.

Lemma grows_refl C : grows C C.
Proof. intros a H. exact H. Qed.
Lemma rel_grows C C' x c : grows C C' -> rel C x c -> rel C' x c.
Proof.
  intros G [H1 H2]. split; [exact H1|]. destruct (snd x), (snd c) as [[|?]|]; auto; destruct H2 as (A & B & D); auto.
Qed.

Lemma refused_ok C s e (k : M T (pyres unit)) (Q : pyres unit -> st T -> Prop) : refused C s -> mem s (v_err o) = Some [Vptr (Some e)] ->
  (forall m s', inv C s' -> Q (Raised ValueError m) s') -> wp (set_exception (Some e) k) Q s.
Proof.
  intros (LO & e' & t & m & ns & nx & ne & x & y & z & Hnx & Hne & H) Me HQ.
  assert (e = e'). { pose proof (hs_in _ _ _ (v_err o) [Vptr (Some e')] H (or_introl eq_refl)) as E. congruence. } subst e'.
  unfold set_exception. apply wp_bind. eapply hs_load_int; [exact H|right; left; reflexivity|reflexivity|].
  apply wp_bind. eapply hs_load_ptr; [exact H|right; left; reflexivity|reflexivity|].
  apply wp_bind. unfold load_str. apply wp_bind. eapply wp_load; [eapply hs_in; [exact H|right; right; left; reflexivity]|reflexivity|]. apply wp_ret.
  apply wp_bind. unfold error_free. apply wp_bind. eapply hs_load_ptr; [exact H|right; left; reflexivity|reflexivity|].
  apply wp_bind. pull t H. eapply hs_free; [exact H|]. clear s H Me. intros s H. pull e H. eapply hs_free; [exact H|]. clear s H. intros s H.
  apply wp_ret. replace (polycap_error_map POLYCAP_ERROR_INVALID_ARGUMENT) with ValueError by reflexivity. apply HQ.
  split; [exact LO|]. exists (Vptr (Some e)), ns, nx, ne, x, y, z. split; [exact Hnx|]. split; [exact Hne|].
  eapply hs_perm; [|exact H]. unfold PyResInv.heapC, miscb. perm.
Qed.

Lemma next_ok C s a g c : inv C s -> rel C (a, g) c ->
  wp (next_gen o a g) (fun xg s' => exists C', inv C' s' /\ grows C C' /\ fst xg = fst (advance r c) /\ rel C' (a, snd xg) (snd (advance r c))) s.
Proof.
  intros H [R1 R2]. destruct c as [a' c]. cbn [fst snd] in R1, R2. subst a'. destruct g as [|i n|]; destruct c as [j|]; try contradiction; cbn [next_gen].
  - destruct j; [|contradiction]. destruct H as (LO & e & ns & nx & ne & x & y & z & Hnx & Hne & H).
    apply wp_bind. eapply hs_load_ptr; [exact H|apply in_misc; left; reflexivity|reflexivity|]. cbn [is_null].
    unfold PyResInv.heapC, miscb in H. pull (v_err o) H. apply wp_bind. eapply hs_store; [exact H|cbn; lia|]. cbn [set_nth]. clear s H. intros s H.
    assert (I : inv_e C (Vptr NULL) s).
    { split; [exact LO|]. exists ns, nx, ne, x, y, z. split; [exact Hnx|]. split; [exact Hne|]. eapply hs_perm; [|exact H]. unfold PyResInv.heapC, miscb. perm. }
    clear H. apply wp_bind. eapply missing_ok; [eapply inv_of; exact I| |]; intros Lo.
    + apply wp_bind, wp_ret. eapply wp_mono; [eapply start_rounds_ok; [eapply inv_of; exact I|exact Lo]|].
      intros xg s' (-> & A & B). exists C. split; [eapply inv_of; exact I|]. split; [apply grows_refl|]. split; [exact A|exact B].
    + apply wp_bind, wp_bind. eapply wp_mono; [eapply fetch_ok; [exact I|exact Lo]|]. intros _ s' [(C' & I' & G & Lo')|(Ec & Rf)].
      * apply wp_bind. assert (I2 := I'). destruct I2 as (_ & ns' & nx' & ne' & x' & y' & z' & _ & _ & H').
        eapply hs_load_ptr; [exact H'|apply in_misc; cbn; auto|reflexivity|]. cbn [set_exception]. apply wp_ret.
        eapply wp_mono; [eapply start_rounds_ok; [eapply inv_of; exact I'|exact Lo']|].
        intros xg s2 (-> & A & B). exists C'. split; [eapply inv_of; exact I'|]. split; [exact G|]. split; [exact A|exact B].
      * assert (Rf2 := Rf). destruct Rf2 as (_ & e' & t & m & ns' & nx' & ne' & x' & y' & z' & _ & _ & H').
        assert (Me := hs_in _ _ _ (v_err o) _ H' (or_introl eq_refl)).
        apply wp_bind. eapply wp_load_ptr; [exact Me|reflexivity|]. eapply refused_ok; [exact Rf|exact Me|].
        intros m' s2 I2. apply wp_ret. exists C. split; [exact I2|]. split; [apply grows_refl|]. unfold advance. rewrite Ec. cbn [fst snd]. split; [reflexivity|]. split; [reflexivity|exact Logic.I].
  - destruct R2 as (-> & Lo & l & Ec & ->). eapply wp_mono; [eapply round_ok; eauto|]. intros xg s' (-> & A & B). exists C. split; [exact H|]. split; [apply grows_refl|]. auto.
  - apply wp_ret. exists C. split; [exact H|]. split; [apply grows_refl|]. cbn. split; [reflexivity|]. split; [reflexivity|exact Logic.I].
Qed.

Lemma Forall2_set {A B} (P : A -> B -> Prop) : forall l m k a b, Forall2 P l m -> P a b -> Forall2 P (set_nth l k a) (set_nth m k b).
Proof. intros l m k a b H. revert k. induction H as [|x y l m Hxy H IH]; intros [|k] Hab; cbn; constructor; auto. Qed.
Lemma Forall2_nth_lr {A B} (P : A -> B -> Prop) : forall l m k, Forall2 P l m ->
  match nth_error l k, nth_error m k with Some a, Some b => P a b | None, None => True | _, _ => False end.
Proof. intros l m k H. revert k. induction H as [|x y l m Hxy H IH]; intros [|k]; cbn; auto; apply IH. Qed.

Lemma Forall2_imp {A B} (P Q : A -> B -> Prop) l m : (forall a b, P a b -> Q a b) -> Forall2 P l m -> Forall2 Q l m.
Proof. intros I H. induction H; constructor; auto. Qed.

Lemma serve_ok : forall ops C s gs cs, inv C s -> Forall2 (rel C) gs cs ->
  wp (serve o ops gs) (fun xs s' => xs = answers r ops cs /\ exists C', inv C' s') s.
Proof.
  induction ops as [|[a|k] ops IH]; intros C s gs cs H R; cbn [serve answers].
  - apply wp_ret. eauto.
  - apply wp_bind. eapply wp_mono; [eapply (IH C s _ (cs ++ [(a, Some 0)])); [exact H|]|].
    + apply Forall2_app; [exact R|]. constructor; [split; [reflexivity|exact Logic.I]|constructor].
    + intros xs s' [-> C']. apply wp_ret. auto.
  - pose proof (Forall2_nth_lr (rel C) gs cs k R) as K. destruct (nth_error gs k) as [[a g]|], (nth_error cs k) as [c|]; try contradiction.
    + apply wp_bind. eapply wp_mono; [eapply next_ok; [exact H|exact K]|]. intros xg s1 (C1 & I1 & G & E1 & R1).
      destruct (advance r c) as [x c'] eqn:Ea. cbn [fst snd] in E1, R1.
      apply wp_bind. eapply wp_mono; [eapply (IH C1 s1 _ (set_nth cs k c')); [exact I1|]|].
      * apply Forall2_set; [|exact R1]. eapply Forall2_imp; [|exact R]. intros x0 c0. apply rel_grows. exact G.
      * intros xs s' [-> C']. apply wp_ret. rewrite E1. auto.
    + apply wp_bind. eapply wp_mono; [eapply (IH C s gs cs); [exact H|exact R]|]. intros xs s' [-> C']. apply wp_ret. auto.
Qed.

End Serve.
