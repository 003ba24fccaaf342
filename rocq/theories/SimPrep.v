(** * The preparation of a simulation in memory *)
From Coq Require Import ZArith List Bool Lia String.
From Verif Require Import Num Mem SpecHeap ErrorModel ErrorProofs ProfileModel ProfileProofs Geometry SpecPhoton ConsModel HeapLib SpecResult ResultModel
  ResultProofs H5Model H5Table CapilModel RunModel SrcProofs SpecSim SimModel SimHeap SimStep.
Import ListNotations.

Section Prep.
Context {T : Type} {N : Num T}.
Implicit Types (s : st T) (L : nat -> loc) (C : nat -> list (val T)) (ids : list nat).

Definition inb (k : nat) ids : bool := existsb (Nat.eqb k) ids.
Lemma inb_spec k ids : inb k ids = true <-> In k ids.
Proof.
  unfold inb. rewrite existsb_exists. split.
  - intros (x & Hx & E). apply Nat.eqb_eq in E. now subst.
  - intros H. exists k. split; [auto|apply Nat.eqb_refl].
Qed.
Lemma inb_false k ids : inb k ids = false <-> ~ In k ids.
Proof. rewrite <- inb_spec. destruct (inb k ids); split; intros; congruence || auto. Qed.

(** The named block, or NULL if there is none. *)
Definition pid L ids (k : nat) : ptr := if inb k ids then Some (L k) else NULL.

Lemma hp_free_opt s0 ids L C s k (Q : unit -> st T -> Prop) :
  hp s0 ids L C s -> (forall s', hp s0 (remove Nat.eq_dec k ids) L C s' -> Q tt s') -> wp (free_if (pid L ids k)) Q s.
Proof.
  intros H HQ. unfold pid. destruct (inb k ids) eqn:E; cbn [free_if].
  - apply inb_spec in E. eapply hp_free; [exact H|exact E|apply remove_In| | |exact HQ].
    + intros j Hj. eapply in_remove; eauto.
    + intros j Hj. destruct (Nat.eq_dec j k); [auto|right]. apply in_in_remove; auto.
  - apply wp_ret. apply HQ. apply inb_false in E. rewrite (notin_remove Nat.eq_dec); auto.
Qed.

Lemma in_remove_iff j k ids : In j (remove Nat.eq_dec k ids) <-> In j ids /\ j <> k.
Proof. split; [apply in_remove|intros []; apply in_in_remove; auto]. Qed.
Lemma inb_remove j k ids : j <> k -> inb j (remove Nat.eq_dec k ids) = inb j ids.
Proof.
  intros Ne. destruct (inb j ids) eqn:E.
  - apply inb_spec. apply inb_spec in E. apply in_remove_iff. auto.
  - apply inb_false. apply inb_false in E. rewrite in_remove_iff. tauto.
Qed.
Lemma pid_remove L j k ids : j <> k -> pid L (remove Nat.eq_dec k ids) j = pid L ids j.
Proof. intros Ne. unfold pid. now rewrite inb_remove. Qed.

Lemma hp_free_fields s0 L C fs : forall ids s (Q : unit -> st T -> Prop),
  hp s0 ids L C s -> In 47 ids -> ~ In 47 fs -> NoDup fs ->
  (forall f, In f fs -> nth_error (C 47) f = Some (Vptr (pid L ids f))) ->
  (forall s' ids', (forall j, In j ids' <-> In j ids /\ ~ In j fs) -> hp s0 ids' L C s' -> Q tt s') ->
  wp (free_fields (Some (L 47)) fs) Q s.
Proof.
  induction fs as [|f fs IH]; intros ids s Q H I47 Nf Nd E HQ; cbn [free_fields].
  - apply wp_ret. apply (HQ s ids); [intros j; cbn; tauto|exact H].
  - inversion Nd as [|? ? N1 N2]; subst. apply wp_bind. eapply hp_load_ptr; [exact H|exact I47|apply E; cbn; auto|].
    apply wp_bind. apply (hp_free_opt s0 ids L C s f); [exact H|]. intros s' H'.
    apply (IH (remove Nat.eq_dec f ids)); auto.
    + apply in_remove_iff. split; [auto|]. intros <-. apply Nf. cbn; auto.
    + intros A. apply Nf. cbn; auto.
    + intros g Hg. rewrite pid_remove by (intros ->; contradiction). apply E. cbn; auto.
    + intros s2 ids' I2 H2. apply (HQ s2 ids'); [|exact H2]. intros j. rewrite I2, in_remove_iff. cbn.
      split; [intros ((A & B) & D); split; auto; intros [F|F]; auto|intros (A & B); repeat split; auto; intros ->; auto].
Qed.

(** Releasing a result object, finished or not. *)
Lemma eff_free_hp s0 ids L C s a b (Q : unit -> st T -> Prop) : hp s0 ids L C s -> In 44 ids ->
  C 44 = [a; Vptr (pid L ids 45); Vptr (pid L ids 46); Vptr (pid L ids 47); b] ->
  (In 47 ids -> forall f, In f image_fields -> nth_error (C 47) f = Some (Vptr (pid L ids f))) ->
  (forall f, In f image_fields -> In f ids -> In 47 ids) ->
  (forall s' ids', (forall j, In j ids' <-> In j ids /\ ~ In j (44 :: 45 :: 46 :: 47 :: image_fields)) -> hp s0 ids' L C s' -> Q tt s') ->
  wp (efficiencies_free (Some (L 44))) Q s.
Proof.
  intros H I44 E F47 Sub HQ. unfold efficiencies_free.
  apply wp_bind. eapply hp_load_ptr; [exact H|exact I44|rewrite E; reflexivity|].
  apply wp_bind. apply (hp_free_opt s0 ids L C s 45); [exact H|]. clear s H. intros s H.
  apply wp_bind. eapply hp_load_ptr; [exact H|rewrite !in_remove_iff; repeat split; [exact I44|discriminate..]|rewrite E; reflexivity|].
  apply wp_bind. rewrite <- (pid_remove L 46 45 ids) by lia. apply (hp_free_opt s0 _ L C s 46); [exact H|]. clear s H. intros s H.
  apply wp_bind. eapply hp_load_ptr; [exact H|rewrite !in_remove_iff; repeat split; [exact I44|discriminate..]|rewrite E; reflexivity|].
  set (ids2 := remove Nat.eq_dec 46 (remove Nat.eq_dec 45 ids)) in *.
  assert (I2 : forall j, In j ids2 <-> In j ids /\ j <> 45 /\ j <> 46) by (intros j; unfold ids2; rewrite !in_remove_iff; tauto).
  assert (P2 : forall j, j <> 45 -> j <> 46 -> pid L ids2 j = pid L ids j) by (intros j A B; unfold ids2; rewrite !pid_remove; auto).
  assert (Fld : forall f, In f image_fields -> 2 <= f < 38).
  { intros f. cbn. intuition lia. }
  assert (Fin : forall ids3 s', (forall j, In j ids3 <-> In j ids2 /\ j <> 47 /\ ~ In j image_fields) -> hp s0 ids3 L C s' -> wp (free (Some (L 44))) Q s').
  { intros ids3 s' I3 H3. assert (A44 : In 44 ids3).
    { apply I3. split; [apply I2; repeat split; [exact I44|discriminate|discriminate]|]. split; [discriminate|]. intros A. apply Fld in A. lia. }
    eapply (hp_free s0 ids3 L C s' 44 (remove Nat.eq_dec 44 ids3)); [exact H3|exact A44|apply remove_In| | |].
    - intros j Hj. apply in_remove_iff in Hj. tauto.
    - intros j Hj. destruct (Nat.eq_dec j 44); [auto|right; apply in_remove_iff; auto].
    - intros s4 H4. apply (HQ s4 (remove Nat.eq_dec 44 ids3)); [|exact H4]. intros j. rewrite in_remove_iff, I3, I2. cbn [In].
      split; [intros (((A & B1 & B2) & B3 & B4) & B5); split; [exact A|]; intros [X|[X|[X|[X|X]]]]; auto|
              intros (A & B); repeat split; auto; intros X; apply B; auto; try (subst; auto 6)]. }
  destruct (inb 47 ids) eqn:E47.
  - assert (P47 : pid L ids 47 = Some (L 47)) by (unfold pid; now rewrite E47).
    rewrite P47. apply inb_spec in E47. apply wp_bind. unfold images_free. apply wp_bind.
    assert (I47 : In 47 ids2) by (apply I2; repeat split; [exact E47|discriminate..]).
    eapply (hp_free_fields s0 L C image_fields ids2); [exact H|exact I47| | | |].
    + intros A. apply Fld in A. lia.
    + cbn. repeat constructor; cbn; intuition lia.
    + intros f Hf. rewrite P2 by (apply Fld in Hf; lia). apply F47; auto.
    + clear s H. intros s ids3 I3 H.
      eapply (hp_free s0 ids3 L C s 47 (remove Nat.eq_dec 47 ids3)); [exact H|apply I3; split; [exact I47|intros A; apply Fld in A; lia]|apply remove_In| | |].
      * intros j Hj. apply in_remove_iff in Hj. tauto.
      * intros j Hj. destruct (Nat.eq_dec j 47); [auto|right; apply in_remove_iff; auto].
      * intros s4 H4. apply (Fin (remove Nat.eq_dec 47 ids3)); [|exact H4]. intros j. rewrite in_remove_iff, I3. tauto.
  - assert (P47 : pid L ids 47 = NULL) by (unfold pid; now rewrite E47).
    rewrite P47. apply inb_false in E47. apply wp_bind. apply wp_ret. apply (Fin ids2); [|exact H].
    intros j. split; [|tauto]. intros A. repeat split; auto; [intros ->; apply I2 in A; tauto|].
    intros B. apply E47. apply (Sub j); auto. apply I2 in A. tauto.
Qed.

(** ** Giving up *)
(** The report got memory; at most three blocks are left behind. *)
Definition gave_up (err : eslot) s s' : Prop :=
  (exists k, orc s k = false) /\ failed err POLYCAP_ERROR_MEMORY [] s s' /\ exists lost, List.length lost <= 3 /\ left_behind err lost s s' /\
    (orc s (cnt s) = true -> exists l, In l lost /\ abandoned err l s s').

Lemma hp_rebase ids L C s0 s s1 : hp s0 ids L C s -> wf s1 -> (forall k, In k ids -> mem s1 (L k) = Some (C k)) ->
  hp (setmem s1 (fun l => if inb l (List.map L ids) then None else mem s1 l)) ids L C s1.
Proof.
  intros (W & O & M & I & F & K & X) W1 M1. repeat split; auto.
  - intros k Hk. cbn. replace (inb (L k) (List.map L ids)) with true; [auto|]. symmetry. apply inb_spec, in_map, Hk.
  - intros l b. cbn. destruct (inb l _); [discriminate|auto].
  - intros l b E. cbn. destruct (inb l (List.map L ids)) eqn:E2; [|intros E3; congruence]. intros _.
    apply inb_spec, in_map_iff in E2. destruct E2 as (k & <- & Hk). eauto.
Qed.

Lemma ptr_eq_dec (a b : ptr) : {a = b} + {a <> b}.
Proof. decide equality. apply Nat.eq_dec. Qed.

Lemma wp_give_up {A} s0 ids L C s k err msg (m : M T (option A)) (Q : option A -> st T -> Prop) :
  hp s0 ids L C s -> legal_err s0 err -> reports_fit err s0 -> orc s0 k = false -> cnt s = S k -> (ids = [] -> k = cnt s0) ->
  (forall s0' s1, hp s0' ids L C s1 -> wp m (fun r s' => r = None /\ exists rest, List.length rest <= 3 /\ (rest = [] -> ids = []) /\ hp s0' rest L C s') s1) ->
  (forall s', gave_up err s0 s' -> Q None s') ->
  wp (mem_error err msg ;;; m)%mem Q s.
Proof.
  intros H Le Rf Or Ec Hc Hm HQ. apply wp_bind. change (mem_error err msg) with (@report_fn T false err POLYCAP_ERROR_MEMORY msg).
  pose proof H as (W & O & Mm & I & F & K & X).
  apply wp_report; [exact W| | |].
  - destruct err as [e|]; [|exact Logic.I]. destruct Le as [p Hp]. exists p. apply K. exact Hp.
  - intros Hne. rewrite O, Ec. destruct (Rf _ Or) as [|[A1 A2]]; [contradiction|auto].
  - intros s1 W1 O1 N1 Kp R.
    assert (M1 : forall j, In j ids -> mem s1 (L j) = Some (C j)).
    { intros j Hj. apply Kp; [auto|]. intros E. rewrite E in Le. destruct Le as [p Hp]. unfold slot_holds in Hp. rewrite F in Hp by auto. discriminate. }
    pose proof (hp_rebase ids L C s0 s s1 H W1 M1) as H1. set (s0' := setmem s1 _) in *.
    eapply wp_mono; [apply (Hm s0' s1 H1)|]. intros r s' (-> & rest & Lr & Le0 & H'). apply HQ.
    pose proof H' as (W' & O' & M' & I' & F' & K' & X').
    assert (Old : forall l b, mem s0 l = Some b -> err <> Some l -> mem s' l = Some b).
    { intros l b Hl Hne. apply K'. cbn. destruct (inb l (List.map L ids)) eqn:E.
      - apply inb_spec, in_map_iff in E. destruct E as (j & <- & Hj). rewrite F in Hl by auto. discriminate.
      - apply Kp; auto. }
    assert (New : forall l b, mem s1 l = Some b -> (forall j, In j ids -> l <> L j) -> mem s' l = Some b).
    { intros l b Hl Hne. apply K'. cbn. destruct (inb l (List.map L ids)) eqn:E; [|exact Hl].
      apply inb_spec, in_map_iff in E. destruct E as (j & <- & Hj). destruct (Hne j Hj). reflexivity. }
    assert (Nid : forall l, mem s0 l <> None -> forall j, In j ids -> l <> L j).
    { intros l Hl j Hj ->. apply Hl. apply F, Hj. }
    assert (Nid2 : forall l, mem s l = None -> forall j, In j ids -> l <> L j).
    { intros l Hl j Hj ->. rewrite Mm in Hl by auto. discriminate. }
    assert (Lost : rest <> [] -> exists l, In l (List.map L rest) /\ abandoned err l s0 s').
    { destruct rest as [|j rest]; [congruence|]. intros _. exists (L j). split; [cbn; auto|].
      assert (Fj : mem s0' (L j) = None) by (apply F'; cbn; auto).
      assert (Gj : In (L j) (List.map L ids) \/ mem s1 (L j) = None).
      { cbn in Fj. destruct (inb (L j) (List.map L ids)) eqn:E; [left; apply inb_spec; exact E|right; exact Fj]. }
      split; [|split].
      - destruct Gj as [G|G]; [apply in_map_iff in G; destruct G as (i & <- & Hi); auto|].
        destruct (mem s0 (L j)) as [b|] eqn:E; [|reflexivity]. exfalso.
        destruct (ptr_eq_dec err (Some (L j))) as [Ee|Ne]; [|rewrite (Kp _ b (K _ _ E) Ne) in G; discriminate].
        subst err. destruct R as [R1 R2]. destruct Le as [p0 Hp0].
        assert (Es : slot_holds s (L j) p0) by (apply K; exact Hp0).
        destruct p0 as [p0|]; [rewrite (R2 p0 Es), Es in G; discriminate|].
        destruct (R1 Es) as (p & t & S1 & _). unfold slot_holds in S1. congruence.
      - rewrite (M' j) by (cbn; auto). discriminate.
      - intros slot e t c m1 -> Hs0 Hs' Ho. destruct R as [R1 _]. pose proof Hs0 as Es. unfold slot_holds in Es. apply K in Es.
        destruct (R1 Es) as (p & t0 & S1 & (S2 & S3 & S4) & Fp & Ft & Sm).
        assert (Ne : forall i, In i ids -> slot <> L i) by (apply Nid; unfold slot_holds in Hs0; congruence).
        assert (S1' : mem s' slot = Some [Vptr (Some p)]) by (apply New; auto).
        unfold slot_holds in Hs'. rewrite S1' in Hs'. injection Hs' as <-.
        assert (S2' : mem s' p = Some [Vint POLYCAP_ERROR_MEMORY; Vptr (Some t0)]) by (apply New; auto).
        destruct Ho as (Ho1 & _ & _). rewrite S2' in Ho1. injection Ho1 as _ <-.
        split; intros E; (destruct Gj as [G|G]; [apply in_map_iff in G; destruct G as (i & Ei & Hi); apply (Nid2 (L j)) with (j := i); [congruence|exact Hi|auto]|congruence]). }
    split; [eauto|]. split.
    + split; [intros l b Hl _ Hne; auto|]. intros e ->. destruct R as [R1 R2]. destruct Le as [p0 Hp0].
      assert (Ne : forall j, In j ids -> e <> L j) by (apply Nid; unfold slot_holds in Hp0; congruence).
      split.
      * intros Hs. destruct R1 as (p & t & S1 & (S2 & S3 & S4) & Fp & Ft & _); [apply K; exact Hs|].
        exists p, t, msg. split; [apply New; auto|]. split; [repeat split; auto; apply New; auto|].
        intros l El _. destruct (mem s0 l) as [b|] eqn:E; [|reflexivity]. apply K in E. destruct El as [->| ->]; congruence.
      * intros p Hs. unfold slot_holds in *. apply New; auto. rewrite (R2 p); apply K; exact Hs.
    + exists (List.map L rest). split; [rewrite map_length; auto|]. split.
      2:{ intros Hfst. apply Lost. intros E. apply Le0 in E. apply Hc in E. congruence. }
      intros l Hl Hl'.
      destruct (mem s' l) as [b|] eqn:E'; [|contradiction]. clear Hl'.
      destruct (mem s0' l) as [b0|] eqn:E0.
      2:{ destruct (X' l b E' E0) as (j & Hj & ->). left. apply in_map, Hj. }
      right. cbn in E0. destruct (inb l (List.map L ids)) eqn:Ei; [discriminate|].
      assert (El : mem s l = None).
      { destruct (mem s l) as [x|] eqn:E; [|auto]. destruct (X l x E Hl) as (j & Hj & ->). apply inb_false in Ei. destruct Ei. apply in_map, Hj. }
      destruct err as [e|].
      2:{ cbn in R. rewrite R, El in E0. discriminate. }
      destruct R as [R1 R2]. destruct Le as [p0 Hp0].
      assert (Ne : forall j, In j ids -> e <> L j) by (apply Nid; unfold slot_holds in Hp0; congruence).
      assert (Es : slot_holds s e p0) by (apply K; exact Hp0).
      destruct p0 as [p0|]; [rewrite (R2 p0 Es), El in E0; discriminate|].
      destruct (R1 Es) as (p & t & S1 & (S2 & S3 & S4) & Fp & Ft & Sm).
      exists e, p, t, POLYCAP_ERROR_MEMORY, msg. repeat split; auto; try (apply New; auto).
      destruct (Nat.eq_dec l p); [auto|]. destruct (Nat.eq_dec l t); [auto|]. exfalso.
      rewrite Sm in E0; [congruence|]. cbn. intros [<-|[<-|[<-|[]]]]; auto. unfold slot_holds in Es. congruence.
Qed.

End Prep.
