(** * The end of a simulation in memory *)
From Coq Require Import ZArith List Bool Lia String.
From Verif Require Import Num Mem SpecHeap ErrorModel ErrorProofs ProfileModel ProfileProofs Geometry SpecPhoton ConsModel HeapLib SpecResult ResultModel
  H5Model H5Table CapilModel RunModel SimModel SimHeap SimStep.
Import ListNotations.

Section End_.
Context {T : Type} {N : Num T}.
Implicit Types (s : st T) (L : nat -> loc) (C : nat -> list (val T)) (ids : list nat).
Variables (s0 : st T) (src d le : loc) (sb db : list (val T)) (en : list T) (n mt : nat).
Local Notation ne := (List.length en).
Hypothesis Hsrc : mem s0 src = Some sb.
Hypothesis Hne : nth_error sb S_NEN = Some (Vint (Z.of_nat ne)).
Hypothesis Hen : nth_error sb S_EN = Some (Vptr (Some le)).
Hypothesis Hle : dbl_array s0 le en.
Hypothesis Hd : mem s0 d = Some db.
Hypothesis Hdl : 2 < List.length db.
Hypothesis Hds : d <> src.
Hypothesis Hdle : d <> le.

Section Fix.
Variables (G : list nat) (L : nat -> loc) (sh : shared T).
Hypothesis HG : forall k, In k G -> 21 <= k < 38.
Hypothesis HS : List.length (sh_sumw sh) = ne.

Definition ie : Z := total CExit mt sh.
Definition nen : Z := total CNotEntered mt sh.
Definition ntr : Z := total CNotTransmitted mt sh.
Definition oarea : T := (nofZ (ie + ntr)%Z / nofZ (ie + nen + ntr)%Z)%num.
Definition effs : list T := List.map (fun w => w / (nofZ ie + nofZ ntr) * oarea)%num (sh_sumw sh).
(** Memory when only the description was updated. *)
Definition s0e : st T := setmem s0 (upd (mem s0) d (Some (Mem.set_nth db 2 (Vdbl oarea)))).

Definition ecell (m k i : nat) : val T :=
  if Nat.eqb k 44 then nth i [Vint (Z.of_nat ne); Vptr (Some (L 45)); Vptr (Some (L 46)); Vptr (Some (L 47)); Vptr (Some src)] Vundef else
  if Nat.eqb k 45 then if Nat.ltb i m then nth i (List.map Vdbl en) Vundef else Vundef else
  if Nat.eqb k 46 then if Nat.ltb i m then nth i (List.map Vdbl effs) Vundef else Vundef else
  if (Nat.eqb k 47 && Nat.eqb i 0)%bool then Vint (ie + nen + ntr) else
  if (Nat.eqb k 47 && Nat.eqb i 1)%bool then Vint ie else cell src ne G L sh k i.

Lemma sum_counts_ok s m : forall from a b c (Q : Z * Z * Z -> st T -> Prop), in_memory s0 src n ne mt G L sh s -> from + m = mt ->
  a = fold_left Z.add (List.map (sh_cnt sh CExit) (seq 0 from)) 0%Z ->
  b = fold_left Z.add (List.map (sh_cnt sh CNotEntered) (seq 0 from)) 0%Z ->
  c = fold_left Z.add (List.map (sh_cnt sh CNotTransmitted) (seq 0 from)) 0%Z ->
  Q (ie, nen, ntr) s ->
  wp (sum_counts m from (Some (L 41)) (Some (L 42)) (Some (L 43)) a b c) Q s.
Proof.
  induction m as [|m IH]; intros from a b c Q H Hm Ha Hb Hc HQ; cbn [sum_counts].
  - apply wp_ret. replace from with mt in * by lia. subst. exact HQ.
  - apply wp_bind. eapply (ha_load_int _ _ _ _ _ _ 41); [exact H|apply (in_base 1 (le_n 1)); lia|cbn; lia|reflexivity|].
    apply wp_bind. eapply (ha_load_int _ _ _ _ _ _ 42); [exact H|apply (in_base 1 (le_n 1)); lia|cbn; lia|reflexivity|].
    apply wp_bind. eapply (ha_load_int _ _ _ _ _ _ 43); [exact H|apply (in_base 1 (le_n 1)); lia|cbn; lia|reflexivity|].
    apply IH; auto; try lia; subst; rewrite seq_S, map_app, fold_left_app; reflexivity.
Qed.

Lemma src_e : mem s0e src = Some sb.
Proof. unfold s0e. cbn. rewrite upd_other by auto. exact Hsrc. Qed.
Lemma le_e : dbl_array s0e le en.
Proof. unfold s0e, dbl_array. cbn. rewrite upd_other by auto. exact Hle. Qed.
Lemma d_e : mem s0e d = Some (Mem.set_nth db 2 (Vdbl oarea)).
Proof. unfold s0e. cbn. apply upd_same. Qed.

Lemma effs_nth i w : nth_error (sh_sumw sh) i = Some w -> nth_error effs i = Some (w / (nofZ ie + nofZ ntr) * oarea)%num.
Proof. intros E. unfold effs. rewrite nth_error_map, E. reflexivity. Qed.

Lemma complete_ok v s (Q : ptr -> st T -> Prop) :
  in_memory s0 src n ne mt G L sh s -> the_vars src mt L v -> v_desc v = Some d ->
  (forall s', hp s0e (G ++ seq 2 18 ++ seq 44 4) L (arr (len n ne mt sh) (ecell ne)) s' -> Q (Some (L 44)) s') ->
  wp (complete v) Q s.
Proof.
  intros H (V1 & V2 & V3 & V4 & V5 & V6 & V7) Vd HQ. unfold complete. rewrite V2, V4, V5, V6, V7, Vd, V1, V3.
  apply wp_bind. eapply sum_counts_ok; eauto. cbv zeta beta iota.
  apply wp_bind. unfold in_memory in H. eapply (hp_store_old s0 _ L _ s d db 2); [exact H|exact Hd|exact Hdl|]. clear s H. intros s H.
  change (hp s0e (G ++ base_ids) L (arr (len n ne mt sh) (cell src ne G L sh)) s) in H.
  assert (B : forall k, (2 <= k < 20 \/ 40 <= k < 48) -> In k (G ++ base_ids)) by (intros; apply (in_base 1 (le_n 1)); auto).
  apply wp_bind. eapply wp_load_int; [eapply hp_old; [exact H|exact src_e]|exact Hne|].
  apply wp_bind. eapply (ha_store s0e _ L _ _ s 44 0); [exact H|apply B; lia|cbn; lia|]. clear s H. intros s H.
  apply wp_bind. eapply (ha_load_ptr _ _ _ _ _ _ 44 3); [exact H|apply B; lia|cbn; lia|reflexivity|].
  apply wp_bind. eapply (ha_store s0e _ L _ _ s 47 0); [exact H|apply B; lia|cbn; lia|]. clear s H. intros s H.
  apply wp_bind. eapply (ha_store s0e _ L _ _ s 47 1); [exact H|apply B; lia|cbn; lia|]. clear s H. intros s H.
  assert (G47 : ~ In 47 G) by (intros A; apply HG in A; lia).
  apply wp_bind. rewrite Nat2Z.id.
  apply (wp_for_n (fun m s => hp s0e (G ++ base_ids) L (arr (len n ne mt sh) (ecell m)) s)).
  { eapply ha_ext; [| |exact H]; [reflexivity|]. intros k i Ik Hi. unfold ecell, putc. 
    destruct (Nat.eqb_spec k 47) as [->|N7]; cbn [Nat.eqb andb].
    { destruct (Nat.eqb_spec i 1) as [->|]; [reflexivity|]. destruct (Nat.eqb_spec i 0) as [->|]; reflexivity. }
    destruct (Nat.eqb_spec k 44) as [->|N4]; cbn [andb].
    { cbn in Hi. destruct i as [|i]; [reflexivity|]. do 4 (destruct i as [|i]; [reflexivity|]). lia. }
    destruct (Nat.eqb_spec k 45) as [->|N5]; [reflexivity|]. destruct (Nat.eqb_spec k 46) as [->|N6]; [reflexivity|]. reflexivity. }
  { intros i s1 Hi H1. cbn [Nat.add] in Hi.
    assert (Eg : exists x, nth_error en i = Some x).
    { destruct (nth_error en i) eqn:E; eauto. apply nth_error_None in E. lia. }
    destruct Eg as (x & Ex).
    assert (Eg : exists w, nth_error (sh_sumw sh) i = Some w).
    { destruct (nth_error (sh_sumw sh) i) eqn:E; eauto. apply nth_error_None in E. lia. }
    destruct Eg as (w & Ew).
    unfold finish_energy. rewrite V1, V3, V7, Vd.
    apply wp_bind. eapply wp_load_ptr; [eapply hp_old; [exact H1|exact src_e]|exact Hen|].
    apply wp_bind. eapply wp_load_dbl; [eapply hp_old; [exact H1|exact le_e]|rewrite nth_error_map, Ex; reflexivity|].
    apply wp_bind. eapply (ha_load_ptr _ _ _ _ _ _ 44 1); [exact H1|apply B; lia|cbn; lia|reflexivity|].
    apply wp_bind. eapply (ha_store s0e _ L _ _ s1 45 i); [exact H1|apply B; lia|cbn; lia|]. clear s1 H1. intros s1 H1.
    apply wp_bind. eapply (ha_load_dbl _ _ _ _ _ _ 40 i); [exact H1|apply B; lia|cbn; lia|unfold putc; cbn [Nat.eqb andb]; unfold ecell; cbn [Nat.eqb andb]; apply nth_dbl; exact Ew|].
    apply wp_bind. eapply wp_load_dbl; [eapply hp_old; [exact H1|exact d_e]|rewrite nth_error_set_nth_same by exact Hdl; reflexivity|].
    apply wp_bind. eapply (ha_load_ptr _ _ _ _ _ _ 44 2); [exact H1|apply B; lia|cbn; lia|reflexivity|].
    eapply (ha_store s0e _ L _ _ s1 46 i); [exact H1|apply B; lia|cbn; lia|]. clear s1 H1. intros s1 H1.
    eapply ha_ext; [| |exact H1]; [reflexivity|]. intros k j Ik Hj. unfold putc.
    destruct (Nat.eqb_spec k 46) as [->|N6]; cbn [Nat.eqb andb].
    { unfold ecell. cbn [Nat.eqb andb]. destruct (Nat.eqb_spec j i) as [->|Nj].
      - destruct (Nat.ltb_spec i (S i)); [|lia]. apply nth_dbl. apply effs_nth. exact Ew.
      - destruct (Nat.ltb_spec j (S i)), (Nat.ltb_spec j i); try reflexivity; lia. }
    destruct (Nat.eqb_spec k 45) as [->|N5]; cbn [Nat.eqb andb].
    { unfold ecell. cbn [Nat.eqb andb]. destruct (Nat.eqb_spec j i) as [->|Nj].
      - destruct (Nat.ltb_spec i (S i)); [|lia]. apply nth_dbl. exact Ex.
      - destruct (Nat.ltb_spec j (S i)), (Nat.ltb_spec j i); try reflexivity; lia. }
    unfold ecell. apply Nat.eqb_neq in N6, N5. rewrite N6, N5. reflexivity. }
  clear s H. intros s H. cbn [Nat.add] in H.
  apply wp_bind. eapply (hp_free s0e _ L _ s 40 (G ++ seq 2 18 ++ seq 41 7)); [exact H|apply B; lia| | | |].
  { rewrite !in_app_iff, !in_seq. intros [A|A]; [apply HG in A; lia|lia]. }
  { intros j. unfold base_ids. rewrite !in_app_iff, !in_seq. intros [A|A]; [auto|right; lia]. }
  { intros j. unfold base_ids. rewrite !in_app_iff, !in_seq. intros [A|A]; [auto|]. destruct (Nat.eq_dec j 40); [auto|right; right; lia]. }
  clear s H. intros s H.
  apply wp_bind. eapply (hp_free s0e _ L _ s 41 (G ++ seq 2 18 ++ seq 42 6)); [exact H|rewrite !in_app_iff, !in_seq; lia| | | |].
  { rewrite !in_app_iff, !in_seq. intros [A|A]; [apply HG in A; lia|lia]. }
  { intros j. rewrite !in_app_iff, !in_seq. intros [A|A]; [auto|right; lia]. }
  { intros j. rewrite !in_app_iff, !in_seq. intros [A|A]; [auto|]. destruct (Nat.eq_dec j 41); [auto|right; right; lia]. }
  clear s H. intros s H.
  apply wp_bind. eapply (hp_free s0e _ L _ s 42 (G ++ seq 2 18 ++ seq 43 5)); [exact H|rewrite !in_app_iff, !in_seq; lia| | | |].
  { rewrite !in_app_iff, !in_seq. intros [A|A]; [apply HG in A; lia|lia]. }
  { intros j. rewrite !in_app_iff, !in_seq. intros [A|A]; [auto|right; lia]. }
  { intros j. rewrite !in_app_iff, !in_seq. intros [A|A]; [auto|]. destruct (Nat.eq_dec j 42); [auto|right; right; lia]. }
  clear s H. intros s H.
  apply wp_bind. eapply (hp_free s0e _ L _ s 43 (G ++ seq 2 18 ++ seq 44 4)); [exact H|rewrite !in_app_iff, !in_seq; lia| | | |].
  { rewrite !in_app_iff, !in_seq. intros [A|A]; [apply HG in A; lia|lia]. }
  { intros j. rewrite !in_app_iff, !in_seq. intros [A|A]; [auto|right; lia]. }
  { intros j. rewrite !in_app_iff, !in_seq. intros [A|A]; [auto|]. destruct (Nat.eq_dec j 43); [auto|right; right; lia]. }
  clear s H. intros s H. apply wp_ret. apply HQ, H.
Qed.
End Fix.
End End_.
