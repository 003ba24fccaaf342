(** * The constructors of the C library on a list of owned blocks *)
From Coq Require Import ZArith List Bool Lia String Permutation.
From Verif Require Import Num Mem SpecHeap HeapLib ErrorModel ErrorProofs ProfileModel ProfileProofs Geometry ConsModel CapilModel DescProofs SrcProofs SepLib
  FlightRep FlightHeap FlightHeap2 FlightLaunch FlightLaunch2 PyModel PyResProofs PyResInv SpecPyObj PyObjHeap.
Import ListNotations.
Local Notation ret := Mem.ret.
Local Notation bind := Mem.bind.

Section Cons.
Context {T : Type} {N : Num T}.
Local Notation blocks := (list (loc * @block T)).
Implicit Types (s : st T) (F : loc -> option (@block T)).

Definition well_sized (a : profile T) : Prop :=
  List.length (p_z a) = S (p_nmax a) /\ List.length (p_cap a) = S (p_nmax a) /\ List.length (p_ext a) = S (p_nmax a).

Lemma validate_some a n_cap : well_sized a -> exists v, profile_validate a n_cap = Some v.
Proof.
  intros (A & B & C). unfold profile_validate. rewrite A, B, C, Nat.leb_refl. cbn [andb]. destruct (neqb _ _); eauto.
Qed.

(** ** Reports *)
Lemma hs_reported F le c m (R : blocks) s s' : hs F ((le, [Vptr NULL]) :: R) s -> wf s' -> orc s' = orc s ->
  error_reported (Some le) c m s s' -> exists o t, hs F ((le, [Vptr (Some o)]) :: (o, [Vint c; Vptr (Some t)]) :: (t, [Vstr m]) :: R) s'.
Proof.
  intros H W' O' [E _]. destruct E as (o & t & S1 & (O1 & O2 & O3) & Fo & Ft & X).
  { eapply hs_in; [exact H|left; reflexivity]. }
  exists o, t. apply (hs_change F [(le, [Vptr NULL])] [(le, [Vptr (Some o)]); (o, [Vint c; Vptr (Some t)]); (t, [Vstr m])] R s s' [o; t]).
  - exact H.
  - exact W'.
  - exact O'.
  - intros l Hl. apply X. cbn in *. tauto.
  - intros l [<-|[<-|[]]]; assumption.
  - constructor; [cbn; intuition congruence|constructor; [tauto|constructor]].
  - cbn. apply (Permutation_cons_append [o; t] le).
  - rewrite !hold_cons. repeat split; auto. apply hold_nil.
Qed.

Ltac pload l H := pull l H; eapply hs_load_ptr; [exact H|left; reflexivity|reflexivity|].

Definition dn_post F e p lz lc le (a : profile T) liz lwi izs wis sig n_cap dens (R : blocks) (r : ptr) (s' : st T) : Prop :=
  if shape_ok a n_cap
  then exists d liz' lwi' lp' lz' lc' le' open EB, r = Some d /\ slot e (negb (snd (norm_weights wis))) EB /\
    hs F (EB ++ descb d liz' lwi' lp' lz' lc' le' open (mkOptic a n_cap sig dens izs (fst (norm_weights wis))) ++
          profb p lz lc le a ++ (liz, List.map Vint izs) :: (lwi, List.map Vdbl wis) :: R) s'
  else exists l EB, r = None /\ slot e true EB /\
    hs F (EB ++ (l, List.map Vdbl (p_ext a)) :: profb p lz lc le a ++ (liz, List.map Vint izs) :: (lwi, List.map Vdbl wis) :: R) s'.

Lemma hs_description_new F e p lz lc le (a : profile T) liz lwi izs wis sig n_cap dens (R : blocks) s :
  well_sized a -> List.length wis = List.length izs -> desc_args_ok sig n_cap izs dens ->
  hs F ((e, [Vptr NULL]) :: profb p lz lc le a ++ (liz, List.map Vint izs) :: (lwi, List.map Vdbl wis) :: R) s ->
  wp (description_new (Some p) sig n_cap (List.length izs) (Some liz) (Some lwi) dens (Some e))
    (dn_post F e p lz lc le a liz lwi izs wis sig n_cap dens R) s.
Proof.
  intros (Sz & Sc & Se) Lw (G1 & G2 & G3 & G4 & G5) H. set (Q := dn_post _ _ _ _ _ _ _ _ _ _ _ _ _ _ _). assert (HQ : Q = dn_post F e p lz lc le a liz lwi izs wis sig n_cap dens R) by reflexivity. clearbody Q.
  set (n := List.length izs) in *. unfold description_new, reject_if, is_null.
  rewrite G1, G4. replace (n_cap <=? 1)%Z with false by (symmetry; apply Z.leb_gt; lia). replace (n <? 1) with false by (symmetry; apply Nat.ltb_ge; lia).
  apply wp_bind. apply (wp_iz_loop liz izs izs n []); [unfold n; lia|reflexivity| |].
  { eapply hs_in; [exact H|]. right. apply in_or_app. right. left. reflexivity. }
  unfold n at 1. rewrite firstn_all, G5. cbn [negb].
  apply wp_bind. eapply hs_alloc; [exact H|]. clear H s. intros d s H.
  apply wp_bind. eapply hs_malloc; [exact H|]. clear H s. intros diz s H.
  pull d H. apply wp_bind. eapply hs_store; [exact H|cbn; lia|]. cbn [set_nth]. clear H s. intros s H.
  apply wp_bind. eapply hs_malloc; [exact H|]. clear H s. intros dwi s H.
  pull d H. apply wp_bind. eapply hs_store; [exact H|cbn; lia|]. cbn [set_nth]. clear H s. intros s H.
  apply wp_bind. eapply hs_store; [exact H|cbn; lia|]. cbn [set_nth]. clear H s. intros s H.
  apply wp_bind. eapply hs_store; [exact H|cbn; lia|]. cbn [set_nth]. clear H s. intros s H.
  apply wp_bind. eapply hs_store; [exact H|cbn; lia|]. cbn [set_nth]. clear H s. intros s H.
  apply wp_bind. eapply hs_store; [exact H|cbn; lia|]. cbn [set_nth]. clear H s. intros s H.
  pull dwi H. pull diz H. apply wp_bind.
  eapply (hs_copy_elems F diz dwi liz lwi izs wis n); [reflexivity|unfold n; lia|exact H| | |].
  { right. right. apply in_or_app. right. left. reflexivity. }
  { right. right. apply in_or_app. right. right. left. reflexivity. }
  clear H s. intros s H. apply wp_bind. pull e H. pull dwi H. replace n with (List.length wis) by (unfold n; lia).
  eapply hs_check_weight; [exact H|]. clear H s. intros EB s SL H.
  unfold description_profile. apply wp_bind. eapply hs_alloc; [exact H|]. clear H s. intros q s H.
  pull d H. apply wp_bind. eapply hs_store; [exact H|cbn; lia|]. cbn [set_nth]. clear H s. intros s H.
  assert (Ip : forall L1 L2 : blocks, In (p, [Vint (Z.of_nat (p_nmax a)); Vptr (Some lz); Vptr (Some lc); Vptr (Some le)]) (L1 ++ profb p lz lc le a ++ L2))
    by (intros; apply in_or_app; right; left; reflexivity).
  unfold profb in H. cbn [app] in H.
  apply wp_bind. pull p H. eapply hs_load_int; [exact H|left; reflexivity|reflexivity|].
  replace (Z.to_nat (Z.of_nat (p_nmax a) + 1)) with (S (p_nmax a)) by lia. set (m := S (p_nmax a)) in *. cbv zeta.
  pull q H. apply wp_bind. eapply hs_store; [exact H|cbn; lia|]. cbn [set_nth]. clear H s. intros s H.
  apply wp_bind. eapply hs_malloc; [exact H|]. clear H s. intros qz s H.
  pull q H. apply wp_bind. eapply hs_store; [exact H|cbn; lia|]. cbn [set_nth]. clear H s. intros s H.
  apply wp_bind. eapply hs_malloc; [exact H|]. clear H s. intros qc s H.
  pull q H. apply wp_bind. eapply hs_store; [exact H|cbn; lia|]. cbn [set_nth]. clear H s. intros s H.
  apply wp_bind. eapply hs_malloc; [exact H|]. clear H s. intros qe s H.
  pull q H. apply wp_bind. eapply hs_store; [exact H|cbn; lia|]. cbn [set_nth]. clear H s. intros s H.
  pull p H. apply wp_bind. eapply hs_load_ptr; [exact H|left; reflexivity|reflexivity|].
  apply wp_bind. eapply hs_load_ptr; [exact H|left; reflexivity|reflexivity|].
  apply wp_bind. eapply hs_load_ptr; [exact H|left; reflexivity|reflexivity|].
  pull qe H. pull qc H. pull qz H.
  apply wp_bind. eapply (hs_copy_points F qz qc qe lz lc le (p_z a) (p_cap a) (p_ext a) m); [unfold m; lia|unfold m; lia|unfold m; lia|exact H|inL|inL|inL|].
  clear H s. intros s H.
  assert (X0 : forall xs, List.length xs = m -> nth_error (List.map (@Vdbl T) xs) 0 = Some (Vdbl (nth 0 xs (#0)%num))) by (intros [|y xs]; [discriminate|reflexivity]).
  apply wp_bind. eapply hs_load_dbl; [exact H|right; left; reflexivity|apply X0; exact Sc|].
  apply wp_bind. eapply hs_load_dbl; [exact H|right; right; left; reflexivity|apply X0; exact Se|].
  set (open := open_area_num _ _ _). pull d H. apply wp_bind. eapply hs_store; [exact H|cbn; lia|]. cbn [set_nth]. clear H s. intros s H.
  destruct (validate_some a n_cap (conj Sz (conj Sc Se))) as [v Ev].
  assert (Fin : forall EB b s, slot e b EB -> (v = 1%Z -> b = negb (snd (norm_weights wis))) ->
     hs F (EB ++ (d, [Vdbl sig; Vint n_cap; Vdbl open; Vint (Z.of_nat n); Vptr (Some diz); Vptr (Some dwi); Vdbl dens; Vptr (Some q)]) ::
           (diz, List.map Vint izs) :: (dwi, List.map Vdbl (fst (norm_weights wis))) ::
           (q, [Vint (Z.of_nat (p_nmax a)); Vptr (Some qz); Vptr (Some qc); Vptr (Some qe)]) ::
           (qz, List.map Vdbl (p_z a)) :: (qc, List.map Vdbl (p_cap a)) :: (qe, List.map Vdbl (p_ext a)) ::
           profb p lz lc le a ++ (liz, List.map Vint izs) :: (lwi, List.map Vdbl wis) :: R) s ->
     wp (if negb (Z.eqb v 1) then bind (clear_error (Some e)) (fun _ =>
            bind (invalid (Some e) "polycap_description_new: description->profile is faulty. Some capillary coordinates are outside of the external radius.") (fun _ =>
            bind (free (Some diz)) (fun _ => bind (free (Some dwi)) (fun _ => bind (free (Some qc)) (fun _ => bind (free (Some qz)) (fun _ => bind (free (Some q)) (fun _ => bind (free (Some d)) (fun _ => ret NULL)))))))) else ret (Some d)) Q s).
  { clear H s EB SL. intros EB b s SL Hb H. rewrite HQ. unfold dn_post, shape_ok. rewrite Ev. destruct (Z.eqb_spec v 1) as [->|Hv]; cbn [negb].
    - apply wp_ret. exists d, diz, dwi, q, qz, qc, qe, open, EB. split; [reflexivity|]. rewrite <- (Hb eq_refl). split; [exact SL|].
      unfold n in H. unfold descb, zlen. cbn [o_rough o_ncap o_iz o_wi o_dens o_prof]. eapply hs_perm; [|exact H]. perm.
    - apply wp_bind. eapply hs_clear; [exact SL|exact H|]. clear H s SL. intros s H. unfold invalid.
      apply wp_bind. eapply (hs_report F e false [(e, [Vptr NULL])]); [constructor|exact H|]. clear H s EB. intros EB s SL H.
      pull diz H. apply wp_bind. eapply hs_free; [exact H|]. clear H s. intros s H.
      pull dwi H. apply wp_bind. eapply hs_free; [exact H|]. clear H s. intros s H.
      pull qc H. apply wp_bind. eapply hs_free; [exact H|]. clear H s. intros s H.
      pull qz H. apply wp_bind. eapply hs_free; [exact H|]. clear H s. intros s H.
      pull q H. apply wp_bind. eapply hs_free; [exact H|]. clear H s. intros s H.
      pull d H. apply wp_bind. eapply hs_free; [exact H|]. clear H s. intros s H. apply wp_ret.
      exists qe, EB. split; [reflexivity|]. split; [exact SL|exact H]. }
  apply wp_bind. eapply (wp_validate_heap q qz qc qe (Z.of_nat (p_nmax a)) (p_z a) (p_cap a) (p_ext a) n_cap v).
  - eapply hs_in; [exact H|]. inL.
  - eapply hs_in; [exact H|]. inL.
  - eapply hs_in; [exact H|]. inL.
  - eapply hs_in; [exact H|]. inL.
  - lia.
  - unfold m in *. lia.
  - unfold m in *. lia.
  - unfold m in *. lia.
  - rewrite Nat2Z.id. destruct a; exact Ev.
  - intros Hv. eapply (Fin EB); [exact SL|reflexivity|]. eapply hs_perm; [|exact H]. unfold profb. perm.
  - intros ->. apply wp_bind.
    match type of H with hs _ ?L _ => match L with context [EB ++ ?R1] => idtac end end.
    eapply (hs_report F e _ EB); [exact SL| |].
    + eapply hs_perm; [|exact H]. instantiate (1 := (d, [Vdbl sig; Vint n_cap; Vdbl open; Vint (Z.of_nat n); Vptr (Some diz); Vptr (Some dwi); Vdbl dens; Vptr (Some q)]) ::
           (diz, List.map Vint izs) :: (dwi, List.map Vdbl (fst (norm_weights wis))) ::
           (q, [Vint (Z.of_nat (p_nmax a)); Vptr (Some qz); Vptr (Some qc); Vptr (Some qe)]) ::
           (qz, List.map Vdbl (p_z a)) :: (qc, List.map Vdbl (p_cap a)) :: (qe, List.map Vdbl (p_ext a)) ::
           profb p lz lc le a ++ (liz, List.map Vint izs) :: (lwi, List.map Vdbl wis) :: R). unfold profb. perm.
    + clear H s. intros EB' s SL' H. apply wp_ret. eapply (Fin EB' true); [exact SL'|discriminate|exact H].
Qed.
End Cons.
