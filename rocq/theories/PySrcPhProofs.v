(** * Proofs about photons from Source.get_photon *)
From Coq Require Import ZArith List Bool Lia String Permutation.
From Verif Require Import Num Mem SpecHeap SpecPhoton HeapLib ErrorModel ProfileModel Geometry ConsModel RM RMLogic CapilModel TraceModel LaunchModel SourceModel SrcProofs SrcPhoton PhotProofs SepLib
  FlightMem FlightRep FlightHeap FlightHeap2 FlightLaunch FlightLaunch2 FlightProp SpecFlight PropFlight PyModel SpecPy PyResult PyResProofs PyResInv PyResServe SpecResult SpecPyPhoton PyPhoton PyPhProofs PyPhServe PyPhNext PyPhEnd
  SpecPyObj PyObjHeap PySrcPhoton PropPyPhoton.
Import ListNotations.
Local Notation ret := Mem.ret.
Local Notation bind := Mem.bind.

Section S.
Context {T : Type} {N : Num T}.
Local Notation blocks := (list (loc * @block T)).
Implicit Types (s : st T).

Definition photb (d : loc) (dr : drawn T) : @block T :=
  photon_block (Some d) NULL NULL 0 0 (dr_start dr) (dr_dir dr) (dr_elecv dr) (dr_start dr) (dr_dir dr) (dr_elecv dr) (dr_src dr) 0 NULL NULL NULL NULL 0 (#0)%num.

Lemma hs_source_photon F u p len lr lg d (k : source_nums T) ens bg liz lwi lp lz lc le open (o : optic T) rs dr rs' (R : blocks) (Q : option (pyres unit) -> st T -> Prop) a b c e f g h s :
  sized o -> draw_photon k (o_ncap o) (nth 0 (p_cap (o_prof o)) (#0)%num) (nth 0 (p_ext (o_prof o)) (#0)%num) rs = Some (dr, rs') ->
  photon_fresh (dr_start dr) (dr_dir dr) (dr_elecv dr) <> None ->
  hs F (cells u a b c e f g h ++ srcb p len lr lg d (nums_list k) ens bg ++ descb d liz lwi lp lz lc le open o ++ R) s ->
  (forall ph s', hs F ((ph, photb d dr) :: cells u (Vptr (Some ph)) (Vptr NULL) c (Vptr NULL) (Vint 0) (Vptr NULL) (Vint 0) ++ srcb p len lr lg d (nums_list k) ens bg ++ descb d liz lwi lp lz lc le open o ++ R) s' -> Q (Some (Value tt)) s') ->
  wp (source_photon u (Some p) rs) Q s.
Proof.
  intros (Z1 & Z2 & Z3 & Z4) Dr Hf H HQ. unfold source_photon, cells in *. set (SB := srcb _ _ _ _ _ _ _ _) in *. set (DB := descb _ _ _ _ _ _ _ _ _) in *. cbn [app] in H.
  pull (u_err u) H. apply wp_bind. eapply hs_store; [exact H|cbn; lia|]. cbn [set_nth]. clear H s. intros s H.
  apply wp_bind. eapply (gp_reads p d lp lc le k (o_ncap o) _ _ (tl (p_cap (o_prof o))) (tl (p_ext (o_prof o)))); [|exact Dr|].
  { assert (Is : forall l b0, In (l, b0) SB -> mem s l = Some b0) by (intros l b0 I; eapply hs_in; [exact H|]; do 7 right; apply in_or_app; auto).
    assert (Id : forall l b0, In (l, b0) DB -> mem s l = Some b0) by (intros l b0 I; eapply hs_in; [exact H|]; do 7 right; apply in_or_app; right; apply in_or_app; auto).
    assert (Hd : forall xs : list T, List.length xs = S (p_nmax (o_prof o)) -> nth 0 xs (#0)%num :: tl xs = xs) by (intros [|? ?]; [discriminate|reflexivity]).
    split; [|split; [|split; [|split]]].
    - eexists _, _, _. apply Is. left. reflexivity.
    - eexists _, _, _, _, _, _. apply Id. left. reflexivity.
    - eexists _, _. apply Id. do 3 right. left. reflexivity.
    - rewrite Hd by assumption. apply Id. do 5 right. left. reflexivity.
    - rewrite Hd by assumption. apply Id. do 6 right. left. reflexivity. }
  apply wp_bind. eapply hs_photon_new; [exact Hf|exact H|]. clear H s. intros ph s H. unfold photon_block, vcells, zero3 in H. cbn [app] in H.
  apply wp_bind. eapply hs_store_vec; [exact H|cbn; lia|]. cbn [set_nth]. clear H s. intros s H. apply wp_ret.
  apply wp_bind. eapply hs_load_ptr; [exact H|right; left; reflexivity|reflexivity|]. cbn [set_exception fst]. apply wp_bind. unfold photon_ignored.
  match type of H with hs _ ((ph, ?B) :: _) _ => change B with (photb d dr) in H end. set (PB := photb d dr) in *.
  pull (u_err u) H. apply wp_bind. eapply hs_store; [exact H|cbn; lia|]. cbn [set_nth]. clear H s. intros s H.
  pull (u_ext u) H. apply wp_bind. eapply hs_store; [exact H|cbn; lia|]. cbn [set_nth]. clear H s. intros s H.
  pull (u_next u) H. apply wp_bind. eapply hs_store; [exact H|cbn; lia|]. cbn [set_nth]. clear H s. intros s H.
  pull (u_int u) H. apply wp_bind. eapply hs_store; [exact H|cbn; lia|]. cbn [set_nth]. clear H s. intros s H.
  pull (u_nint u) H. apply wp_bind. eapply hs_store; [exact H|cbn; lia|]. cbn [set_nth]. clear H s. intros s H.
  pull (u_ph u) H. apply wp_bind. eapply hs_store; [exact H|cbn; lia|]. cbn [set_nth]. clear H s. intros s H. apply wp_ret.
  apply wp_bind. eapply hs_store; [exact H|cbn; lia|]. cbn [set_nth]. clear H s. intros s H. apply wp_ret.
  apply (HQ ph). eapply hs_perm; [|exact H]. clearbody SB DB PB. perm.
Qed.

Lemma source_session_ok F u p len lr lg d (k : source_nums T) ens bg liz lwi lp lz lc le open (o : optic T) rs dr rs' x junk fuel ops ans m a b c e f g h s :
  sized o -> draw_photon k (o_ncap o) (nth 0 (p_cap (o_prof o)) (#0)%num) (nth 0 (p_ext (o_prof o)) (#0)%num) rs = Some (dr, rs') ->
  hs F (cells u a b c e f g h ++ srcb p len lr lg d (nums_list k) ens bg ++ descb d liz lwi lp lz lc le open o) s ->
  life_replies x o junk fuel (dr_start dr) (dr_dir dr) (dr_elecv dr) ops = Some (inl ans, m) ->
  wp (source_photon_session u x junk fuel (Some p) rs ops)
     (fun r s' => r = Some (inl ans) /\ exists a b c e f g h G, List.length G = m /\ hs F (cells u a b c e f g h ++ srcb p len lr lg d (nums_list k) ens bg ++ descb d liz lwi lp lz lc le open o ++ G) s') s.
Proof.
  intros So Dr H E. unfold life_replies in E. destruct (photon_fresh _ _ _) as [ph|] eqn:Ef; [|discriminate].
  destruct (replies x o junk fuel ops (mkView ph [] [] [])) as [[l m']|] eqn:Er; [|discriminate]. injection E as <- <-.
  unfold source_photon_session. apply wp_bind. eapply (hs_source_photon F u p len lr lg d k ens bg liz lwi lp lz lc le open o rs dr rs' []); [exact So|exact Dr|congruence|rewrite app_nil_r; exact H|].
  clear H s. intros q s H. rewrite app_nil_r in H. set (SB := srcb _ _ _ _ _ _ _ _) in *.
  assert (ND : NoDup (map fst SB) /\ forall l, In l (map fst SB) -> F l = None).
  { destruct H as (_ & _ & ND & _ & _ & H3). unfold cells in *. cbn [map fst] in ND. rewrite map_app in ND. change (NoDup ([q; u_ph u; u_err u; u_w u; u_ext u; u_next u; u_int u; u_nint u] ++ map fst (SB ++ descb d liz lwi lp lz lc le open o))) in ND.
    apply nodup_app_inv in ND. destruct ND as (_ & ND & _). rewrite map_app in ND. apply nodup_app_inv in ND. split; [apply ND|]. intros l' I. apply H3. cbn [map fst]. right. rewrite !map_app. apply in_or_app. right. apply in_or_app. left. exact I. }
  assert (H' : hs (under F SB) ((q, photb d dr) :: cells u (Vptr (Some q)) (Vptr NULL) c (Vptr NULL) (Vint 0) (Vptr NULL) (Vint 0) ++ descb d liz lwi lp lz lc le open o) s).
  { apply hs_frame. eapply hs_perm; [|exact H]. set (DB := descb _ _ _ _ _ _ _ _ _). set (CB := cells _ _ _ _ _ _ _ _). clearbody SB DB CB. perm. }
  clear H. rename H' into H.
  assert (P : pinv u d (descb d liz lwi lp lz lc le open o) (under F SB) (mkView ph [] [] []) 0 s).
  { exists q, (dr_src dr), 0%Z, (Build_keys q q q q q [] q []), (mkPc q [] q []), (Vptr NULL), c, []. unfold photon_fresh in Ef. destruct (_ || _)%bool; [discriminate|]. injection Ef as <-.
    split; [repeat (split; [reflexivity|]); reflexivity|]. split; [split; reflexivity|]. do 3 (split; [reflexivity|]). eapply hs_perm; [|exact H].
    unfold PyPhProofs.objb, varb, extc, intc, cacheg, restb, leaksb, rblock, cells. cbn [lks lkp w_ph w_ext w_int ph_ext ph_int kX kI kxl kil ph_start ph_sdir ph_selec ph_exit ph_edir ph_eelec ph_irefl ph_dtravel]. change (zlen []) with 0%Z.
    unfold photb. set (PB := photon_block _ _ _ _ _ _ _ _ _ _ _ _ _ _ _ _ _ _ _). set (DD := descb _ _ _ _ _ _ _ _ _). clearbody DD PB. perm. }
  apply wp_bind. eapply wp_mono; [eapply serve_ok; [exact So|exact P|constructor|exact Er]|]. cbn beta. intros r s1 [-> [w' P1]].
  apply wp_bind. eapply dealloc_ok; [exact P1|]. intros a1 b1 c1 e1 f1 g1 h1 G s2 LG H2. apply wp_ret. split; [reflexivity|].
  exists a1, b1, c1, e1, f1, g1, h1, G. split; [lia|]. apply hs_unframe in H2; [|apply ND|apply ND].
  eapply hs_perm; [|exact H2]. set (DD := descb _ _ _ _ _ _ _ _ _). set (CB := cells _ _ _ _ _ _ _ _). clearbody SB DD CB. perm.
Qed.

(** The description that a photon refers to is gone. *)
Lemma dead_launch F u p d PB (c : val T) x junk fuel en lc (R : blocks) s a :
  nth_error PB F_DESC = Some (Vptr (Some d)) -> nth_error PB F_EXTLEAK = Some (Vptr NULL) -> nth_error PB F_INTLEAK = Some (Vptr NULL) ->
  F d = None -> ~ In d (map fst ((u_err u, [a]) :: (u_ph u, [Vptr (Some p)]) :: (p, PB) :: (u_w u, [c]) :: R)) -> d < nxt s -> en_refused en = false ->
  hs F ((u_err u, [a]) :: (u_ph u, [Vptr (Some p)]) :: (p, PB) :: (u_w u, [c]) :: R) s ->
  py_launch u x junk fuel en lc s = UB.
Proof.
  intros P1 P2 P3 Fd Nd Bd Hen H.
  unfold py_launch. apply bind_ub. eapply hs_malloc_next; [exact H|]. assert (Nw : d <> nxt s) by lia. set (we := nxt s) in *. clearbody we. clear H s Bd. intros s H. apply bind_ub. eapply hs_write_all; [apply repeat_length|exact H|]. clear H s. intros s H. unfold py_launch_at.
  apply bind_ub. pull (u_err u) H. eapply hs_store; [exact H|cbn; lia|]. cbn [set_nth]. clear H s. intros s H.
  apply bind_ub. pull (u_w u) H. eapply hs_store; [exact H|cbn; lia|]. cbn [set_nth]. clear H s. intros s H.
  apply bind_ub. pull (u_ph u) H. eapply hs_load_ptr; [exact H|left; reflexivity|reflexivity|].
  apply bind_ub_l. unfold launchM. cbn [is_null].
  assert (Hl : (List.length en <? 1) = false). { unfold en_refused in Hen. destruct en; [discriminate|reflexivity]. }
  rewrite Hl. change (refuse_launch false (Some (u_err u)) ?k) with k.
  apply inM_ub. eapply (wp_energy_loop we en en (List.length en) []); [auto|reflexivity|eapply hs_in; [exact H|cbn; auto 8]|]. rewrite firstn_all, forallb_not.
  assert (He : List.existsb (fun e => (nltb e (#1)%num || nltb (#100)%num e)%bool) en = false). { unfold en_refused in Hen. apply orb_false_iff in Hen. exact (proj2 Hen). }
  rewrite He. change (refuse_launch false (Some (u_err u)) ?k) with k.
  assert (Mp : mem s p = Some PB) by (eapply hs_in; [exact H|cbn; auto 12]).
  apply inM_ub. apply wp_bind. unfold drop_leaks. apply wp_bind. eapply wp_load_ptr; [exact Mp|exact P2|]. apply wp_ret. apply wp_bind. eapply wp_load_ptr; [exact Mp|exact P3|]. apply wp_ret.
  apply inM_ub. eapply wp_load_ptr; [exact Mp|exact P1|]. cbn [is_null]. change (refuse_launch false (Some (u_err u)) ?k) with k.
  unfold bindF, inM. do 2 apply bind_ub_l. unfold read_optic. do 2 apply bind_ub_l. unfold load.
  replace (mem s d) with (@None (@block T)); [reflexivity|]. symmetry. destruct H as (_ & _ & _ & _ & H2 & _). rewrite H2; [exact Fd|]. cbn [map fst In] in Nd |- *. intuition congruence.
Qed.

(** Releasing objects makes no new places. *)
Definition stays {A} (m : M T A) : Prop := forall s a s', m s = Ok (a, s') -> nxt s' = nxt s.
Lemma stays_ret A (a : A) : stays (ret a).
Proof. intros s b s' E. injection E as _ <-. auto. Qed.
Lemma stays_bind A B (m : M T A) (k : A -> M T B) : stays m -> (forall a, stays (k a)) -> stays (bind m k).
Proof. intros H K s b s' E. unfold bind in E. destruct (m s) as [[a s1]|] eqn:Em; [|discriminate]. rewrite (K _ _ _ _ E). eapply H. exact Em. Qed.
Lemma stays_free p : stays (@free T p).
Proof. intros s a s' E. unfold free in E. destruct p as [l|]; [|injection E as _ <-; auto]. destruct (mem s l); [|discriminate]. injection E as _ <-. reflexivity. Qed.
Lemma stays_load_ptr p i : stays (@load_ptr T p i).
Proof.
  unfold load_ptr. apply stays_bind; [|intros [| | | |]; intros s' b s2 E2; try discriminate; injection E2 as _ <-; reflexivity]. intros s a s' E. unfold load in E.
  destruct p as [l|]; [|discriminate]. destruct (mem s l) as [bl|]; [|discriminate]. destruct (nth_error bl i); [|discriminate]. injection E as _ <-. auto.
Qed.
Ltac stay := repeat first [apply stays_load_ptr | apply stays_bind; [|intros ?] | apply stays_ret | apply stays_free | apply stays_load_ptr | match goal with |- stays (match ?x with _ => _ end) => destruct x end].
Lemma stays_source_free p : stays (@source_free T p).
Proof. unfold source_free, description_free, profile_free, rng_free, free_if. stay. Qed.
Lemma wp_stays A (m : M T A) (Q : A -> st T -> Prop) s : stays m -> wp m (fun a s' => nxt s' = nxt s -> Q a s') s -> wp m Q s.
Proof. intros K H. unfold wp in *. destruct (m s) as [[a s']|] eqn:E; [|auto]. apply H. eapply K. exact E. Qed.

Lemma orphan_ub F u p len lr lg d (k : source_nums T) ens bg liz lwi lp lz lc le open (o : optic T) rs dr rs' x junk fuel en leak a b c e f g h s :
  sized o -> draw_photon k (o_ncap o) (nth 0 (p_cap (o_prof o)) (#0)%num) (nth 0 (p_ext (o_prof o)) (#0)%num) rs = Some (dr, rs') ->
  photon_fresh (dr_start dr) (dr_dir dr) (dr_elecv dr) <> None -> en_refused en = false ->
  hs F (cells u a b c e f g h ++ srcb p len lr lg d (nums_list k) ens bg ++ descb d liz lwi lp lz lc le open o) s ->
  orphan_source_session u x junk fuel (Some p) rs en leak s = UB.
Proof.
  intros So Dr Hf Hen H. unfold orphan_source_session. apply bind_ub.
  eapply (hs_source_photon F u p len lr lg d k ens bg liz lwi lp lz lc le open o rs dr rs' []); [exact So|exact Dr|exact Hf|rewrite app_nil_r; exact H|].
  clear H s. intros q s H. rewrite app_nil_r in H. apply bind_ub.
  assert (Id : In d (map fst (srcb p len lr lg d (nums_list k) ens bg ++ descb d liz lwi lp lz lc le open o))) by (rewrite map_app; apply in_or_app; right; left; reflexivity).
  assert (Fd : F d = None). { destruct H as (_ & _ & _ & _ & _ & H3). apply H3. cbn [map fst]. right. rewrite map_app. apply in_or_app. right. exact Id. }
  assert (Bd : d < nxt s). { destruct (Nat.lt_ge_cases d (nxt s)) as [|Bd]; [assumption|exfalso]. assert (W : wf s) by apply H. eapply (hs_live _ _ _ d H); [cbn [map fst]; right; rewrite map_app; apply in_or_app; right; exact Id|]. apply W. exact Bd. }
  assert (Nd : ~ In d (q :: map fst (cells u (Vptr (Some q)) (Vptr NULL) c (Vptr NULL) (Vint 0) (Vptr NULL) (Vint 0)))).
  { destruct H as (_ & _ & ND & _). cbn [map fst] in ND. rewrite map_app in ND. intros I. change (NoDup ((q :: map fst (cells u (Vptr (Some q)) (Vptr NULL) c (Vptr NULL) (Vint 0) (Vptr NULL) (Vint 0))) ++ map fst (srcb p len lr lg d (nums_list k) ens bg ++ descb d liz lwi lp lz lc le open o))) in ND.
    apply nodup_app_inv in ND. destruct ND as (_ & _ & D). exact (D d I Id). }
  apply wp_stays; [apply stays_source_free|]. set (PB := photb d dr) in *.
  assert (P0 : nth_error PB F_DESC = Some (Vptr (Some d)) /\ nth_error PB F_EXTLEAK = Some (Vptr NULL) /\ nth_error PB F_INTLEAK = Some (Vptr NULL)) by (repeat split). destruct P0 as (P1 & P2 & P3). clearbody PB.
  unfold cells in *. set (SB := srcb _ _ _ _ _ _ _ _) in *. set (DB := descb _ _ _ _ _ _ _ _ _) in *. cbn [app map fst] in *.
  set (RR := [(u_err u, [Vptr NULL]); (u_ph u, [Vptr (Some q)]); (q, PB); (u_w u, [c]); (u_ext u, [Vptr NULL]); (u_next u, [Vint 0]); (u_int u, [Vptr NULL]); (u_nint u, [Vint 0])] : blocks).
  eapply (hs_source_free F p len lr lg d (nums_list k) ens bg liz lwi lp lz lc le open o RR); [reflexivity|eapply hs_perm; [|exact H]; fold SB DB; unfold RR; clearbody SB DB; perm|].
  intros s' H' En. unfold RR in H'.
  eapply (dead_launch F u q d PB c x junk fuel en leak [(u_ext u, [Vptr NULL]); (u_next u, [Vint 0]); (u_int u, [Vptr NULL]); (u_nint u, [Vint 0])] s' (Vptr NULL)); auto.
  - cbn [map fst In] in *. tauto.
  - lia.
Qed.
End S.
