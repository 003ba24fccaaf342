(** * Property theorems: Python programs with Profile, Description and Source objects (C113-C118)

    [py_run fit x e ops []]: a program makes and deletes objects as in [ops] (PyObjects.v; [e] is the
    variable [error] of the methods).  [story] (SpecPyObj.v) gives the replies, the objects there are
    in the end, and the number of blocks of memory that are lost. *)
From Coq Require Import Floats Reals Lra.
From Coq Require Import ZArith List Bool Lia String Permutation.
From Verif Require Import Num Mem SpecHeap SpecPhoton HeapLib ErrorModel ProfileModel ProfileProofs Geometry ConsModel RM RMLogic CapilModel TraceModel LaunchModel SourceModel SrcProofs SrcPhoton PhotProofs DescProofs SepLib
  SpecFlight FlightProp ProfileFloat Libm FlightMem FlightRep FlightHeap FlightHeap2 FlightLaunch FlightLaunch2 PropLaunch PropLeak PropFlight PyModel SpecPy PyResult PyResProofs PyResInv PyResServe
  SpecPyPhoton PyPhoton PyPhProofs PyPhServe PyPhNext PyPhEnd PropPyPhoton SpecPyObj PyObjects PyObjHeap PyObjKeep PyObjCons PyObjProofs PyObjRun PySrcPhoton PySrcPhProofs.
From Verif Require SpecResult.
Set Warnings "-inexact-float".
Import ListNotations.
Local Notation ret := Mem.ret.
Local Notation bind := Mem.bind.
Local Notation concat := (@List.concat _).

(** A number equal to one is not greater than one: true of the reals, and of doubles. *)
Definition one_law (T : Type) {N : Num T} : Prop := forall y : T, neqb y (#1)%num = true -> nltb (#1)%num y = false.
Lemma one_law_R : one_law R.
Proof. intros y H. cbn in *. destruct (Reqb_spec y 1); [|discriminate]. destruct (Rltb_spec 1 y); [lra|reflexivity]. Qed.
Lemma one_law_F lm : @one_law float (FNum lm).
Proof.
  intros y H. change (@nofZ float (FNum lm) 1) with (F_ofZ 1) in *. cbn [neqb nltb FNum] in *. replace (F_ofZ 1) with 1%float in * by reflexivity.
  rewrite FloatAxioms.eqb_spec in H. rewrite FloatAxioms.ltb_spec. replace (Prim2SF 1%float) with (S754_finite false 4503599627370496 (-52)) in * by reflexivity.
  unfold SFeqb, SFltb in *. destruct (Prim2SF y) as [[]|[]| |[] m z]; cbn [SFcompare] in *; try discriminate.
  destruct (Z.compare_spec z (-52)); try discriminate. subst z. change ((-52 ?= -52)%Z) with Eq. cbv iota in *.
  destruct (Pos.compare_cont Eq m 4503599627370496) eqn:E; try discriminate. apply Pos.compare_eq in E. subst m. reflexivity.
Qed.

Section Generic.
Context {T : Type} {N : Num T}.
Variable fit : list (T * T) -> T * T * T.
Variable x : tables T.

(** ** C113 *)
(** Whatever a program makes and deletes, in whatever order and however often: it sees what [story]
    says, every object that is still there holds what it should hold, in its own memory, which no other
    object shares; nothing else changes. *)
Theorem C113_python_objects :
  forall ops rs ts n e v s,
  one_law T -> wf s -> memory_available s -> mem s e = Some [v] -> story fit x ops [] = (rs, ts, n) ->
  exists s' os Ls lost, py_run fit x e ops [] s = Ok ((rs, os), s') /\ stand s' os ts Ls /\ List.length lost = n /\ NoDup (e :: concat Ls ++ lost) /\
    all_free s (concat Ls ++ lost) /\ (forall l, In l lost -> mem s' l <> None) /\ same_memory_except (e :: concat Ls ++ lost) s s'.
Proof.
  intros ops rs ts n e v s Law W A E ES. destruct (program_ok fit x Law e v ops rs ts n s W A E ES) as (s' & os & Ls & lost & H1 & H2 & H3 & H4 & H5 & H6 & H7 & _).
  exists s', os, Ls, lost. auto 10.
Qed.

(** ** C114: everything deleted *)
Lemma stand_none s os ts Ls : stand (T := T) s os ts Ls -> Forall (fun t => t = None) ts -> concat Ls = [].
Proof.
  revert ts Ls. induction os as [|o os IH]; intros [|t ts] [|L Ls] H F; try contradiction; [reflexivity|]. cbn [stand] in H. destruct H as [H1 H2]. inversion F; subst.
  cbn [concat]. rewrite (IH ts Ls) by assumption. destruct o as [[[]|[]|[]]|]; cbn [stands] in H1; try contradiction. subst L. reflexivity.
Qed.
(** No Description was refused because of the shape of its Profile. *)
Fixpoint no_misfit (ops : list (order T)) (objs : list (option (thing T))) : Prop :=
  match ops with
  | [] => True
  | o :: ops =>
      match o with
      | NewDescription i sig n_cap c dens =>
          forall p els, nth_error objs i = Some (Some (AProfile p)) -> elements_of x c = inl els -> description_ok sig n_cap els dens = true -> shape_ok p n_cap = true
      | _ => True
      end /\ no_misfit ops (match o with Delete i => set_nth objs i None | _ => objs ++ [snd (fst (outcome fit x objs o))] end)
  end.
Lemma no_misfit_0 : forall ops objs, no_misfit ops objs -> snd (story fit x ops objs) = 0.
Proof.
  induction ops as [|o ops IH]; intros objs H; cbn [story no_misfit] in *; [reflexivity|]. destruct H as [Ho H]. specialize (IH _ H).
  destruct (outcome fit x objs o) as [[r t] k] eqn:Eo. cbn [fst snd] in *. destruct (story fit x ops _) as [[rs ts] m]. cbn [snd] in *. subst m.
  enough (k = 0) by lia. destruct o; cbn [outcome] in Eo.
  - destruct (made_profile _ _ _ _ _ _ _ _ _); congruence.
  - destruct (_ && _)%bool; congruence.
  - destruct (nth_error objs profile) as [[[p|? |? ? ?]|]|]; try congruence. destruct (elements_of x c) as [els|]; [|congruence].
    destruct (description_ok sig n_cap els dens) eqn:Ed; cbn [negb] in Eo; [|congruence]. rewrite (Ho p els eq_refl eq_refl Ed) in Eo. cbn [negb] in Eo. destruct (fractions_ok _); cbn [negb] in Eo; congruence.
  - destruct (nth_error objs description) as [[[p|? |? ? ?]|]|]; try congruence. destruct (source_ok _ _ _ _ _); congruence.
  - destruct (nth_error objs i) as [[]|]; congruence.
Qed.
Theorem C114_all_deleted :
  forall ops rs ts n e v s,
  one_law T -> wf s -> memory_available s -> mem s e = Some [v] -> story fit x ops [] = (rs, ts, n) ->
  no_misfit ops [] -> Forall (fun t => t = None) ts ->
  exists s' os, py_run fit x e ops [] s = Ok ((rs, os), s') /\ same_memory_except [e] s s'.
Proof.
  intros ops rs ts n e v s Law W A E ES NM Fa. destruct (C113_python_objects ops rs ts n e v s Law W A E ES) as (s' & os & Ls & lost & H1 & H2 & H3 & _ & _ & _ & H7).
  exists s', os. split; [exact H1|]. apply no_misfit_0 in NM. rewrite ES in NM. cbn [snd] in NM. subst n. destruct lost; [|discriminate]. rewrite (stand_none _ _ _ _ H2 Fa), app_nil_r in H7. exact H7.
Qed.

(** ** C115: every refused description costs a block *)
(** k descriptions on a profile that does not hold the capillaries, then the profile is deleted. *)
Theorem C115_refused_descriptions :
  forall k ext cap z sig n_cap c dens els e v s,
  one_law T -> wf s -> memory_available s -> mem s e = Some [v] ->
  List.length ext = List.length z -> List.length cap = List.length z -> 2 < List.length z ->
  elements_of x c = inl els -> description_ok sig n_cap els dens = true -> shape_ok (mkProfile (List.length z - 1) z cap ext) n_cap = false ->
  exists s' lost, py_run fit x e (NewProfileArrays ext cap z :: repeat (NewDescription 0 sig n_cap c dens) k ++ [Delete 0]) [] s = Ok ((Made :: repeat (Exc ValueError) k ++ [Gone], repeat None (S k)), s') /\
    List.length lost = k /\ NoDup lost /\ all_free s lost /\ (forall l, In l lost -> mem s' l <> None) /\ same_memory_except (e :: lost) s s'.
Proof.
  intros k ext cap z sig n_cap c dens els e v s Law W A E L1 L2 L3 E1 E2 E3.
  assert (ES : story fit x (NewProfileArrays ext cap z :: repeat (NewDescription 0 sig n_cap c dens) k ++ [Delete 0]) [] = (Made :: repeat (Exc ValueError) k ++ [Gone], repeat None (S k), k)).
  { cbn [story outcome]. rewrite L1, L2, Nat.eqb_refl. replace (2 <? List.length z) with true by (symmetry; apply Nat.ltb_lt; exact L3). cbn [andb app]. set (t := Some (AProfile _)).
    assert (G : forall j, story fit x (repeat (NewDescription 0 sig n_cap c dens) k ++ [Delete 0]) (t :: repeat None j) = (repeat (Exc ValueError) k ++ [Gone], repeat None (S (j + k)), k)).
    { induction k as [|k IH]; intros j; cbn [repeat app story].
      - cbn [outcome nth_error]. unfold t. cbn [set_nth]. rewrite (Nat.add_0_r j). reflexivity.
      - cbn [outcome nth_error]. unfold t at 1. rewrite E1, E2. cbn [negb]. rewrite E3. cbn [negb]. change ((t :: repeat None j) ++ [None]) with (t :: (repeat None j ++ [None])).
        replace (repeat (@None (thing T)) j ++ [None]) with (repeat (@None (thing T)) (S j)) by (cbn [repeat]; apply repeat_cons). rewrite IH. rewrite (Nat.add_succ_r j). reflexivity. }
    pose proof (G 0) as G0. cbn [repeat Nat.add] in G0. rewrite G0. reflexivity. }
  destruct (C113_python_objects _ _ _ _ e v s Law W A E ES) as (s' & os & Ls & lost & H1 & H2 & H3 & H4 & H5 & H6 & H7).
  assert (EL : concat Ls = []). { eapply stand_none; [exact H2|]. apply Forall_forall. intros t I. apply repeat_spec in I. exact I. }
  rewrite EL in *. cbn [app] in *. inversion H4; subst. exists s', lost. split; [|auto 10].
  replace (repeat None (S (List.length lost))) with os; [exact H1|]. clear - H2. revert H2. generalize (S (List.length lost)) as m. intros m. revert os Ls. induction m as [|m IH]; intros [|o os] [|L Ls] H; cbn [stand repeat] in *; try contradiction; [reflexivity|].
  destruct H as [Ho H]. rewrite <- (IH os Ls H). destruct o as [[[]|[]|[]]|]; cbn [stands] in Ho; try contradiction. reflexivity.
Qed.
(** ** C118: a profile without a profile *)
(** Profile(..., ignore=True) is a Profile that Description accepts; with arguments that are in order
    the library then reads through a null pointer. *)
Theorem C118_ignored_profile_refuted :
  forall sig n_cap c dens els e v s,
  wf s -> memory_available s -> mem s e = Some [v] -> elements_of x c = inl els -> description_ok sig n_cap els dens = true ->
  py_run fit x e [NewDescription 0 sig n_cap c dens] [Some (PProfile NULL)] s = UB.
Proof.
  intros sig n_cap c dens els e v s W A E EC ED. cbn [py_run py_step nth_error]. apply bind_ub_l, bind_ub_l.
  assert (H : hs (without [e] s) [(e, [v])] s).
  { apply (hs_intro s [(e, [v])]); [exact W|exact A|constructor; [intros []|constructor]|]. intros l b [[= <- <-]|[]]. exact E. }
  generalize dependent (without [e] s). intros F H. clear W A E. unfold py_description. pose proof (comp_elements x c) as CE. rewrite EC in CE. rewrite CE. clear CE.
  apply bind_ub. eapply hs_alloc; [exact H|]. clear H s. intros iz s H. apply bind_ub. eapply hs_alloc; [exact H|]. clear H s. intros wi s H.
  set (izs := List.map fst els). set (wis := List.map snd els).
  replace (List.map (fun e0 => Vint (fst e0)) els) with (List.map (@Vint T) izs) in H by (unfold izs; rewrite map_map; reflexivity).
  replace (List.map (fun e0 => Vdbl (snd e0)) els) with (List.map (@Vdbl T) wis) in H by (unfold wis; rewrite map_map; reflexivity).
  assert (Li : List.length els = List.length izs) by (unfold izs; rewrite map_length; reflexivity).
  assert (Lw : List.length wis = List.length izs) by (unfold izs, wis; rewrite !map_length; reflexivity).
  pull e H. apply bind_ub. eapply hs_store; [exact H|cbn; lia|]. cbn [set_nth]. clear H s v. intros s H.
  apply bind_ub_l. rewrite Li. apply desc_ok_args in ED. fold izs in ED. destruct ED as (G1 & G2 & G3 & G4 & G5).
  set (n := List.length izs) in *. unfold description_new, reject_if, is_null.
  rewrite G1, G4. replace (n_cap <=? 1)%Z with false by (symmetry; apply Z.leb_gt; lia). replace (n <? 1) with false by (symmetry; apply Nat.ltb_ge; lia).
  clearbody izs wis. apply bind_ub. apply (wp_iz_loop iz izs izs n []); [unfold n; lia|reflexivity|eapply hs_in; [exact H|cbn; auto]|]. unfold n at 1. rewrite firstn_all, G5. cbn [negb].
  apply bind_ub. eapply hs_alloc; [exact H|]. clear H s. intros d s H.
  apply bind_ub. eapply hs_malloc; [exact H|]. clear H s. intros diz s H.
  pull d H. apply bind_ub. eapply hs_store; [exact H|cbn; lia|]. cbn [set_nth]. clear H s. intros s H.
  apply bind_ub. eapply hs_malloc; [exact H|]. clear H s. intros dwi s H.
  pull d H. apply bind_ub. eapply hs_store; [exact H|cbn; lia|]. cbn [set_nth]. clear H s. intros s H.
  apply bind_ub. eapply hs_store; [exact H|cbn; lia|]. cbn [set_nth]. clear H s. intros s H.
  apply bind_ub. eapply hs_store; [exact H|cbn; lia|]. cbn [set_nth]. clear H s. intros s H.
  apply bind_ub. eapply hs_store; [exact H|cbn; lia|]. cbn [set_nth]. clear H s. intros s H.
  apply bind_ub. eapply hs_store; [exact H|cbn; lia|]. cbn [set_nth]. clear H s. intros s H.
  pull dwi H. pull diz H. apply bind_ub.
  eapply (hs_copy_elems F diz dwi iz wi izs wis n); [reflexivity|unfold n; lia|exact H|inL|inL|].
  clear H s. intros s H. apply bind_ub. pull e H. pull dwi H. replace n with (List.length wis) by (unfold n; lia).
  eapply hs_check_weight; [exact H|]. clear H s. intros EB s SL H.
  unfold description_profile. apply bind_ub. eapply hs_alloc; [exact H|]. clear H s. intros q s H.
  pull d H. apply bind_ub. eapply hs_store; [exact H|cbn; lia|]. cbn [set_nth]. clear H s. intros s H.
  apply bind_ub_l. reflexivity.
Qed.
End Generic.

(** ** C116: photons from a source *)
Section Photon.
Context {T : Type} {N : Num T}.
Local Notation variable := SpecResult.variable.
(** Where a session starts: a source in memory, and the variables. *)
Definition source_ready (s : st T) (u : pvars) (p : loc) (L : list loc) (o : optic T) (k : source_nums T) (ens : list T) : Prop :=
  wf s /\ memory_available s /\ source_in s p o (nums_list k) ens L /\ NoDup (pvariables u ++ L) /\ (forall l, In l (pvariables u) -> variable s l).

Lemma source_ready_hs s u p L o k ens : source_ready s u p L o k ens ->
  exists len lr lg d bg liz lwi lp lz lc le open a b c e f g h, sized o /\ L = map fst (srcb p len lr lg d (nums_list k) ens bg ++ descb d liz lwi lp lz lc le open o) /\
  hs (without (pvariables u ++ L) s) (cells u a b c e f g h ++ srcb p len lr lg d (nums_list k) ens bg ++ descb d liz lwi lp lz lc le open o) s.
Proof.
  intros (W & A & HO & ND & HV). destruct HO as (len & lr & lg & d & D & -> & (S1 & S2 & S3 & bg & S4) & HO). destruct (optic_descb _ _ _ _ HO) as (liz & lwi & lp & lz & lc & le & open & So & -> & HD & _).
  destruct (HV (u_ph u)) as [a E1]; [cbn; auto|]. destruct (HV (u_err u)) as [b E2]; [cbn; auto|]. destruct (HV (u_w u)) as [c E3]; [cbn; auto|].
  destruct (HV (u_ext u)) as [e E4]; [cbn; auto|]. destruct (HV (u_next u)) as [f E5]; [cbn; auto 6|]. destruct (HV (u_int u)) as [g E6]; [cbn; auto 7|]. destruct (HV (u_nint u)) as [h E7]; [cbn; auto 8|].
  exists len, lr, lg, d, bg, liz, lwi, lp, lz, lc, le, open, a, b, c, e, f, g, h. split; [exact So|]. split; [reflexivity|].
  apply (hs_intro s (cells u a b c e f g h ++ srcb p len lr lg d (nums_list k) ens bg ++ descb d liz lwi lp lz lc le open o)); [exact W|exact A|exact ND|].
  unfold cells, srcb. intros l bl I. cbn [app In] in I. destruct I as [[= <- <-]|[[= <- <-]|[[= <- <-]|[[= <- <-]|[[= <- <-]|[[= <- <-]|[[= <- <-]|[[= <- <-]|[[= <- <-]|[[= <- <-]|[[= <- <-]|I]]]]]]]]]]]; try assumption. apply HD. exact I.
Qed.

(** source.get_photon(rng), the photon used as in [ops] and deleted: the photon is the one that the
    random numbers determine (C21-C29), and from then on a photon like any other (C106); source and
    description are as they were. *)
Theorem C116_source_photon :
  forall (x : xraylib T) (o : optic T) junk fuel s u p L k ens rs dr rs' ops ans n,
  source_ready s u p L o k ens ->
  draw_photon k (o_ncap o) (nth 0 (p_cap (o_prof o)) (#0)%num) (nth 0 (p_ext (o_prof o)) (#0)%num) rs = Some (dr, rs') ->
  life_replies x o junk fuel (dr_start dr) (dr_dir dr) (dr_elecv dr) ops = Some (inl ans, n) ->
  exists s', source_photon_session u x junk fuel (Some p) rs ops s = Ok (Some (inl ans), s') /\ blocks_lost s u n s'.
Proof.
  intros x o junk fuel s u p L k ens rs dr rs' ops ans n Rd Dr E.
  destruct (source_ready_hs _ _ _ _ _ _ _ Rd) as (len & lr & lg & d & bg & liz & lwi & lp & lz & lc & le & open & a & b & c & e & f & g & h & So & ED & H).
  pose proof (source_session_ok _ u p len lr lg d k ens bg liz lwi lp lz lc le open o rs dr rs' x junk fuel ops ans n a b c e f g h s So Dr H E) as WP.
  apply wp_run in WP. destruct WP as (r & s' & Er & -> & a' & b' & c' & e' & f' & g' & h' & G & LG & H'). exists s'. split; [exact Er|].
  rewrite (app_assoc (srcb p len lr lg d (nums_list k) ens bg)) in H'. set (DD := srcb _ _ _ _ _ _ _ _ ++ _) in *.
  destruct H' as (W' & A' & ND' & H1' & H2' & H3'). destruct Rd as (W & _ & HO & ND & HV).
  rewrite !map_app in ND', H2', H3'. change (map fst (cells u a' b' c' e' f' g' h')) with (pvariables u) in ND', H2', H3'. rewrite <- ED in ND', H2', H3'.
  exists (map fst G). split; [rewrite map_length; exact LG|]. rewrite app_assoc in ND'. apply nodup_app_inv in ND'. destruct ND' as (_ & NG & Dis).
  split; [exact NG|]. split.
  - intros l I. split.
    + assert (NI : ~ In l (pvariables u ++ L)) by (intros K; exact (Dis _ K I)). assert (X : without (pvariables u ++ L) s l = None) by (apply H3'; rewrite app_assoc; apply in_or_app; auto).
      rewrite without_nin in X by exact NI. exact X.
    + apply in_map_iff in I. destruct I as ([l0 bl] & <- & I). cbn [fst]. rewrite (H1' l0 bl); [discriminate|apply in_or_app; right; apply in_or_app; auto].
  - intros l I. rewrite in_app_iff in I. destruct (in_dec Nat.eq_dec l L) as [J|J].
    + rewrite ED in J. apply in_map_iff in J. destruct J as ([l0 bl] & <- & J). cbn [fst]. rewrite (H1' l0 bl) by (apply in_or_app; right; apply in_or_app; auto).
      symmetry. destruct H as (_ & _ & _ & H1 & _ & _). apply H1. apply in_or_app. auto.
    + rewrite H2' by (rewrite !in_app_iff; tauto). apply without_nin. rewrite in_app_iff. tauto.
Qed.

(** ** C117: the source is deleted while the photon is in use *)
Theorem C117_source_lifetime_refuted :
  forall (x : xraylib T) (o : optic T) junk fuel s u p L k ens rs dr rs' en leak,
  source_ready s u p L o k ens ->
  draw_photon k (o_ncap o) (nth 0 (p_cap (o_prof o)) (#0)%num) (nth 0 (p_ext (o_prof o)) (#0)%num) rs = Some (dr, rs') ->
  photon_fresh (dr_start dr) (dr_dir dr) (dr_elecv dr) <> None -> en_refused en = false ->
  orphan_source_session u x junk fuel (Some p) rs en leak s = UB.
Proof.
  intros x o junk fuel s u p L k ens rs dr rs' en leak Rd Dr Hf Hen.
  destruct (source_ready_hs _ _ _ _ _ _ _ Rd) as (len & lr & lg & d & bg & liz & lwi & lp & lz & lc & le & open & a & b & c & e & f & g & h & So & ED & H).
  eapply orphan_ub; eauto.
Qed.
(** ** C119: a whole program, from the profile to the leaks of a photon *)
(** A program makes objects as in [prog]; then a photon is taken from the source that object [i] is,
    used as in [ops] and deleted. *)
Definition then_photon (fit : list (T * T) -> T * T * T) (tb : tables T) (e : loc) (prog : list (order T)) (i : nat)
    (u : pvars) (x : xraylib T) (junk : vec3 T) (fuel : nat) (rs : list T) (ops : list (pop T)) : M T (list reply * option (list (answer T) + pyclass)) :=
  bind (py_run fit tb e prog []) (fun r =>
  match nth_error (snd r) i with
  | Some (Some (PSource p)) => bind (source_photon_session u x junk fuel p rs ops) (fun a => ret (fst r, a))
  | _ => ret (fst r, None)
  end).

Lemma stand_source s : forall os ts Ls i o nums ens, stand (T := T) s os ts Ls -> nth_error ts i = Some (Some (ASource o nums ens)) ->
  exists p L, nth_error os i = Some (Some (PSource (Some p))) /\ (forall l, In l L -> In l (concat Ls)) /\ source_in s p o nums ens L /\ (NoDup (concat Ls) -> NoDup L).
Proof.
  induction os as [|ob os IH]; intros [|t ts] [|L Ls] i o nums ens H E; try contradiction; [destruct i; discriminate|]. cbn [stand concat] in *. destruct H as [H1 H2]. destruct i as [|i]; cbn [nth_error] in *.
  - injection E as ->. destruct ob as [[[]|[]|[p|]]|]; cbn [stands] in H1; try contradiction. exists p, L. split; [reflexivity|]. split; [intros l I; apply in_or_app; auto|]. split; [exact H1|].
    intros ND. apply nodup_app_inv in ND. apply ND.
  - destruct (IH ts Ls i o nums ens H2 E) as (p & L' & A & B & C & D). exists p, L'. split; [exact A|]. split; [intros l I; apply in_or_app; auto|]. split; [exact C|]. intros ND. apply nodup_app_inv in ND. apply D, ND.
Qed.

Lemma optic_same s s' d D (o : optic T) : optic_at s d D o -> (forall l, In l D -> mem s' l = mem s l) -> optic_at s' d D o /\ forall l, In l D -> mem s l <> None.
Proof.
  intros (liz & lwi & lp & lz & lc & le & open & -> & (H1 & H2 & H3 & H4 & H5 & H6 & H7 & ND) & So) X. cbn [In] in X. unfold dbl_array, int_array in *. split.
  - exists liz, lwi, lp, lz, lc, le, open. split; [reflexivity|]. split; [|exact So]. unfold description_object, dbl_array, int_array. rewrite !X by auto 10. auto 12.
  - intros l I. cbn [In] in I. destruct I as [<-|[<-|[<-|[<-|[<-|[<-|[<-|[]]]]]]]]; congruence.
Qed.
Lemma stands_same s s' o t L : stands (T := T) s o t L -> (forall l, In l L -> mem s' l = mem s l) -> stands s' o t L /\ forall l, In l L -> mem s l <> None.
Proof.
  intros H X. destruct o as [[[p|]|[p|]|[p|]]|], t as [[a|a|a nums ens]|]; cbn [stands] in *; try contradiction.
  - destruct H as (lz & lc & le & -> & (H1 & H2 & H3 & H4 & ND) & Wa). cbn [In] in X. unfold dbl_array in *. split.
    + exists lz, lc, le. split; [reflexivity|]. split; [|exact Wa]. unfold profile_object, dbl_array. rewrite !X by auto. auto 12.
    + intros l I. cbn [In] in I. destruct I as [<-|[<-|[<-|[<-|[]]]]]; congruence.
  - eapply optic_same; eauto.
  - destruct H as (len & lr & lg & d & D & -> & (H1 & H2 & H3 & bg & H4) & HO). cbn [app In] in X. destruct (optic_same s s' d D a HO) as [HO' HL]; [intros l I; apply X; auto 8|]. unfold dbl_array in *. split.
    + exists len, lr, lg, d, D. split; [reflexivity|]. split; [|exact HO']. unfold source_object, dbl_array. rewrite !X by auto. eauto.
    + intros l I. cbn [app In] in I. destruct I as [<-|[<-|[<-|[<-|I]]]]; try congruence. apply HL. exact I.
  - subst L. split; [reflexivity|intros l []].
Qed.
Lemma stand_same s s' : forall os ts Ls, stand (T := T) s os ts Ls -> (forall l, In l (concat Ls) -> mem s' l = mem s l) -> stand s' os ts Ls /\ forall l, In l (concat Ls) -> mem s l <> None.
Proof.
  induction os as [|o os IH]; intros [|t ts] [|L Ls] H X; try contradiction; cbn [stand concat] in *; [split; [exact I|intros l []]|]. destruct H as [H1 H2].
  destruct (stands_same s s' o t L H1) as [A1 B1]; [intros l I; apply X; apply in_or_app; auto|]. destruct (IH ts Ls H2) as [A2 B2]; [intros l I; apply X; apply in_or_app; auto|].
  split; [auto|]. intros l I. apply in_app_or in I. destruct I; auto.
Qed.
Lemma nodup_join {A} (l1 l2 : list A) : NoDup l1 -> NoDup l2 -> (forall a, In a l1 -> ~ In a l2) -> NoDup (l1 ++ l2).
Proof. induction l1 as [|a l1 IH]; intros N1 N2 D; [exact N2|]. inversion N1; subst. cbn [app]. constructor; [rewrite in_app_iff; intros [I|I]; [auto|exact (D a (or_introl eq_refl) I)]|apply IH; auto]. intros b I. apply D. right. exact I. Qed.

(** The photon behaves as [draw_photon] and [launch] say of the numbers that were given to the
    constructors; the photon leaves no trace but the blocks [life_replies] counts. *)
Theorem C119_whole_program :
  forall fit tb (x : xraylib T) prog replies ts n i o k ens e v s u junk fuel rs dr rs' ops ans m,
  one_law T -> wf s -> memory_available s -> mem s e = Some [v] -> NoDup (e :: pvariables u) -> (forall l, In l (pvariables u) -> variable s l) ->
  story fit tb prog [] = (replies, ts, n) -> nth_error ts i = Some (Some (ASource o (nums_list k) ens)) ->
  draw_photon k (o_ncap o) (nth 0 (p_cap (o_prof o)) (#0)%num) (nth 0 (p_ext (o_prof o)) (#0)%num) rs = Some (dr, rs') ->
  life_replies x o junk fuel (dr_start dr) (dr_dir dr) (dr_elecv dr) ops = Some (inl ans, m) ->
  exists s' os Ls lost, then_photon fit tb e prog i u x junk fuel rs ops s = Ok ((replies, Some (inl ans)), s') /\
    stand s' os ts Ls /\ List.length lost = n + m /\ NoDup (e :: pvariables u ++ concat Ls ++ lost) /\ all_free s (concat Ls ++ lost) /\
    same_memory_except (e :: pvariables u ++ concat Ls ++ lost) s s'.
Proof.
  intros fit tb x prog replies ts n i o k ens e v s u junk fuel rs dr rs' ops ans m Law W A E NDu HV ES Et Dr El.
  destruct (program_ok fit tb Law e v prog replies ts n s W A E ES) as (s1 & os & Ls & lost & H1 & H2 & H3 & H4 & H5 & H6 & H7 & W1 & A1 & ve & Ve).
  destruct (stand_source s1 os ts Ls i o _ ens H2 Et) as (p & L & Eo & IL & Hs & NL). inversion H4 as [|? ? Ne ND]; subst. inversion NDu as [|? ? Nu NDv]; subst.
  assert (Dis : forall l, In l (pvariables u) -> ~ In l (concat Ls ++ lost)). { intros l I J. destruct (HV l I) as [w Ew]. rewrite (H5 l J) in Ew. discriminate. }
  assert (Rd : source_ready s1 u p L o k ens).
  { split; [exact W1|]. split; [exact A1|]. split; [exact Hs|]. split.
    - apply nodup_join; [exact NDv|apply NL; apply nodup_app_inv in ND; apply ND|]. intros l I J. apply (Dis l I). apply in_or_app. left. apply IL. exact J.
    - intros l I. destruct (HV l I) as [w Ew]. exists w. rewrite H7; [exact Ew|]. intros [->|J]; [exact (Nu I)|exact (Dis l I J)]. }
  destruct (C116_source_photon x o junk fuel s1 u p L k ens rs dr rs' ops ans m Rd Dr El) as (s' & Er & gone & G1 & G2 & G3 & G4).
  assert (LV : forall l, In l (concat Ls) -> mem s1 l <> None) by (eapply (stand_same s1 s1); [exact H2|auto]).
  assert (NG : forall l, In l gone -> ~ In l (e :: pvariables u ++ concat Ls ++ lost)).
  { intros l I J. destruct (G3 l I) as [Gn _]. cbn [In] in J. rewrite !in_app_iff in J. destruct J as [<-|[J|[J|J]]].
    - congruence.
    - destruct Rd as (_ & _ & _ & _ & HV1). destruct (HV1 l J) as [w Ew]. congruence.
    - exact (LV l J Gn).
    - exact (H6 l J Gn). }
  assert (Sm : forall l, In l (concat Ls) -> mem s' l = mem s1 l).
  { intros l I. apply G4. rewrite in_app_iff. intros [J|J]; [exact (Dis l J (in_or_app _ _ _ (or_introl I)))|]. apply (NG l J). right. rewrite !in_app_iff. auto. }
  exists s', os, Ls, (lost ++ gone). split.
  { unfold then_photon, bind. rewrite H1. cbn [snd fst]. rewrite Eo. rewrite Er. reflexivity. }
  split; [eapply stand_same; [exact H2|exact Sm]|]. split; [rewrite app_length; lia|]. split; [|split].
  - rewrite (app_assoc (concat Ls)), (app_assoc (pvariables u)). change (NoDup ((e :: pvariables u ++ concat Ls ++ lost) ++ gone)). apply nodup_join; [|exact G2|intros l I J; exact (NG l J I)].
    constructor; [rewrite in_app_iff; tauto|]. apply nodup_join; [exact NDv|exact ND|exact Dis].
  - intros l I. rewrite app_assoc in I. apply in_app_or in I. destruct I as [I|I]; [exact (H5 l I)|]. destruct (G3 l I) as [Gn _]. rewrite <- (H7 l); [exact Gn|]. intros J. apply (NG l I). cbn [In] in J |- *. rewrite !in_app_iff in *. tauto.
  - intros l I. cbn [In] in I. rewrite !in_app_iff in I. rewrite G4 by (rewrite in_app_iff; tauto). apply H7. cbn [In]. rewrite in_app_iff. tauto.
Qed.
End Photon.

(** ** Concrete programs *)
Section Concrete.
Local Open Scope nat_scope.
Local Open Scope string_scope.
(** One variable; silicon and quartz. *)
Definition state1 : st float := mkSt (nth_error [[Vundef]]) 1 (fun _ => true) 0.
Definition tables1 : tables float :=
  mkTables (fun s => if String.eqb s "Si" then inl 14%Z else if String.eqb s "O" then inl 8%Z else inr ValueError)
           (fun f => if String.eqb f "SiO2" then inl [(8%Z, 0.53%float); (14%Z, 0.47%float)] else inr ValueError).
Definition nofit (_ : list (float * float)) : float * float * float := (0, 0, 0)%float.
Definition straight : order float := NewProfileArrays [1;1;1]%float [0.2;0.2;0.2]%float [0;100;200]%float.
Definition glass (i : nat) : order float := NewDescription i 0%float 7 (Dict [(Number 14, 50%float); (Symbol "O", 50%float)]) 2%float.
Definition program1 : list (order float) :=
  [ straight; NewProfileArrays [1;1]%float [0.2;0.2]%float [0;100]%float; glass 0; glass 1; glass 2; NewDescription 0 0%float 7 (Dict [(Symbol "Xx", 1%float)]) 2%float;
    NewDescription 0 0%float 7 (Dict [(Number 14, 0.5%float)]) 2%float; NewSource 2 10 0.1 0.1 0 0 0 0 0 [5;10]; NewSource 2 10 0.1 0.1 0 0 0 0 0 []; Delete 0; Delete 0; glass 0; Delete 2;
    NewProfile 0 9%float 1%float 0.5%float 0.01%float 0.005%float 10%float 5%float; NewProfile 3 9%float 1%float 0.5%float 0.01%float 0.005%float 10%float 5%float ]%float.
(** The hypotheses of C113 are met. *)
Example C113_met :
  wf state1 /\ memory_available state1 /\ mem state1 0 = Some [Vundef] /\ @one_law float (FNum series) /\
  exists ts, @story float (FNum series) nofit tables1 program1 [] =
    ([Made; Exc ValueError; Made; NoSuchName; Exc TypeError; Exc ValueError; Exc ValueError; Made; Exc ValueError; Gone; NoSuchName; NoSuchName; Gone; Made; Exc ValueError], ts, 0) /\
    nth_error ts 7 = Some (Some (ASource (mkOptic (mkProfile 2 [0;100;200] [0.2;0.2;0.2] [1;1;1]) 7%Z 0 2 [14%Z; 8%Z] [0.5;0.5])%float [10;0.1;0.1;0;0;0;0;0]%float [5;10]%float)).
Proof.
  split. { intros l Hl. cbn in *. apply nth_error_None. cbn. lia. }
  split; [intros n; reflexivity|]. split; [reflexivity|]. split; [apply one_law_F|]. eexists. split; [vm_compute; reflexivity|]. vm_compute. reflexivity.
Qed.
Example C114_met :
  no_misfit (N := FNum series) nofit tables1 [straight; glass 0; Delete 0; NewSource 1 10 0.1 0.1 0 0 0 0 0 [5;10]; Delete 1; Delete 2]%float [] /\
  exists rs, @story float (FNum series) nofit tables1 [straight; glass 0; Delete 0; NewSource 1 10 0.1 0.1 0 0 0 0 0 [5;10]; Delete 1; Delete 2]%float [] = (rs, [None; None; None], 0).
Proof.
  split; [|eexists; vm_compute; reflexivity]. cbn [no_misfit straight glass]. split; [exact I|]. split; [|repeat split].
  intros p els E1 _ _. vm_compute in E1. injection E1 as <-. vm_compute. reflexivity.
Qed.

(** C115 is false: capillaries of radius 0.2 and an outer radius of 0.3. *)
Theorem C115_refused_descriptions_refuted :
  exists lm, libm_std lm /\ forall k, exists ops rs s' lost,
  List.length ops = k + 2 /\ @py_run float (FNum lm) nofit tables1 0 ops [] state1 = Ok ((rs, repeat None (S k)), s') /\
  List.length lost = k /\ NoDup lost /\ all_free state1 lost /\ forall l, In l lost -> mem s' l <> None.
Proof.
  exists series. split; [exact series_std|]. intros k.
  destruct (@C115_refused_descriptions float (FNum series) nofit tables1 k [0.3;0.3;0.3]%float [0.2;0.2;0.2]%float [0;100;200]%float 0%float 7%Z (Dict [(Number 14, 1%float)]) 2%float [(14%Z, 1%float)] 0 Vundef state1)
    as (s' & lost & H1 & H2 & H3 & H4 & H5 & _); try reflexivity.
  - apply one_law_F.
  - intros l Hl. cbn in *. apply nth_error_None. cbn. lia.
  - intros n. reflexivity.
  - cbn. lia.
  - eexists _, _, s', lost. split; [|split; [exact H1|auto]]. cbn [List.length]. rewrite app_length, repeat_length. cbn [List.length]. lia.
Qed.

(** C116, C117: a source in front of the optic of C70_example. *)
Definition heap9 : list (@block float) :=
  heap8 ++ [ Vptr (Some 7) :: Vptr (Some 16) :: map Vdbl [10;0.1;0.1;0;0;0;0;0.5]%float ++ [Vint 2; Vptr (Some 15)];  (* 14: source *)
             map Vdbl [5;10]%float; [Vptr (Some 17)]; [Vundef] ].                                                     (* 15-17 *)
Definition state9 : st float := mkSt (nth_error heap9) 18 (fun _ => true) 0.
Definition nums9 : source_nums float := mkSource 10%float 0.1%float 0.1%float 0%float 0%float 0%float 0%float 0.5%float.
Lemma ready9 : source_ready state9 vars8 14 [14;15;16;17;7;8;9;10;11;12;13] long7 nums9 [5;10]%float.
Proof.
  split. { intros l Hl. cbn in *. apply nth_error_None. cbn. lia. }
  split; [intros n; reflexivity|]. split.
  { exists 15, 16, 17, 7, [7;8;9;10;11;12;13]. split; [reflexivity|]. split; [split; [reflexivity|split; [reflexivity|split; [reflexivity|eexists; reflexivity]]]|].
    exists 8, 9, 10, 11, 12, 13, 0.28%float. split; [reflexivity|]. split; [|repeat split]. unfold description_object. repeat (split; [reflexivity|]). repeat constructor; cbn; lia. }
  split; [repeat constructor; cbn; lia|]. intros l I. cbn in I. destruct I as [<-|[<-|[<-|[<-|[<-|[<-|[<-|[]]]]]]]]; eexists; reflexivity.
Qed.
Definition rs9 : list float := [0.3; 0.6; 0.7; 1; 1; 0.5; 0.5; 0.2]%float.
Example C116_met :
  exists dr rs' l n, @draw_photon float (FNum series) nums9 7 0.2%float 1%float rs9 = Some (dr, rs') /\
    @life_replies float (FNum series) clear_glass long7 nulls 4000 (dr_start dr) (dr_dir dr) (dr_elecv dr) [Launch [10%float] false; Get at_exit_coords] = Some (inl l, n) /\
    @photon_fresh float (FNum series) (dr_start dr) (dr_dir dr) (dr_elecv dr) <> None /\ @en_refused float (FNum series) [10%float] = false.
Proof.
  let r := eval vm_compute in (@draw_photon float (FNum series) nums9 7 0.2%float 1%float rs9) in match r with Some (?d, ?q) => exists d, q end.
  eexists _, _. split; [vm_compute; reflexivity|]. split; [vm_compute; reflexivity|]. split; [vm_compute; discriminate|reflexivity].
Qed.
(** A program whose third object is that source. *)
Example C119_met :
  exists replies ts, @story float (FNum series) nofit tables1 [straight; NewDescription 0 0%float 7 (Dict [(Symbol "Si", 1%float)]) 2%float; NewSource 1 10 0.1 0.1 0 0 0 0 0.5 [5;10]; Delete 0; Delete 1]%float [] = (replies, ts, 0) /\
    nth_error ts 2 = Some (Some (ASource long7 (nums_list nums9) [5;10]%float)).
Proof. eexists _, _. split; vm_compute; reflexivity. Qed.
Example C118_met : exists els, @elements_of float tables1 (Formula "SiO2") = inl els /\ @description_ok float (FNum series) 0%float 7 els 2%float = true.
Proof. eexists. split; reflexivity. Qed.
End Concrete.

Print Assumptions C113_python_objects.
Print Assumptions C114_all_deleted.
Print Assumptions C115_refused_descriptions.
Print Assumptions C115_refused_descriptions_refuted.
Print Assumptions C116_source_photon.
Print Assumptions C117_source_lifetime_refuted.
Print Assumptions C119_whole_program.
Print Assumptions C118_ignored_profile_refuted.
