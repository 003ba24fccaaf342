(** * Where the light goes: proofs, part 2 (reflections, leaks, whole paths) *)
From Coq Require Import ZArith List Bool Lia Reals Lra Psatz Classical_Prop.
From Verif Require Import Num Geometry SpecGeom SpecPhoton RM RMLogic CapilModel TraceModel LaunchModel SpecRay SpecPath SpecLeak
  RingProofs HexProofs PackProofs SourceReal CapilReal NormalReal FresnelReal WeightProofs TraceProofs SafeProofs PathProofs LeakProofs.
Import ListNotations.
Local Open Scope R_scope.

Lemma last_le_spec (zs : list R) zc : forall n i id,
  post (last_le zs zc n i id) (fun k =>
    ((k = id /\ forall j zj, (i <= j < i + n)%nat -> nth_error zs j = Some zj -> zc < zj) \/
     ((i <= k < i + n)%nat /\ (forall zk, nth_error zs k = Some zk -> zk <= zc))) /\
    (forall j zj, (i <= j < i + n)%nat -> (k < j)%nat -> nth_error zs j = Some zj -> zc < zj \/ (k = id /\ (id < i)%nat /\ zc < zj))).
Proof.
  induction n as [|n IH]; intros i id; cbn [last_le].
  { apply post_ret. split; [left; split; [reflexivity|intros; lia]|intros; lia]. }
  eapply post_bind; [apply post_rd|]. intros z Ez. rnum. destruct (Rleb_spec z zc) as [L|L].
  - eapply post_imp; [apply IH|]. intros k [[[-> H]|[H1 H2]] K].
    + split; [right; split; [lia|intros zk E; congruence]|]. intros j zj Hj Kj E. left. apply (H j zj); [lia|exact E].
    + split; [right; split; [lia|exact H2]|]. intros j zj Hj Kj E. left. destruct (K j zj ltac:(lia) Kj E) as [Q|(_ & _ & Q)]; exact Q.
  - assert (L' : zc < z) by lra. eapply post_imp; [apply IH|]. intros k [[[-> H]|[H1 H2]] K].
    + split; [left; split; [reflexivity|]|].
      * intros j zj Hj E. destruct (Nat.eq_dec j i) as [-> |N]; [congruence|]. apply (H j zj); [lia|exact E].
      * intros j zj Hj Kj E. left. destruct (Nat.eq_dec j i) as [-> |N]; [congruence|]. apply (H j zj); [lia|exact E].
    + split; [right; split; [lia|exact H2]|]. intros j zj Hj Kj E. left. destruct (K j zj ltac:(lia) Kj E) as [Q|(_ & _ & Q)]; exact Q.
Qed.

(** Interpolating the outer radius. *)
Lemma outline_post (p : profile R) zc : (1 <= p_nmax p)%nat ->
  post (zid <- last_le (p_z p) zc (p_nmax p) 0 0 ;; interp (p_z p) (p_ext p) zc zid)%rm (outline_at p zc).
Proof.
  intros Hn. eapply post_bind; [apply last_le_spec|]. intros k [K1 K2].
  eapply post_imp; [apply interp_lin|]. intros e (z0 & z1 & e0 & e1 & Ez0 & Ez1 & Ee0 & Ee1 & ->).
  exists k, z0, z1, e0, e1. assert (Hk : (k < p_nmax p)%nat) by (destruct K1 as [[-> _]|[K1 _]]; lia).
  split; [exact Hk|]. split; [exact Ez0|]. split; [exact Ez1|]. split; [exact Ee0|]. split; [exact Ee1|]. split.
  { destruct K1 as [[-> _]|[_ K1]]; [left; reflexivity|right; apply K1; exact Ez0]. }
  split; [|reflexivity]. intros j zj [Hj1 Hj2] E. destruct (K2 j zj ltac:(lia) Hj1 E) as [Q|(_ & _ & Q)]; exact Q.
Qed.

Section Light.
Variables (x : xraylib R) (o : optic R) (W : wf_optic o) (Pos : positive o) (Hn : 0 <= n_shells (o_ncap o)) (lc : bool) (en : list R).
Local Notation p := (o_prof o).
Local Notation nsh := (n_shells (o_ncap o)).
Definition mu : list R := map (xl_amu x o) en.
Local Notation spills := (spills p nsh mu lc).
Local Notation shines := (shines p nsh mu lc).
Local Notation fades := (fades p nsh mu lc).

Definition material (ph : photon R) : Prop := ph_en ph = en /\ length (ph_w ph) = length en /\ (ph_amu ph = Some mu \/ ph_amu ph = None).

Lemma splits_len w r g : splits w r g -> length r = length w /\ length g = length w.
Proof. intros (rho & L & _ & -> & ->). rewrite !map_length, !combine_length, L. lia. Qed.
Lemma attenuated_len m d w : length (attenuated m d w) = Nat.min (length m) (length w).
Proof. unfold attenuated. rewrite map_length, combine_length. reflexivity. Qed.

Lemma cap_axes_nth q r : (nsh = 0 -> q = 0%Z /\ r = 0%Z) -> (length (p_ext p) = S (p_nmax p))%nat -> forall n i, (i + n <= S (p_nmax p))%nat ->
  post (cap_axes o nsh q r n i) (fun l => length l = n /\ forall j, (j < n)%nat ->
    exists e, nth_error (p_ext p) (i + j) = Some e /\ nth j l (0, 0) = (axis_x (IZR q) (IZR r) (hex_unit e nsh), axis_y (IZR r) (hex_unit e nsh))).
Proof.
  intros H0 L. induction n as [|n IH]; intros i Hi; cbn [cap_axes]; [apply post_ret; split; [reflexivity|intros; lia]|].
  eapply post_bind with (P := fun xy => exists e, nth_error (p_ext p) i = Some e /\ xy = (axis_x (IZR q) (IZR r) (hex_unit e nsh), axis_y (IZR r) (hex_unit e nsh))).
  { rnum. destruct (Reqb_spec nsh 0) as [E|E].
    - destruct (nth_ex (p_ext p) i ltac:(lia)) as [e Ee]. apply post_ret. exists e. split; [exact Ee|]. destruct (H0 E) as [-> ->]. unfold axis_x, axis_y. rnum. f_equal; ring.
    - eapply post_bind; [apply post_rd|]. intros e Ee. apply post_ret. exists e. split; [exact Ee|]. unfold axis_x, axis_y. rnum. f_equal; field. }
  intros xy (e & Ee & ->). eapply post_bind; [apply IH; lia|]. intros l [Ll H]. apply post_ret.
  split; [cbn; congruence|]. intros [|j] Hj.
  - exists e. rewrite Nat.add_0_r. auto.
  - destruct (H j ltac:(lia)) as (e' & E1 & E2). exists e'. cbn [nth]. replace (i + S j)%nat with (S i + j)%nat by lia. auto.
Qed.
Lemma cap_axes_same q r : (nsh = 0 -> q = 0%Z /\ r = 0%Z) ->
  post (cap_axes o nsh q r (S (p_nmax p)) 0) (fun axes => same_axes o axes (capillary_of p nsh q r)).
Proof.
  intros H0. pose proof W as (W1 & W2 & W3 & W4). eapply post_imp; [apply cap_axes_nth; [exact H0|exact W4|lia]|]. intros axes [L H]. split; [exact L|].
  split; [apply capillary_len; assumption|]. intros j Hj. destruct (H j ltac:(lia)) as (e & Ee & En). cbn [Nat.add] in Ee.
  destruct (nth_ex (p_z p) j ltac:(lia)) as [z Ez]. destruct (nth_ex (p_cap p) j ltac:(lia)) as [c Ec].
  rewrite (capillary_nth _ _ _ _ _ _ _ _ Ez Ec Ee). unfold seg_c0, seg_r0. rewrite En, (nth_rd _ _ _ _ Ez), (nth_rd _ _ _ _ Ec).
  rewrite <- (axis_model e _ q r Hn). reflexivity.
Qed.

(** One call of polycap_capil_trace. *)
Definition light_step (c : capillary) (ph : photon R) (ie : Z) (ph' : photon R) : Prop :=
  regular c (ph_edir ph) ->
  (ie = (-1)%Z \/ ie = (-3)%Z) \/
  (ie = (-2)%Z /\ state_of ph' = state_of ph /\ ph_w ph' = ph_w ph /\ ph_ext ph' = ph_ext ph /\ ph_int ph' = ph_int ph) \/
  exists g xs ys, splits (ph_w ph) (ph_w ph') g /\ ph_ext ph' = ph_ext ph ++ xs /\ ph_int ph' = ph_int ph ++ ys /\
    spills (ph_exit ph') (ph_edir ph) (ph_irefl ph) (ph_dtravel ph') g xs ys /\
    ((ie = 1%Z /\ bounce c (state_of ph) (state_of ph') /\ unit (ph_edir ph') /\ significant (ph_w ph') /\ material ph') \/
     (ie = 0%Z /\ meets c (state_of ph) (ph_exit ph') /\ ~ significant (ph_w ph') /\ ph_dtravel ph' = ph_dtravel ph + distance (ph_exit ph') (ph_exit ph))).
Definition tracks (tr : tracer (T := R)) : Prop := forall c axes ix ph, same_axes o axes c -> unit (ph_edir ph) -> material ph ->
  post (tr ix ph axes) (fun r => let '(ie, ix', ph') := r in light_step c ph ie ph').

Lemma trace_many_light tr axes c : tracks tr -> same_axes o axes c -> forall n iesc ix ph s0 w0,
  (iesc = 1%Z \/ n <> O) -> unit (ph_edir ph) -> material ph -> shines c s0 w0 (ph_ext ph) (ph_int ph) (state_of ph) (ph_w ph) ->
  post (trace_many tr axes n iesc ix ph) (fun r => let '(ie, ph') := r in
    (ie <> 1%Z -> ie <> (-1)%Z -> ie <> (-2)%Z -> ie <> (-3)%Z -> fades c s0 w0 (ph_ext ph') (ph_int ph')) /\
    (ie <> 0%Z -> ie <> (-1)%Z -> ie <> (-3)%Z -> shines c s0 w0 (ph_ext ph') (ph_int ph') (state_of ph') (ph_w ph'))).
Proof.
  intros Tr Sx. induction n as [|n IH]; intros iesc ix ph s0 w0 Hi U Mt Sh; cbn [trace_many].
  { apply post_ret. split; [|auto]. intros N. destruct Hi as [Hi|Hi]; contradiction. }
  destruct (classic_reg c (ph_edir ph)) as [Rg|Rg].
  2:{ eapply post_imp; [apply post_any|]. intros [ie ph'] _. split; intros; [eapply fades_degenerate|eapply shines_degenerate]; try exact Sh; exact Rg. }
  eapply post_bind; [apply (Tr c axes ix ph Sx U Mt)|]. intros [[ie ix'] ph'] St. specialize (St Rg).
  destruct St as [[-> | ->]|[(-> & E1 & E2 & E3 & E4)|(g & xs & ys & Sp & X & Y & Sl & [(-> & B & U' & Sg & Mt')|(-> & Me & Ns & Tv)])]]; cbn [Z.eqb Pos.eqb].
  - apply post_ret. split; congruence.
  - apply post_ret. split; congruence.
  - apply post_ret. split; [congruence|]. intros _ _ _. rewrite E1, E2, E3, E4. exact Sh.
  - apply IH; [auto|exact U'|exact Mt'|]. rewrite X, Y. eapply shines_bounce; [exact Sh|exact B|exact Sp|exact Sg|exact Sl].
  - apply post_ret. split; [|congruence]. intros _ _ _ _. rewrite X, Y. eapply fades_at_wall; [exact Sh|exact Me|exact Sp|exact Ns|]. cbn [state_of r_pos r_dir r_bounces r_travel].
    rewrite <- Tv. exact Sl.
Qed.

Lemma unit_sqrt (u : vec3 R) : unit u -> sqrt (vscalar u u) = 1.
Proof. intros U. rewrite vscalar_dot. unfold unit in U. rewrite U. apply sqrt_1. Qed.

Lemma to_exit_at zm c d : to_exit c d zm = at_height zm c d.
Proof. unfold to_exit, at_height, ahead. rnum. f_equal; unfold Rdiv; ring. Qed.

Lemma reflect_leaks_light tr ph g wl wt dt r_c q_c : tracks tr -> material ph -> unit (ph_edir ph) -> lc = true -> length g = length en ->
  wl = attenuated mu dt g -> significant wl -> wall_fact o ph (wt, dt, r_c, q_c) -> (nsh = 0 -> q_c = 0%Z /\ r_c = 0%Z) ->
  post (reflect_leaks x tr o ph wl wt dt r_c q_c) (fun r => let '(early, ph') := r in early = None ->
    exists xs ys, ph_ext ph' = ph_ext ph ++ xs /\ ph_int ph' = ph_int ph ++ ys /\ ph_w ph' = ph_w ph /\
      spills (ph_exit ph) (ph_edir ph) (ph_irefl ph) (ph_dtravel ph) g xs ys).
Proof.
  intros Tr Mt U Lc Lg -> Sg Wf H0. pose proof W as (W1 & W2 & W3 & W4). unfold reflect_leaks. rnum. rewrite unit_sqrt by exact U.
  replace (dt / 1) with dt by field. set (pl := vgo (ph_exit ph) dt (ph_edir ph)).
  assert (Ep : pl = ahead (ph_exit ph) (ph_edir ph) dt) by reflexivity.
  eapply post_bind with (P := fun wt' => (wt' = 1%Z /\ glass p nsh (ph_exit ph) (ph_edir ph) dt (IntoChannel q_c r_c)) \/
    (wt' = 2%Z /\ glass p nsh (ph_exit ph) (ph_edir ph) dt AtExit) \/ (wt' = 3%Z /\ glass p nsh (ph_exit ph) (ph_edir ph) dt AtSide)).
  { destruct Wf as [[-> G]|[[-> G]|[-> G]]]; cbn [Z.eqb Pos.eqb]; [|apply post_ret; auto|apply post_ret; auto].
    assert (D0 : 0 <= dt) by exact (proj1 G).
    pose proof (outline_post p (vz pl) W1) as Ol.
    intros e a e' K. unfold bind in K.
    destruct (last_le (p_z p) (vz pl) (p_nmax p) 0 0 e) as [[zid e1]| |] eqn:K1; try discriminate.
    destruct (interp (p_z p) (p_ext p) (vz pl) zid e1) as [[ext e2]| |] eqn:K2; try discriminate.
    assert (Oe : outline_at p (vz pl) ext). { apply (Ol e ext e2). unfold bind. rewrite K1. exact K2. }
    destruct (Reqb_spec nsh 0) as [N|N].
    - unfold ret in K. injection K as K _. subst a.
      match goal with |- context [Rleb ext ?d] => destruct (Rleb_spec ext d) as [O|O] end; [right; right|left; auto].
      split; [reflexivity|]. split; [exact D0|]. right. exists ext. rewrite <- Ep. split; [exact Oe|]. destruct (Req_EM_T _ 0) as [_|C]; [exact O|contradiction].
    - assert (Q : exists e3, within_e ext pl e2 = Ret (within_pc_boundary ext pl, e3)).
      { unfold within_e, bind, ret. destruct (if Rleb ext 0 then _ else _) as [[? e3]| |] eqn:Q; [eauto| |]; revert Q; rnum; destruct (Rleb ext 0); unfold report, ret; discriminate. }
      destruct Q as [e3 Q]. rewrite Q in K. unfold ret in K. injection K as K _. subst a.
      destruct (Z.eqb_spec (within_pc_boundary ext pl) 0) as [Z0|Z0]; [right; right|left; auto].
      destruct (Rle_or_lt ext 0) as [L|L]; [destruct (within_spec ext pl) as (A & _); rewrite (A L) in Z0; discriminate|].
      split; [reflexivity|]. split; [exact D0|]. right. exists ext. rewrite <- Ep. split; [exact Oe|].
      destruct (Req_EM_T _ 0) as [C|_]; [contradiction|]. split; [exact L|]. intros I. destruct (within_spec ext pl) as (_ & A & _). rewrite (A L I) in Z0. discriminate. }
  intros wt' Hw. eapply post_bind; [apply post_rd|]. intros zmax Ez.
  destruct Hw as [[-> G]|[[-> G]|[-> G]]]; cbn [Z.eqb Pos.eqb andb].
  2:{ apply post_ret. intros _. exists [], [mkLeak pl (ph_edir ph) (ph_eelec ph) (ph_irefl ph) (attenuated mu dt g)]. cbn [add_ext add_int ph_ext ph_int ph_w]. rewrite app_nil_r.
      repeat split; try reflexivity. eapply spills_exit; [exact G|exact Sg|]. repeat split. }
  2:{ apply post_ret. intros _. exists [mkLeak pl (ph_edir ph) (ph_eelec ph) (ph_irefl ph) (attenuated mu dt g)], []. cbn [add_ext add_int ph_ext ph_int ph_w]. rewrite app_nil_r.
      repeat split; try reflexivity. eapply spills_side; [exact G|exact Sg|]. repeat split. }
  destruct (nth_ex (p_ext p) (p_nmax p) ltac:(lia)) as [em Ee]. assert (Ex : exit_plane p zmax em) by (split; assumption).
  destruct (Rltb_spec (vz pl) zmax) as [L|L].
  2:{ apply post_ret. intros _. exists [], []. rewrite !app_nil_r. repeat split. eapply spills_beyond; [exact G|exact Sg|exact Ex|]. rewrite <- Ep. lra. }
  eapply post_bind with (P := fun t => t = mkPhoton pl (ph_edir ph) (ph_eelec ph) pl (ph_edir ph) (ph_eelec ph) [] [] None None 0%Z 0 [] []).
  { unfold photon_fresh. destruct (orb _ _); [eapply post_seq; intros _; apply post_ub|apply post_ret; reflexivity]. }
  intros ? ->. cbn [ph_start ph_sdir ph_selec ph_exit ph_edir ph_eelec].
  set (t := mkPhoton pl _ _ _ _ _ _ _ _ _ _ _ _ _).
  eapply post_bind with (P := fun t' => (ph_amu t' = None \/ ph_amu t' = Some mu) /\ ph_exit t' = pl /\ ph_edir t' = ph_edir ph /\ ph_irefl t' = ph_irefl ph /\ ph_dtravel t' = ph_dtravel ph + dt /\
     ph_en t' = en /\ ph_w t' = attenuated mu dt g /\ ph_ext t' = [] /\ ph_int t' = []).
  { destruct Mt as (Me & _). unfold photon_scatf. destruct (orb _ _); [eapply post_seq; intros _; apply post_ret|apply post_ret; cbn [set_cs ph_amu]]; subst t; cbn -[mu];
      (split; [auto|]); repeat split; try exact Me. right. rewrite Me. reflexivity. }
  intros t' (Ta & T1 & T2 & T3 & T4 & T5 & T6 & T7 & T8). clear t.
  destruct Ta as [Ta|Ta]; rewrite Ta. { eapply post_seq; intros _. apply post_ret. discriminate. }
  destruct (ph_scatf t') as [sc|]. 2:{ eapply post_seq; intros _. apply post_ret. discriminate. }
  eapply post_bind; [apply cap_axes_same; exact H0|]. intros axes Sx.
  eapply post_bind; [apply last_le_bound|]. intros ix Hix.
  assert (Mt' : material t'). { split; [exact T5|]. split; [|auto]. rewrite T6, attenuated_len, Lg. unfold mu. rewrite map_length. lia. }
  set (c := capillary_of p nsh q_c r_c) in *.
  eapply post_bind.
  { apply (trace_many_light tr axes c Tr Sx _ _ ix t' (state_of t') (ph_w t')); [right; destruct Hix as [-> |Hix]; lia|rewrite T2; exact U|exact Mt'|].
    rewrite T7, T8. constructor. }
  assert (St : state_of t' = mkRay (ahead (ph_exit ph) (ph_edir ph) dt) (ph_edir ph) (ph_irefl ph) (ph_dtravel ph + dt)) by (unfold state_of; rewrite T1, T2, T3, T4; reflexivity).
  rewrite St, T6. intros [ie t2] [F S]. destruct (Z.eqb_spec ie (-1)) as [E1|E1]; cbn [orb]. { apply post_ret. discriminate. }
  destruct (Z.eqb_spec ie (-3)) as [E3|E3]; cbn [orb]. { apply post_ret. discriminate. }
  destruct (Z.eqb_spec ie 1) as [E|E]; [|destruct (Z.eqb_spec ie (-2)) as [E'|E']]; cbn [orb].
  3:{ apply post_ret. intros _. exists (ph_ext t2), (ph_int t2). cbn [add_ext add_int ph_ext ph_int ph_w]. repeat split; try reflexivity.
      eapply spills_absorbed; [exact G|exact Sg|]. exact (F E E1 E' E3). }
  all: assert (Sh := S ltac:(lia) E1 E3); eapply post_bind; [apply post_rd|]; intros em' Ee'; assert (em' = em) by congruence; subst em'.
  all: pose proof (positive_nth _ _ _ (proj2 Pos) Ee) as Pe; eapply post_bind; [apply within_e_post; exact Pe|]; intros w Hw; apply post_ret; intros _.
  all: rewrite to_exit_at in *.
  all: destruct Hw as [[-> I]|[-> I]]; cbn [Z.eqb Pos.eqb].
  all: [> exists (ph_ext t2 ++ [mkLeak (at_height zmax (ph_exit t2) (ph_edir t2)) (ph_edir ph) (ph_eelec ph) (ph_irefl ph) (ph_w t2)]), (ph_int t2)
        | exists (ph_ext t2), (ph_int t2 ++ [mkLeak (at_height zmax (ph_exit t2) (ph_edir t2)) (ph_edir ph) (ph_eelec ph) (ph_irefl ph) (ph_w t2)])
        | exists (ph_ext t2 ++ [mkLeak (at_height zmax (ph_exit t2) (ph_edir t2)) (ph_edir ph) (ph_eelec ph) (ph_irefl ph) (ph_w t2)]), (ph_int t2)
        | exists (ph_ext t2), (ph_int t2 ++ [mkLeak (at_height zmax (ph_exit t2) (ph_edir t2)) (ph_edir ph) (ph_eelec ph) (ph_irefl ph) (ph_w t2)]) ].
  all: cbn [add_ext add_int ph_ext ph_int ph_w]; rewrite ?app_assoc; repeat split; try reflexivity.
  all: first [eapply spills_through_side; [exact G|exact Sg|exact Sh|exact Ex|exact I|repeat split]
             |eapply spills_through_exit; [exact G|exact Sg|exact Sh|exact Ex|exact I|repeat split]].
Qed.

(** polycap_capil_reflect. *)
Definition refl_light (ph : photon R) (r : Z * photon R) : Prop :=
  let '(ie, ph') := r in (ie = 1%Z \/ ie = 0%Z) ->
  exists g xs ys, splits (ph_w ph) (ph_w ph') g /\ (ie = 1%Z <-> significant (ph_w ph')) /\ ph_ext ph' = ph_ext ph ++ xs /\ ph_int ph' = ph_int ph ++ ys /\
    spills (ph_exit ph) (ph_edir ph) (ph_irefl ph) (ph_dtravel ph) g xs ys.

Lemma reflect_light tr fuel ph sn ev0 : tracks tr -> material ph -> unit (ph_edir ph) ->
  post (reflect x tr fuel o ph sn ev0 lc) (refl_light ph).
Proof.
  intros Tr Mt U. unfold reflect. assert (Un : vnorm (ph_edir ph) = ph_edir ph) by (apply vnorm_of_unit; exact U).
  assert (Es : set_edir (ph_edir ph) ph = ph) by (destruct ph; reflexivity). rewrite Un, Es.
  destruct (nltb _ _). { apply post_seq; intros _. apply post_ret. intros [? | ?]; discriminate. }
  eapply post_bind with (P := fun wp => let '(wt, dt, r, q) := fst wp in snd wp = ph /\ (lc = false -> wt = 0%Z) /\
     (lc = true -> (0 < wt)%Z -> wall_fact o ph (wt, dt, r, q) /\ (nsh = 0 -> q = 0%Z /\ r = 0%Z))).
  { destruct lc; [|apply post_ret; cbn [fst snd]; repeat split; discriminate].
    eapply post_imp; [apply trace_wall_fact; [exact W|exact Pos|exact Hn|rewrite Un; exact U]|]. intros [[[[wt dt] r] q] ph1]. cbn [fst snd]. rewrite Un, Es.
    intros [-> F]. split; [reflexivity|]. split; [discriminate|intros _; exact F]. }
  intros [[[[wt dt] r] q] ph1]. cbn [fst snd]. intros (-> & Hf & Ht).
  destruct (andb lc _) eqn:Bad. { apply post_ret. intros [? | ?]; discriminate. }
  destruct Mt as (Me & Mw & Ma).
  eapply post_bind; [apply post_deref|]. intros amu Ea. eapply post_seq; intros scatf.
  assert (amu = mu) by (destruct Ma; congruence). subst amu.
  eapply post_bind; [apply refl_loop_split; [rewrite Me; unfold mu; apply map_length|rewrite Me; exact Mw]|].
  intros rr Hr. destruct (rr_ok rr) eqn:Ok; cbn [negb]; [|apply post_ret; intros [? | ?]; discriminate].
  destruct (Hr Ok) as (g & Sp & Wf & Lk & Lf). destruct (splits_len _ _ _ Sp) as [Lw Lg].
  assert (Iesc : (if rr_wf rr then 1%Z else 0%Z) = 1%Z <-> significant (rr_w rr)) by (rewrite <- Wf; destruct (rr_wf rr); intuition congruence).
  set (ph2 := set_eelec (rr_new rr) (set_w (rr_w rr) (set_eelec (rr_ev rr) ph))).
  destruct (rr_lf rr) eqn:Lfv.
  - assert (Wt : (0 < wt)%Z). { destruct (Z.ltb_spec 0 wt); [assumption|]. discriminate (Lf eq_refl). }
    assert (Lc : lc = true). { destruct lc; [reflexivity|]. rewrite (Hf eq_refl) in Wt. lia. }
    destruct (Ht Lc Wt) as [F H0]. rewrite (proj2 (Z.ltb_lt 0 wt) Wt) in Lk. destruct (Lk eq_refl) as [L1 L2].
    assert (G' : length g = length en) by congruence.
    assert (Mt2 : material ph2). { split; [exact Me|]. split; [cbn [ph2 set_eelec set_w ph_w]; congruence|exact Ma]. }
    eapply post_bind; [apply post_and; [apply (reflect_leaks_light tr ph2 g (rr_leak rr) wt dt r q Tr Mt2 U Lc G' L1)|apply reflect_leaks_codes]|].
    + rewrite L1. apply L2. reflexivity.
    + exact F.
    + exact H0.
    + intros [early ph3] [R3 Rc]. apply post_ret. unfold refl_light. intros Code.
      assert (Rr : early = None -> exists xs ys, ph_ext ph3 = ph_ext ph2 ++ xs /\ ph_int ph3 = ph_int ph2 ++ ys /\ ph_w ph3 = ph_w ph2 /\
        spills (ph_exit ph2) (ph_edir ph2) (ph_irefl ph2) (ph_dtravel ph2) g xs ys) by exact R3.
      destruct early as [c|]; [exfalso; cbn [fst] in Rc; destruct Code as [-> | ->]; destruct Rc as [Rc|[Rc|Rc]]; discriminate|].
      destruct (Rr eq_refl) as (xs & ys & X & Y & Z & S). exists g, xs, ys. rewrite Z. cbn [ph2 set_eelec set_w ph_w]. split; [exact Sp|]. split; [exact Iesc|]. split; [exact X|]. split; [exact Y|exact S].
  - apply post_ret. intros _. exists g, [], []. cbn [ph2 set_eelec set_w ph_w ph_ext ph_int]. rewrite !app_nil_r. split; [exact Sp|]. split; [exact Iesc|]. split; [reflexivity|]. split; [reflexivity|].
    destruct lc eqn:Lc; [|apply spills_not_asked; reflexivity].
    cbn [andb] in Bad. apply Z.leb_gt in Bad. destruct (Ht eq_refl Bad) as [F _]. rewrite (proj2 (Z.ltb_lt 0 wt) Bad) in Lk. destruct (Lk eq_refl) as [_ L2].
    assert (Ns : ~ significant (attenuated mu dt g)) by (intros C; apply L2 in C; discriminate).
    destruct F as [[_ G]|[[_ G]|[_ G]]]; eapply spills_dark; try exact G; exact Ns.
Qed.

(** polycap_capil_trace, apart from its geometry. *)
Definition body_light (ph : photon R) (r : Z * nat * photon R) : Prop :=
  let '(ie, _, ph') := r in
  (ie = (-2)%Z -> ph_w ph' = ph_w ph /\ ph_ext ph' = ph_ext ph /\ ph_int ph' = ph_int ph) /\
  ((ie = 1%Z \/ ie = 0%Z) -> material ph' /\ exists g xs ys, splits (ph_w ph) (ph_w ph') g /\ (ie = 1%Z <-> significant (ph_w ph')) /\ ph_ext ph' = ph_ext ph ++ xs /\ ph_int ph' = ph_int ph ++ ys /\
    spills (ph_exit ph') (ph_edir ph) (ph_irefl ph) (ph_dtravel ph') g xs ys).

Lemma trace_segs_stops (ph : photon R) axes : forall n i pc sn, post (trace_segs o ph axes nsh n i pc sn) (fun s => match s with Stop c => c = (-1)%Z \/ c = (-3)%Z | _ => True end).
Proof.
  induction n as [|n IH]; intros i pc sn; cbn [trace_segs]; [apply post_ret; exact I|].
  do 8 (eapply post_seq; intros ?; repeat match goal with v : (_ * _)%type |- _ => destruct v end).
  destruct (orb _ _). { eapply post_seq; intros _. apply post_ret. auto. }
  eapply post_seq; intros [[iesc pc'] sn']. match goal with |- context [Z.eqb ?a 1] => destruct (Z.eqb a 1) end.
  - destruct (neqb _ _); [destruct (nleb _ _); apply post_ret; auto|]. eapply post_seq; intros w. destruct (Z.eqb w 0); apply post_ret; auto.
  - eapply post_seq; intros w. destruct (Z.eqb w 0); [apply post_ret; auto|apply IH].
Qed.

Lemma trace_body_light refl junk ix ph axes : (forall ph sn, material ph -> unit (ph_edir ph) -> post (refl ph sn) (refl_light ph)) ->
  (forall ph sn, post (refl ph sn) (fun r => frame ph (snd r) /\ In (fst r) [1; 0; -1; -2]%Z)) ->
  material ph -> unit (ph_edir ph) -> post (trace_body refl o junk ix ph axes) (body_light ph).
Proof.
  intros Hr Hf Mt U. unfold trace_body. rewrite (vnorm_of_unit _ U).
  assert (Es : set_edir (ph_edir ph) ph = ph) by (destruct ph; reflexivity). rewrite Es.
  set (ph0 := set_sdir _ ph).
  eapply post_bind; [apply trace_segs_stops|]. intros [c| |i pc sn cosa] Hs.
  - apply post_ret. split; [intros ->; destruct Hs; discriminate|intros H; destruct Hs; subst; destruct H; discriminate].
  - apply post_ret. split; [intros _; repeat split|intros [? | ?]; discriminate].
  - destruct (nltb _ _). { apply post_ret. split; [discriminate|intros [? | ?]; discriminate]. }
    eapply post_seq; intros ix'. eapply post_seq; intros ext. eapply post_seq; intros w. destruct (Z.eqb w 0). { apply post_ret. split; [discriminate|intros [? | ?]; discriminate]. }
    set (ph1 := set_exit pc _). assert (Mt1 : material ph1) by exact Mt.
    eapply post_bind; [apply post_and; [apply (Hr ph1 sn Mt1 U)|apply (Hf ph1 sn)]|]. intros [ie ph2] [H1 [Fr Cd]]. cbn [fst snd] in Fr, Cd.
    destruct Fr as (_ & _ & _ & Fe & Fi & Fd & Fn & Fa & _).
    assert (K : ie = 1%Z \/ ie = 0%Z -> material ph2 /\ exists g xs ys, splits (ph_w ph) (ph_w ph2) g /\ (ie = 1%Z <-> significant (ph_w ph2)) /\ ph_ext ph2 = ph_ext ph ++ xs /\ ph_int ph2 = ph_int ph ++ ys /\
      spills (ph_exit ph2) (ph_edir ph) (ph_irefl ph) (ph_dtravel ph2) g xs ys).
    { intros Hc. destruct (H1 Hc) as (g & xs & ys & Sp & Sg & X & Y & Sl). split.
      - destruct Mt1 as (A & B & C). split; [congruence|]. split; [rewrite (proj1 (splits_len _ _ _ Sp)); exact B|]. rewrite Fa. exact C.
      - exists g, xs, ys. rewrite Fe, Fd. repeat split; auto; apply Sg. }
    destruct (Z.eqb_spec ie 1) as [E|E].
    + apply post_ret. split; [discriminate|]. intros _. destruct (K (or_introl E)) as [A (g & xs & ys & B)]. split; [exact A|]. exists g, xs, ys. subst ie. exact B.
    + destruct (orb _ _) eqn:Q; apply post_ret. { split; [discriminate|intros [? | ?]; discriminate]. }
      split; [|exact K]. intros ->. discriminate Q.
Qed.

Lemma tracks_trace junk : forall fuel, tracks (trace x o junk lc fuel).
Proof.
  induction fuel as [|fuel IH]; intros c axes ix ph Sx U Mt. { cbn [trace]. apply post_nofuel. }
  destruct (classic_reg c (ph_edir ph)) as [Rg|Rg]. 2:{ eapply post_imp; [apply post_any|]. intros [[ie ix'] ph'] _ C. contradiction. }
  eapply post_imp.
  { apply post_and; [apply trace_stepped; [apply Rg|intros j Hj; rewrite (vnorm_of_unit _ U); eapply regular_nice; [exact Sx|exact Rg|lia]]|].
    cbn [trace]. apply trace_body_light; [intros; apply reflect_light; assumption| |exact Mt|exact U].
    intros ph0 sn. apply post_and; [eapply post_imp; [apply reflect_frame|]; intros r Hr; apply Hr|apply reflect_codes]. }
  intros [[ie ix'] ph'] [(H1 & H0 & H2 & Hc) [B2 B1]] _. rewrite (vnorm_of_unit _ U) in H1, H0, H2.
  destruct Hc as [Hc|[Hc|[Hc|[Hc|[Hc|[]]]]]]; subst ie; [| |right; left|left; auto|left; auto].
  - destruct (B1 (or_introl eq_refl)) as [Mt' (g & xs & ys & Sp & Sg & X & Y & Sl)]. right. right. exists g, xs, ys. split; [exact Sp|]. split; [exact X|]. split; [exact Y|]. split; [exact Sl|]. left.
    destruct (H1 eq_refl) as (Hh & Hi & Hu & nn & Un & Mi). destruct (hit_meets _ _ _ _ _ _ Sx Hh) as [Me Tv].
    split; [reflexivity|]. split; [|split; [exact Hu|split; [apply Sg; reflexivity|exact Mt']]].
    split; [exact Me|]. split; [exists nn; split; [exact Un|exact Mi]|]. split; [exact Hu|]. split; [exact Hi|exact Tv].
  - destruct (B1 (or_intror eq_refl)) as [Mt' (g & xs & ys & Sp & Sg & X & Y & Sl)]. right. right. exists g, xs, ys. split; [exact Sp|]. split; [exact X|]. split; [exact Y|]. split; [exact Sl|]. right.
    destruct (H0 eq_refl) as (Hh & Hi & Hd). destruct (hit_meets _ _ _ _ _ _ Sx Hh) as [Me Tv].
    split; [reflexivity|]. split; [exact Me|]. split; [intros C; apply Sg in C; discriminate|exact Tv].
  - destruct (B2 eq_refl) as (A & B & C). destruct (H2 eq_refl) as (A1 & A2 & A3 & A4). split; [reflexivity|]. split; [unfold state_of; congruence|]. auto.
Qed.
End Light.
