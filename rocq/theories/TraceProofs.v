(** * One step of polycap_capil_trace over the reals *)
From Coq Require Import ZArith List Bool Lia Reals Lra Psatz.
From Verif Require Import Num Geometry SpecPhoton RM RMLogic CapilModel TraceModel SpecRay SourceReal CapilReal NormalReal FresnelReal WeightProofs.
Import ListNotations.
Local Open Scope R_scope.

(** ** reflect leaves position, start, counters alone *)
Definition frame (ph ph' : photon R) : Prop :=
  ph_start ph' = ph_start ph /\ ph_sdir ph' = ph_sdir ph /\ ph_selec ph' = ph_selec ph /\ ph_exit ph' = ph_exit ph /\
  ph_irefl ph' = ph_irefl ph /\ ph_dtravel ph' = ph_dtravel ph /\ ph_en ph' = ph_en ph /\
  ph_amu ph' = ph_amu ph /\ ph_scatf ph' = ph_scatf ph.
Lemma frame_refl ph : frame ph ph.
Proof. repeat split. Qed.
Lemma frame_trans a b c : frame a b -> frame b c -> frame a c.
Proof. unfold frame. intuition congruence. Qed.

Lemma reflect_leaks_frame x tr (o : optic R) ph wl wt dt r_c q_c :
  post (reflect_leaks x tr o ph wl wt dt r_c q_c)
    (fun r => frame ph (snd r) /\ ph_edir (snd r) = ph_edir ph /\ ph_w (snd r) = ph_w ph /\ ph_eelec (snd r) = ph_eelec ph).
Proof.
  unfold reflect_leaks. eapply post_seq; intros wt'. set (lc := vgo _ _ _). clearbody lc.
  set (ph1 := if Z.eqb wt' 2 then _ else _).
  assert (F1 : frame ph ph1 /\ ph_edir ph1 = ph_edir ph /\ ph_w ph1 = ph_w ph /\ ph_eelec ph1 = ph_eelec ph).
  { unfold ph1. destruct (Z.eqb wt' 2), (Z.eqb wt' 3); repeat split. }
  clearbody ph1. eapply post_seq; intros zmax.
  destruct (andb _ _); [|apply post_ret; exact F1].
  eapply post_seq; intros t0. eapply post_seq; intros t.
  destruct (ph_amu t); [|eapply post_seq; intros _; apply post_ret; exact F1]. destruct (ph_scatf t); [|eapply post_seq; intros _; apply post_ret; exact F1].
  eapply post_seq; intros axes. eapply post_seq; intros ix. eapply post_seq; intros [ie t']. destruct (orb _ _); [apply post_ret; exact F1|].
  destruct (orb _ _); [|apply post_ret; exact F1].
  eapply post_seq; intros em. eapply post_seq; intros w. apply post_ret. cbn [snd].
  destruct (Z.eqb w 0); [|destruct (Z.eqb w 1)]; exact F1.
Qed.

Lemma reflect_frame x tr fuel (o : optic R) ph sn ev0 lc :
  post (reflect x tr fuel o ph sn ev0 lc)
    (fun r => frame ph (snd r) /\ (ph_edir (snd r) = vnorm (ph_edir ph) \/ ph_edir (snd r) = vnorm (vnorm (ph_edir ph)))).
Proof.
  unfold reflect. destruct (nltb _ _). { apply post_seq; intros _. apply post_ret. split; [repeat split|left; reflexivity]. }
  eapply post_bind with (P := fun wp => frame ph (snd wp) /\ (ph_edir (snd wp) = vnorm (ph_edir ph) \/ ph_edir (snd wp) = vnorm (vnorm (ph_edir ph)))).
  { destruct lc; [|apply post_ret; split; [repeat split|left; reflexivity]].
    eapply post_imp; [apply trace_wall_d|]. intros wp [-> _]. split; [repeat split|right; reflexivity]. }
  intros [[[[wt dt] r_c] q_c] ph1] [F E]. cbn [snd] in F, E.
  destruct (andb _ _); [apply post_ret; auto|].
  eapply post_seq; intros amu. eapply post_seq; intros scatf. eapply post_seq; intros r.
  destruct (rr_ok r); cbn [negb]; [|apply post_ret; auto].
  destruct (rr_lf r); [|apply post_ret; auto].
  eapply post_bind; [apply reflect_leaks_frame|]. intros [early ph2] (F2 & E2 & _). cbn [snd] in F2, E2. apply post_ret. cbn [snd].
  split; [eapply frame_trans; [exact F|exact F2]|]. rewrite E2. exact E.
Qed.

(** ** The loop over the segments *)
(** [nice o axes d i]: segment i has positive radii and the ray is not parallel to its wall
    nor orthogonal to its axis. *)
Definition seg_c0 (o : optic R) (axes : list (R * R)) (i : nat) : vec3 R :=
  mkV (fst (nth i axes (0, 0))) (snd (nth i axes (0, 0))) (nth i (p_z (o_prof o)) 0).
Definition seg_r0 (o : optic R) (i : nat) : R := nth i (p_cap (o_prof o)) 0.
Definition nice (o : optic R) (axes : list (R * R)) (d : vec3 R) (i : nat) : Prop :=
  0 < seg_r0 o i /\ 0 < seg_r0 o (S i) /\
  ~ parallel_to_wall (seg_c0 o axes i) (seg_c0 o axes (S i)) (seg_r0 o i) (seg_r0 o (S i)) d /\
  dot d (axis_dir (seg_c0 o axes i) (seg_c0 o axes (S i))) <> 0.

Lemma nth_rd {A} (l : list A) i a d : nth_error l i = Some a -> nth i l d = a.
Proof. apply nth_error_nth. Qed.

Lemma ray_at_line (c d : vec3 R) z p : 0 < vz d -> on_line (ray_at c d z) d p -> on_line c d p.
Proof.
  intros H (t & X & Y & Z). unfold ray_at in *. rnum. cbn [vx vy vz] in *. exists ((z - vz c) / vz d + t). rewrite X, Y, Z. repeat split; field; lra.
Qed.

Lemma segment_post c0 c1 r0 r1 p0 p1 dir pc sn : 0 < vz dir -> ~ parallel_to_wall c0 c1 r0 r1 dir -> 0 < r0 -> 0 < r1 -> dot dir (axis_dir c0 c1) <> 0 ->
  post (segment c0 c1 r0 r1 p0 p1 dir pc sn) (fun r => let '(code, pc', sn') := r in
    (code <> 1%Z -> pc' = pc) /\
    (code = 1%Z -> on_line p0 dir pc' /\ on_wall c0 c1 r0 r1 pc' /\ vz pc + 1 / 100000 <= vz pc' /\ unit sn')).
Proof.
  intros Hd Hp A B D e [[code pc'] sn'] e' K. split.
  - intros N. destruct (segment_total c0 c1 r0 r1 p0 p1 dir pc sn e) as (c & p & s & ee & E & _ & P & _). rewrite K in E. apply ret4 in E. destruct E as (-> & -> & _). auto.
  - intros ->. destruct (segment_hit _ _ _ _ _ _ _ _ _ _ _ _ _ Hd Hp K) as (_ & _ & L & W & Z & _).
    destruct (segment_normal_unit _ _ _ _ _ _ _ _ _ _ _ _ _ Hd Hp A B D K) as (U & _). auto.
Qed.

Lemma trace_segs_hit (o : optic R) (ph : photon R) axes nsh : 0 < vz (ph_edir ph) -> unit (ph_edir ph) ->
  forall n i pc sn, (forall j, (i <= j < i + n)%nat -> nice o axes (ph_edir ph) j) -> vz (ph_exit ph) <= vz pc ->
  post (trace_segs o ph axes nsh n i pc sn) (fun s => match s with
    | Hit j pc' sn' cosa => (i <= j < i + n)%nat /\ unit sn' /\ cosa = dot sn' (ph_edir ph) /\
        on_line (ph_exit ph) (ph_edir ph) pc' /\ vz (ph_exit ph) + 1 / 100000 <= vz pc' /\
        on_wall (seg_c0 o axes j) (seg_c0 o axes (S j)) (seg_r0 o j) (seg_r0 o (S j)) pc'
    | Stop c => c = (-1)%Z \/ c = (-3)%Z
    | Miss => True end).
Proof.
  intros Hd Ud. induction n as [|n IH]; intros i pc sn Hn Hz; cbn [trace_segs]; [apply post_ret; exact I|].
  eapply post_bind; [apply post_rd|]. intros [x0 y0] E1.
  eapply post_bind; [apply post_rd|]. intros z0 E2.
  eapply post_bind; [apply post_rd|]. intros rad0 E3.
  eapply post_bind; [apply post_rd|]. intros [x1 y1] E4.
  eapply post_bind; [apply post_rd|]. intros z1 E5.
  eapply post_bind; [apply post_rd|]. intros rad1 E6.
  eapply post_seq; intros e0. eapply post_seq; intros e1.
  destruct (orb _ _). { apply post_seq; intros _. apply post_ret. auto. }
  destruct (Hn i ltac:(lia)) as (A & B & C & D). 
  assert (C0 : seg_c0 o axes i = mkV x0 y0 z0) by (unfold seg_c0; rewrite (nth_rd _ _ _ _ E1), (nth_rd _ _ _ _ E2); reflexivity).
  assert (C1 : seg_c0 o axes (S i) = mkV x1 y1 z1) by (unfold seg_c0; rewrite (nth_rd _ _ _ _ E4), (nth_rd _ _ _ _ E5); reflexivity).
  assert (R0 : seg_r0 o i = rad0) by (unfold seg_r0; apply nth_rd; exact E3).
  assert (R1 : seg_r0 o (S i) = rad1) by (unfold seg_r0; apply nth_rd; exact E6).
  rewrite C0, C1, R0, R1 in *.
  eapply post_bind; [apply segment_post; eassumption|].
  intros [[code pc'] sn'] [K1 K2]. cbv zeta. rewrite !vscalar_dot.
  set (code' := if (nltb _ _ || _)%bool then (-5)%Z else code).
  assert (H : code' = 1%Z -> code = 1%Z) by (unfold code'; destruct (orb _ _); [discriminate|auto]).
  destruct (Z.eqb_spec code' 1) as [E|E].
  - destruct (K2 (H E)) as (L & W & Z & U).
    assert (Q : (i <= i < i + S n)%nat /\ unit sn' /\ dot sn' (ph_edir ph) = dot sn' (ph_edir ph) /\
        on_line (ph_exit ph) (ph_edir ph) pc' /\ vz (ph_exit ph) + 1 / 100000 <= vz pc' /\
        on_wall (seg_c0 o axes i) (seg_c0 o axes (S i)) (seg_r0 o i) (seg_r0 o (S i)) pc').
    { rewrite C0, C1, R0, R1. repeat split; auto; try lia; try apply W; [|lra]. apply ray_at_line in L; auto. }
    destruct (neqb _ _).
    + destruct (nleb _ _); apply post_ret; [auto|exact Q].
    + eapply post_seq; intros w. destruct (Z.eqb w 0); apply post_ret; [auto|exact Q].
  - eapply post_seq; intros w. destruct (Z.eqb w 0); [apply post_ret; auto|].
    eapply post_imp; [apply IH|].
    + intros j Hj. apply Hn. lia.
    + destruct (Z.eq_dec code 1) as [E'|E']; [destruct (K2 E') as (_ & _ & Z & _); lra|]. rewrite (K1 E'). exact Hz.
    + intros [c| |j pc2 sn2 cosa]; auto. intros (J & Q). split; [lia|exact Q].
Qed.

(** ** The codes of reflect *)
Lemma reflect_leaks_codes x tr (o : optic R) ph wl wt dt r_c q_c :
  post (reflect_leaks x tr o ph wl wt dt r_c q_c) (fun r => fst r = None \/ fst r = Some (-1)%Z \/ fst r = Some (-2)%Z).
Proof.
  unfold reflect_leaks. eapply post_seq; intros wt'. eapply post_seq; intros zmax.
  destruct (andb _ _); [|apply post_ret; auto].
  eapply post_seq; intros t0. eapply post_seq; intros t.
  destruct (ph_amu t); [|eapply post_seq; intros _; apply post_ret; auto]. destruct (ph_scatf t); [|eapply post_seq; intros _; apply post_ret; auto].
  eapply post_seq; intros axes. eapply post_seq; intros ix. eapply post_seq; intros [ie t']. destruct (orb _ _); [apply post_ret; auto|].
  destruct (orb _ _); [|apply post_ret; auto].
  eapply post_seq; intros em. eapply post_seq; intros w. apply post_ret. auto.
Qed.
Lemma reflect_codes x tr fuel (o : optic R) ph sn ev0 lc :
  post (reflect x tr fuel o ph sn ev0 lc) (fun r => In (fst r) [1; 0; -1; -2]%Z).
Proof.
  unfold reflect. destruct (nltb _ _). { apply post_seq; intros _. apply post_ret. cbn. auto. }
  eapply post_seq. intros [[[[wt dt] r_c] q_c] ph1]. destruct (andb _ _); [apply post_ret; cbn; auto|].
  eapply post_seq; intros amu. eapply post_seq; intros scatf. eapply post_seq; intros r.
  destruct (rr_ok r); cbn [negb]; [|apply post_ret; cbn; auto].
  destruct (rr_lf r); [|apply post_ret; destruct (rr_wf r); cbn; auto].
  eapply post_bind; [apply reflect_leaks_codes|]. intros [early ph2] H. cbn [fst] in H. apply post_ret. destruct H as [-> |[-> | ->]]; [destruct (rr_wf r)|..]; cbn; auto.
Qed.

(** ** One call of polycap_capil_trace *)
Definition hit_at (o : optic R) (axes : list (R * R)) (ix : nat) (ph ph' : photon R) : Prop :=
  exists j, (ix <= j < p_nmax (o_prof o))%nat /\
    on_line (ph_exit ph) (ph_edir ph) (ph_exit ph') /\ vz (ph_exit ph) + 1 / 100000 <= vz (ph_exit ph') /\
    on_wall (seg_c0 o axes j) (seg_c0 o axes (S j)) (seg_r0 o j) (seg_r0 o (S j)) (ph_exit ph') /\
    ph_dtravel ph' = ph_dtravel ph + sqrt (dot (mkV (vx (ph_exit ph') - vx (ph_exit ph)) (vy (ph_exit ph') - vy (ph_exit ph)) (vz (ph_exit ph') - vz (ph_exit ph)))
                                             (mkV (vx (ph_exit ph') - vx (ph_exit ph)) (vy (ph_exit ph') - vy (ph_exit ph)) (vz (ph_exit ph') - vz (ph_exit ph)))).
Definition trace_step (o : optic R) (axes : list (R * R)) (ix : nat) (ph : photon R) (code : Z) (ph' : photon R) : Prop :=
  (code = 1%Z -> hit_at o axes ix ph ph' /\ ph_irefl ph' = (ph_irefl ph + 1)%Z /\ unit (ph_edir ph') /\
     exists n, unit n /\ mirrored n (vnorm (ph_edir ph)) (ph_edir ph')) /\
  (code = 0%Z -> hit_at o axes ix ph ph' /\ ph_irefl ph' = ph_irefl ph /\ ph_edir ph' = vnorm (ph_edir ph)) /\
  (code = (-2)%Z -> ph_exit ph' = ph_exit ph /\ ph_dtravel ph' = ph_dtravel ph /\ ph_irefl ph' = ph_irefl ph /\ ph_edir ph' = vnorm (ph_edir ph)) /\
  In code [1; 0; -2; -1; -3]%Z.
Lemma trace_stepped x (o : optic R) junk lc fuel ix (ph : photon R) axes :
  0 < vz (ph_edir ph) -> (forall j, (ix <= j < p_nmax (o_prof o))%nat -> nice o axes (vnorm (ph_edir ph)) j) ->
  post (trace x o junk lc fuel ix ph axes) (fun r => let '(code, ix', ph') := r in trace_step o axes ix ph code ph').
Proof.
  intros Hd Hn. destruct fuel as [|fuel]; [apply post_nofuel|]. cbn [trace].
  set (refl := fun ph sn => reflect x _ (S fuel) o ph sn junk lc).
  assert (Hr : forall ph sn, post (refl ph sn) (fun r => (frame ph (snd r) /\ (ph_edir (snd r) = vnorm (ph_edir ph) \/ ph_edir (snd r) = vnorm (vnorm (ph_edir ph)))) /\ In (fst r) [1; 0; -1; -2]%Z))
    by (intros; apply post_and; [apply reflect_frame|apply reflect_codes]).
  clearbody refl. unfold trace_body. set (D := vnorm (ph_edir ph)). set (ph0 := set_sdir _ _).
  assert (UD : unit D) by (apply (vnorm_unit (ph_edir ph)); apply dot_pos; exact Hd).
  assert (ED : vnorm D = D) by (apply vnorm_of_unit; exact UD).
  assert (Dz : 0 < vz D) by (apply norm_z_pos; exact Hd).
  assert (Bad : forall ix c ph', c = (-1)%Z \/ c = (-3)%Z -> trace_step o axes ix ph c ph').
  { intros ix0 c ph' H. unfold trace_step. split; [intros ->; destruct H; discriminate|]. split; [intros ->; destruct H; discriminate|]. split; [intros ->; destruct H; discriminate|]. destruct H as [-> | ->]; cbn; tauto. }
  eapply post_bind.
  { apply (trace_segs_hit o ph0 axes); [exact Dz|exact UD| |apply Rle_refl]. intros j Hj. apply Hn. lia. }
  intros [c| |j pc sn cosa] H.
  - apply post_ret. auto.
  - apply post_ret. unfold trace_step. split; [discriminate|]. split; [discriminate|]. split; [intros _; repeat split|cbn; auto].
  - destruct H as (J & Un & Ec & L & Z & W). cbn [ph_exit ph_edir ph0 set_sdir set_edir] in L, Z, Ec.
    set (ph1 := set_exit _ _).
    destruct (nltb _ _); [apply post_ret; auto|].
    eapply post_seq; intros ix2. eapply post_seq; intros ext. eapply post_seq; intros w.
    destruct (Z.eqb w 0); [apply post_ret; auto|].
    eapply post_bind; [apply Hr|]. intros [iesc ph2] [[F E2] Hi]. cbn [fst snd] in F, E2, Hi.
    assert (E3 : ph_edir ph2 = D). { cbn [ph_edir ph1 ph0 set_exit set_dtravel set_sdir set_edir] in E2. fold D in E2. rewrite !ED in E2. tauto. }
    destruct F as (_ & _ & _ & F1 & F2 & F3 & _).
    cbn [ph_exit ph_irefl ph_dtravel ph1 ph0 set_exit set_dtravel set_sdir set_edir] in F1, F2, F3.
    assert (G : forall ph', ph_exit ph' = ph_exit ph2 -> ph_dtravel ph' = ph_dtravel ph2 -> hit_at o axes ix ph ph').
    { intros ph' A B. exists j. rewrite A, B, F1, F3. split; [lia|]. split; [apply norm_line; [exact Hd|exact L]|]. split; [exact Z|]. split; [exact W|].
      unfold dist3, vsub. rnum. rewrite vscalar_dot. reflexivity. }
    destruct (Z.eqb_spec iesc 1) as [E1|E1].
    + apply post_ret. split; [|split; [discriminate|split; [discriminate|cbn; auto]]]. intros _. rewrite E3.
      split; [apply G; reflexivity|]. split; [cbn [ph_irefl set_irefl set_edir]; rewrite F2; reflexivity|].
      cbn [ph_edir set_irefl set_edir].
      assert (M : mkV (vx D - 2 * cosa * vx sn) (vy D - 2 * cosa * vy sn) (vz D - 2 * cosa * vz sn) = mirror sn D) by (unfold mirror; rewrite Ec; reflexivity).
      rnum. rewrite M. destruct (mirror_spec sn D Un UD) as (U1 & M1 & N1). rewrite N1. split; [exact U1|]. exists sn. split; [exact Un|exact M1].
    + destruct (Z.eqb_spec iesc (-1)) as [E4|E4]; cbn [orb]; [apply post_ret; auto|]. destruct (Z.eqb_spec iesc (-2)) as [E5|E5]; [apply post_ret; auto|].
      apply post_ret. destruct Hi as [Hi|[Hi|[Hi|[Hi|[]]]]]; try congruence. subst iesc. split; [discriminate|]. split; [|split; [discriminate|cbn; auto]].
      intros _. split; [apply G; reflexivity|]. split; [exact F2|exact E3].
Qed.
