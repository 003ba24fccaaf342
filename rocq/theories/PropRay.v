(** * Property theorems: one wall interaction (C33 - C36, C56, C57)

    Specification vocabulary: SpecRay.v (lines, conical wall segments, mirror images).
    [segment c0 c1 r0 r1 p0 p1 dir pc sn] is polycap_capil_segment: axis points c0, c1 and
    radii r0, r1 at both ends of the segment, the ray given by its point p0 (at the height
    of c0) and direction dir, photon at pc.  It yields (code, photon coordinate, normal). *)
From Coq Require Import Floats.
From Coq Require Import ZArith List Bool Lia Reals Lra Psatz.
From Verif Require Import Num Geometry HexProofs SourceReal RM CapilModel SpecRay CapilReal NormalReal FresnelReal WallNormal ProfileFloat.
Import ListNotations.
Local Open Scope R_scope.

(** ** C33 *)

(** Hits: every answer 1 is the first admissible point of the ray on the wall. Partial:
    rays parallel to a generator of the wall are excluded (see C33_parallel_refuted). *)
Theorem C93_hit_on_wall :
  forall c0 c1 r0 r1 p0 p1 dir pc sn e pc' sn' e',
    0 < vz dir -> ~ parallel_to_wall c0 c1 r0 r1 dir ->
    segment c0 c1 r0 r1 p0 p1 dir pc sn e = Ret (1%Z, pc', sn', e') ->
    on_line p0 dir pc' /\ vz pc + 1 / 100000 <= vz pc' /\ on_wall c0 c1 r0 r1 pc' /\
    (forall q, on_line p0 dir q -> on_wall c0 c1 r0 r1 q -> vz pc + 1 / 100000 <= vz q -> vz pc' <= vz q).
Proof.
  intros c0 c1 r0 r1 p0 p1 dir pc sn e pc' sn' e' Hd Hp K.
  destruct (segment_hit _ _ _ _ _ _ _ _ _ _ _ _ _ Hd Hp K) as (_ & _ & A & B & C & D & _). auto.
Qed.

(** Misses: no wall point is overlooked, except within 1e-10 (along the ray) of the
    segment entrance. *)
Theorem C93_no_hit_overlooked :
  forall c0 c1 r0 r1 p0 p1 dir pc sn e q,
    0 < vz dir -> ~ parallel_to_wall c0 c1 r0 r1 dir ->
    0 <= vz c0 -> vz c0 < vz c1 -> 0 <= r0 -> 0 <= r1 -> vz p0 = vz c0 -> vz p1 = vz c1 ->
    on_line p0 dir q -> on_wall c0 c1 r0 r1 q -> vz pc + 1 / 100000 <= vz q ->
    (forall q', on_line p0 dir q' -> on_wall c0 c1 r0 r1 q' -> vz pc + 1 / 100000 <= vz q' -> vz q <= vz q') ->
    1 / 10000000000 <= vz q - vz p0 ->
    exists sn', segment c0 c1 r0 r1 p0 p1 dir pc sn e = Ret (1%Z, q, sn', e).
Proof.
  intros c0 c1 r0 r1 p0 p1 dir pc sn e q Hd Hp A1 A2 A3 A4 A5 A6 L W Z F D. apply segment_complete; auto.
  - repeat split; lra.
  - destruct (vnorm_R dir (dot_pos dir Hd)) as (s & Ps & E & ->). cbn [vz].
    assert (vz dir / s <= 1); [|nra]. apply Rmult_le_reg_r with s; [exact Ps|]. unfold Rdiv. rewrite Rmult_assoc, Rinv_l by lra.
    unfold vdot in E. destruct (Rle_or_lt (vz dir) s); [lra|]. nra.
Qed.

(** Every call returns one of seven codes; unless the code is 1 the photon coordinate is
    unchanged; an error is reported exactly with code -1. *)
Theorem C93_no_hit_unchanged :
  forall c0 c1 r0 r1 p0 p1 dir pc sn e,
  exists code pc' sn' e', segment c0 c1 r0 r1 p0 p1 dir pc sn e = Ret (code, pc', sn', e') /\
    In code [-1; -2; -3; -4; -5; -6; 1]%Z /\ (code <> 1%Z -> pc' = pc) /\ (code <> (-1)%Z -> e' = e) /\
    (code = (-1)%Z -> e' <> None) /\
    (code = (-1)%Z <-> ~ (0 <= vz c0 /\ vz c0 < vz c1 /\ 0 <= r0 /\ 0 <= r1 /\ 0 <= vz dir /\ vz p0 = vz c0 /\ vz p1 = vz c1)).
Proof.
  intros. destruct (segment_total c0 c1 r0 r1 p0 p1 dir pc sn e) as (code & pc' & sn' & e' & E & I & P & Q & S).
  exists code, pc', sn', e'. split; [exact E|]. split; [exact I|]. split; [exact P|]. split; [exact Q|]. split; [|exact S].
  intros ->. apply proj1 in S. specialize (S eq_refl).
  destruct (segment_args c0 c1 r0 r1 p0 p1 dir pc sn e) as [[_ E2]|[N _]]; [|contradiction].
  rewrite E2 in E. apply ret4 in E. destruct E as (_ & _ & _ & <-). destruct e; discriminate.
Qed.

(** A call that hits: a straight capillary of radius 1, a photon on its axis. *)
Lemma straight_example : exists sn',
  segment (mkV 0 0 0) (mkV 0 0 2) 1 1 (mkV 0 0 0) (mkV (3 / 2) 0 2) (mkV 3 0 4) (mkV 0 0 0) (mkV 0 0 0) None
  = Ret (1%Z, mkV 1 0 (4 / 3), sn', None).
Proof.
  assert (U : forall q, on_line (mkV 0 0 0) (mkV 3 0 4) q -> on_wall (mkV 0 0 0) (mkV 0 0 2) 1 1 q -> 4 / 3 <= vz q).
  { intros q (t & X & Y & Z) W. cbn [vx vy vz] in *. apply on_wall_fun in W; cbn [vz]; try lra. cbn [vz] in W. destruct W as [I F].
    revert F. unfold wall_fun, seg_axis_x, seg_axis_y, seg_radius, lin. cbn [vx vy vz]. rewrite X, Y, Z. intros F.
    assert (9 * (t * t) = 1) by (field_simplify in F; lra). assert (0 <= t) by lra. nra. }
  apply C93_no_hit_overlooked; cbn [vx vy vz]; try lra.
  - unfold parallel_to_wall. cbn [vx vy vz]. lra.
  - exists (1 / 3). cbn [vx vy vz]. lra.
  - apply on_wall_fun; cbn [vz]; try lra. split; [lra|]. unfold wall_fun, seg_axis_x, seg_axis_y, seg_radius, lin. cbn [vx vy vz]. field.
  - intros q L W _. exact (U q L W).
Qed.
Example C33_hit_example :
  ~ parallel_to_wall (mkV 0 0 0) (mkV 0 0 2) 1 1 (mkV 3 0 4) /\
  exists sn', segment (mkV 0 0 0) (mkV 0 0 2) 1 1 (mkV 0 0 0) (mkV (3 / 2) 0 2) (mkV 3 0 4) (mkV 0 0 0) (mkV 0 0 0) None
              = Ret (1%Z, mkV 1 0 (4 / 3), sn', None).
Proof. split; [unfold parallel_to_wall; cbn [vx vy vz]; lra|exact straight_example]. Qed.

(** In binary64, a ray parallel to the axis of a straight capillary, which never meets
    the wall, is reported as a hit at a point with NaN coordinates, whatever libm
    computes. *)
Theorem C33_parallel_refuted :
  forall lm : libm, exists pc' sn',
    @segment float (FNum lm) (mkV 0 0 0)%float (mkV 0 0 1)%float 1%float 1%float
      (mkV 0.5 0 0)%float (mkV 0.5 0 1)%float (mkV 0 0 1)%float (mkV 0.5 0 0)%float (mkV 0 0 0)%float None
    = Ret (1%Z, pc', sn', None) /\
    is_nan (vx pc') = true /\ is_nan (vy pc') = true /\ is_nan (vz pc') = true.
Proof.
  intros lm. set (m := segment _ _ _ _ _ _ _ _ _ _).
  assert (H : match m with
              | Ret (c, p, _, e) => c = 1%Z /\ e = None /\ is_nan (vx p) = true /\ is_nan (vy p) = true /\ is_nan (vz p) = true
              | _ => False end) by (vm_compute; repeat split).
  destruct m as [[[[c p] n] e]| |]; [|contradiction|contradiction]. destruct H as (-> & -> & H). exists p, n. auto.
Qed.

(** ** C34 *)
Theorem C34_unit_normal :
  forall c0 c1 r0 r1 p0 p1 dir pc sn e pc' sn' e',
    0 < vz dir -> ~ parallel_to_wall c0 c1 r0 r1 dir -> 0 < r0 -> 0 < r1 ->
    dot dir (mkV (vx c1 - vx c0) (vy c1 - vy c0) (vz c1 - vz c0)) <> 0 ->
    segment c0 c1 r0 r1 p0 p1 dir pc sn e = Ret (1%Z, pc', sn', e') ->
    unit sn'.
Proof.
  intros c0 c1 r0 r1 p0 p1 dir pc sn e pc' sn' e' Hd Hp A B D K.
  exact (proj1 (segment_normal_unit _ _ _ _ _ _ _ _ _ _ _ _ _ Hd Hp A B D K)).
Qed.
Example C34_example : exists sn',
  segment (mkV 0 0 0) (mkV 0 0 2) 1 1 (mkV 0 0 0) (mkV (3 / 2) 0 2) (mkV 3 0 4) (mkV 0 0 0) (mkV 0 0 0) None
  = Ret (1%Z, mkV 1 0 (4 / 3), sn', None) /\ unit sn'.
Proof.
  destruct straight_example as [sn' E]. exists sn'. split; [exact E|].
  eapply C34_unit_normal; [| | | | |exact E]; cbn [vx vy vz]; try lra.
  - unfold parallel_to_wall. cbn [vx vy vz]. lra.
  - unfold dot. cbn [vx vy vz]. lra.
Qed.

(** ** C56: is the normal orthogonal to the wall? *)

(** Yes when the axis of the segment is parallel to the optical axis. *)
Theorem C100_normal_orthogonal :
  forall c0 c1 r0 r1 p0 p1 dir pc sn e pc' sn' e',
    0 < vz dir -> ~ parallel_to_wall c0 c1 r0 r1 dir -> 0 < r0 -> 0 < r1 ->
    vx c1 = vx c0 -> vy c1 = vy c0 ->
    segment c0 c1 r0 r1 p0 p1 dir pc sn e = Ret (1%Z, pc', sn', e') ->
    normal_at c0 c1 r0 r1 pc' sn'.
Proof. exact normal_straight. Qed.
Example C56_example : exists sn',
  segment (mkV 0 0 0) (mkV 0 0 2) 1 1 (mkV 0 0 0) (mkV (3 / 2) 0 2) (mkV 3 0 4) (mkV 0 0 0) (mkV 0 0 0) None
  = Ret (1%Z, mkV 1 0 (4 / 3), sn', None) /\ normal_at (mkV 0 0 0) (mkV 0 0 2) 1 1 (mkV 1 0 (4 / 3)) sn'.
Proof.
  destruct straight_example as [sn' E]. exists sn'. split; [exact E|].
  eapply C100_normal_orthogonal; [| | | | | |exact E]; cbn [vx vy vz]; try lra.
  unfold parallel_to_wall. cbn [vx vy vz]. lra.
Qed.

(** No for an oblique segment: axis direction (1,0,1), radius 1. *)
Theorem C56_oblique_refuted :
  exists sn', segment (mkV 0 0 0) (mkV 1 0 1) 1 1 (mkV 0 0 0) (mkV (11 / 5) (8 / 5) 1) (mkV 11 8 5) (mkV 0 0 0) (mkV 0 0 0) None
    = Ret (1%Z, mkV (11 / 10) (4 / 5) (1 / 2), sn', None) /\
    on_wall (mkV 0 0 0) (mkV 1 0 1) 1 1 (mkV (11 / 10) (4 / 5) (1 / 2)) /\
    ~ normal_at (mkV 0 0 0) (mkV 1 0 1) 1 1 (mkV (11 / 10) (4 / 5) (1 / 2)) sn'.
Proof.
  set (c0 := mkV 0 0 0). set (c1 := mkV 1 0 1). set (dir := mkV 11 8 5). set (q := mkV (11 / 10) (4 / 5) (1 / 2)).
  assert (W : on_wall c0 c1 1 1 q).
  { apply on_wall_fun; cbn [vz c0 c1]; try lra. split; [cbn [vz q c0 c1]; lra|]. unfold wall_fun, seg_axis_x, seg_axis_y, seg_radius, lin, q, c0, c1. cbn [vx vy vz]. field. }
  assert (U : forall q, on_line c0 dir q -> on_wall c0 c1 1 1 q -> 1 / 2 <= vz q).
  { intros q' (t & X & Y & Z) W'. unfold c0, dir in X, Y, Z. cbn [vx vy vz] in *. apply on_wall_fun in W'; cbn [vz c0 c1]; try lra. cbn [vz c0 c1] in W'. destruct W' as [I F].
    revert F. unfold wall_fun, seg_axis_x, seg_axis_y, seg_radius, lin, c0, c1. cbn [vx vy vz]. rewrite X, Y, Z. intros F.
    assert (100 * (t * t) = 1) by (field_simplify in F; lra). assert (0 <= t) by lra. nra. }
  assert (NP : ~ parallel_to_wall c0 c1 1 1 dir) by (unfold parallel_to_wall, c0, c1, dir; cbn [vx vy vz]; lra).
  destruct (C93_no_hit_overlooked c0 c1 1 1 c0 (mkV (11 / 5) (8 / 5) 1) dir c0 c0 None q) as [sn' E]; try (cbn [vz c0 c1 dir q]; lra); auto.
  { exists (1 / 10). unfold q, c0, dir. cbn [vx vy vz]. lra. }
  exists sn'. split; [exact E|]. split; [exact W|]. intros N.
  assert (ND : dot dir (axis_dir c0 c1) <> 0) by (unfold dot, axis_dir, dir, c0, c1; cbn [vx vy vz]; lra).
  destruct (segment_normal_unit c0 c1 1 1 _ _ dir _ _ _ _ _ _ ltac:(cbn [vz dir]; lra) NP ltac:(lra) ltac:(lra) ND E) as (_ & _ & F). cbv zeta in F.
  assert (Eu : perp_part c0 c1 q = mkV (3 / 10) (4 / 5) (- (3 / 10))).
  { unfold perp_part, axis_dir, dot, q, c0, c1. cbn [vx vy vz]. f_equal; field. }
  rewrite Eu in F. set (lu := sqrt (dot (mkV (3 / 10) (4 / 5) (- (3 / 10))) (mkV (3 / 10) (4 / 5) (- (3 / 10))))) in F.
  assert (Plu : 0 < lu) by (apply sqrt_lt_R0; unfold dot; cbn [vx vy vz]; lra). clearbody lu.
  replace ((1 - 1) / sqrt (dot (axis_dir c0 c1) (axis_dir c0 c1))) with 0 in F by (unfold Rdiv; ring).
  rewrite atan_0, cos_0, sin_0 in F. cbn [vx vy vz] in F.
  assert (T : tangent_at c0 c1 1 1 q (mkV 4 (-3) 0)).
  { apply tangent_grad; [cbn [vz c0 c1]; lra|]. unfold grad, dot, seg_axis_x, seg_axis_y, seg_radius, lin, q, c0, c1. cbn [vx vy vz]. field. }
  specialize (N _ T). rewrite F in N. unfold dot in N. cbn [vx vy vz] in N.
  assert (M : (3 / 10 * 4 - 4 / 5 * 3) * / lu = 0) by (rewrite <- N; unfold Rdiv; ring).
  apply Rmult_integral in M. destruct M as [M|M]; [lra|]. pose proof (Rinv_0_lt_compat lu Plu). lra.
Qed.

(** ** C36 *)
Theorem C36_fresnel :
  forall e rho f mu sn dir ev ev0 err,
    1 <= e <= 100 -> 0 < rho -> 0 <= f -> 0 <= mu -> 0 < fst (refractive_index e rho f mu) ->
    unit sn -> unit dir -> dot ev ev <> 0 -> 0 <= dot sn dir ->
    let n := refractive_index e rho f mu in
    let ct := dot sn dir in
    exists rtot ev1 ev2 c rs rp fs,
      refl_polar e rho f mu sn dir ev ev0 err = Ret (rtot, ev1, ev2, err) /\
      refraction_cos n ct c /\ fresnel_s n ct c rs /\ fresnel_p n ct c rp /\
      0 <= rs <= 1 /\ 0 <= rp <= 1 /\ 0 <= fs <= 1 /\ rtot = rs * fs + rp * (1 - fs) /\
      Rmin rs rp <= rtot <= Rmax rs rp /\ 0 <= rtot <= 1.
Proof.
  intros e rho f mu sn dir ev ev0 err He Hr Hf Hm Hn Us Ud Ne Pc n ct.
  assert (A : refl_args e rho f mu) by (unfold refl_args; lra).
  assert (En : (1 - refl_alfa e rho f, refl_beta e mu) = n) by reflexivity.
  assert (Al : refl_alfa e rho f < 1) by (change (refl_alfa e rho f) with (1 - (1 - refl_alfa e rho f)) || idtac; unfold refractive_index in Hn; cbn [fst] in Hn; unfold refl_alfa, c_HC, c_NAVOG, c_R0; rnum; unfold hc, N_A, r_0 in Hn; lra).
  destruct (refl_polar_args e rho f mu sn dir ev ev0 err) as [[K _]|[_ E]]; [contradiction|]. cbv zeta in E.
  assert (Ns : norm_if sn = sn) by (rewrite norm_if_eq; [apply vnorm_of_unit; exact Us|unfold unit in Us; lra]).
  rewrite Ns in E. rewrite (norm_if_eq ev Ne) in E.
  pose proof (unit_dot_bound sn dir Us Ud) as Bd. fold ct in Bd, Pc, E. rewrite cos_acos in E by exact Bd.
  set (st := sin (acos ct)) in *.
  assert (Est : st * st = 1 - ct * ct).
  { unfold st. rewrite sin_acos by exact Bd. rewrite sqrt_sqrt; unfold Rsqr; nra. }
  destruct (refl_polar_range e rho f mu sn dir ev ev0 err A Al Us Ud Ne Pc) as (rtot & ev1 & rs & rp & E2 & Ers & Erp & Rs & Rp & Rt & Rm).
  fold ct st in Ers, Erp. pose proof (beta_nonneg e mu ltac:(lra) Hm) as Bn.
  exists rtot, (vnorm ev), ev1, (refl_root n st), rs, rp, (dot (vnorm ev) (s_dir sn dir) * dot (vnorm ev) (s_dir sn dir)).
  split; [exact E2|].
  assert (Hn1 : 0 < 1 - refl_alfa e rho f) by lra.
  destruct (root_spec (1 - refl_alfa e rho f) (refl_beta e mu) st Hn1 Bn) as (R1 & R2 & R3).
  destruct (refl_s_spec (1 - refl_alfa e rho f) (refl_beta e mu) ct st Hn1 Bn Pc) as [S1 _].
  destruct (refl_p_spec (1 - refl_alfa e rho f) (refl_beta e mu) ct st Hn1 Bn Pc) as [P1 _].
  rewrite En in *. rewrite Est in R3. rewrite <- Ers in S1. rewrite <- Erp in P1.
  split; [repeat split; assumption|]. split; [exact S1|]. split; [exact P1|]. split; [exact Rs|]. split; [exact Rp|].
  split.
  { assert (Ue : unit (vnorm ev)) by (apply vnorm_unit; exact Ne). split; [pose proof (Rle_0_sqr (dot (vnorm ev) (s_dir sn dir))) as Q; exact Q|].
    unfold s_dir. destruct (vnorm_cases (vcross sn dir)) as [U|[_ Z]].
    - pose proof (unit_dot_bound (vnorm ev) (vnorm (vcross sn dir)) Ue U). nra.
    - rewrite Z. unfold dot. cbn [vx vy vz]. nra. }
  split; [|split; [exact Rm|exact Rt]].
  rewrite E in E2. apply ret4 in E2. destruct E2 as (E2 & _). rewrite Ers, Erp. symmetry. exact E2.
Qed.

(** The refractive index has a positive real part for every ordinary material. *)
Theorem C36_index_positive :
  forall e rho f mu, 1 <= e -> 0 <= rho -> 0 <= f -> rho * f <= 2000 -> 0 < fst (refractive_index e rho f mu).
Proof.
  intros e rho f mu He Hr Hf Hm. pose proof (alfa_small e rho f He Hr Hf Hm) as A.
  unfold refractive_index. cbn [fst]. unfold refl_alfa, c_HC, c_NAVOG, c_R0 in A. rnum. unfold hc, N_A, r_0. lra.
Qed.

(** Outside the physical range no reflectivity is produced and an error is reported. *)
Theorem C36_bad_arguments :
  forall e rho f mu sn dir ev ev0,
    ~ (1 <= e <= 100 /\ 0 < rho /\ 0 <= f /\ 0 <= mu) ->
    exists ev1 ev2, refl_polar e rho f mu sn dir ev ev0 None = Ret (-1, ev1, ev2, Some E_ARG).
Proof.
  intros e rho f mu sn dir ev ev0 N. destruct (refl_polar_args e rho f mu sn dir ev ev0 None) as [[_ E]|[A _]]; [|contradiction].
  exists ev, ev0. rewrite E. reflexivity.
Qed.

(** Glass, 10 keV, grazing incidence. *)
Example C36_example :
  1 <= 10 <= 100 /\ 0 < 2.23 /\ 0 < fst (refractive_index 10 2.23 0.5 10) /\
  unit (mkV 1 0 0) /\ unit (mkV (3 / 5) 0 (4 / 5)) /\ 0 <= dot (mkV 1 0 0) (mkV (3 / 5) 0 (4 / 5)).
Proof.
  repeat split; try lra; try (unfold unit, dot; cbn [vx vy vz]; lra). apply C36_index_positive; lra.
Qed.

(** ** C57: the electric vector after a reflection *)

(** Whatever the polarisation and the surface, the new electric vector is the old one
    with each component replaced by its absolute value. *)
Theorem C57_new_electric_vector :
  forall e rho f mu sn dir ev ev0 err,
    1 <= e <= 100 -> 0 < rho -> 0 <= f -> 0 <= mu ->
    unit sn -> unit ev -> dot ev sn <> 0 ->
    exists rtot, refl_polar e rho f mu sn dir ev ev0 err
      = Ret (rtot, ev, mkV (Rabs (vx ev)) (Rabs (vy ev)) (Rabs (vz ev)), err).
Proof.
  intros e rho f mu sn dir ev ev0 err He Hr Hf Hm Us Ue Ne.
  destruct (refl_polar_args e rho f mu sn dir ev ev0 err) as [[K _]|[_ ->]]; [unfold refl_args in K; lra|]. cbv zeta.
  assert (Ns : norm_if sn = sn) by (rewrite norm_if_eq; [apply vnorm_of_unit; exact Us|unfold unit in Us; lra]). rewrite Ns.
  assert (Nv : norm_if ev = ev) by (rewrite norm_if_eq; [apply vnorm_of_unit; exact Ue|unfold unit in Ue; lra]). rewrite Nv.
  eexists. rewrite new_elecv_abs by auto. reflexivity.
Qed.

(** So it need not be orthogonal to the new direction, although the old one was
    orthogonal to the old direction. *)
Theorem C57_transverse_refuted :
  exists sn dir ev, unit sn /\ unit dir /\ unit ev /\ 0 <= dot sn dir /\ dot ev dir = 0 /\
    exists rtot ev' dir', refl_polar 10 2.23 0.5 10 sn dir ev (mkV 0 0 0) None = Ret (rtot, ev, ev', None) /\
      mirrored sn dir dir' /\ dot ev' dir' <> 0.
Proof.
  exists (mkV 0 1 0), (mkV (1 / 3) (2 / 3) (2 / 3)), (mkV (2 / 3) (1 / 3) (- (2 / 3))).
  split; [unfold unit, dot; cbn [vx vy vz]; lra|]. split; [unfold unit, dot; cbn [vx vy vz]; lra|].
  split; [unfold unit, dot; cbn [vx vy vz]; lra|]. split; [unfold dot; cbn [vx vy vz]; lra|]. split; [unfold dot; cbn [vx vy vz]; lra|].
  destruct (C57_new_electric_vector 10 2.23 0.5 10 (mkV 0 1 0) (mkV (1 / 3) (2 / 3) (2 / 3)) (mkV (2 / 3) (1 / 3) (- (2 / 3))) (mkV 0 0 0) None) as [rtot E];
    try lra; try (unfold unit, dot; cbn [vx vy vz]; lra).
  exists rtot, (mkV (2 / 3) (1 / 3) (2 / 3)), (mirror (mkV 0 1 0) (mkV (1 / 3) (2 / 3) (2 / 3))).
  split; [rewrite E; cbn [vx vy vz]; rewrite (Rabs_pos_eq (2 / 3)), (Rabs_pos_eq (1 / 3)), Rabs_left by lra; do 5 f_equal; lra|].
  split; [apply mirror_spec; unfold unit, dot; cbn [vx vy vz]; lra|].
  unfold mirror, dot. cbn [vx vy vz]. lra.
Qed.

Print Assumptions C93_hit_on_wall.
Print Assumptions C93_no_hit_overlooked.
Print Assumptions C93_no_hit_unchanged.
Print Assumptions C33_parallel_refuted.
Print Assumptions C34_unit_normal.
Print Assumptions C100_normal_orthogonal.
Print Assumptions C56_oblique_refuted.
Print Assumptions C36_fresnel.
Print Assumptions C36_index_positive.
Print Assumptions C36_bad_arguments.
Print Assumptions C57_new_electric_vector.
Print Assumptions C57_transverse_refuted.
