(** * Surface normal and mirror reflection over the reals *)
From Coq Require Import ZArith List Bool Lia Reals Lra Psatz.
From Verif Require Import Num Geometry SpecPhoton RM CapilModel SpecRay SourceReal CapilReal.
Import ListNotations.
Local Open Scope R_scope.

Lemma vscalar_dot a b : @vscalar R RNum a b = dot a b.
Proof. reflexivity. Qed.
Lemma vdot_dot a b : vdot a b = dot a b.
Proof. reflexivity. Qed.
Lemma dot_nonneg v : 0 <= dot v v.
Proof. unfold dot. pose proof (Rle_0_sqr (vx v)); pose proof (Rle_0_sqr (vy v)); pose proof (Rle_0_sqr (vz v)). unfold Rsqr in *. lra. Qed.
Lemma dot_zero v : dot v v = 0 -> v = mkV 0 0 0.
Proof.
  intros E. destruct v as [x y z]. unfold dot in E. cbn [vx vy vz] in E.
  pose proof (Rle_0_sqr x); pose proof (Rle_0_sqr y); pose proof (Rle_0_sqr z). unfold Rsqr in *.
  f_equal; apply Rsqr_0_uniq; unfold Rsqr; lra.
Qed.
Lemma dot_sym a b : dot a b = dot b a.
Proof. unfold dot. ring. Qed.

(** The axis direction, and the part of [p - c0] orthogonal to it. *)
Definition axis_dir (c0 c1 : vec3 R) : vec3 R := mkV (vx c1 - vx c0) (vy c1 - vy c0) (vz c1 - vz c0).
Definition perp_part (c0 c1 p : vec3 R) : vec3 R :=
  let cd := axis_dir c0 c1 in
  let k := dot (mkV (vx p - vx c0) (vy p - vy c0) (vz p - vz c0)) cd / dot cd cd in
  mkV (vx p - vx c0 - k * vx cd) (vy p - vy c0 - k * vy cd) (vz p - vz c0 - k * vz cd).

Lemma axis_dir_pos c0 c1 : vz c0 < vz c1 -> 0 < dot (axis_dir c0 c1) (axis_dir c0 c1).
Proof.
  intros H. unfold dot, axis_dir. cbn [vx vy vz]. pose proof (Rle_0_sqr (vx c1 - vx c0)); pose proof (Rle_0_sqr (vy c1 - vy c0)).
  assert (0 < (vz c1 - vz c0) * (vz c1 - vz c0)) by (apply Rmult_lt_0_compat; lra). unfold Rsqr in *. lra.
Qed.
Lemma perp_orth c0 c1 p : vz c0 < vz c1 -> dot (perp_part c0 c1 p) (axis_dir c0 c1) = 0.
Proof.
  intros H. pose proof (axis_dir_pos c0 c1 H) as P. unfold perp_part. set (cd := axis_dir c0 c1) in *.
  set (w := mkV (vx p - vx c0) (vy p - vy c0) (vz p - vz c0)). cbv zeta. set (k := dot w cd / dot cd cd).
  assert (K : k * dot cd cd = dot w cd) by (unfold k; field; lra). clearbody k.
  transitivity (dot w cd - k * dot cd cd); [|lra]. unfold dot, w. cbn [vx vy vz]. ring.
Qed.

(** A wall point at positive radius is not on the axis. *)
Lemma perp_nonzero c0 c1 r0 r1 p : vz c0 < vz c1 -> 0 < r0 -> 0 < r1 -> on_wall c0 c1 r0 r1 p ->
  0 < dot (perp_part c0 c1 p) (perp_part c0 c1 p).
Proof.
  intros H A B [I E]. pose proof (seg_radius_pos c0 c1 r0 r1 (vz p) H A B I) as P. rewrite <- E in P.
  destruct (Rle_lt_or_eq_dec _ _ (dot_nonneg (perp_part c0 c1 p))) as [L|L]; [exact L|exfalso].
  symmetry in L. apply dot_zero in L. unfold perp_part in L. set (k := _ / _) in L. unfold axis_dir in L. cbn [vx vy vz] in L.
  assert (L1 := f_equal (@vx R) L). assert (L2 := f_equal (@vy R) L). assert (L3 := f_equal (@vz R) L). cbn [vx vy vz] in L1, L2, L3.
  assert (K : k = (vz p - vz c0) / (vz c1 - vz c0)) by (apply Rmult_eq_reg_r with (vz c1 - vz c0); [field_simplify; lra|lra]).
  revert P. replace (_ + _) with 0; [rewrite sqrt_0; lra|].
  unfold seg_axis_x, seg_axis_y, lin. rewrite <- K.
  replace (vx p - (vx c0 + (vx c1 - vx c0) * k)) with (vx p - vx c0 - k * (vx c1 - vx c0)) by ring.
  replace (vy p - (vy c0 + (vy c1 - vy c0) * k)) with (vy p - vy c0 - k * (vy c1 - vy c0)) by ring.
  rewrite L1, L2. ring.
Qed.

Lemma vnorm_of_unit v : dot v v = 1 -> vnorm v = v.
Proof.
  intros U. assert (N : vdot v v <> 0) by (change (vdot v v) with (dot v v); lra).
  destruct (vnorm_R v N) as (s & Ps & Es & ->). change (vdot v v) with (dot v v) in Es. rewrite U in Es.
  assert (s = 1) by nra. subst s. destruct v as [a b c]; cbn [vx vy vz]. f_equal; field.
Qed.

(** The computed normal: the radial unit vector tilted by the opening angle. *)
Lemma seg_normal_form c0 c1 r0 r1 p0 D dp :
  vz c0 < vz c1 -> dot D (axis_dir c0 c1) <> 0 ->
  let ic := mkV (vx p0 + dp * vx D) (vy p0 + dp * vy D) (vz p0 + dp * vz D) in
  let u := perp_part c0 c1 ic in
  let cd := axis_dir c0 c1 in
  let lu := sqrt (dot u u) in
  let lc := sqrt (dot cd cd) in
  let g := atan ((r0 - r1) / lc) in
  0 < dot u u ->
  seg_normal c0 c1 r0 r1 p0 D ic dp =
    mkV (cos g * vx u / lu + sin g * vx cd / lc) (cos g * vy u / lu + sin g * vy cd / lc) (cos g * vz u / lu + sin g * vz cd / lc) /\
  unit (seg_normal c0 c1 r0 r1 p0 D ic dp).
Proof.
  intros H HD ic u cd lu lc g Hu. pose proof (axis_dir_pos c0 c1 H) as Pc. fold cd in Pc.
  assert (Eu : vsub ic (vgo c0 ((dp + vscalar (vsub p0 c0) (vsub c1 c0) / vscalar D (vsub c1 c0)) / (vscalar (vsub c1 c0) (vsub c1 c0) / vscalar D (vsub c1 c0)))%num (vsub c1 c0)) = u).
  { rnum. rewrite !vscalar_dot. change (@vsub R RNum c1 c0) with cd. unfold u, perp_part. fold cd.
    set (k := (dp + _) / _). assert (K : k = dot (mkV (vx ic - vx c0) (vy ic - vy c0) (vz ic - vz c0)) cd / dot cd cd).
    { unfold k. apply Rmult_eq_reg_r with (dot cd cd); [|lra].
      replace (dot (mkV (vx ic - vx c0) (vy ic - vy c0) (vz ic - vz c0)) cd / dot cd cd * dot cd cd) with (dot (mkV (vx ic - vx c0) (vy ic - vy c0) (vz ic - vz c0)) cd) by (field; lra).
      replace ((dp + dot (vsub p0 c0) cd / dot D cd) / (dot cd cd / dot D cd) * dot cd cd) with (dp * dot D cd + dot (vsub p0 c0) cd) by (field; repeat split; first [exact HD | apply Rgt_not_eq; exact Pc]).
      unfold dot, ic, vsub. rnum. cbn [vx vy vz]. ring. }
    rewrite K. unfold vsub, vgo. rnum. cbn [vx vy vz]. f_equal; ring. }
  set (lu2 := lu) in *. assert (Plu : 0 < lu) by (apply sqrt_lt_R0; exact Hu). assert (Plc : 0 < lc) by (apply sqrt_lt_R0; exact Pc).
  assert (Elu : lu * lu = dot u u) by (apply sqrt_sqrt; lra). assert (Elc : lc * lc = dot cd cd) by (apply sqrt_sqrt; lra).
  set (n := mkV (cos g * vx u / lu + sin g * vx cd / lc) (cos g * vy u / lu + sin g * vy cd / lc) (cos g * vz u / lu + sin g * vz cd / lc)).
  assert (Un : dot n n = 1).
  { transitivity ((cos g / lu) * (cos g / lu) * dot u u + 2 * (cos g / lu) * (sin g / lc) * dot u cd + (sin g / lc) * (sin g / lc) * dot cd cd).
    { unfold dot, n. cbn [vx vy vz]. field. split; lra. }
    replace (dot u cd) with 0 by (symmetry; apply perp_orth; exact H). rewrite <- Elu, <- Elc.
    transitivity (cos g * cos g + sin g * sin g); [field; split; lra|]. pose proof (sin2_cos2 g) as Q. unfold Rsqr in Q. lra. }
  assert (E : seg_normal c0 c1 r0 r1 p0 D ic dp = vnorm n).
  { unfold seg_normal. rewrite Eu. rnum. rewrite !vscalar_dot. change (@vsub R RNum c1 c0) with cd. fold lu. fold lc. fold g. reflexivity. }
  rewrite E, (vnorm_of_unit n Un). split; [reflexivity|exact Un].
Qed.

Lemma segment_normal_unit c0 c1 r0 r1 p0 p1 dir pc sn e pc' sn' e' :
  0 < vz dir -> ~ parallel_to_wall c0 c1 r0 r1 dir -> 0 < r0 -> 0 < r1 -> dot dir (axis_dir c0 c1) <> 0 ->
  segment c0 c1 r0 r1 p0 p1 dir pc sn e = Ret (1%Z, pc', sn', e') ->
  unit sn' /\ 0 < dot sn' (perp_part c0 c1 pc') /\
  let u := perp_part c0 c1 pc' in
  let cd := axis_dir c0 c1 in
  let lu := sqrt (dot u u) in
  let lc := sqrt (dot cd cd) in
  let g := atan ((r0 - r1) / lc) in
  sn' = mkV (cos g * vx u / lu + sin g * vx cd / lc) (cos g * vy u / lu + sin g * vy cd / lc) (cos g * vz u / lu + sin g * vz cd / lc).
Proof.
  intros Hd Hp A B Hdc K. destruct (segment_hit _ _ _ _ _ _ _ _ _ _ _ _ _ Hd Hp K) as (_ & (_ & Hc & _) & L & W & _ & _ & dp & _ & Epc & Esn).
  pose proof (perp_nonzero c0 c1 r0 r1 pc' Hc A B W) as Pu.
  assert (HD : dot (vnorm dir) (axis_dir c0 c1) <> 0).
  { destruct (vnorm_R dir (dot_pos dir Hd)) as (s & Ps & _ & ->). intros Z. apply Hdc.
    replace (dot dir (axis_dir c0 c1)) with (s * dot (mkV (vx dir / s) (vy dir / s) (vz dir / s)) (axis_dir c0 c1)); [rewrite Z; ring|].
    unfold dot. cbn [vx vy vz]. field. lra. }
  pose proof (seg_normal_form c0 c1 r0 r1 p0 (vnorm dir) dp Hc HD) as N. cbv zeta in N. rewrite <- Epc in N. destruct (N Pu) as [N1 N2].
  rewrite <- Esn in N1, N2. split; [exact N2|]. split; [|exact N1].
  set (u := perp_part c0 c1 pc') in *. set (lc := sqrt (dot (axis_dir c0 c1) (axis_dir c0 c1))) in *. set (g := atan _) in *.
  set (lu := sqrt (dot u u)) in *. assert (Plu : 0 < lu) by (apply sqrt_lt_R0; exact Pu).
  assert (Plc : 0 < lc) by (apply sqrt_lt_R0, axis_dir_pos; exact Hc).
  assert (Elu : lu * lu = dot u u) by (apply sqrt_sqrt; lra).
  rewrite N1. replace (dot _ u) with (cos g / lu * dot u u + sin g / lc * dot u (axis_dir c0 c1)).
  2:{ unfold dot. cbn [vx vy vz]. field. split; lra. }
  replace (dot u (axis_dir c0 c1)) with 0 by (symmetry; apply perp_orth; exact Hc). rewrite Rmult_0_r, Rplus_0_r.
  apply Rmult_lt_0_compat; [|exact Pu]. apply Rdiv_lt_0_compat; [|exact Plu].
  pose proof (atan_bound ((r0 - r1) / lc)) as Bd. fold g in Bd. apply cos_gt_0; lra.
Qed.

(** ** Mirror reflection *)
Definition mirror (n d : vec3 R) : vec3 R :=
  mkV (vx d - 2 * dot n d * vx n) (vy d - 2 * dot n d * vy n) (vz d - 2 * dot n d * vz n).

Lemma mirror_spec n d : unit n -> unit d -> unit (mirror n d) /\ mirrored n d (mirror n d) /\ vnorm (mirror n d) = mirror n d.
Proof.
  unfold unit. intros Un Ud.
  assert (A : dot (mirror n d) (mirror n d) = 1).
  { transitivity (dot d d - 4 * dot n d * dot n d + 4 * dot n d * dot n d * dot n n).
    { unfold mirror. set (c := dot n d). unfold dot. cbn [vx vy vz]. fold (dot n d). unfold c, dot. ring. }
    rewrite Un, Ud. ring. }
  split; [exact A|]. split; [|apply vnorm_of_unit; exact A].
  split.
  - transitivity (dot d n - 2 * dot n d * dot n n).
    { unfold mirror. set (c := dot n d). unfold dot. cbn [vx vy vz]. ring. }
    rewrite Un. rewrite (dot_sym n d). ring.
  - intros t T. transitivity (dot d t - 2 * dot n d * dot t n).
    { unfold mirror. set (c := dot n d). unfold dot. cbn [vx vy vz]. ring. }
    rewrite T. ring.
Qed.
(** The mirror image is unique. *)
Lemma mirrored_unique n d d' d'' : unit n -> mirrored n d d' -> mirrored n d d'' -> d' = d''.
Proof.
  unfold unit. intros Un [A1 A2] [B1 B2].
  set (w := mkV (vx d' - vx d'') (vy d' - vy d'') (vz d' - vz d'')).
  assert (W1 : dot w n = 0).
  { transitivity (dot d' n - dot d'' n); [unfold w, dot; cbn [vx vy vz]; ring|]. rewrite A1, B1. ring. }
  assert (W2 : dot w w = 0).
  { transitivity (dot d' w - dot d'' w); [unfold w at 1, dot; cbn [vx vy vz]; ring|]. rewrite A2, B2 by exact W1. ring. }
  apply dot_zero in W2. unfold w in W2. destruct d' as [a b c], d'' as [a' b' c']. cbn [vx vy vz] in W2.
  assert (L1 := f_equal (@vx R) W2). assert (L2 := f_equal (@vy R) W2). assert (L3 := f_equal (@vz R) W2). cbn [vx vy vz] in L1, L2, L3.
  f_equal; lra.
Qed.
