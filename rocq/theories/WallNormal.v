(** * The surface normal against the wall; the new electric vector *)
From Coq Require Import ZArith List Bool Lia Reals Lra Psatz Ranalysis1.
From Verif Require Import Num Geometry SpecPhoton RM CapilModel SpecRay SourceReal CapilReal NormalReal FresnelReal.
Import ListNotations.
Local Open Scope R_scope.

(** Gradient of the gap. *)
Definition grad (c0 c1 : vec3 R) (r0 r1 : R) (p : vec3 R) : vec3 R :=
  let h := vz c1 - vz c0 in
  let ax := vx p - seg_axis_x c0 c1 (vz p) in
  let ay := vy p - seg_axis_y c0 c1 (vz p) in
  mkV (2 * ax) (2 * ay)
      (- (2 * (ax * ((vx c1 - vx c0) / h) + ay * ((vy c1 - vy c0) / h) + seg_radius c0 c1 r0 r1 (vz p) * ((r1 - r0) / h)))).

Lemma quad_derive a b f : (forall s, f s = f 0 + a * s + b * s * s) -> derivable_pt_lim f 0 a.
Proof.
  intros H eps He. assert (P : 0 < eps / (1 + Rabs b)).
  { apply Rdiv_lt_0_compat; [exact He|]. pose proof (Rabs_pos b). lra. }
  exists (mkposreal _ P). intros h Hn Hh. cbn [pos] in Hh. rewrite Rplus_0_l.
  replace ((f h - f 0) / h - a) with (b * h) by (rewrite (H h); field; exact Hn).
  rewrite Rabs_mult. pose proof (Rabs_pos b). pose proof (Rabs_pos h).
  assert (Q : Rabs h * (1 + Rabs b) < eps).
  { apply Rmult_lt_reg_r with (/ (1 + Rabs b)); [apply Rinv_0_lt_compat; lra|]. rewrite Rmult_assoc, Rinv_r by lra.
    rewrite Rmult_1_r. exact Hh. }
  nra.
Qed.

Lemma gap_derive c0 c1 r0 r1 p t : vz c0 < vz c1 ->
  derivable_pt_lim (fun s => wall_gap c0 c1 r0 r1 (mkV (vx p + s * vx t) (vy p + s * vy t) (vz p + s * vz t))) 0
    (dot (grad c0 c1 r0 r1 p) t).
Proof.
  intros Hc. set (h := vz c1 - vz c0). assert (Hh : h <> 0) by (unfold h; lra).
  apply (quad_derive _ ((vx t - (vx c1 - vx c0) / h * vz t) ^ 2 + (vy t - (vy c1 - vy c0) / h * vz t) ^ 2 - ((r1 - r0) / h * vz t) ^ 2)).
  intros s. unfold wall_gap, grad, dot, seg_axis_x, seg_axis_y, seg_radius, lin. cbn [vx vy vz]. fold h. field. exact Hh.
Qed.

Lemma tangent_grad c0 c1 r0 r1 p t : vz c0 < vz c1 -> tangent_at c0 c1 r0 r1 p t <-> dot (grad c0 c1 r0 r1 p) t = 0.
Proof.
  intros Hc. pose proof (gap_derive c0 c1 r0 r1 p t Hc) as D. unfold tangent_at. split.
  - intros T. exact (uniqueness_limite _ _ _ _ D T).
  - intros E. rewrite E in D. exact D.
Qed.

(** A multiple of the gradient is normal; and a normal is a multiple of the gradient. *)
Lemma normal_of_grad c0 c1 r0 r1 p n k : vz c0 < vz c1 ->
  n = mkV (k * vx (grad c0 c1 r0 r1 p)) (k * vy (grad c0 c1 r0 r1 p)) (k * vz (grad c0 c1 r0 r1 p)) ->
  normal_at c0 c1 r0 r1 p n.
Proof.
  intros Hc -> t T. apply tangent_grad in T; [|exact Hc]. unfold dot in *. cbn [vx vy vz].
  transitivity (k * (vx (grad c0 c1 r0 r1 p) * vx t + vy (grad c0 c1 r0 r1 p) * vy t + vz (grad c0 c1 r0 r1 p) * vz t)); [ring|]. rewrite T. ring.
Qed.

Lemma cos_sin_atan x : cos (atan x) <> 0 /\ sin (atan x) = x * cos (atan x) /\ 0 < cos (atan x).
Proof.
  pose proof (atan_bound x) as B. assert (C : 0 < cos (atan x)) by (apply cos_gt_0; lra).
  split; [lra|]. split; [|exact C]. pose proof (tan_atan x) as T. unfold tan in T. rewrite <- T at 2. field. lra.
Qed.

(** Axis parallel to z: the returned normal is orthogonal to the wall. *)
Lemma normal_straight c0 c1 r0 r1 p0 p1 dir pc sn e pc' sn' e' :
  0 < vz dir -> ~ parallel_to_wall c0 c1 r0 r1 dir -> 0 < r0 -> 0 < r1 -> vx c1 = vx c0 -> vy c1 = vy c0 ->
  segment c0 c1 r0 r1 p0 p1 dir pc sn e = Ret (1%Z, pc', sn', e') ->
  normal_at c0 c1 r0 r1 pc' sn'.
Proof.
  intros Hd Hp A B Ex Ey K.
  destruct (segment_hit _ _ _ _ _ _ _ _ _ _ _ _ _ Hd Hp K) as (_ & (_ & Hc & _) & _ & W & _).
  assert (Hdc : dot dir (axis_dir c0 c1) <> 0).
  { unfold dot, axis_dir. cbn [vx vy vz]. rewrite Ex, Ey. apply Rgt_not_eq. assert (0 < vz dir * (vz c1 - vz c0)) by (apply Rmult_lt_0_compat; lra). lra. }
  destruct (segment_normal_unit _ _ _ _ _ _ _ _ _ _ _ _ _ Hd Hp A B Hdc K) as (_ & _ & N). cbv zeta in N.
  pose proof (perp_nonzero c0 c1 r0 r1 pc' Hc A B W) as Pu.
  set (h := vz c1 - vz c0) in *. assert (Hh : 0 < h) by (unfold h; lra).
  assert (Ecd : axis_dir c0 c1 = mkV 0 0 h) by (unfold axis_dir; rewrite Ex, Ey; unfold h; f_equal; ring).
  assert (Eu : perp_part c0 c1 pc' = mkV (vx pc' - vx c0) (vy pc' - vy c0) 0).
  { unfold perp_part. rewrite Ecd. unfold dot. cbn [vx vy vz]. f_equal; try (unfold Rdiv; ring). field. lra. }
  rewrite Ecd, Eu in N. rewrite Eu in Pu.
  assert (Elc : sqrt (dot (mkV 0 0 h) (mkV 0 0 h)) = h) by (unfold dot; cbn [vx vy vz]; replace (0 * 0 + 0 * 0 + h * h) with (h * h) by ring; apply sqrt_square; lra).
  rewrite Elc in N.
  pose proof W as W2. apply on_wall_fun in W2; [|lra..]. destruct W2 as [Iz F].
  set (rz := seg_radius c0 c1 r0 r1 (vz pc')).
  assert (Pr : 0 < rz) by (apply seg_radius_pos; auto).
  assert (Eax : seg_axis_x c0 c1 (vz pc') = vx c0) by (unfold seg_axis_x, lin; rewrite Ex; ring).
  assert (Eay : seg_axis_y c0 c1 (vz pc') = vy c0) by (unfold seg_axis_y, lin; rewrite Ey; ring).
  assert (Elu : sqrt (dot (mkV (vx pc' - vx c0) (vy pc' - vy c0) 0) (mkV (vx pc' - vx c0) (vy pc' - vy c0) 0)) = rz).
  { destruct W as [_ W]. rewrite Eax, Eay in W. fold rz in W. rewrite <- W. f_equal. unfold dot. cbn [vx vy vz]. ring. }
  rewrite Elu in N. cbn [vx vy vz] in N.
  destruct (cos_sin_atan ((r0 - r1) / h)) as (_ & Sn & Pc). rewrite Sn in N.
  apply normal_of_grad with (k := cos (atan ((r0 - r1) / h)) / (2 * rz)); [exact Hc|].
  rewrite N. unfold grad. cbn [vx vy vz]. rewrite Eax, Eay, Ex, Ey. fold rz. fold h. f_equal; field; lra.
Qed.

(** ** The new electric vector *)
Lemma sqrt_factor x k : sqrt (x * x * k) = Rabs x * sqrt k.
Proof.
  destruct (Rle_or_lt 0 k) as [P|P].
  - rewrite sqrt_mult; [|apply Rle_0_sqr|exact P]. rewrite <- (sqrt_Rsqr_abs x). reflexivity.
  - rewrite (sqrt_neg_0 k) by lra. rewrite Rmult_0_r. apply sqrt_neg_0. pose proof (Rle_0_sqr x). unfold Rsqr in *. nra.
Qed.

Definition vabs (v : vec3 R) : vec3 R := mkV (Rabs (vx v)) (Rabs (vy v)) (Rabs (vz v)).

Lemma new_elecv_abs sn dir ev : unit ev -> dot ev sn <> 0 \/ dot ev (s_dir sn dir) <> 0 ->
  new_elecv sn dir ev = vabs ev.
Proof.
  intros U H. unfold new_elecv. rnum. rewrite !vscalar_dot.
  set (aa := dot ev (s_dir sn dir)) in *. set (ab := dot ev sn) in *. set (ac := dot ev (p_dir sn dir)).
  set (fs := aa * aa). set (fp := 1 - fs).
  set (k := (aa * fs) ^ 2 + (ab * fp) ^ 2 + (ac * fp) ^ 2).
  assert (E : forall x, sqrt (x * aa * fs * (x * aa * fs) + x * ab * fp * (x * ab * fp) + x * ac * fp * (x * ac * fp)) = Rabs x * sqrt k).
  { intros x. rewrite <- sqrt_factor. f_equal. unfold k. ring. }
  rewrite !E.
  assert (Pk : 0 < k).
  { assert (0 <= k) by (unfold k; pose proof (pow2_ge_0 (aa * fs)); pose proof (pow2_ge_0 (ab * fp)); pose proof (pow2_ge_0 (ac * fp)); lra).
    destruct (Req_dec k 0) as [Z|]; [exfalso|lra].
    assert (Z1 : aa * fs = 0) by (unfold k in Z; pose proof (pow2_ge_0 (aa * fs)); pose proof (pow2_ge_0 (ab * fp)); pose proof (pow2_ge_0 (ac * fp)); apply Rsqr_eq_0; unfold Rsqr; nra).
    assert (Z2 : ab * fp = 0) by (unfold k in Z; pose proof (pow2_ge_0 (aa * fs)); pose proof (pow2_ge_0 (ab * fp)); pose proof (pow2_ge_0 (ac * fp)); apply Rsqr_eq_0; unfold Rsqr; nra).
    assert (Za : aa = 0). { unfold fs in Z1. apply Rmult_integral in Z1. destruct Z1 as [|Z1]; [assumption|]. apply Rmult_integral in Z1. tauto. }
    unfold fp, fs in Z2. rewrite Za in Z2. replace (1 - 0 * 0) with 1 in Z2 by ring. destruct H; [lra|contradiction]. }
  assert (Ps : 0 < sqrt k) by (apply sqrt_lt_R0; exact Pk). set (q := sqrt k) in *. clearbody q.
  assert (D : dot (mkV (Rabs (vx ev) * q) (Rabs (vy ev) * q) (Rabs (vz ev) * q)) (mkV (Rabs (vx ev) * q) (Rabs (vy ev) * q) (Rabs (vz ev) * q)) = q * q).
  { transitivity ((Rabs (vx ev) * Rabs (vx ev) + Rabs (vy ev) * Rabs (vy ev) + Rabs (vz ev) * Rabs (vz ev)) * (q * q)); [unfold dot; cbn [vx vy vz]; ring|].
    rewrite <- !Rabs_mult, !(Rabs_pos_eq (_ * _)) by apply Rle_0_sqr. unfold unit, dot in U. rewrite U. ring. }
  unfold vnorm, vabs. rnum. cbn [vx vy vz]. unfold dot in D. cbn [vx vy vz] in D. rewrite D. rewrite sqrt_square by lra.
  f_equal; field; lra.
Qed.
