(** * The photons polycap_source_get_photon draws, over the reals *)
From Coq Require Import ZArith List Bool Lia Reals Lra Psatz.
From Verif Require Import Num Geometry SourceModel.
Import ListNotations.
Local Open Scope R_scope.

Definition vdot (a b : vec3 R) : R := vx a * vx b + vy a * vy b + vz a * vz b.
Definition unit_vec (a : vec3 R) : Prop := vdot a a = 1.

Lemma vnorm_R (v : vec3 R) : vdot v v <> 0 ->
  exists s, 0 < s /\ s * s = vdot v v /\ vnorm v = mkV (vx v / s) (vy v / s) (vz v / s).
Proof.
  intros H. assert (P : 0 < vdot v v).
  { unfold vdot in *. pose proof (Rle_0_sqr (vx v)). pose proof (Rle_0_sqr (vy v)). pose proof (Rle_0_sqr (vz v)). unfold Rsqr in *. lra. }
  exists (sqrt (vdot v v)). split; [apply sqrt_lt_R0; auto|]. split; [apply sqrt_sqrt; lra|].
  unfold vnorm. rnum. reflexivity.
Qed.
Lemma vnorm_unit (v : vec3 R) : vdot v v <> 0 -> unit_vec (vnorm v).
Proof.
  intros H. destruct (vnorm_R v H) as (s & Ps & Es & ->). unfold unit_vec, vdot in *. cbn [vx vy vz].
  replace (vx v / s * (vx v / s) + vy v / s * (vy v / s) + vz v / s * (vz v / s))
    with ((vx v * vx v + vy v * vy v + vz v * vz v) / (s * s)) by (field; lra).
  rewrite <- Es. field. lra.
Qed.

(** The point on the source: an ellipse around the shift. *)
Lemma source_point_ellipse (s : source_nums R) r1 r2 r3 :
  0 < so_x s -> 0 < so_y s -> 0 <= r3 ->
  let p := draw_source_point s r1 r2 r3 in
  ((vx p - so_shx s) / so_x s) ^ 2 + ((vy p - so_shy s) / so_y s) ^ 2 = r3 /\ vz p = 0.
Proof.
  intros Hx Hy H3. unfold draw_source_point. set (phi := draw_phi s r1 r2). rnum. cbn [vx vy vz]. split; [|reflexivity].
  set (c := cos phi). set (n := sin phi).
  assert (cs : c * c + n * n = 1) by (unfold c, n; pose proof (sin2_cos2 phi) as K; unfold Rsqr in K; lra).
  set (a := so_x s) in *. set (b := so_y s) in *.
  set (q := b * c * (b * c) + a * n * (a * n)).
  assert (Pq : 0 < q).
  { unfold q. destruct (Req_dec c 0) as [K|K].
    - rewrite K in *. assert (n * n = 1) by lra. assert (0 < a * a) by nra. nra.
    - assert (0 < c * c) by nra. assert (0 < b * b) by nra. assert (0 <= (a * n) * (a * n)) by nra. nra. }
  assert (Sq : sqrt q <> 0) by (pose proof (sqrt_lt_R0 q Pq); lra).
  assert (E : sqrt q * sqrt q = q) by (apply sqrt_sqrt; lra).
  assert (E3 : sqrt r3 * sqrt r3 = r3) by (apply sqrt_sqrt; lra).
  set (w := sqrt q) in *. set (t := sqrt r3) in *.
  replace (((t * (a * b / w) * c + so_shx s - so_shx s) / a) ^ 2 + ((t * (a * b / w) * n + so_shy s - so_shy s) / b) ^ 2)
    with ((t * t) * ((b * c * (b * c) + a * n * (a * n)) / (w * w))) by (field; repeat split; lra).
  fold q. rewrite E, E3. field. lra.
Qed.

(** The quarter of the plane the second random number selects: signs of x and y. *)
Definition quarter (r2 : R) : R * R :=
  if Rlt_dec r2 (1/4) then (1, 1) else if Rlt_dec r2 (1/2) then (-1, 1)
  else if Rlt_dec r2 (3/4) then (-1, -1) else (1, -1).

Lemma phi_parts (s : source_nums R) r1 r2 :
  let phi := atan (so_y s / so_x s * tan (2 * PI * r1 / 4)) in
  cos (draw_phi s r1 r2) = fst (quarter r2) * cos phi /\ sin (draw_phi s r1 r2) = snd (quarter r2) * sin phi.
Proof.
  unfold draw_phi, quarter, nhalf. rnum. set (phi := atan _). cbv zeta.
  destruct (Rlt_dec r2 (1/4)); [|destruct (Rlt_dec r2 (1/2)); [|destruct (Rlt_dec r2 (3/4))]];
    repeat (first [rewrite Rltb_true by lra | rewrite Rltb_false by lra | rewrite Rleb_true by lra | rewrite Rleb_false by lra]);
    cbn [andb fst snd].
  - split; ring.
  - rewrite cos_minus, sin_minus, cos_PI, sin_PI. split; ring.
  - rewrite cos_plus, sin_plus, cos_PI, sin_PI. split; ring.
  - replace (Ropp 1 * phi) with (- phi) by ring. rewrite cos_neg, sin_neg. split; ring.
Qed.

(** The source point as an image of the unit square: an ellipse run through in quarters,
    r1 the angle within the quarter, r3 the squared radius. *)
Lemma source_point_polar (s : source_nums R) r1 r2 r3 :
  0 < so_x s -> 0 < so_y s -> 0 <= r1 < 1 ->
  let p := draw_source_point s r1 r2 r3 in
  vx p = so_shx s + fst (quarter r2) * (so_x s * sqrt r3 * cos (PI / 2 * r1)) /\
  vy p = so_shy s + snd (quarter r2) * (so_y s * sqrt r3 * sin (PI / 2 * r1)) /\ vz p = 0.
Proof.
  intros Hx Hy H1. pose proof (phi_parts s r1 r2) as (Ec & Es). unfold draw_source_point. cbv zeta in *.
  rnum. rewrite Ec, Es. cbn [vx vy vz]. rewrite cos_atan, sin_atan.
  replace (2 * PI * r1 / 4) with (PI / 2 * r1) by field.
  set (th := PI / 2 * r1). pose proof PI_RGT_0 as PP.
  assert (C : 0 < cos th) by (apply cos_gt_0; unfold th; nra).
  assert (cs : cos th * cos th + sin th * sin th = 1) by (pose proof (sin2_cos2 th) as K; unfold Rsqr in K; lra).
  unfold tan. set (c := cos th) in *. set (n := sin th) in *.
  set (a := so_x s) in *. set (b := so_y s) in *. set (m := b / a * (n / c)).
  assert (Q : exists x y, quarter r2 = (x, y) /\ x * x = 1 /\ y * y = 1).
  { unfold quarter. destruct (Rlt_dec r2 (1/4)); [|destruct (Rlt_dec r2 (1/2)); [|destruct (Rlt_dec r2 (3/4))]];
      do 2 eexists; split; try reflexivity; split; lra. }
  destruct Q as (qx & qy & -> & Qx & Qy). cbn [fst snd].
  assert (Pm : 0 < 1 + m²) by (unfold Rsqr; nra).
  pose proof (sqrt_lt_R0 _ Pm) as Pw. pose proof (sqrt_sqrt (1 + m²) ltac:(lra)) as Ew. unfold Rsqr in *.
  set (w := sqrt (1 + m * m)) in *.
  assert (R0 : sqrt (b * (qx * (1 / w)) * (b * (qx * (1 / w))) + a * (qy * (m / w)) * (a * (qy * (m / w)))) = b / (c * w)).
  { replace (b * (qx * (1 / w)) * (b * (qx * (1 / w))) + a * (qy * (m / w)) * (a * (qy * (m / w))))
      with ((b / (c * w)) * (b / (c * w))).
    - apply sqrt_square. apply Rlt_le. apply Rmult_lt_0_compat; [lra|]. apply Rinv_0_lt_compat. nra.
    - transitivity (b * b * ((c * c + n * n) / (c * c)) / (w * w)); [rewrite cs; field; split; lra|].
      transitivity (((qx * qx) * (b * b) + (qy * qy) * (a * a * (m * m))) / (w * w)); [|field; lra].
      rewrite Qx, Qy. unfold m. field. repeat split; lra. }
  rewrite R0. split; [|split; [|reflexivity]].
  - field. repeat split; lra.
  - unfold m. field. repeat split; lra.
Qed.

(** The ray. *)
Lemma ray_facts (s : source_nums R) n_cap cap0 ext0 src rs start dir rest :
  0 < so_d s -> draw_ray s n_cap cap0 ext0 src rs = Some (start, dir, rest) ->
  vz start = 0 /\ unit_vec dir /\ 0 < vz dir /\
  vx start = vx src + so_d s / vz dir * vx dir /\ vy start = vy src + so_d s / vz dir * vy dir.
Proof.
  intros Hd. unfold draw_ray. rnum.
  assert (Main : forall x y v, 0 < vz v -> x = vx src + so_d s / vz v * vx v -> y = vy src + so_d s / vz v * vy v ->
    unit_vec (vnorm v) /\ 0 < vz (vnorm v) /\
    x = vx src + so_d s / vz (vnorm v) * vx (vnorm v) /\ y = vy src + so_d s / vz (vnorm v) * vy (vnorm v)).
  { intros x y v Pv Ex Ey.
    assert (Nz : vdot v v <> 0) by (unfold vdot; pose proof (Rle_0_sqr (vx v)); pose proof (Rle_0_sqr (vy v)); unfold Rsqr in *; nra).
    split; [apply vnorm_unit; auto|]. destruct (vnorm_R v Nz) as (k & Pk & _ & ->). cbn [vx vy vz].
    split; [apply Rdiv_lt_0_compat; auto|]. rewrite Ex, Ey. split; field; split; lra. }
  destruct (Rltb (so_sigx s) 0 || Rltb (so_sigy s) 0).
  - destruct (draw_entrance n_cap cap0 ext0 rs) as [[[x y] rs']|]; [|discriminate].
    intros K. inversion K; subst. cbn [vz vx vy]. split; [reflexivity|].
    apply Main; cbn [vx vy vz]; try lra; field; lra.
  - destruct rs as [|r1 [|r2 rs']]; try discriminate. intros K. inversion K; subst. cbn [vz vx vy]. split; [reflexivity|].
    apply Main; cbn [vx vy vz]; try lra; field; lra.
Qed.

(** Divergence of the non-uniform beam. *)
Lemma ray_divergence (s : source_nums R) n_cap cap0 ext0 src r1 r2 rs start dir rest :
  0 <= so_sigx s -> 0 <= so_sigy s -> 0 <= r1 <= 1 -> 0 <= r2 <= 1 ->
  draw_ray s n_cap cap0 ext0 src (r1 :: r2 :: rs) = Some (start, dir, rest) ->
  Rabs (vx dir / vz dir) <= so_sigx s /\ Rabs (vy dir / vz dir) <= so_sigy s /\ rest = rs.
Proof.
  intros Hx Hy H1 H2. unfold draw_ray. rnum. rewrite (Rltb_false (so_sigx s)), (Rltb_false (so_sigy s)) by lra. cbn [orb].
  intros K. inversion K; subst. clear K. set (v := mkV _ _ _).
  assert (Nz : vdot v v <> 0) by (apply Rgt_not_eq; unfold vdot; pose proof (Rle_0_sqr (vx v)); pose proof (Rle_0_sqr (vy v)); assert (vz v = 1) by reflexivity; unfold Rsqr in *; nra).
  destruct (vnorm_R v Nz) as (k & Pk & _ & ->). cbn [vx vy vz]. unfold v. cbn [vx vy vz].
  assert (A1 : Rabs r1 = r1) by (apply Rabs_right; lra). assert (A2 : Rabs r2 = r2) by (apply Rabs_right; lra). rewrite A1, A2.
  split; [|split; auto].
  - replace (so_sigx s * (1 - 2 * r1) / k / (1 / k)) with (so_sigx s * (1 - 2 * r1)) by (field; lra).
    apply Rabs_le. nra.
  - replace (so_sigy s * (1 - 2 * r2) / k / (1 / k)) with (so_sigy s * (1 - 2 * r2)) by (field; lra).
    apply Rabs_le. nra.
Qed.

(** The electric vector. *)
Lemma elecv_facts (s : source_nums R) r dir :
  unit_vec dir -> 0 < vz dir ->
  let e := draw_elecv s r dir in
  let axis := if Rle_dec (Rabs r) ((1 + so_pol s) / 2) then mkV 1 0 0 else mkV 0 1 0 in
  unit_vec e /\ vdot e dir = 0 /\
  exists a b, 0 < a /\ vx e = a * vx axis + b * vx dir /\ vy e = a * vy axis + b * vy dir /\ vz e = a * vz axis + b * vz dir.
Proof.
  intros U Pz. unfold draw_elecv. rnum. unfold Rleb.
  set (ax := if Rle_dec _ _ then mkV 1 0 0 else mkV 0 1 0).
  assert (EA : (if (if Rle_dec (Rabs r) ((1 + so_pol s) / 2) then true else false) then mkV 1 0 0 else mkV 0 1 0) = ax)
    by (unfold ax; destruct (Rle_dec (Rabs r) ((1 + so_pol s) / 2)); reflexivity).
  rewrite EA. clear EA.
  assert (Ua : unit_vec ax /\ vz ax = 0) by (unfold ax; destruct (Rle_dec _ _); unfold unit_vec, vdot; cbn; lra).
  clearbody ax. destruct Ua as [Ua Za].
  assert (Hs : @vscalar R RNum ax dir = vdot ax dir) by (unfold vscalar, vdot; rnum; reflexivity). rewrite Hs. clear Hs.
  set (c := vdot ax dir). unfold unit_vec, vdot in U, Ua.
  assert (Hc : c * c < 1).
  { unfold c, vdot. rewrite Za in *.
    pose proof (Rle_0_sqr (vx ax * vy dir - vy ax * vx dir)) as K. unfold Rsqr in K. nra. }
  assert (Bc : -1 <= c <= 1) by nra.
  assert (Es : sin (acos c) = sqrt (1 - c²)) by (apply sin_acos; exact Bc). rewrite Es. unfold Rsqr.
  assert (Ps : 0 < sqrt (1 - c * c)) by (apply sqrt_lt_R0; lra).
  assert (E2 : sqrt (1 - c * c) * sqrt (1 - c * c) = 1 - c * c) by (apply sqrt_sqrt; lra).
  set (w := sqrt (1 - c * c)) in *. set (A := 1 / w). set (B := -1 * A * c).
  set (v := mkV (vx ax * A + vx dir * B) (vy ax * A + vy dir * B) (vz ax * A + vz dir * B)).
  assert (EAw : A * A * (1 - c * c) = 1) by (unfold A; rewrite <- E2; field; lra).
  assert (Vu : vdot v v = 1).
  { unfold vdot, v. cbn [vx vy vz].
    transitivity (A * A * (vx ax * vx ax + vy ax * vy ax + vz ax * vz ax) + 2 * A * B * c + B * B * (vx dir * vx dir + vy dir * vy dir + vz dir * vz dir)).
    { unfold c, vdot. ring. }
    rewrite U, Ua. unfold B. lra. }
  assert (Vd : vdot v dir = 0).
  { transitivity (A * c + B * (vx dir * vx dir + vy dir * vy dir + vz dir * vz dir)).
    { unfold vdot, v, c, vdot. cbn [vx vy vz]. ring. }
    rewrite U. unfold B. ring. }
  assert (Nz : vdot v v <> 0) by lra.
  destruct (vnorm_R v Nz) as (k & Pk & Ek & Ev). rewrite Vu in Ek. assert (k = 1) by nra. subst k.
  replace (vnorm v) with v by (rewrite Ev; unfold v; cbn [vx vy vz]; f_equal; field).
  split; [exact Vu|]. split; [exact Vd|]. exists A, B. split; [unfold A; apply Rdiv_lt_0_compat; lra|].
  unfold v. cbn [vx vy vz]. repeat split; ring.
Qed.

(** The rejection loop. *)
Lemma hex_loop_inside ext0 : 0 < ext0 -> forall n rs x y rest, (List.length rs <= n)%nat ->
  hex_loop ext0 rs = Some (x, y, rest) -> within_pc_boundary ext0 (mkV x y 0) = 1%Z.
Proof.
  intros He. induction n as [|n IH]; intros rs x y rest Hl; (destruct rs as [|r1 [|r2 rs]]; try discriminate; cbn in Hl; try lia).
  cbn [hex_loop]. destruct (Z.eqb_spec (within_pc_boundary ext0 (mkV ((#2 * r1 - #1) * ext0)%num ((#2 * r2 - #1) * ext0)%num (#0)%num)) 0) as [E|E].
  - apply IH. lia.
  - intros K. inversion K; subst. clear K. revert E. unfold within_pc_boundary. rnum.
    rewrite (Rleb_false ext0) by lra. cbn [vx vy].
    match goal with |- context [if ?b then _ else _] => destruct b end; [intros K; exfalso; apply K; reflexivity|reflexivity].
Qed.

Lemma hex_loop_returns ext0 : 0 < ext0 -> forall pre r1 r2 post, (exists k, List.length pre = 2 * k)%nat ->
  within_pc_boundary ext0 (mkV ((2 * r1 - 1) * ext0) ((2 * r2 - 1) * ext0) 0) <> 0%Z ->
  exists x y rest, hex_loop ext0 (pre ++ r1 :: r2 :: post) = Some (x, y, rest).
Proof.
  intros He pre r1 r2 post [k Hk] Hin. revert pre Hk. induction k as [|k IH]; intros pre Hk.
  - destruct pre; [|discriminate]. cbn [app hex_loop]. rnum.
    destruct (Z.eqb_spec (within_pc_boundary ext0 (mkV ((2 * r1 - 1) * ext0) ((2 * r2 - 1) * ext0) 0)) 0) as [E|E]; [contradiction|eauto].
  - destruct pre as [|a [|b pre]]; cbn in Hk; try lia. cbn [app hex_loop].
    match goal with |- context [Z.eqb ?w 0] => destruct (Z.eqb w 0) end; [apply IH; lia|eauto].
Qed.
