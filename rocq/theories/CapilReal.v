(** * One wall segment over the reals *)
From Coq Require Import ZArith List Bool Lia Reals Lra Psatz.
From Verif Require Import Num Geometry SpecPhoton RM CapilModel SpecRay SourceReal.
Import ListNotations.
Local Open Scope R_scope.

Lemma ret4 {A B C D} (a a' : A) (b b' : B) (c c' : C) (d d' : D) :
  Ret (a, b, c, d) = Ret (a', b', c', d') -> a = a' /\ b = b' /\ c = c' /\ d = d'.
Proof. intros K. inversion K. auto. Qed.
Lemma ret3 {A B C} (a a' : A) (b b' : B) (c c' : C) :
  Ret (a, b, c) = Ret (a', b', c') -> a = a' /\ b = b' /\ c = c'.
Proof. intros K. inversion K. auto. Qed.

Lemma dot_pos v : 0 < vz v -> vdot v v <> 0.
Proof. intros H. apply Rgt_not_eq. unfold vdot. pose proof (Rle_0_sqr (vx v)); pose proof (Rle_0_sqr (vy v)). unfold Rsqr in *. nra. Qed.

Lemma norm_z_pos v : 0 < vz v -> 0 < vz (vnorm v).
Proof.
  intros H. destruct (vnorm_R v (dot_pos v H)) as (s & Ps & _ & ->). cbn [vz]. apply Rdiv_lt_0_compat; auto.
Qed.
Lemma norm_slopes v : 0 < vz v -> vx (vnorm v) / vz (vnorm v) = vx v / vz v /\ vy (vnorm v) / vz (vnorm v) = vy v / vz v.
Proof.
  intros H. destruct (vnorm_R v (dot_pos v H)) as (s & Ps & _ & ->). cbn [vx vy vz]. split; field; split; lra.
Qed.
Lemma norm_line v p0 p : 0 < vz v -> on_line p0 (vnorm v) p <-> on_line p0 v p.
Proof.
  intros H. destruct (vnorm_R v (dot_pos v H)) as (s & Ps & _ & ->). unfold on_line. cbn [vx vy vz]. split.
  - intros (t & A & B & C). exists (t / s). rewrite A, B, C. repeat split; field; lra.
  - intros (t & A & B & C). exists (t * s). rewrite A, B, C. repeat split; field; lra.
Qed.

(** The wall equation along the ray. *)
Definition wall_fun (c0 c1 : vec3 R) (r0 r1 : R) (p : vec3 R) : R :=
  (vx p - seg_axis_x c0 c1 (vz p)) ^ 2 + (vy p - seg_axis_y c0 c1 (vz p)) ^ 2 - (seg_radius c0 c1 r0 r1 (vz p)) ^ 2.

Lemma seg_quadratic c0 c1 r0 r1 p0 d t : vz c0 < vz c1 -> 0 < vz d -> vz p0 = vz c0 ->
  wall_fun c0 c1 r0 r1 (mkV (vx p0 + t / vz d * vx d) (vy p0 + t / vz d * vy d) (vz p0 + t)) =
  seg_a c0 c1 r0 r1 d * t * t + seg_b c0 c1 r0 r1 p0 d * t + seg_c c0 r0 p0.
Proof.
  intros H Hd Hz. unfold wall_fun, seg_axis_x, seg_axis_y, seg_radius, lin, seg_a, seg_b, seg_c, vsub. rnum. cbn [vx vy vz].
  rewrite Hz. field. split; lra.
Qed.

Lemma seg_radius_nonneg c0 c1 r0 r1 z : vz c0 < vz c1 -> 0 <= r0 -> 0 <= r1 -> vz c0 <= z <= vz c1 ->
  0 <= seg_radius c0 c1 r0 r1 z.
Proof.
  intros H A B C. unfold seg_radius, lin.
  assert (0 <= (z - vz c0) / (vz c1 - vz c0) <= 1).
  { split; [apply Rmult_le_pos; [lra|apply Rlt_le, Rinv_0_lt_compat; lra]|].
    apply Rmult_le_reg_r with (vz c1 - vz c0); [lra|]. unfold Rdiv. rewrite Rmult_assoc, Rinv_l by lra. lra. }
  nra.
Qed.
Lemma seg_radius_pos c0 c1 r0 r1 z : vz c0 < vz c1 -> 0 < r0 -> 0 < r1 -> vz c0 <= z <= vz c1 ->
  0 < seg_radius c0 c1 r0 r1 z.
Proof.
  intros H A B C. unfold seg_radius, lin.
  assert (0 <= (z - vz c0) / (vz c1 - vz c0) <= 1).
  { split; [apply Rmult_le_pos; [lra|apply Rlt_le, Rinv_0_lt_compat; lra]|].
    apply Rmult_le_reg_r with (vz c1 - vz c0); [lra|]. unfold Rdiv. rewrite Rmult_assoc, Rinv_l by lra. lra. }
  nra.
Qed.

Lemma on_wall_fun c0 c1 r0 r1 p : vz c0 < vz c1 -> 0 <= r0 -> 0 <= r1 ->
  on_wall c0 c1 r0 r1 p <-> vz c0 <= vz p <= vz c1 /\ wall_fun c0 c1 r0 r1 p = 0.
Proof.
  intros H A B. unfold on_wall, wall_fun. set (q := (vx p - _) ^ 2 + _).
  assert (Q : 0 <= q) by (unfold q; pose proof (pow2_ge_0 (vx p - seg_axis_x c0 c1 (vz p))); pose proof (pow2_ge_0 (vy p - seg_axis_y c0 c1 (vz p))); lra).
  split.
  - intros [I E]. split; [exact I|]. rewrite <- E. replace (sqrt q ^ 2) with (sqrt q * sqrt q) by ring. rewrite sqrt_sqrt; lra.
  - intros [I E]. split; [exact I|]. pose proof (seg_radius_nonneg c0 c1 r0 r1 (vz p) H A B I).
    replace q with (seg_radius c0 c1 r0 r1 (vz p) ^ 2) by lra. replace (seg_radius c0 c1 r0 r1 (vz p) ^ 2) with (Rsqr (seg_radius c0 c1 r0 r1 (vz p))) by (unfold Rsqr; ring).
    apply sqrt_Rsqr. auto.
Qed.

(** ** The quadratic equation *)
Section Quad.
Variables a b c : R.
Hypothesis Ha : a <> 0.
Lemma quad_complete t : 4 * a * (a * t * t + b * t + c) = (2 * a * t + b) ^ 2 - (b * b - 4 * a * c).
Proof. ring. Qed.
Lemma quad_none t : b * b - 4 * a * c < 0 -> a * t * t + b * t + c <> 0.
Proof. intros D E. pose proof (quad_complete t) as Q. rewrite E in Q. pose proof (pow2_ge_0 (2 * a * t + b)). lra. Qed.
Lemma quad_one t : b * b - 4 * a * c = 0 -> a * t * t + b * t + c = 0 <-> t = - (1) * b / (2 * a).
Proof.
  intros D. split.
  - intros E. pose proof (quad_complete t) as Q. rewrite E, D in Q.
    assert (2 * a * t + b = 0) by (apply Rsqr_0_uniq; unfold Rsqr; lra). apply Rmult_eq_reg_l with (2 * a); [|lra]. field_simplify; [lra|auto].
  - intros ->. apply Rmult_eq_reg_l with (4 * a); [|lra]. rewrite quad_complete, D. field. auto.
Qed.
Lemma quad_two t : 0 < b * b - 4 * a * c ->
  a * t * t + b * t + c = 0 <->
  t = (- (1) * b + sqrt (b * b - 4 * a * c)) / (2 * a) \/ t = (- (1) * b - sqrt (b * b - 4 * a * c)) / (2 * a).
Proof.
  intros D. set (s := sqrt (b * b - 4 * a * c)).
  assert (S : s * s = b * b - 4 * a * c) by (apply sqrt_sqrt; lra).
  split.
  - intros E. pose proof (quad_complete t) as Q. rewrite E, <- S in Q.
    assert (P : (2 * a * t + b - s) * (2 * a * t + b + s) = 0) by lra.
    apply Rmult_integral in P. destruct P as [P|P]; [left|right]; apply Rmult_eq_reg_l with (2 * a); try lra; field_simplify; try lra; auto.
  - intros [->| ->]; apply Rmult_eq_reg_l with (4 * a); try lra; rewrite quad_complete, <- S; field; auto.
Qed.
End Quad.

(** The picked solution: the smallest admissible root. *)
Definition zok (z z0 z1 zp : R) : Prop := z0 <= z <= z1 /\ zp + 1 / 100000 <= z.
Lemma seg_bad_spec z z0 z1 zp : seg_bad z z0 z1 zp = false <-> zok z z0 z1 zp.
Proof.
  unfold seg_bad, zok, c1em5. rnum.
  destruct (Rltb_spec z z0), (Rltb_spec (z - zp) (1 / 100000)), (Rltb_spec z1 z); cbn [orb]; split; intros; try discriminate; try reflexivity; lra.
Qed.
Lemma seg_bad_spec' z z0 z1 zp : seg_bad z z0 z1 zp = true <-> ~ zok z z0 z1 zp.
Proof. rewrite <- seg_bad_spec. destruct (seg_bad z z0 z1 zp); split; intros; try discriminate; try reflexivity; try congruence. Qed.

Lemma seg_pick_spec a b c zb z0 z1 zp : a <> 0 ->
  let root z := a * (z - zb) * (z - zb) + b * (z - zb) + c = 0 in
  match seg_pick a b c zb z0 z1 zp with
  | inl _ => forall z, root z -> ~ zok z z0 z1 zp
  | inr z => root z /\ (forall z', root z' -> zok z' z0 z1 zp -> zok z z0 z1 zp /\ z <= z')
  end.
Proof.
  intros Ha root. unfold seg_pick. rnum.
  destruct (Rltb_spec (b * b - 4 * a * c) 0) as [D|D].
  { intros z R. exfalso. revert R. apply quad_none; auto. }
  destruct (Reqb_spec (b * b - 4 * a * c) 0) as [D0|D0].
  { pose proof (fun t => quad_one a b c Ha t D0) as Q.
    assert (U : forall z, root z -> z = zb + - (1) * b / (2 * a)) by (intros z R; apply Q in R; lra).
    split.
    - unfold root. apply Q. ring.
    - intros z' R Z. apply U in R. subst z'. split; [exact Z|lra]. }
  assert (DP : 0 < b * b - 4 * a * c) by lra.
  pose proof (fun t => quad_two a b c Ha t DP) as Q.
  set (d1 := (- (1) * b + _) / _) in *. set (d2 := (- (1) * b - _) / _) in *.
  assert (U : forall z, root z -> z = zb + d1 \/ z = zb + d2).
  { intros z R. apply Q in R. destruct R; [left|right]; lra. }
  assert (R1 : root (zb + d1)) by (unfold root; apply Q; left; ring).
  assert (R2 : root (zb + d2)) by (unfold root; apply Q; right; ring).
  destruct (seg_bad (zb + d1) z0 z1 zp) eqn:B1; destruct (seg_bad (zb + d2) z0 z1 zp) eqn:B2;
    rewrite ?seg_bad_spec, ?seg_bad_spec' in B1; rewrite ?seg_bad_spec, ?seg_bad_spec' in B2.
  - intros z R. destruct (U z R); subst; auto.
  - split; [exact R2|]. intros z' R Z. destruct (U z' R); subst; [contradiction|]. split; [auto|lra].
  - split; [exact R1|]. intros z' R Z. destruct (U z' R); subst; [|contradiction]. split; [auto|lra].
  - destruct (Rltb_spec (zb + d2 - zp) (zb + d1 - zp)).
    + split; [exact R2|]. intros z' R Z. split; [auto|]. destruct (U z' R); subst; lra.
    + split; [exact R1|]. intros z' R Z. split; [auto|]. destruct (U z' R); subst; lra.
Qed.

(** ** The segment function *)
Lemma seg_a_parallel c0 c1 r0 r1 d : 0 < vz d -> vz c0 < vz c1 ->
  seg_a c0 c1 r0 r1 (vnorm d) <> 0 <-> ~ parallel_to_wall c0 c1 r0 r1 d.
Proof.
  intros H Hc. destruct (norm_slopes d H) as [E1 E2]. unfold seg_a, parallel_to_wall, vsub. rnum. cbn [vx vy vz]. rewrite E1, E2.
  split; intros K L; apply K; lra.
Qed.

Definition args_ok (c0 c1 : vec3 R) (r0 r1 : R) (p0 p1 dir : vec3 R) : Prop :=
  0 <= vz c0 /\ vz c0 < vz c1 /\ 0 <= r0 /\ 0 <= r1 /\ 0 <= vz dir /\ vz p0 = vz c0 /\ vz p1 = vz c1.

Lemma segment_args c0 c1 r0 r1 p0 p1 dir pc sn e :
  (~ args_ok c0 c1 r0 r1 p0 p1 dir /\
     segment c0 c1 r0 r1 p0 p1 dir pc sn e = Ret ((-1)%Z, pc, sn, match e with None => Some E_ARG | Some k => Some k end)) \/
  (args_ok c0 c1 r0 r1 p0 p1 dir /\
     segment c0 c1 r0 r1 p0 p1 dir pc sn e =
     let sn := mkV 0 0 0 in
    let dir := vnorm dir in
    match seg_pick (seg_a c0 c1 r0 r1 dir) (seg_b c0 c1 r0 r1 p0 dir) (seg_c c0 r0 p0)
                   (vz p0) (vz c0) (vz c1) (vz pc) with
    | inl code => Ret (code, pc, sn, e)
    | inr z =>
        if Rltb (vz c1) z then Ret ((-4)%Z, pc, sn, e)
        else if orb (Rltb z (vz c0)) (Rltb (z - vz pc) (1 / 100000)) then Ret ((-5)%Z, pc, sn, e)
        else
          let d_proj := (z - vz p0) / vz dir in
          if Rltb d_proj (1 / 10000000000) then Ret ((-6)%Z, pc, sn, e)
          else
            let ic := mkV (vx p0 + d_proj * vx dir) (vy p0 + d_proj * vy dir) z in
            Ret (1%Z, ic, seg_normal c0 c1 r0 r1 p0 dir ic d_proj, e)
    end).
Proof.
  unfold segment, args_ok, c1em5, c1em10. rnum.
  destruct (Rltb_spec (vz c0) 0) as [A1|A1]; cbn [orb]; [left; split; [lra|reflexivity]|].
  destruct (Rltb_spec (vz c1) 0) as [A2|A2]; cbn [orb]; [left; split; [lra|reflexivity]|].
  destruct (Rltb_spec r0 0) as [A3|A3]; cbn [orb]; [left; split; [lra|reflexivity]|].
  destruct (Rltb_spec r1 0) as [A4|A4]; cbn [orb]; [left; split; [lra|reflexivity]|].
  destruct (Rltb_spec (vz dir) 0) as [A5|A5]; cbn [orb]; [left; split; [lra|reflexivity]|].
  destruct (Reqb_spec (vz c0) (vz p0)) as [A6|A6]; cbn [orb negb]; [|left; split; [lra|reflexivity]].
  destruct (Reqb_spec (vz c1) (vz p1)) as [A7|A7]; cbn [orb negb]; [|left; split; [lra|reflexivity]].
  destruct (Rleb_spec (vz c1) (vz c0)) as [A8|A8]; [left; split; [lra|reflexivity]|].
  right. split; [lra|]. cbv zeta.
  match goal with |- context [seg_pick ?a ?b ?c ?d ?e ?f ?g] => destruct (seg_pick a b c d e f g) as [code|z] end; [reflexivity|].
  destruct (Rltb (vz c1) z); [reflexivity|]. destruct (Rltb z (vz c0) || Rltb (z - vz pc) (1 / 100000))%bool; [reflexivity|].
  match goal with |- context [Rltb ?x ?y] => destruct (Rltb x y) end; reflexivity.
Qed.

(** Everything about one call. *)
Lemma segment_total c0 c1 r0 r1 p0 p1 dir pc sn e :
  exists code pc' sn' e', segment c0 c1 r0 r1 p0 p1 dir pc sn e = Ret (code, pc', sn', e') /\
    In code [-1; -2; -3; -4; -5; -6; 1]%Z /\ (code <> 1%Z -> pc' = pc) /\ (code <> (-1)%Z -> e' = e) /\
    (code = (-1)%Z <-> ~ args_ok c0 c1 r0 r1 p0 p1 dir).
Proof.
  destruct (segment_args c0 c1 r0 r1 p0 p1 dir pc sn e) as [[A ->]|[A ->]].
  { do 4 eexists. split; [reflexivity|]. cbn [In]. split; [auto|]. split; [auto|]. split; [congruence|tauto]. }
  cbv zeta.
  assert (C : forall code pc' sn', In code [-2; -3; -4; -5; -6; 1]%Z -> (code <> 1%Z -> pc' = pc) ->
    exists code0 pc'0 sn'0 e', @Ret (Z * vec3 R * vec3 R * slot) (code, pc', sn', e) = Ret (code0, pc'0, sn'0, e') /\
     In code0 [-1; -2; -3; -4; -5; -6; 1]%Z /\ (code0 <> 1%Z -> pc'0 = pc) /\ (code0 <> (-1)%Z -> e' = e) /\
     (code0 = (-1)%Z <-> ~ args_ok c0 c1 r0 r1 p0 p1 dir)).
  { intros code pc' sn' I P. exists code, pc', sn', e. split; [reflexivity|]. split; [right; exact I|]. split; [exact P|]. split; [auto|].
    cbn [In] in I. split; [intros ->; lia|tauto]. }
  match goal with |- context [seg_pick ?a ?b ?c ?d ?e ?f ?g] => destruct (seg_pick a b c d e f g) as [code|z] eqn:E end.
  { apply C; [|auto]. revert E. unfold seg_pick. rnum.
    repeat match goal with |- context [if ?b then _ else _] => destruct b end; intros K; try discriminate; injection K as <-; cbn [In]; auto. }
  destruct (Rltb (vz c1) z); [apply C; cbn [In]; auto|].
  destruct (Rltb z (vz c0) || Rltb (z - vz pc) (1 / 100000))%bool; [apply C; cbn [In]; auto|].
  match goal with |- context [Rltb ?x ?y] => destruct (Rltb x y) end; apply C; cbn [In]; auto 10. intros K; congruence.
Qed.

(** A point on the ray at a height. *)
Lemma on_line_height p0 d p : 0 < vz d -> on_line p0 d p ->
  p = mkV (vx p0 + (vz p - vz p0) / vz d * vx d) (vy p0 + (vz p - vz p0) / vz d * vy d) (vz p0 + (vz p - vz p0)).
Proof.
  intros H (t & A & B & C). destruct p as [x y z]. cbn [vx vy vz] in *. subst. f_equal; [| |ring]; field; lra.
Qed.

Lemma segment_hit c0 c1 r0 r1 p0 p1 dir pc sn e pc' sn' e' :
  0 < vz dir -> ~ parallel_to_wall c0 c1 r0 r1 dir ->
  segment c0 c1 r0 r1 p0 p1 dir pc sn e = Ret (1%Z, pc', sn', e') ->
  e' = e /\ args_ok c0 c1 r0 r1 p0 p1 dir /\
  on_line p0 dir pc' /\ on_wall c0 c1 r0 r1 pc' /\ vz pc + 1 / 100000 <= vz pc' /\
  (forall p', on_line p0 dir p' -> on_wall c0 c1 r0 r1 p' -> vz pc + 1 / 100000 <= vz p' -> vz pc' <= vz p') /\
  exists dp, 1 / 10000000000 <= dp /\
     pc' = mkV (vx p0 + dp * vx (vnorm dir)) (vy p0 + dp * vy (vnorm dir)) (vz p0 + dp * vz (vnorm dir)) /\
     sn' = seg_normal c0 c1 r0 r1 p0 (vnorm dir) pc' dp.
Proof.
  intros Hd Hp. destruct (segment_args c0 c1 r0 r1 p0 p1 dir pc sn e) as [[A ->]|[A ->]]; [discriminate|]. cbv zeta.
  destruct A as (A1 & A2 & A3 & A4 & A5 & A6 & A7).
  pose proof (proj2 (seg_a_parallel c0 c1 r0 r1 dir Hd A2) Hp) as Ha.
  set (D := vnorm dir) in *. pose proof (norm_z_pos dir Hd) as Dz. fold D in Dz.
  pose proof (seg_pick_spec (seg_a c0 c1 r0 r1 D) (seg_b c0 c1 r0 r1 p0 D) (seg_c c0 r0 p0) (vz p0) (vz c0) (vz c1) (vz pc) Ha) as P.
  cbv zeta in P. destruct (seg_pick _ _ _ _ _ _ _) as [code|z] eqn:EP.
  { intros K. injection K as -> <- <- <-. exfalso. revert EP. unfold seg_pick. rnum.
    repeat match goal with |- context [if ?b then _ else _] => destruct b end; intros; discriminate. }
  destruct (Rltb_spec (vz c1) z) as [B1|B1]; [discriminate|].
  destruct (Rltb_spec z (vz c0)) as [B2|B2]; cbn [orb]; [discriminate|].
  destruct (Rltb_spec (z - vz pc) (1 / 100000)) as [B3|B3]; cbn [orb]; [discriminate|].
  destruct (Rltb_spec ((z - vz p0) / vz D) (1 / 10000000000)) as [B4|B4]; [discriminate|].
  intros K. apply ret4 in K. destruct K as (_ & K1 & K2 & <-). split; [reflexivity|]. split; [repeat split; lra|]. subst pc'. cbn [vz].
  destruct P as [P1 P2].
  assert (L : on_line p0 dir (mkV (vx p0 + (z - vz p0) / vz D * vx D) (vy p0 + (z - vz p0) / vz D * vy D) z)).
  { apply norm_line; auto. exists ((z - vz p0) / vz D). cbn [vx vy vz]. repeat split. fold D. field. lra. }
  split; [exact L|]. split; [apply on_wall_fun; auto; cbn [vz]; split; [lra|]|split; [lra|split]].
  - rewrite <- (seg_quadratic c0 c1 r0 r1 p0 D) in P1 by auto. revert P1. replace (vz p0 + (z - vz p0)) with z by ring. auto.
  - intros p' L' W' Z'. apply on_wall_fun in W'; auto. destruct W' as [I' F'].
    apply norm_line in L'; auto. fold D in L'. pose proof (on_line_height p0 D p' Dz L') as E'.
    destruct (P2 (vz p')) as [_ Q].
    + rewrite <- (seg_quadratic c0 c1 r0 r1 p0 D) by auto. rewrite <- E'. exact F'.
    + split; [exact I'|exact Z'].
    + exact Q.
  - exists ((z - vz p0) / vz D). split; [lra|]. split; [f_equal; field; lra|]. symmetry. exact K2.
Qed.

(** Completeness: an admissible intersection, not within 1e-10 of the segment entrance, is found. *)
Lemma segment_complete c0 c1 r0 r1 p0 p1 dir pc sn e p' :
  0 < vz dir -> ~ parallel_to_wall c0 c1 r0 r1 dir -> args_ok c0 c1 r0 r1 p0 p1 dir ->
  on_line p0 dir p' -> on_wall c0 c1 r0 r1 p' -> vz pc + 1 / 100000 <= vz p' ->
  (forall p, on_line p0 dir p -> on_wall c0 c1 r0 r1 p -> vz pc + 1 / 100000 <= vz p -> vz p' <= vz p) ->
  1 / 10000000000 * vz (vnorm dir) <= vz p' - vz p0 ->
  exists sn', segment c0 c1 r0 r1 p0 p1 dir pc sn e = Ret (1%Z, p', sn', e).
Proof.
  intros Hd Hp A L W Z F N. destruct (segment_args c0 c1 r0 r1 p0 p1 dir pc sn e) as [[A' _]|[_ ->]]; [contradiction|]. cbv zeta.
  destruct A as (A1 & A2 & A3 & A4 & A5 & A6 & A7).
  pose proof (proj2 (seg_a_parallel c0 c1 r0 r1 dir Hd A2) Hp) as Ha.
  set (D := vnorm dir) in *. pose proof (norm_z_pos dir Hd) as Dz. fold D in Dz.
  pose proof (seg_pick_spec (seg_a c0 c1 r0 r1 D) (seg_b c0 c1 r0 r1 p0 D) (seg_c c0 r0 p0) (vz p0) (vz c0) (vz c1) (vz pc) Ha) as P.
  cbv zeta in P. apply on_wall_fun in W; auto. destruct W as [I E].
  assert (L2 : on_line p0 D p') by (apply norm_line; auto).
  pose proof (on_line_height p0 D p' Dz L2) as EH.
  assert (Rt : seg_a c0 c1 r0 r1 D * (vz p' - vz p0) * (vz p' - vz p0) + seg_b c0 c1 r0 r1 p0 D * (vz p' - vz p0) + seg_c c0 r0 p0 = 0).
  { rewrite <- (seg_quadratic c0 c1 r0 r1 p0 D) by auto. rewrite <- EH. exact E. }
  assert (ZO : zok (vz p') (vz c0) (vz c1) (vz pc)) by (split; assumption).
  destruct (seg_pick _ _ _ _ _ _ _) as [code|z]; [exfalso; apply (P _ Rt ZO)|].
  destruct P as [P1 P2]. destruct (P2 _ Rt ZO) as [Zz Le].
  assert (EQ : z = vz p').
  { apply Rle_antisym; [exact Le|].
    set (q := mkV (vx p0 + (z - vz p0) / vz D * vx D) (vy p0 + (z - vz p0) / vz D * vy D) z).
    apply (F q).
    - apply norm_line; auto. fold D. exists ((z - vz p0) / vz D). cbn [vx vy vz q]. repeat split. field. lra.
    - apply on_wall_fun; auto. destruct Zz as [Z1 Z2]. cbn [vz q]. split; [exact Z1|].
      rewrite <- (seg_quadratic c0 c1 r0 r1 p0 D) in P1 by auto. revert P1. unfold q. replace (vz p0 + (z - vz p0)) with z by ring. auto.
    - destruct Zz. cbn [vz q]. auto. }
  subst z. destruct Zz as [Z1 Z2].
  rewrite Rltb_false by lra. rewrite (Rltb_false (vz p')) by lra. rewrite Rltb_false by lra. cbn [orb].
  rewrite Rltb_false.
  - eexists. replace (mkV _ _ _) with p'; [reflexivity|]. transitivity (mkV (vx p0 + (vz p' - vz p0) / vz D * vx D) (vy p0 + (vz p' - vz p0) / vz D * vy D) (vz p0 + (vz p' - vz p0))).
    { exact EH. } f_equal; ring.
  - apply Rmult_le_reg_r with (vz D); [exact Dz|]. unfold Rdiv at 2. rewrite Rmult_assoc, Rinv_l by lra. lra.
Qed.
