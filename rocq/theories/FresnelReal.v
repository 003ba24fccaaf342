(** * Fresnel reflectivity over the reals *)
From Coq Require Import ZArith List Bool Lia Reals Lra Psatz.
From Verif Require Import Num Geometry SpecPhoton RM CapilModel SpecRay SourceReal CapilReal NormalReal.
Import ListNotations.
Local Open Scope R_scope.

(** Complex numbers as pairs; [Cmul] is the usual product, [Cnorm2] the squared modulus. *)

Lemma Cnorm2_pos x : 0 <= Cnorm2 x.
Proof. unfold Cnorm2. pose proof (Rle_0_sqr (fst x)); pose proof (Rle_0_sqr (snd x)). unfold Rsqr in *. lra. Qed.
Lemma Cnorm2_zero x : Cnorm2 x = 0 -> x = (0, 0).
Proof. destruct x as [a b]. unfold Cnorm2. cbn [fst snd]. intros E. pose proof (Rle_0_sqr a); pose proof (Rle_0_sqr b). unfold Rsqr in *.
  f_equal; apply Rsqr_0_uniq; unfold Rsqr; lra. Qed.

(** The principal root, for a non-negative imaginary part. *)
Lemma csqrt_spec x y : 0 <= y ->
  let c := csqrt (x, y) in 0 <= fst c /\ 0 <= snd c /\ fst c * fst c - snd c * snd c = x /\ 2 * (fst c * snd c) = y.
Proof.
  intros Hy. unfold csqrt, cabs. rnum. cbn [fst snd]. set (m := sqrt (x * x + y * y)).
  rewrite (Rltb_false y 0) by lra.
  assert (Q : 0 <= x * x + y * y) by (pose proof (Rle_0_sqr x); pose proof (Rle_0_sqr y); unfold Rsqr in *; lra).
  assert (M : m * m = x * x + y * y) by (apply sqrt_sqrt; exact Q). assert (Pm : 0 <= m) by apply sqrt_pos.
  assert (A : 0 <= m + x) by nra. assert (B : 0 <= m - x) by nra.
  pose proof (sqrt_pos ((m + x) / 2)) as P1. pose proof (sqrt_pos ((m - x) / 2)) as P2.
  assert (S1 : sqrt ((m + x) / 2) * sqrt ((m + x) / 2) = (m + x) / 2) by (apply sqrt_sqrt; lra).
  assert (S2 : sqrt ((m - x) / 2) * sqrt ((m - x) / 2) = (m - x) / 2) by (apply sqrt_sqrt; lra).
  set (u := sqrt ((m + x) / 2)) in *. set (v := sqrt ((m - x) / 2)) in *.
  split; [exact P1|]. split; [exact P2|]. split; [lra|].
  assert (E : (2 * (u * v)) * (2 * (u * v)) = y * y) by (transitivity (4 * (u * u) * (v * v)); [ring|rewrite S1, S2; lra]).
  assert (0 <= u * v) by (apply Rmult_le_pos; auto).
  apply Rsqr_inj; [lra|exact Hy|unfold Rsqr; exact E].
Qed.

(** The refraction cosine: c with c^2 = 1 - (st/n)^2, in the first quadrant. *)
Lemma root_spec nr ni st : 0 < nr -> 0 <= ni ->
  let n := (nr, ni) in let c := refl_root n st in
  0 <= fst c /\ 0 <= snd c /\ Cmul (Cmul n n) (Cmul c c) = Csub (Cmul n n) (CR (st * st)).
Proof.
  intros Hr Hi. cbv zeta. unfold refl_root, cinv, cmul, cscale. rnum. cbn [fst snd].
  set (m := nr * nr + ni * ni). assert (Pm : 0 < m) by (unfold m; nra).
  set (X := 1 - _). set (Y := - (1) * _).
  assert (EX : m * m * X = m * m - (nr * nr - ni * ni) * (st * st)) by (unfold X; field; lra).
  assert (EY : m * m * Y = 2 * (nr * ni) * (st * st)) by (unfold Y; field; lra).
  assert (PY : 0 <= Y).
  { assert (0 <= m * m * Y) by (rewrite EY; pose proof (Rle_0_sqr st); unfold Rsqr in *; assert (0 <= nr * ni) by (apply Rmult_le_pos; lra); apply Rmult_le_pos; lra).
    assert (0 < m * m) by nra. apply Rmult_le_reg_l with (m * m); lra. }
  destruct (csqrt_spec X Y PY) as (C1 & C2 & C3 & C4). set (c := csqrt (X, Y)) in *.
  split; [exact C1|]. split; [exact C2|].
  unfold Cmul, Csub, CR. cbn [fst snd].
  assert (Pmm : m * m <> 0) by (apply Rgt_not_eq; nra).
  f_equal; apply Rmult_eq_reg_l with (m * m); auto.
  - transitivity ((nr * nr - ni * ni) * (m * m * (fst c * fst c - snd c * snd c)) - (2 * (nr * ni)) * (m * m * (2 * (fst c * snd c)))); [ring|].
    rewrite C3, C4, EX, EY. unfold m. ring.
  - transitivity ((nr * nr - ni * ni) * (m * m * (2 * (fst c * snd c))) + 2 * (nr * ni) * (m * m * (fst c * fst c - snd c * snd c))); [ring|].
    rewrite C3, C4, EX, EY. unfold m. ring.
Qed.

(** n c has a non-negative real part. *)
Lemma nc_re nr ni st : 0 < nr -> 0 <= ni ->
  let c := refl_root (nr, ni) st in 0 <= nr * fst c - ni * snd c.
Proof.
  intros Hr Hi c. destruct (root_spec nr ni st Hr Hi) as (C1 & C2 & E). fold c in C1, C2, E.
  unfold Cmul, Csub, CR in E. cbn [fst snd] in E. assert (E2 := f_equal snd E). cbn [fst snd] in E2.
  set (w := nr * fst c - ni * snd c) in *. set (v := nr * snd c + ni * fst c).
  assert (Pv : 0 <= v) by (unfold v; pose proof (Rmult_le_pos nr (snd c)); pose proof (Rmult_le_pos ni (fst c)); lra).
  assert (Ewv : w * v = nr * ni) by (unfold w, v; lra).
  destruct (Rle_lt_or_eq_dec 0 v Pv) as [L|L].
  - apply Rnot_lt_le. intros Nw. assert (0 <= nr * ni) by (apply Rmult_le_pos; lra). nra.
  - assert (0 <= nr * snd c) by (apply Rmult_le_pos; lra). assert (0 <= ni * fst c) by (apply Rmult_le_pos; lra).
    assert (Z : nr * snd c = 0) by (unfold v in L; lra). assert (snd c = 0) by (apply Rmult_integral in Z; destruct Z; lra).
    unfold w. rewrite H1. pose proof (Rmult_le_pos nr (fst c)). lra.
Qed.

(** |a/b|^2 as the model computes it. *)
Lemma cquot_spec (a b : R * R) : (Cnorm2 b = 0 -> Cnorm2 a = 0) ->
  let r := cabs (cmul a (cinv b)) in r * r * Cnorm2 b = Cnorm2 a /\ 0 <= r * r /\ (Cnorm2 a <= Cnorm2 b -> r * r <= 1).
Proof.
  intros Hz r. assert (E : r * r = Cnorm2 (cmul a (cinv b))).
  { unfold r, cabs. rnum. apply sqrt_sqrt. apply (Cnorm2_pos (cmul a (cinv b))). }
  assert (P : r * r * Cnorm2 b = Cnorm2 a).
  { rewrite E. destruct (Req_dec (Cnorm2 b) 0) as [Z|Z].
    - rewrite (Hz Z), Z. ring.
    - unfold cmul, cinv. rnum. fold (Cnorm2 b). set (m := Cnorm2 b) in *. unfold Cnorm2. cbn [fst snd].
      transitivity ((fst a * fst a + snd a * snd a) * (fst b * fst b + snd b * snd b) / m); [field; exact Z|].
      change (fst b * fst b + snd b * snd b) with m. field. exact Z. }
  split; [exact P|]. split; [rewrite E; apply Cnorm2_pos|].
  intros L. destruct (Req_dec (Cnorm2 b) 0) as [Z|Z].
  - rewrite E. unfold cmul, cinv. rnum. fold (Cnorm2 b). apply Cnorm2_zero in Z. rewrite Z. unfold Cnorm2. cbn [fst snd].
    replace (_ + _) with 0; [lra|]. unfold Rdiv. ring.
  - pose proof (Cnorm2_pos b). apply Rmult_le_reg_r with (Cnorm2 b); lra.
Qed.

Lemma refl_s_spec nr ni ct st : 0 < nr -> 0 <= ni -> 0 <= ct ->
  let n := (nr, ni) in let c := refl_root n st in
  refl_s n ct st * Cnorm2 (Cadd (CR ct) (Cmul n c)) = Cnorm2 (Csub (CR ct) (Cmul n c)) /\ 0 <= refl_s n ct st <= 1.
Proof.
  intros Hr Hi Hc. cbv zeta. pose proof (nc_re nr ni st Hr Hi) as W. cbv zeta in W. unfold refl_s. rnum.
  set (c := refl_root (nr, ni) st) in *. change (cmul (nr, ni) c) with (Cmul (nr, ni) c). set (w := Cmul (nr, ni) c).
  assert (Wr : 0 <= fst w) by exact W. clearbody w.
  set (A := (ct - fst w, - (1) * snd w)). set (B := (ct + fst w, snd w)).
  assert (LE : Cnorm2 A <= Cnorm2 B).
  { unfold Cnorm2, A, B. cbn [fst snd]. pose proof (Rmult_le_pos ct (fst w) Hc Wr). nra. }
  assert (Z : Cnorm2 B = 0 -> Cnorm2 A = 0) by (pose proof (Cnorm2_pos A); lra).
  destruct (cquot_spec A B Z) as (P1 & P2 & P3). split; [|split; [exact P2|exact (P3 LE)]].
  replace (Cnorm2 (Cadd (CR ct) w)) with (Cnorm2 B) by (unfold Cnorm2, Cadd, CR, B; cbn [fst snd]; ring).
  replace (Cnorm2 (Csub (CR ct) w)) with (Cnorm2 A) by (unfold Cnorm2, Csub, CR, A; cbn [fst snd]; ring).
  exact P1.
Qed.

Lemma refl_p_spec nr ni ct st : 0 < nr -> 0 <= ni -> 0 <= ct ->
  let n := (nr, ni) in let c := refl_root n st in
  refl_p n ct st * Cnorm2 (Cadd c (Cmul n (CR ct))) = Cnorm2 (Csub c (Cmul n (CR ct))) /\ 0 <= refl_p n ct st <= 1.
Proof.
  intros Hr Hi Hc. cbv zeta. destruct (root_spec nr ni st Hr Hi) as (C1 & C2 & _). unfold refl_p, cscale. rnum. cbn [fst snd].
  set (c := refl_root (nr, ni) st) in *.
  set (A := (fst c - nr * ct, snd c - ni * ct)). set (B := (fst c + nr * ct, snd c + ni * ct)).
  assert (LE : Cnorm2 A <= Cnorm2 B).
  { unfold Cnorm2, A, B. cbn [fst snd].
    assert (0 <= fst c * (nr * ct)) by (repeat apply Rmult_le_pos; lra). assert (0 <= snd c * (ni * ct)) by (repeat apply Rmult_le_pos; lra). nra. }
  assert (Z : Cnorm2 B = 0 -> Cnorm2 A = 0) by (pose proof (Cnorm2_pos A); lra).
  destruct (cquot_spec A B Z) as (P1 & P2 & P3). split; [|split; [exact P2|exact (P3 LE)]].
  replace (Cnorm2 (Cadd c (Cmul (nr, ni) (CR ct)))) with (Cnorm2 B) by (unfold Cnorm2, Cadd, Cmul, CR, B; cbn [fst snd]; ring).
  replace (Cnorm2 (Csub c (Cmul (nr, ni) (CR ct)))) with (Cnorm2 A) by (unfold Cnorm2, Csub, Cmul, CR, A; cbn [fst snd]; ring).
  exact P1.
Qed.

(** Cauchy-Schwarz for unit vectors. *)
Lemma unit_dot_bound a b : unit a -> unit b -> -1 <= dot a b <= 1.
Proof.
  unfold unit. intros A B.
  assert (P : 0 <= dot (mkV (vx a - vx b) (vy a - vy b) (vz a - vz b)) (mkV (vx a - vx b) (vy a - vy b) (vz a - vz b))) by apply dot_nonneg.
  assert (Q : 0 <= dot (mkV (vx a + vx b) (vy a + vy b) (vz a + vz b)) (mkV (vx a + vx b) (vy a + vy b) (vz a + vz b))) by apply dot_nonneg.
  unfold dot in *. cbn [vx vy vz] in *. nra.
Qed.
Lemma vnorm_cases v : unit (vnorm v) \/ (v = mkV 0 0 0 /\ vnorm v = mkV 0 0 0).
Proof.
  destruct (Req_dec (vdot v v) 0) as [Z|Z]; [right|left; apply vnorm_unit; exact Z].
  apply dot_zero in Z. split; [exact Z|]. rewrite Z. unfold vnorm. rnum. cbn [vx vy vz]. f_equal; unfold Rdiv; ring.
Qed.
Lemma norm_if_eq v : dot v v <> 0 -> norm_if v = vnorm v.
Proof.
  intros N. unfold norm_if. rnum. destruct (Reqb_spec (sqrt (vx v * vx v + vy v * vy v + vz v * vz v)) 1) as [E|E]; [|reflexivity].
  symmetry. apply vnorm_of_unit. pose proof (dot_nonneg v). unfold dot in *.
  replace (vx v * vx v + vy v * vy v + vz v * vz v) with (sqrt (vx v * vx v + vy v * vy v + vz v * vz v) * sqrt (vx v * vx v + vy v * vy v + vz v * vz v)) by (apply sqrt_sqrt; lra).
  rewrite E. ring.
Qed.

(** refl_polar on physical arguments. *)
Definition refl_args (e density scatf mu : R) : Prop := 1 <= e <= 100 /\ 0 < density /\ 0 <= scatf /\ 0 <= mu.

Lemma refl_polar_args e density scatf mu sn dir ev ev0 err :
  (~ refl_args e density scatf mu /\ refl_polar e density scatf mu sn dir ev ev0 err = Ret (- (1), ev, ev0, match err with None => Some E_ARG | Some k => Some k end)) \/
  (refl_args e density scatf mu /\
   refl_polar e density scatf mu sn dir ev ev0 err =
    let sn := norm_if sn in
    let theta := acos (dot sn dir) in
      let ev := norm_if ev in
      let n := (1 - refl_alfa e density scatf, refl_beta e mu) in
      let rs := refl_s n (cos theta) (sin theta) in
      let rp := refl_p n (cos theta) (sin theta) in
      let fs := dot ev (s_dir sn dir) * dot ev (s_dir sn dir) in
      Ret (rs * fs + rp * (1 - fs), ev, new_elecv sn dir ev, err)).
Proof.
  unfold refl_polar, refl_args. rnum.
  destruct (Rltb_spec e 1) as [A1|A1]; cbn [orb]; [left; split; [lra|reflexivity]|].
  destruct (Rltb_spec 100 e) as [A2|A2]; cbn [orb]; [left; split; [lra|reflexivity]|].
  destruct (Rleb_spec density 0) as [A3|A3]; cbn [orb]; [left; split; [lra|reflexivity]|].
  destruct (Rltb_spec scatf 0) as [A4|A4]; cbn [orb]; [left; split; [lra|reflexivity]|].
  destruct (Rltb_spec mu 0) as [A5|A5]; cbn [orb]; [left; split; [lra|reflexivity]|].
  right. split; [lra|]. cbv zeta. rewrite Rltb_false; [reflexivity|].
  match goal with |- 0 <= acos ?x => pose proof (acos_bound x) end. lra.
Qed.

Lemma beta_nonneg e mu : 1 <= e -> 0 <= mu -> 0 <= refl_beta e mu.
Proof.
  intros He Hm. unfold refl_beta, c_HC. rnum.
  repeat apply Rmult_le_pos; try lra; apply Rlt_le, Rinv_0_lt_compat; try lra. pose proof PI_RGT_0. lra.
Qed.

Lemma refl_polar_range e density scatf mu sn dir ev ev0 err :
  refl_args e density scatf mu -> refl_alfa e density scatf < 1 ->
  unit sn -> unit dir -> dot ev ev <> 0 -> 0 <= dot sn dir ->
  exists rtot ev1 rs rp,
    refl_polar e density scatf mu sn dir ev ev0 err = Ret (rtot, vnorm ev, ev1, err) /\
    rs = refl_s (1 - refl_alfa e density scatf, refl_beta e mu) (dot sn dir) (sin (acos (dot sn dir))) /\
    rp = refl_p (1 - refl_alfa e density scatf, refl_beta e mu) (dot sn dir) (sin (acos (dot sn dir))) /\
    0 <= rs <= 1 /\ 0 <= rp <= 1 /\ 0 <= rtot <= 1 /\ Rmin rs rp <= rtot <= Rmax rs rp.
Proof.
  intros A Al Us Ud Ne Pc. destruct (refl_polar_args e density scatf mu sn dir ev ev0 err) as [[K _]|[_ ->]]; [contradiction|].
  cbv zeta. destruct A as (Ae & Ad & As & Am).
  assert (Ns : norm_if sn = sn) by (rewrite norm_if_eq; [apply vnorm_of_unit; exact Us|unfold unit in Us; lra]). rewrite Ns.
  rewrite (norm_if_eq ev Ne).
  pose proof (unit_dot_bound sn dir Us Ud) as Bd. rewrite cos_acos by exact Bd.
  set (n := (1 - refl_alfa e density scatf, refl_beta e mu)).
  destruct (refl_s_spec (1 - refl_alfa e density scatf) (refl_beta e mu) (dot sn dir) (sin (acos (dot sn dir)))) as [_ Rs]; try lra; [apply beta_nonneg; lra|].
  destruct (refl_p_spec (1 - refl_alfa e density scatf) (refl_beta e mu) (dot sn dir) (sin (acos (dot sn dir)))) as [_ Rp]; try lra; [apply beta_nonneg; lra|].
  fold n in Rs, Rp. set (rs := refl_s n _ _) in *. set (rp := refl_p n _ _) in *.
  assert (F : 0 <= dot (vnorm ev) (s_dir sn dir) * dot (vnorm ev) (s_dir sn dir) <= 1).
  { assert (Ue : unit (vnorm ev)) by (apply vnorm_unit; exact Ne). split; [pose proof (Rle_0_sqr (dot (vnorm ev) (s_dir sn dir))) as Q; exact Q|].
    unfold s_dir. destruct (vnorm_cases (vcross sn dir)) as [U|[_ Z]].
    - pose proof (unit_dot_bound (vnorm ev) (vnorm (vcross sn dir)) Ue U). nra.
    - rewrite Z. unfold dot. cbn [vx vy vz]. nra. }
  set (fs := dot (vnorm ev) (s_dir sn dir) * dot (vnorm ev) (s_dir sn dir)) in *.
  do 4 eexists. split; [reflexivity|]. split; [reflexivity|]. split; [reflexivity|]. fold n rs rp.
  split; [exact Rs|]. split; [exact Rp|].
  assert (Q1 : rs * fs + rp * (1 - fs) <= Rmax rs rp).
  { pose proof (Rmax_l rs rp). pose proof (Rmax_r rs rp). set (m := Rmax rs rp) in *. nra. }
  assert (Q2 : Rmin rs rp <= rs * fs + rp * (1 - fs)).
  { pose proof (Rmin_l rs rp). pose proof (Rmin_r rs rp). set (m := Rmin rs rp) in *. nra. }
  split; [|split; assumption]. split; [nra|]. apply Rle_trans with (1 := Q1). apply Rmax_lub; lra.
Qed.

(** alfa < 1 for every ordinary material. *)
Lemma alfa_small e density scatf : 1 <= e -> 0 <= density -> 0 <= scatf -> density * scatf <= 2000 -> refl_alfa e density scatf < 1.
Proof.
  intros He Hd Hs Hm. unfold refl_alfa, c_HC, c_NAVOG, c_R0. rnum.
  assert (P3 : 3 < PI). { pose proof PI2_3_2. lra. }
  set (H := 123984193 / 1000000000000000). set (NR := 602209800 * 1000000000000000 * (28179403227 / 10000000000 * (1 / 10000000000000))).
  assert (I : 0 < / e <= 1) by (split; [apply Rinv_0_lt_compat; lra|rewrite <- Rinv_1; apply Rinv_le_contravar; lra]).
  assert (IP : 0 < / (2 * PI) <= / 6) by (split; [apply Rinv_0_lt_compat; lra|apply Rinv_le_contravar; lra]).
  replace (H / e * (H / e) * (NR * density / (2 * PI)) * scatf) with ((H * H * NR) * (/ e * / e) * (density * scatf) * / (2 * PI)) by (field; lra).
  assert (K1 : 0 <= H * H * NR <= 27 / 10000) by (unfold H, NR; lra).
  assert (K2 : 0 <= / e * / e <= 1) by nra. assert (K3 : 0 <= density * scatf) by (apply Rmult_le_pos; lra).
  set (k1 := H * H * NR) in *. set (k2 := / e * / e) in *. set (k3 := density * scatf) in *. set (k4 := / (2 * PI)) in *.
  assert (B1 : 0 <= k1 * k2 <= 27 / 10000) by nra.
  assert (B2 : 0 <= k1 * k2 * k3 <= 27 / 10000 * 2000) by nra.
  assert (k1 * k2 * k3 * k4 <= 27 / 10000 * 2000 * / 6) by nra. lra.
Qed.
