(** * Shapes produced by polycap_profile_new, over the reals *)
From Coq Require Import ZArith List Bool Lia Reals Lra Psatz String.
From Verif Require Import Num Mem ErrorModel SpecHeap ProfileModel ProfileProofs.
Import ListNotations.
Local Open Scope R_scope.

Lemma pz_eq len i : pz len i = len * (INR i / 999).
Proof. unfold pz, prof_z. rnum. rewrite <- INR_IZR_INZ. field. Qed.

Lemma INR_999 : INR 999 = 999.
Proof. rewrite INR_IZR_INZ. reflexivity. Qed.

Lemma pz_0 len : pz len 0 = 0.
Proof. rewrite pz_eq. simpl. field. Qed.
Lemma pz_last len : pz len 999 = len.
Proof. rewrite pz_eq, INR_999. field. Qed.
Lemma pz_mono len i j : 0 < len -> (i < j)%nat -> pz len i < pz len j.
Proof. intros. rewrite !pz_eq. apply lt_INR in H0. apply Rmult_lt_compat_l; lra. Qed.
Lemma pz_step len i : pz len (S i) - pz len i = len / 999.
Proof. rewrite !pz_eq, S_INR. field. Qed.
Lemma pz_range len i : 0 < len -> (i <= 999)%nat -> 0 <= pz len i <= len.
Proof.
  intros. rewrite pz_eq. apply le_INR in H0. rewrite INR_999 in H0. pose proof (pos_INR i).
  assert (0 <= INR i / 999 <= 1) by lra. nra.
Qed.

(** A linear radius lies between its end values. *)
Lemma prof_lin_eq up down len z : 0 < len -> prof_lin up down len z = (1 - z / len) * up + z / len * down.
Proof. intros. unfold prof_lin. rnum. field. lra. Qed.

Lemma prof_lin_between up down len z lo hi : 0 < len -> 0 <= z <= len ->
  lo <= up <= hi -> lo <= down <= hi -> lo <= prof_lin up down len z <= hi.
Proof.
  intros Hl Hz Hu Hd. rewrite prof_lin_eq by auto.
  set (t := z / len). assert (0 <= t <= 1).
  { unfold t. split; [apply Rle_mult_inv_pos; lra|]. apply Rmult_le_reg_r with len; auto. unfold Rdiv. rewrite Rmult_assoc, Rinv_l by lra. lra. }
  clearbody t. nra.
Qed.

Lemma prof_lin_lt u1 d1 u2 d2 len z : 0 < len -> 0 <= z <= len -> u1 < u2 -> d1 < d2 ->
  prof_lin u1 d1 len z < prof_lin u2 d2 len z.
Proof.
  intros Hl Hz Hu Hd. rewrite !prof_lin_eq by auto.
  set (t := z / len). assert (0 <= t <= 1).
  { unfold t. split; [apply Rle_mult_inv_pos; lra|]. apply Rmult_le_reg_r with len; auto. unfold Rdiv. rewrite Rmult_assoc, Rinv_l by lra. lra. }
  clearbody t. destruct (Rle_dec t (1/2)); nra.
Qed.

Lemma prof_lin_0 up down len : 0 < len -> prof_lin up down len 0 = up.
Proof. intros. rewrite prof_lin_eq by auto. field. lra. Qed.
Lemma prof_lin_len up down len : 0 < len -> prof_lin up down len len = down.
Proof. intros. rewrite prof_lin_eq by auto. field. lra. Qed.

(** ** Accepted arguments, in words *)
Definition good_args (len re_up re_down ri_up ri_down fd_up fd_down : R) : Prop :=
  0 < len /\ 0 < ri_up < re_up /\ 0 < ri_down < re_down /\ 0 < fd_up /\ 0 < fd_down.

Lemma arg_error_good len re_up re_down ri_up ri_down fd_up fd_down :
  arg_error len re_up re_down ri_up ri_down fd_up fd_down = None <->
  good_args len re_up re_down ri_up ri_down fd_up fd_down.
Proof.
  unfold arg_error, good_args. rnum. repeat rcase; split; intros H; try discriminate; try lra; auto.
  all: repeat split; lra.
Qed.

Lemma pos_neg a b : 0 < a -> b < 0 -> a * b < 0.
Proof. intros. nra. Qed.

(** ** Ellipse.  [near] is the narrow end radius, [far] the wide one, s the slope
    towards the focus at the narrow end. *)
Ltac pos := repeat first [assumption | apply Rdiv_lt_0_compat | apply Rinv_0_lt_compat | apply Rmult_lt_0_compat | lra].

Section Ellipse.
Variables near far s L : R.
Hypothesis Hnear : 0 < near.
Hypothesis Hs : 0 < s.
Hypothesis HL : 0 < L.
Hypothesis HE : near < far.

Let E := far - near.
Let b := ell_b near far s L.
Let k := ell_k far b.
Let A2 := ell_a2 near k b s L.

Lemma ell_b_eq : s * L <> 2 * E -> b = E * (s * L - E) / (s * L - 2 * E).
Proof. intros H. unfold b, ell_b, E in *. rnum. field. unfold E in *; lra. Qed.

Definition ell_c := E * E / (s * L - 2 * E).

Lemma ell_near_k : s * L <> 2 * E -> near - k = ell_c /\ b = ell_c + E.
Proof.
  intros H. unfold k, ell_k, ell_c. rnum. rewrite (ell_b_eq H). unfold E in *. split; field; lra.
Qed.

(** sqrt of a negative number when the focus is too far for the taper *)
Lemma ell_bad : s * L < 2 * E -> s * L <> E -> A2 < 0.
Proof.
  intros H Hne. destruct (ell_near_k ltac:(lra)) as [N B].
  unfold A2, ell_a2. rnum. rewrite N.
  assert (C : ell_c < 0).
  { unfold ell_c. unfold Rdiv. assert (0 < E * E) by (unfold E; nra).
    assert (/ (s * L - 2 * E) < 0) by (apply Rinv_lt_0_compat; lra). nra. }
  assert (Bn : b <> 0).
  { rewrite ell_b_eq by lra. assert (E <> 0) by (unfold E; lra). intros H1.
    assert (E * (s * L - E) = 0).
    { transitivity (E * (s * L - E) / (s * L - 2 * E) * (s * L - 2 * E)); [field; lra | rewrite H1; ring]. }
    apply Rmult_integral in H2. destruct H2; lra. }
  assert (0 < b * b) by nra.
  unfold Rdiv. apply pos_neg; [nra|]. apply Rinv_lt_0_compat. now apply pos_neg.
Qed.

Hypothesis Hok : 2 * E < s * L.

Lemma ell_c_pos : 0 < ell_c.
Proof. unfold ell_c, E. apply Rdiv_lt_0_compat; unfold E in *; nra. Qed.

Lemma ell_A2 : A2 = b * b * L / (s * ell_c) /\ 0 < A2 /\ 0 < b.
Proof.
  destruct (ell_near_k ltac:(lra)) as [N B]. pose proof ell_c_pos as C.
  assert (0 < E) by (unfold E; lra).
  assert (Pb : 0 < b) by (rewrite B; lra).
  assert (EA : A2 = b * b * L / (s * ell_c)) by (unfold A2, ell_a2; rnum; rewrite N; reflexivity).
  repeat split; auto. rewrite EA. pos.
Qed.

Lemma ell_ext_eq z : ell_ext (sqrt A2) b k z = sqrt (b * b - z * z * (s * ell_c / L)) + k.
Proof.
  destruct ell_A2 as (EA & PA & Pb). pose proof ell_c_pos.
  unfold ell_ext. rnum. rewrite sqrt_sqrt by lra. do 2 f_equal. rewrite EA. field.
  repeat split; try lra.
Qed.

Lemma ell_rad_end : b * b - L * L * (s * ell_c / L) = ell_c * ell_c.
Proof.
  destruct (ell_near_k ltac:(lra)) as [N B]. rewrite B. pose proof ell_c_pos as C.
  assert (Hc : s * L * ell_c = E * E + 2 * E * ell_c).
  { unfold ell_c. field. unfold E in *. lra. }
  replace (L * L * (s * ell_c / L)) with (s * L * ell_c) by (field; lra). rewrite Hc. ring.
Qed.

Lemma ell_start : ell_ext (sqrt A2) b k 0 = far.
Proof.
  rewrite ell_ext_eq. destruct ell_A2 as (_ & _ & Pb).
  replace (b * b - 0 * 0 * (s * ell_c / L)) with (b * b) by ring. rewrite sqrt_square by lra.
  unfold k, ell_k. rnum. ring.
Qed.

Lemma ell_end : ell_ext (sqrt A2) b k L = near.
Proof.
  rewrite ell_ext_eq, ell_rad_end. pose proof ell_c_pos.
  rewrite sqrt_square by lra. destruct (ell_near_k ltac:(lra)) as [N B]. lra.
Qed.

Lemma ell_radicand z : 0 <= z <= L -> ell_c * ell_c <= b * b - z * z * (s * ell_c / L).
Proof.
  intros Hz. rewrite <- ell_rad_end. pose proof ell_c_pos.
  assert (0 < s * ell_c / L) by pos. set (m := s * ell_c / L) in *. clearbody m.
  assert (z * z <= L * L) by (apply Rmult_le_compat; lra).
  pose proof (Rmult_le_compat_r m (z * z) (L * L)). lra.
Qed.

Lemma ell_decreasing z z' : 0 <= z <= L -> 0 <= z' <= L -> z < z' ->
  ell_ext (sqrt A2) b k z' < ell_ext (sqrt A2) b k z.
Proof.
  intros Hz Hz' Hlt. rewrite !ell_ext_eq. apply Rplus_lt_compat_r.
  pose proof ell_c_pos as C. pose proof (ell_radicand z Hz). pose proof (ell_radicand z' Hz').
  assert (0 < s * ell_c / L) by pos. set (m := s * ell_c / L) in *. clearbody m.
  assert (0 < ell_c * ell_c) by pos.
  assert (z * z < z' * z') by (clear - Hz Hz' Hlt; nra).
  pose proof (Rmult_lt_compat_r m (z * z) (z' * z')). apply sqrt_lt_1; lra.
Qed.

Lemma ell_between z : 0 <= z <= L -> near <= ell_ext (sqrt A2) b k z <= far.
Proof.
  intros Hz. split.
  - rewrite <- ell_end at 1. destruct (Req_dec z L) as [->|]; [lra|]. left. apply ell_decreasing; lra.
  - rewrite <- ell_start. destruct (Req_dec z 0) as [->|]; [lra|]. left. apply ell_decreasing; lra.
Qed.

(** The curve is an arc of the ellipse with half-axes a = sqrt A2 and b centred at (0,k). *)
Lemma ell_on_ellipse z : 0 <= z <= L ->
  (z * z) / A2 + ((ell_ext (sqrt A2) b k z - k) * (ell_ext (sqrt A2) b k z - k)) / (b * b) = 1.
Proof.
  intros Hz. rewrite ell_ext_eq. pose proof ell_c_pos as C. destruct ell_A2 as (EA & PA & Pb).
  pose proof (ell_radicand z Hz).
  replace (sqrt (b * b - z * z * (s * ell_c / L)) + k - k) with (sqrt (b * b - z * z * (s * ell_c / L))) by ring.
  assert (0 < ell_c * ell_c) by pos. rewrite sqrt_sqrt by lra. rewrite EA. field. repeat split; lra.
Qed.

(** The tangent at the narrow end points at the focus: slope -s there; horizontal at the wide end. *)
Lemma ell_deriv z : 0 <= z <= L ->
  derivable_pt_lim (fun t => ell_ext (sqrt A2) b k t) z
    (- (z * (s * ell_c / L)) / sqrt (b * b - z * z * (s * ell_c / L))).
Proof.
  intros Hz. pose proof ell_c_pos as C. pose proof (ell_radicand z Hz) as Rd.
  set (m := s * ell_c / L) in *.
  assert (0 < ell_c * ell_c) by pos. assert (P : 0 < b * b - z * z * m) by lra.
  assert (D1 : derivable_pt_lim (fun t => b * b - t * t * m) z (- (2 * z * m))).
  { assert (D : derivable_pt_lim (minus_fct (fct_cte (b * b)) (mult_real_fct m Rsqr)) z (0 - m * (2 * z))).
    { apply derivable_pt_lim_minus; [apply derivable_pt_lim_const|].
      apply derivable_pt_lim_scal. apply derivable_pt_lim_Rsqr. }
    replace (- (2 * z * m)) with (0 - m * (2 * z)) by ring.
    intros eps He. destruct (D eps He) as [d Hd]. exists d. intros h Hh Hh2.
    specialize (Hd h Hh Hh2). unfold minus_fct, mult_real_fct, fct_cte, Rsqr in Hd.
    replace (b * b - (z + h) * (z + h) * m - (b * b - z * z * m))
      with (b * b - m * ((z + h) * (z + h)) - (b * b - m * (z * z))) by ring. exact Hd. }
  assert (D2 : derivable_pt_lim (fun t => sqrt (b * b - t * t * m)) z (/ (2 * sqrt (b * b - z * z * m)) * - (2 * z * m))).
  { apply (derivable_pt_lim_comp (fun t => b * b - t * t * m) sqrt); auto. now apply derivable_pt_lim_sqrt. }
  replace (- (z * m) / sqrt (b * b - z * z * m)) with (/ (2 * sqrt (b * b - z * z * m)) * - (2 * z * m) + 0).
  2:{ field. apply Rgt_not_eq. now apply sqrt_lt_R0. }
  intros eps He.
  destruct (derivable_pt_lim_plus _ _ _ _ _ D2 (derivable_pt_lim_const k z) eps He) as [d Hd].
  exists d. intros h Hh Hh2. specialize (Hd h Hh Hh2). rewrite !ell_ext_eq. exact Hd.
Qed.

Lemma ell_slope_end : derivable_pt_lim (fun t => ell_ext (sqrt A2) b k t) L (- s).
Proof.
  pose proof ell_c_pos as C.
  replace (- s) with (- (L * (s * ell_c / L)) / sqrt (b * b - L * L * (s * ell_c / L))).
  - apply ell_deriv. lra.
  - rewrite ell_rad_end, sqrt_square by lra. field. lra.
Qed.

Lemma ell_slope_start : derivable_pt_lim (fun t => ell_ext (sqrt A2) b k t) 0 0.
Proof.
  assert (0 = - (0 * (s * ell_c / L)) / sqrt (b * b - 0 * 0 * (s * ell_c / L))) as E0.
  { unfold Rdiv. ring. }
  rewrite E0 at 2. apply ell_deriv. lra.
Qed.

End Ellipse.
