(** * Packing: what validation guarantees about the capillaries, selection of a
    capillary for an entrance point, open area — over the reals *)
From Coq Require Import ZArith List Bool Lia Reals Lra Psatz.
From Verif Require Import Num Geometry SpecGeom HexProofs RingProofs.
Import ListNotations.
Local Open Scope R_scope.

(** Model of the open-area formula, src/polycap-description.c:214-216. *)
Definition open_area_of {T} {N : Num T} (n_cap : Z) (cap0 ext0 : T) : T :=
  let t := ((n_shells n_cap + nhalf) * #6)%num in
  let n := ((t * t + #3) / #12)%num in
  ((cap0 * cap0 * npi) * n / (#3 * nsin (npi / #3) * ext0 * ext0))%num.

(** A point of the closed disc of radius c around capillary (q,r). *)
Definition in_capillary (rad n c : R) (q r : Z) (x y : R) : Prop :=
  dist2 x y (fst (cap_axis rad n q r)) (snd (cap_axis rad n q r)) <= c.

Lemma sum_sq a b : 0 <= a * a + b * b.
Proof. nra. Qed.

Lemma pitch_pos rad k : 0 < rad -> (0 <= k)%Z -> 0 < pitch rad (IZR k).
Proof. intros. apply IZR_le in H0. unfold pitch. apply Rdiv_lt_0_compat; lra. Qed.

Lemma abs3 (a b c : R) : b * b + c * c <= a * a -> 0 <= a ->
  Rabs c <= a /\ Rabs (sqrt 3 / 2 * b + / 2 * c) <= a /\ Rabs (sqrt 3 / 2 * b - / 2 * c) <= a.
Proof.
  intros H Ha. pose proof s3_sq. set (s := sqrt 3 / 2). assert (s * s = 3 / 4) by (unfold s; lra). clearbody s.
  assert (B : forall u, u * u <= a * a -> Rabs u <= a) by (intros; apply Rabs_le; split; nra).
  repeat split; apply B.
  - nra.
  - pose proof (Rle_0_sqr (s * c - / 2 * b)) as Q. unfold Rsqr in Q. nra.
  - pose proof (Rle_0_sqr (s * c + / 2 * b)) as Q. unfold Rsqr in Q. nra.
Qed.

(** A disc of radius at most (k+1-m) pitch sqrt3/2 around a cell of shell m stays inside. *)
Lemma disc_inside rad c k m q r x y : 0 < rad -> (0 <= k)%Z -> (shell q r <= m)%Z ->
  c <= pitch rad (IZR k) * (sqrt 3 / 2) * IZR (k + 1 - m) ->
  in_capillary rad (IZR k) c q r x y -> in_hexagon rad x y.
Proof.
  intros Hr Hk Hm Hc Hin. apply strips_hexagon; auto.
  unfold in_capillary, dist2, len2 in Hin.
  pose proof (pitch_pos rad k Hr Hk) as Hp.
  assert (Er : rad = pitch rad (IZR k) * (IZR k + 1)) by (unfold pitch; apply IZR_le in Hk; field; lra).
  assert (Ed : rad * (sqrt 3 / 2) = pitch rad (IZR k) * (sqrt 3 / 2) * (IZR k + 1)) by (rewrite Er at 1; ring).
  pose proof s3_pos as P3.
  rewrite cap_axis_eq in Hin. cbn [fst snd] in Hin.
  set (p := pitch rad (IZR k)) in *.
  set (x0 := p * (IZR q + IZR r / 2)) in *. set (y0 := p * (IZR r * (sqrt 3 / 2))) in *.
  pose proof (sqrt_pos ((x - x0) * (x - x0) + (y - y0) * (y - y0))) as SP.
  pose proof (sqrt_sqrt ((x - x0) * (x - x0) + (y - y0) * (y - y0)) (sum_sq _ _)) as SS.
  set (d := sqrt ((x - x0) * (x - x0) + (y - y0) * (y - y0))) in *. clearbody d.
  destruct (abs3 c (x - x0) (y - y0)) as (A1 & A2 & A3); [rewrite <- SS; apply Rmult_le_compat; lra | lra |].
  apply Rabs_le_elim in A1, A2, A3.
  assert (PS : 0 < p * (sqrt 3 / 2)) by nra.
  assert (E1 : y0 = p * (sqrt 3 / 2) * IZR r) by (unfold y0; ring).
  assert (E2 : sqrt 3 / 2 * x0 + / 2 * y0 = p * (sqrt 3 / 2) * IZR (q + r)) by (unfold x0, y0; rewrite plus_IZR; field).
  assert (E3 : sqrt 3 / 2 * x0 - / 2 * y0 = p * (sqrt 3 / 2) * IZR q) by (unfold x0, y0; field).
  unfold strips. rewrite Ed.
  rewrite minus_IZR, plus_IZR in Hc.
  assert (B : forall z, (Z.abs z <= shell q r)%Z -> - (p * (sqrt 3 / 2) * IZR m) <= p * (sqrt 3 / 2) * IZR z <= p * (sqrt 3 / 2) * IZR m).
  { intros z Hz. assert (- IZR m <= IZR z <= IZR m) by (rewrite <- opp_IZR; split; apply IZR_le; lia).
    clear - H PS. nra. }
  pose proof (B r ltac:(unfold shell; lia)) as B1. pose proof (B (q + r)%Z ltac:(unfold shell; lia)) as B2.
  pose proof (B q ltac:(unfold shell; lia)) as B3.
  set (ps := p * (sqrt 3 / 2)) in *. set (s := sqrt 3 / 2) in *.
  replace (p * s) with ps in * by reflexivity.
  clearbody ps x0 y0 s p.
  repeat split; apply Rabs_le; nra.
Qed.

(** ** C12 *)
Lemma fits_bound rad c k : 0 < rad -> (1 <= k)%Z -> fits rad c k -> c <= pitch rad (IZR k).
Proof.
  intros Hr Hk H. unfold fits in H. pose proof (pitch_pos rad k Hr ltac:(lia)) as Hp.
  assert (1 <= IZR k) by (apply IZR_le; lia).
  assert (sqrt (IZR (3 * k * k + k mod 2)) <= 2 * IZR k).
  { rewrite <- (sqrt_square (2 * IZR k)) by lra. pose proof (Z.mod_pos_bound k 2 ltac:(lia)).
    apply sqrt_le_1; [apply IZR_le; nia | nra |]. rewrite <- !mult_IZR. apply IZR_le. nia. }
  apply Rmult_le_reg_l with (2 * IZR k); [lra|]. nra.
Qed.

Lemma fits_even rad c k : 0 < rad -> (1 <= k)%Z -> (k mod 2 = 0)%Z -> fits rad c k <-> c <= pitch rad (IZR k) * (sqrt 3 / 2).
Proof.
  intros Hr Hk Hm. unfold fits. rewrite Hm, Z.add_0_r. assert (1 <= IZR k) by (apply IZR_le; lia).
  replace (sqrt (IZR (3 * k * k))) with (sqrt 3 * IZR k).
  2:{ symmetry. apply sqrt_unique; [pose proof s3_pos; nra|]. rewrite !mult_IZR.
      replace (sqrt 3 * IZR k * (sqrt 3 * IZR k)) with ((sqrt 3 * sqrt 3) * IZR k * IZR k) by ring. rewrite s3_sq. ring. }
  split; intros.
  - apply Rmult_le_reg_l with (2 * IZR k); lra.
  - apply Rmult_le_compat_l with (r := 2 * IZR k) in H0; lra.
Qed.

Lemma validated_even_inside rad c k q r x y : 0 < rad -> (1 <= k)%Z -> (k mod 2 = 0)%Z -> fits rad c k ->
  (shell q r <= k)%Z -> in_capillary rad (IZR k) c q r x y -> in_hexagon rad x y.
Proof.
  intros Hr Hk Hm Hf Hs Hin. eapply disc_inside with (m := k); eauto; [lia|].
  apply fits_even in Hf; auto. replace (k + 1 - k)%Z with 1%Z by lia. lra.
Qed.

Lemma validated_inner_inside rad c k q r x y : 0 < rad -> (1 <= k)%Z -> fits rad c k ->
  (shell q r < k)%Z -> in_capillary rad (IZR k) c q r x y -> in_hexagon rad x y.
Proof.
  intros Hr Hk Hf Hs Hin. eapply disc_inside with (m := (k - 1)%Z); eauto; try lia.
  apply fits_bound in Hf; auto. replace (k + 1 - (k - 1))%Z with 2%Z by lia.
  pose proof (pitch_pos rad k Hr ltac:(lia)). pose proof s3_bounds. nra.
Qed.

(** If the capillaries do not overlap, everything is fine. *)
Lemma nonoverlap_fits rad c k : 0 < rad -> (1 <= k)%Z -> 2 * c <= pitch rad (IZR k) -> fits rad c k.
Proof.
  intros Hr Hk H. unfold fits. assert (1 <= IZR k) by (apply IZR_le; lia).
  pose proof (pitch_pos rad k Hr ltac:(lia)).
  assert (IZR k <= sqrt (IZR (3 * k * k + k mod 2))).
  { rewrite <- (sqrt_square (IZR k)) at 1 by lra. pose proof (Z.mod_pos_bound k 2 ltac:(lia)).
    apply sqrt_le_1; [nra | apply IZR_le; nia |]. rewrite <- !mult_IZR. apply IZR_le. nia. }
  nra.
Qed.

Lemma nonoverlap_inside rad c k q r x y : 0 < rad -> (0 <= k)%Z -> 2 * c <= pitch rad (IZR k) ->
  (shell q r <= k)%Z -> in_capillary rad (IZR k) c q r x y -> in_hexagon rad x y.
Proof.
  intros Hr Hk Hc Hs Hin. eapply disc_inside with (m := k); eauto.
  replace (k + 1 - k)%Z with 1%Z by lia. pose proof (pitch_pos rad k Hr Hk). pose proof s3_bounds. nra.
Qed.

Lemma lattice_dist rad k q r q' r' : 0 < rad -> (0 <= k)%Z ->
  dist2 (fst (cap_axis rad (IZR k) q r)) (snd (cap_axis rad (IZR k) q r))
        (fst (cap_axis rad (IZR k) q' r')) (snd (cap_axis rad (IZR k) q' r'))
  = pitch rad (IZR k) * sqrt (IZR (norm2 (q - q') (r - r'))).
Proof.
  intros Hr Hk. rewrite <- axis_len; auto; [|now apply IZR_le]. unfold dist2.
  rewrite !cap_axis_eq. cbn [fst snd]. rewrite !minus_IZR. f_equal; field.
Qed.

(** Distinct capillary axes are at least one pitch apart. *)
Lemma lattice_apart rad k q r q' r' : 0 < rad -> (0 <= k)%Z -> (q, r) <> (q', r') ->
  pitch rad (IZR k) <= dist2 (fst (cap_axis rad (IZR k) q r)) (snd (cap_axis rad (IZR k) q r))
        (fst (cap_axis rad (IZR k) q' r')) (snd (cap_axis rad (IZR k) q' r')).
Proof.
  intros Hr Hk Hne. rewrite lattice_dist by auto. pose proof (pitch_pos rad k Hr Hk).
  assert (1 <= norm2 (q - q') (r - r'))%Z.
  { assert (q - q' <> 0 \/ r - r' <> 0)%Z by (destruct (Z.eq_dec q q'), (Z.eq_dec r r'); subst; try lia; congruence).
    assert (0 < norm2 (q - q') (r - r'))%Z by (apply norm2_pos; unfold shell; lia). lia. }
  assert (1 <= sqrt (IZR (norm2 (q - q') (r - r')))).
  { rewrite <- sqrt_1 at 1. apply sqrt_le_1; [lra | apply IZR_le; lia | apply IZR_le; lia]. }
  nra.
Qed.

(** Triangle inequality in the plane *)
Lemma tri x y x' y' : len2 (x + x') (y + y') <= len2 x y + len2 x' y'.
Proof.
  pose proof (len2_pos x y). pose proof (len2_pos x' y').
  unfold len2 at 1. rewrite <- (sqrt_square (len2 x y + len2 x' y')) by lra.
  apply sqrt_le_1; [apply sum_sq | apply Rle_0_sqr |].
  pose proof (len2_sq x y). pose proof (len2_sq x' y').
  assert (CS : x * x' + y * y' <= len2 x y * len2 x' y').
  { destruct (Rle_dec (x * x' + y * y') 0); [nra|].
    apply Rsqr_incr_0; [| lra | nra]. unfold Rsqr.
    replace (len2 x y * len2 x' y' * (len2 x y * len2 x' y')) with ((len2 x y * len2 x y) * (len2 x' y' * len2 x' y')) by ring.
    rewrite H1, H2. pose proof (Rle_0_sqr (x * y' - y * x')) as Q. unfold Rsqr in Q. nra. }
  nra.
Qed.

Lemma nonoverlap_disjoint rad c k q r q' r' x y : 0 < rad -> (0 <= k)%Z -> 2 * c <= pitch rad (IZR k) ->
  (q, r) <> (q', r') -> in_capillary rad (IZR k) c q r x y -> 
  c <= dist2 x y (fst (cap_axis rad (IZR k) q' r')) (snd (cap_axis rad (IZR k) q' r')).
Proof.
  intros Hr Hk Hc Hne Hin. pose proof (lattice_apart rad k q r q' r' Hr Hk Hne) as A.
  unfold in_capillary, dist2 in *.
  set (a := fst (cap_axis rad (IZR k) q r)) in *. set (b := snd (cap_axis rad (IZR k) q r)) in *.
  set (a' := fst (cap_axis rad (IZR k) q' r')) in *. set (b' := snd (cap_axis rad (IZR k) q' r')) in *.
  pose proof (tri (a - x) (b - y) (x - a') (y - b')) as T.
  replace (a - x + (x - a')) with (a - a') in T by ring. replace (b - y + (y - b')) with (b - b') in T by ring.
  replace (len2 (a - x) (b - y)) with (len2 (x - a) (y - b)) in T.
  2:{ unfold len2. f_equal. ring. }
  lra.
Qed.

(** ** C32: the selected capillary is a nearest one *)
Lemma hex_frac_inv rad k x y : 0 < rad -> (0 <= k)%Z ->
  let (q, r) := hex_frac x y (hex_unit rad (IZR k)) in
  x = pitch rad (IZR k) * (q + r / 2) /\ y = pitch rad (IZR k) * (r * (sqrt 3 / 2)).
Proof.
  intros Hr Hk. unfold hex_frac, hex_unit, pitch. rnum. apply IZR_le in Hk.
  pose proof s3_pos. pose proof s3_sq as S. split.
  - field. lra.
  - apply Rmult_eq_reg_r with (sqrt 3); [|lra].
    transitivity (y * (2 / 3) / (rad / (2 * (sqrt 3 / 2) * (IZR k + 1))) * rad / (IZR k + 1) / 2 * (sqrt 3 * sqrt 3)); [|field; lra].
    rewrite S. field. lra.
Qed.

Lemma hex_round_voronoi q r : exists Q R : Z, hex_round (q, r) = (IZR Q, IZR R) /\
  let a := q - IZR Q in let b := r - IZR R in
  -1 <= 2 * a + b <= 1 /\ -1 <= a + 2 * b <= 1 /\ -1 <= a - b <= 1.
Proof.
  unfold hex_round. rnum.
  replace (- (1) * q - r) with (- q - r) by ring.
  destruct (R_round_is_int q) as [rq Eq]. destruct (R_round_is_int r) as [rr Er].
  destruct (R_round_is_int (- q - r)) as [rs Es].
  pose proof (R_round_close q) as Cq. pose proof (R_round_close r) as Cr. pose proof (R_round_close (- q - r)) as Cs.
  rewrite Eq, Er, Es in *. apply Rabs_le_elim in Cq, Cr, Cs.
  assert (Sum : exists n : Z, (-1 <= n <= 1)%Z /\ IZR rq + IZR rr + IZR rs = IZR n).
  { exists (rq + rr + rs)%Z. rewrite !plus_IZR. split; auto.
    assert (IZR (rq + rr + rs) < 2) by (rewrite !plus_IZR; lra).
    assert (-2 < IZR (rq + rr + rs)) by (rewrite !plus_IZR; lra).
    apply lt_IZR in H. apply (lt_IZR (-2)) in H0. lia. }
  destruct Sum as (n & Bn & Sn).
  assert (Nn : IZR n = -1 \/ IZR n = 0 \/ IZR n = 1).
  { assert (n = -1 \/ n = 0 \/ n = 1)%Z as [-> | [-> | ->]] by lia; auto. }
  assert (E1 : - (1) * IZR rr - IZR rs = IZR (- rr - rs)) by (rewrite minus_IZR, opp_IZR; ring).
  assert (E2 : - (1) * IZR rq - IZR rs = IZR (- rq - rs)) by (rewrite minus_IZR, opp_IZR; ring).
  rewrite E1, E2.
  set (dq := q - IZR rq) in *. set (dr := r - IZR rr) in *. set (ds := - q - r - IZR rs) in *.
  assert (D : dq + dr + ds = - IZR n) by (unfold dq, dr, ds; lra).
  destruct (Rltb_spec (Rabs dr) (Rabs dq)); destruct (Rltb_spec (Rabs ds) (Rabs dq)); cbn [andb].
  1: { exists (- rr - rs)%Z, rr. split; auto. cbv zeta. rewrite minus_IZR, opp_IZR.
       assert (Ea : q - (- IZR rr - IZR rs) = - dr - ds) by (unfold dr, ds; ring). rewrite Ea. fold dr.
       assert (Hd : -1/2 <= dq <= 1/2 /\ -1/2 <= dr <= 1/2 /\ -1/2 <= ds <= 1/2) by (subst dq dr ds; lra).
       clearbody dq dr ds; clear Cq Cr Cs Eq Er Es E1 E2 Sn Bn Ea.
       unfold Rabs in *; destruct (Rcase_abs dr), (Rcase_abs dq), (Rcase_abs ds); destruct Nn as [Nn | [Nn | Nn]]; lra. }
  all: assert (Hd : -1/2 <= dq <= 1/2 /\ -1/2 <= dr <= 1/2 /\ -1/2 <= ds <= 1/2) by (subst dq dr ds; lra).
  - rewrite (Rltb_false (Rabs ds) (Rabs dr)) by lra.
    exists rq, rr; split; auto; cbv zeta; fold dq dr.
    clearbody dq dr ds; clear Cq Cr Cs Eq Er Es E1 E2 Sn Bn.
    unfold Rabs in *; destruct (Rcase_abs dr), (Rcase_abs dq), (Rcase_abs ds); destruct Nn as [Nn | [Nn | Nn]]; lra.
  - destruct (Rltb_spec (Rabs ds) (Rabs dr)).
    + exists rq, (- rq - rs)%Z; split; auto; cbv zeta; rewrite minus_IZR, opp_IZR.
      assert (Eb : r - (- IZR rq - IZR rs) = - dq - ds) by (unfold dq, ds; ring). rewrite Eb; fold dq.
      clearbody dq dr ds; clear Cq Cr Cs Eq Er Es E1 E2 Sn Bn.
      unfold Rabs in *; destruct (Rcase_abs dr), (Rcase_abs dq), (Rcase_abs ds); destruct Nn as [Nn | [Nn | Nn]]; lra.
    + exists rq, rr; split; auto; cbv zeta; fold dq dr.
      clearbody dq dr ds; clear Cq Cr Cs Eq Er Es E1 E2 Sn Bn.
      unfold Rabs in *; destruct (Rcase_abs dr), (Rcase_abs dq), (Rcase_abs ds); destruct Nn as [Nn | [Nn | Nn]]; lra.
  - destruct (Rltb_spec (Rabs ds) (Rabs dr)).
    + exists rq, (- rq - rs)%Z; split; auto; cbv zeta; rewrite minus_IZR, opp_IZR.
      assert (Eb : r - (- IZR rq - IZR rs) = - dq - ds) by (unfold dq, ds; ring). rewrite Eb; fold dq.
      clearbody dq dr ds; clear Cq Cr Cs Eq Er Es E1 E2 Sn Bn.
      unfold Rabs in *; destruct (Rcase_abs dr), (Rcase_abs dq), (Rcase_abs ds); destruct Nn as [Nn | [Nn | Nn]]; lra.
    + exists rq, rr; split; auto; cbv zeta; fold dq dr.
      clearbody dq dr ds; clear Cq Cr Cs Eq Er Es E1 E2 Sn Bn.
      unfold Rabs in *; destruct (Rcase_abs dr), (Rcase_abs dq), (Rcase_abs ds); destruct Nn as [Nn | [Nn | Nn]]; lra.
Qed.

Lemma voronoi_nearest (a b : R) (m n : Z) :
  -1 <= 2 * a + b <= 1 -> -1 <= a + 2 * b <= 1 -> -1 <= a - b <= 1 ->
  a * a + a * b + b * b <= (a + IZR m) * (a + IZR m) + (a + IZR m) * (b + IZR n) + (b + IZR n) * (b + IZR n).
Proof.
  intros U V W.
  set (u := 2 * a + b) in *. set (v := a + 2 * b) in *.
  assert (Wuv : a - b = u - v) by (unfold u, v; ring). rewrite Wuv in W.
  enough (0 <= IZR m * u + IZR n * v + IZR (norm2 m n)).
  { unfold norm2 in H. rewrite !plus_IZR, !mult_IZR in H. unfold u, v in H. nra. }
  clearbody u v.
  assert (N : (shell m n <= norm2 m n)%Z).
  { destruct (Z.eq_dec (shell m n) 0) as [E | E]; [rewrite E; unfold norm2; nia|].
    assert (P : (1 <= shell m n)%Z) by (unfold shell in *; lia).
    pose proof (norm2_lower m n _ P eq_refl) as L. pose proof (Z.mod_pos_bound (shell m n) 2 ltac:(lia)).
    destruct (Z.eq_dec (shell m n) 1) as [E1 | E1]; [rewrite E1 in L |- *; change (1 mod 2)%Z with 1%Z in L; set (N2 := norm2 m n) in *; lia | nia]. }
  apply IZR_le in N.
  enough (- IZR (shell m n) <= IZR m * u + IZR n * v) by lra.
  assert (B : forall (c : Z) t, (0 <= c)%Z -> -1 <= t <= 1 -> - IZR c <= IZR c * t <= IZR c)
    by (intros c t Hc Ht; apply IZR_le in Hc; nra).
  assert (M1 : - IZR (shell m n) <= - IZR (Z.abs m)) by (apply Ropp_le_contravar, IZR_le; unfold shell; lia).
  assert (M2 : - IZR (shell m n) <= - IZR (Z.abs n)) by (apply Ropp_le_contravar, IZR_le; unfold shell; lia).
  assert (M3 : - IZR (shell m n) <= - IZR (Z.abs (m + n))) by (apply Ropp_le_contravar, IZR_le; unfold shell; lia).
  destruct (Z.le_gt_cases 0 m) as [Pm | Nm]; destruct (Z.le_gt_cases 0 n) as [Pn | Nn].
  - rewrite (Z.abs_eq (m + n)) in M3 by lia. rewrite plus_IZR in M3.
    pose proof (B m u Pm U). pose proof (B n v Pn V). lra.
  - destruct (Z.le_gt_cases 0 (m + n)) as [S | S].
    + rewrite (Z.abs_eq m) in M1 by lia.
      pose proof (B (m + n)%Z u S U). pose proof (B (- n)%Z (u - v) ltac:(lia) W).
      rewrite ?plus_IZR, ?opp_IZR in *. lra.
    + rewrite (Z.abs_neq n) in M2 by lia. rewrite opp_IZR in M2.
      pose proof (B m (u - v) Pm W). pose proof (B (- (m + n))%Z v ltac:(lia) V).
      rewrite ?opp_IZR, ?plus_IZR in *. lra.
  - destruct (Z.le_gt_cases 0 (m + n)) as [S | S].
    + rewrite (Z.abs_eq n) in M2 by lia.
      pose proof (B (m + n)%Z v S V). pose proof (B (- m)%Z (u - v) ltac:(lia) W).
      rewrite ?plus_IZR, ?opp_IZR in *. lra.
    + rewrite (Z.abs_neq m) in M1 by lia. rewrite opp_IZR in M1.
      pose proof (B n (u - v) Pn W). pose proof (B (- (m + n))%Z u ltac:(lia) U).
      rewrite ?opp_IZR, ?plus_IZR in *. lra.
  - rewrite (Z.abs_neq (m + n)) in M3 by lia. rewrite opp_IZR, plus_IZR in M3.
    pose proof (B (- m)%Z u ltac:(lia) U). pose proof (B (- n)%Z v ltac:(lia) V). rewrite ?opp_IZR in *. lra.
Qed.

Lemma form_pos a b : 0 <= a * a + a * b + b * b.
Proof. pose proof (Rle_0_sqr (2 * a + b)) as Q1. unfold Rsqr in Q1. nra. Qed.

Lemma dist_frac rad k q r Q R : 0 < rad -> (0 <= k)%Z ->
  let p := pitch rad (IZR k) in
  dist2 (p * (q + r / 2)) (p * (r * (sqrt 3 / 2))) (fst (cap_axis rad (IZR k) Q R)) (snd (cap_axis rad (IZR k) Q R))
  = p * sqrt ((q - IZR Q) * (q - IZR Q) + (q - IZR Q) * (r - IZR R) + (r - IZR R) * (r - IZR R)).
Proof.
  intros Hr Hk p. rewrite cap_axis_eq. cbn [fst snd]. fold p. pose proof (pitch_pos rad k Hr Hk) as Hp. fold p in Hp. clearbody p.
  unfold dist2, len2. apply sqrt_unique; [apply Rmult_le_pos; [lra | apply sqrt_pos]|].
  set (a := q - IZR Q). set (b := r - IZR R).
  replace (p * sqrt (a * a + a * b + b * b) * (p * sqrt (a * a + a * b + b * b)))
    with (p * p * (sqrt (a * a + a * b + b * b) * sqrt (a * a + a * b + b * b))) by ring.
  rewrite sqrt_sqrt.
  2:{ apply form_pos. }
  replace (p * (r * (sqrt 3 / 2)) - p * (IZR R * (sqrt 3 / 2))) with (p * b * (sqrt 3 / 2)) by (unfold b; ring).
  replace (p * b * (sqrt 3 / 2) * (p * b * (sqrt 3 / 2))) with (p * p * b * b * (sqrt 3 * sqrt 3) / 4) by field.
  rewrite s3_sq. replace (p * (q + r / 2) - p * (IZR Q + IZR R / 2)) with (p * (a + b / 2)) by (unfold a, b; field).
  field.
Qed.

Lemma select_nearest rad k x y : 0 < rad -> (0 <= k)%Z ->
  exists q r : Z, select_capillary rad (IZR k) x y = (IZR q, IZR r) /\
    (forall q' r' : Z,
      dist2 x y (fst (cap_axis rad (IZR k) q r)) (snd (cap_axis rad (IZR k) q r)) <=
      dist2 x y (fst (cap_axis rad (IZR k) q' r')) (snd (cap_axis rad (IZR k) q' r'))) /\
    (in_hexagon rad x y -> (shell q r <= k + 1)%Z).
Proof.
  intros Hr Hk. unfold select_capillary.
  pose proof (hex_frac_inv rad k x y Hr Hk) as F.
  destruct (hex_frac x y (hex_unit rad (IZR k))) as [q r] eqn:Eqr. destruct F as [Fx Fy].
  destruct (hex_round_voronoi q r) as (Q & R & E & V). exists Q, R. split; auto.
  pose proof (pitch_pos rad k Hr Hk) as Hp. split.
  - intros q' r'. rewrite Fx, Fy, !dist_frac by auto. apply Rmult_le_compat_l; [lra|].
    cbv zeta in V. destruct V as (V1 & V2 & V3).
    pose proof (voronoi_nearest _ _ (Q - q') (R - r') V1 V2 V3) as H.
    rewrite !minus_IZR in H.
    replace (q - IZR Q + (IZR Q - IZR q')) with (q - IZR q') in H by ring.
    replace (r - IZR R + (IZR R - IZR r')) with (r - IZR r') in H by ring.
    apply sqrt_le_1; auto.
    + apply form_pos.
    + apply form_pos.
  - intros Hh. apply strips_hexagon in Hh; auto. rewrite Fx, Fy in Hh. unfold strips in Hh.
    assert (Er : rad = pitch rad (IZR k) * (IZR k + 1)) by (unfold pitch; apply IZR_le in Hk; field; lra).
    assert (Ed : rad * (sqrt 3 / 2) = pitch rad (IZR k) * (sqrt 3 / 2) * (IZR k + 1)) by (rewrite Er at 1; ring).
    rewrite Ed in Hh. pose proof s3_pos.
    assert (PS : 0 < pitch rad (IZR k) * (sqrt 3 / 2)) by nra.
    set (p := pitch rad (IZR k)) in *. clearbody p.
    replace (p * (r * (sqrt 3 / 2))) with (p * (sqrt 3 / 2) * r) in Hh by ring.
    replace (sqrt 3 / 2 * (p * (q + r / 2)) + / 2 * (p * (sqrt 3 / 2) * r)) with (p * (sqrt 3 / 2) * (q + r)) in Hh by field.
    replace (sqrt 3 / 2 * (p * (q + r / 2)) - / 2 * (p * (sqrt 3 / 2) * r)) with (p * (sqrt 3 / 2) * q) in Hh by field.
    set (ps := p * (sqrt 3 / 2)) in *. clearbody ps.
    assert (A : forall t, Rabs (ps * t) <= ps * (IZR k + 1) -> - (IZR k + 1) <= t <= IZR k + 1).
    { intros t Ht. apply Rabs_le_elim in Ht. split; apply Rmult_le_reg_l with ps; lra. }
    destruct Hh as (H1 & H2 & H3). apply A in H1, H2, H3. cbv zeta in V.
    assert (I : forall z, - (IZR k + 2) < IZR z < IZR k + 2 -> (Z.abs z <= k + 1)%Z).
    { intros z [Z1 Z2]. assert (IZR z < IZR (k + 2)) by (rewrite plus_IZR; lra).
      assert (IZR (- (k + 2)) < IZR z) by (rewrite opp_IZR, plus_IZR; lra).
      apply lt_IZR in H0, H4. lia. }
    unfold shell. pose proof (I Q ltac:(lra)). pose proof (I R ltac:(lra)).
    pose proof (I (Q + R)%Z ltac:(rewrite plus_IZR; lra)). lia.
Qed.

(** ** C51: points of the optic attributed to a capillary that does not exist *)
Lemma select_phantom rad k x y : 0 < rad -> (0 <= k)%Z ->
  dist2 x y rad 0 < pitch rad (IZR k) / 2 ->
  select_capillary rad (IZR k) x y = (IZR (k + 1), 0).
Proof.
  intros Hr Hk Hd. destruct (select_nearest rad k x y Hr Hk) as (q & r & E & Hn & _).
  assert (Ax : cap_axis rad (IZR k) (k + 1) 0 = (rad, 0)).
  { rewrite cap_axis_eq. rewrite plus_IZR. unfold pitch. apply IZR_le in Hk. f_equal; field; lra. }
  specialize (Hn (k + 1)%Z 0%Z). rewrite Ax in Hn. cbn [fst snd] in Hn.
  assert (D : (q, r) = (k + 1, 0)%Z \/ (q, r) <> (k + 1, 0)%Z)
    by (destruct (Z.eq_dec q (k + 1)), (Z.eq_dec r 0); subst; auto; right; congruence).
  destruct D as [D | D]; [injection D; intros -> ->; exact E|]. exfalso.
  pose proof (lattice_apart rad k q r (k + 1) 0 Hr Hk D) as L.
  rewrite Ax in L; cbn [fst snd] in L; unfold dist2 in *.
  set (a := fst (cap_axis rad (IZR k) q r)) in *. set (b := snd (cap_axis rad (IZR k) q r)) in *.
  pose proof (tri (a - x) (b - y) (x - rad) (y - 0)) as T.
  replace (a - x + (x - rad)) with (a - rad) in T by ring. replace (b - y + (y - 0)) with (b - 0) in T by ring.
  replace (len2 (a - x) (b - y)) with (len2 (x - a) (y - b)) in T by (unfold len2; f_equal; ring). lra.
Qed.

(** ** C18 *)
Lemma open_area_eq n_cap k cap0 ext0 : (1 <= n_cap)%Z -> n_shells n_cap = IZR k -> 0 < ext0 ->
  open_area_of n_cap cap0 ext0 = IZR (stack_size k) * (PI * (cap0 * cap0)) / hexagon_area ext0.
Proof.
  intros Hn E He. unfold open_area_of, hexagon_area, nhalf, stack_size. rewrite E. rnum.
  rewrite sin_PI3. rewrite !plus_IZR, !mult_IZR. pose proof s3_pos. field. lra.
Qed.
