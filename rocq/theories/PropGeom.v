(** * Property theorems: hexagonal geometry (C10 - C14, C18, C32, C50 part, C51, C52)

    Specification vocabulary: SpecGeom.v (hexagon as the convex hull of six vertices,
    shells of the hexagonal lattice, capillary axes).  [ext_at p i], [cap_at p i]: the
    exterior and capillary radius of profile p at z index i; [profile_wf p]: the three
    arrays have nmax+1 entries. *)
From Coq Require Import Floats.
From Coq Require Import ZArith List Bool Lia Reals Lra Psatz.
From Verif Require Import Num Geometry SpecGeom HexProofs RingProofs PackProofs ProfileFloat.
Import ListNotations.
Local Open Scope R_scope.

(** C10: the cells the validation walks over are the outermost shell, each once. *)
Theorem C10_ring_walk_complete :
  forall n_cap k : Z, (1 <= n_cap)%Z -> n_shells n_cap = IZR k -> (1 <= k)%Z ->
  exists cells : list (Z * Z),
    ring_cells (n_shells n_cap) = map (fun c => (IZR (fst c), IZR (snd c))) cells /\
    NoDup cells /\ Z.of_nat (length cells) = (6 * k)%Z /\
    (forall q r, In (q, r) cells <-> shell q r = k).
Proof. exact ring_complete. Qed.

(** C11, poly-capillary. *)
Theorem C11_validate_meaning :
  forall (p : profile R) (n_cap k : Z),
    profile_wf p -> (1 <= n_cap)%Z -> (1 <= k)%Z -> n_shells n_cap = IZR k ->
    (forall i, (i <= p_nmax p)%nat -> 0 < ext_at p i /\ 0 < cap_at p i) ->
    profile_validate p n_cap = Some 1%Z <->
    (forall i, (i <= p_nmax p)%nat -> forall q r, shell q r = k ->
       let x := fst (cap_axis (ext_at p i) (IZR k) q r) in
       let y := snd (cap_axis (ext_at p i) (IZR k) q r) in
       in_hexagon (ext_at p i) (x + cap_at p i * (x / len2 x y)) (y + cap_at p i * (y / len2 x y))).
Proof. exact validate_poly. Qed.

(** C11, mono-capillary. *)
Theorem C11_validate_mono :
  forall (p : profile R) (n_cap : Z), profile_wf p -> n_shells n_cap = 0 ->
    profile_validate p n_cap = Some 1%Z <-> (forall i, (i <= p_nmax p)%nat -> cap_at p i < ext_at p i).
Proof. exact validate_mono. Qed.

(** C11: never out of bounds, answers only 1, 0 or -1, and 0 means "some outermost
    point is outside" when all radii are positive. *)
Theorem C11_validate_range :
  forall (p : profile R) (n_cap : Z), profile_wf p ->
    profile_validate p n_cap = Some 1%Z \/ profile_validate p n_cap = Some 0%Z \/
    profile_validate p n_cap = Some (-1)%Z.
Proof. exact validate_range. Qed.

(** C11: a non-positive exterior radius is never validated. *)
Theorem C11_validate_bad_exterior :
  forall (p : profile R) (n_cap : Z), profile_wf p -> (1 <= n_cap)%Z ->
    (exists i, (i <= p_nmax p)%nat /\ ext_at p i <= 0) ->
    (forall i, (i <= p_nmax p)%nat -> 0 < cap_at p i) ->
    profile_validate p n_cap <> Some 1%Z.
Proof. exact validate_bad_ext. Qed.

(** C11, closed form of the acceptance condition in terms of the pitch
    ext/(k+1): 2 k cap <= pitch sqrt(3k^2 + (k mod 2)). *)
Theorem C11_validate_closed_form :
  forall (p : profile R) (n_cap k : Z),
    profile_wf p -> (1 <= n_cap)%Z -> (1 <= k)%Z -> n_shells n_cap = IZR k ->
    (forall i, (i <= p_nmax p)%nat -> 0 < ext_at p i /\ 0 < cap_at p i) ->
    profile_validate p n_cap = Some 1%Z <->
    (forall i, (i <= p_nmax p)%nat ->
       2 * IZR k * cap_at p i <= pitch (ext_at p i) (IZR k) * sqrt (IZR (3 * k * k + k mod 2))).
Proof. exact validate_closed_form. Qed.

(** C12: all points of all capillaries of a validated optic are inside the optic —
    for the inner shells always, for the outermost shell if the number of shells is
    even.  Missing: odd numbers of shells, where it is false (C12_odd_shells_refuted). *)
Theorem C85_inner_capillaries_inside :
  forall (p : profile R) (n_cap k : Z) i q r x y,
    profile_wf p -> (1 <= n_cap)%Z -> (1 <= k)%Z -> n_shells n_cap = IZR k ->
    (forall i, (i <= p_nmax p)%nat -> 0 < ext_at p i /\ 0 < cap_at p i) ->
    profile_validate p n_cap = Some 1%Z ->
    (i <= p_nmax p)%nat -> (shell q r < k)%Z ->
    dist2 x y (fst (cap_axis (ext_at p i) (IZR k) q r)) (snd (cap_axis (ext_at p i) (IZR k) q r)) <= cap_at p i ->
    in_hexagon (ext_at p i) x y.
Proof.
  intros p n_cap k i q r x y W Hn Hk E Pos V Hi Hs Hd.
  pose proof (proj1 (validate_closed_form p n_cap k W Hn Hk E Pos) V i Hi) as F.
  eapply validated_inner_inside; eauto. now apply Pos.
Qed.

Theorem C85_even_shells :
  forall (p : profile R) (n_cap k : Z) i q r x y,
    profile_wf p -> (1 <= n_cap)%Z -> (1 <= k)%Z -> (k mod 2 = 0)%Z -> n_shells n_cap = IZR k ->
    (forall i, (i <= p_nmax p)%nat -> 0 < ext_at p i /\ 0 < cap_at p i) ->
    profile_validate p n_cap = Some 1%Z ->
    (i <= p_nmax p)%nat -> (shell q r <= k)%Z ->
    dist2 x y (fst (cap_axis (ext_at p i) (IZR k) q r)) (snd (cap_axis (ext_at p i) (IZR k) q r)) <= cap_at p i ->
    in_hexagon (ext_at p i) x y.
Proof.
  intros p n_cap k i q r x y W Hn Hk Hm E Pos V Hi Hs Hd.
  pose proof (proj1 (validate_closed_form p n_cap k W Hn Hk E Pos) V i Hi) as F.
  eapply validated_even_inside; eauto. now apply Pos.
Qed.

(** The witness of the refutations: one shell (7 capillaries), exterior radius 2
    (pitch 1), capillary radius 0.9. *)
Definition fat : profile R := mkProfile 1 [0; 1] [0.9; 0.9] [2; 2].
Lemma fat_wf : profile_wf fat.
Proof. repeat split. Qed.
Lemma seven : n_shells 7 = IZR 1.
Proof. apply n_shells_char; lia. Qed.
Lemma fat_pos : forall i, (i <= p_nmax fat)%nat -> 0 < ext_at fat i /\ 0 < cap_at fat i.
Proof. intros [|[|i]] Hi; cbn in *; try lra; lia. Qed.
Lemma sq4 : sqrt (IZR (3 * 1 * 1 + 1 mod 2)) = 2.
Proof. change (3 * 1 * 1 + 1 mod 2)%Z with 4%Z. apply sqrt_unique; lra. Qed.
Lemma fat_validated : profile_validate fat 7 = Some 1%Z.
Proof.
  apply (validate_closed_form fat 7 1); auto using fat_wf, seven, fat_pos; try lia.
  intros i Hi. unfold fits. rewrite sq4. unfold pitch.
  destruct i as [|[|i]]; cbn in *; try lra; lia.
Qed.

Theorem C12_odd_shells_refuted :
  exists (p : profile R) (n_cap k : Z) (i : nat) (q r : Z) (x y : R),
    profile_wf p /\ (1 <= n_cap)%Z /\ (1 <= k)%Z /\ n_shells n_cap = IZR k /\
    (forall i, (i <= p_nmax p)%nat -> 0 < cap_at p i < ext_at p i) /\
    profile_validate p n_cap = Some 1%Z /\ (i <= p_nmax p)%nat /\ (shell q r <= k)%Z /\
    dist2 x y (fst (cap_axis (ext_at p i) (IZR k) q r)) (snd (cap_axis (ext_at p i) (IZR k) q r)) <= cap_at p i /\
    ~ in_hexagon (ext_at p i) x y.
Proof.
  exists fat, 7%Z, 1%Z, 0%nat, 1%Z, 0%Z, (1 + 0.9 * (sqrt 3 / 2)), 0.45.
  split; [apply fat_wf|]. split; [lia|]. split; [lia|]. split; [apply seven|].
  split. { intros [|[|i]] Hi; cbn in *; try lra; lia. }
  split; [apply fat_validated|]. split; [cbn; lia|]. split; [unfold shell; lia|].
  pose proof s3_sq. pose proof s3_bounds. split.
  - rewrite cap_axis_eq. unfold dist2, len2, pitch. cbn [fst snd ext_at cap_at fat p_ext p_cap nth].
    right. apply sqrt_unique; [lra|]. nra.
  - intros Hh. apply strips_hexagon in Hh; [|cbn; lra]. destruct Hh as (_ & H2 & _).
    apply Rabs_le_elim in H2. cbn [ext_at fat p_ext nth] in H2. nra.
Qed.

(** C52 is false: a validated optic may have overlapping capillaries. *)
Theorem C52_no_overlap_refuted :
  exists (p : profile R) (n_cap k : Z) (i : nat) (x y : R),
    profile_wf p /\ n_shells n_cap = IZR k /\ profile_validate p n_cap = Some 1%Z /\ (i <= p_nmax p)%nat /\
    dist2 x y (fst (cap_axis (ext_at p i) (IZR k) 0 0)) (snd (cap_axis (ext_at p i) (IZR k) 0 0)) < cap_at p i /\
    dist2 x y (fst (cap_axis (ext_at p i) (IZR k) 1 0)) (snd (cap_axis (ext_at p i) (IZR k) 1 0)) < cap_at p i.
Proof.
  exists fat, 7%Z, 1%Z, 0%nat, (1/2), 0.
  split; [apply fat_wf|]. split; [apply seven|]. split; [apply fat_validated|]. split; [cbn; lia|].
  rewrite !cap_axis_eq. unfold dist2, len2, pitch. cbn [fst snd ext_at cap_at fat p_ext p_cap nth].
  split; replace 0.9 with (sqrt (0.9 * 0.9)) by (apply sqrt_square; lra); apply sqrt_lt_1; lra.
Qed.

(** C52, what is true: capillaries of diameter at most the pitch pass the validation,
    lie inside the optic and have disjoint interiors. *)
Theorem C98_separated_capillaries :
  forall (p : profile R) (n_cap k : Z),
    profile_wf p -> (1 <= n_cap)%Z -> (1 <= k)%Z -> n_shells n_cap = IZR k ->
    (forall i, (i <= p_nmax p)%nat ->
       0 < ext_at p i /\ 0 < cap_at p i /\ 2 * cap_at p i <= pitch (ext_at p i) (IZR k)) ->
    profile_validate p n_cap = Some 1%Z /\
    forall i q r x y, (i <= p_nmax p)%nat -> (shell q r <= k)%Z ->
      dist2 x y (fst (cap_axis (ext_at p i) (IZR k) q r)) (snd (cap_axis (ext_at p i) (IZR k) q r)) <= cap_at p i ->
      in_hexagon (ext_at p i) x y /\
      forall q' r', (q, r) <> (q', r') ->
        cap_at p i <= dist2 x y (fst (cap_axis (ext_at p i) (IZR k) q' r')) (snd (cap_axis (ext_at p i) (IZR k) q' r')).
Proof.
  intros p n_cap k W Hn Hk E H. split.
  - apply (validate_closed_form p n_cap k); auto.
    + intros i Hi. specialize (H i Hi). tauto.
    + intros i Hi. destruct (H i Hi) as (H1 & H2 & H3). now apply nonoverlap_fits.
  - intros i q r x y Hi Hs Hd. destruct (H i Hi) as (H1 & H2 & H3). split.
    + eapply nonoverlap_inside; eauto. lia.
    + intros q' r' Hne. eapply nonoverlap_disjoint; eauto. lia.
Qed.

(** C13 *)
Theorem C13_boundary_is_hexagon :
  forall (radius : R) (c : vec3 R),
    (radius <= 0 -> within_pc_boundary radius c = (-1)%Z) /\
    (0 < radius -> in_hexagon radius (vx c) (vy c) -> within_pc_boundary radius c = 1%Z) /\
    (0 < radius -> ~ in_hexagon radius (vx c) (vy c) -> within_pc_boundary radius c = 0%Z).
Proof. exact within_spec. Qed.

(** C13, shape: rotation by 60 degrees and mirror images, inscribed and circumscribed
    discs, convexity — of the accepted region itself. *)
Definition accepted (radius x y : R) : Prop := within_pc_boundary radius (mkV x y 0) = 1%Z.

Lemma accepted_strips radius x y : 0 < radius -> accepted radius x y <-> strips radius x y.
Proof.
  intros H. unfold accepted. rewrite within_hexagon by auto. cbn. now rewrite strips_hexagon.
Qed.

Theorem C13_region_shape :
  forall radius x y, 0 < radius -> accepted radius x y ->
    accepted radius (x * cos (PI / 3) - y * sin (PI / 3)) (x * sin (PI / 3) + y * cos (PI / 3)) /\
    accepted radius (- x) y /\ accepted radius x (- y) /\
    len2 x y <= radius /\
    (forall x' y' t, accepted radius x' y' -> 0 <= t <= 1 ->
       accepted radius (t * x + (1 - t) * x') (t * y + (1 - t) * y')).
Proof.
  intros radius x y Hr H. rewrite !accepted_strips in * by auto. destruct pi3 as [-> ->].
  pose proof s3_sq as S3. 
  split; [|split; [|split; [|split]]].
  - destruct H as (H1 & H2 & H3). unfold strips in *. repeat split.
    + replace (x * (sqrt 3 / 2) + y * / 2) with (sqrt 3 / 2 * x + / 2 * y) by ring. auto.
    + replace (sqrt 3 / 2 * (x * / 2 - y * (sqrt 3 / 2)) + / 2 * (x * (sqrt 3 / 2) + y * / 2))
        with (sqrt 3 / 2 * x - / 2 * y); auto.
      transitivity (sqrt 3 / 2 * x - (sqrt 3 * sqrt 3 - 1) / 4 * y); [rewrite S3; field | field].
    + replace (sqrt 3 / 2 * (x * / 2 - y * (sqrt 3 / 2)) - / 2 * (x * (sqrt 3 / 2) + y * / 2)) with (- y).
      * now rewrite Rabs_Ropp.
      * transitivity (- ((sqrt 3 * sqrt 3 + 1) / 4) * y); [rewrite S3; field | field].
  - destruct H as (H1 & H2 & H3). unfold strips. 
    replace (sqrt 3 / 2 * - x + / 2 * y) with (- (sqrt 3 / 2 * x - / 2 * y)) by ring.
    replace (sqrt 3 / 2 * - x - / 2 * y) with (- (sqrt 3 / 2 * x + / 2 * y)) by ring.
    rewrite !Rabs_Ropp. auto.
  - destruct H as (H1 & H2 & H3). unfold strips.
    replace (sqrt 3 / 2 * x + / 2 * - y) with (sqrt 3 / 2 * x - / 2 * y) by ring.
    replace (sqrt 3 / 2 * x - / 2 * - y) with (sqrt 3 / 2 * x + / 2 * y) by ring.
    rewrite Rabs_Ropp. auto.
  - apply strips_in_disc; auto; lra.
  - intros x' y' t H' Ht. rewrite accepted_strips in * by auto. now apply strips_convex.
Qed.

Theorem C13_contains_inscribed_disc :
  forall radius x y, 0 < radius -> len2 x y <= radius * cos (PI / 6) -> accepted radius x y.
Proof.
  intros radius x y Hr H. apply accepted_strips; auto. apply strips_disc; [lra|]. rewrite cos_PI6 in H. lra.
Qed.

(** C14 *)
Theorem C14_shell_count :
  (forall k : Z, (0 <= k)%Z -> n_shells (stack_size k) = IZR k) /\
  (forall n k : Z, (1 <= n)%Z ->
     n_shells n = IZR k <-> (0 <= k)%Z /\ (3 * k * k < n <= 3 * (k + 1) * (k + 1))%Z) /\
  (forall n m : Z, (1 <= n <= m)%Z -> n_shells n <= n_shells m) /\
  (forall n : Z, (1 <= n)%Z -> exists k : Z, (0 <= k)%Z /\ n_shells n = IZR k) /\
  (forall n k : Z, (1 <= n)%Z -> n_shells n = IZR k -> forall k', (0 <= k')%Z ->
     (Z.abs (n - stack_size k) <= Z.abs (n - stack_size k'))%Z).
Proof.
  exact (conj n_shells_stack (conj n_shells_iff (conj n_shells_mono (conj n_shells_ex n_shells_nearest)))).
Qed.

(** The comment at src/polycap-photon.c:481 ("with n_cap < 7 only a mono-capillary will
    be simulated") does not describe the code: 4, 5 and 6 give one shell. *)
Theorem C14_comment_refuted : n_shells 4 = 1 /\ n_shells 5 = 1 /\ n_shells 6 = 1 /\ n_shells 3 = 0.
Proof. repeat split; [apply (n_shells_char 4 1) | apply (n_shells_char 5 1) | apply (n_shells_char 6 1) | apply (n_shells_char 3 0)]; lia. Qed.

(** C18, the formula: n capillary areas over the hexagon area, n the size of the full
    stacking.  Missing: the bound by 1 is false for validated optics (C18_bound_refuted). *)
Theorem C88_open_area :
  forall n_cap k cap0 ext0, (1 <= n_cap)%Z -> n_shells n_cap = IZR k -> 0 < ext0 ->
    open_area_of n_cap cap0 ext0 = IZR (stack_size k) * (PI * (cap0 * cap0)) / hexagon_area ext0.
Proof. exact open_area_eq. Qed.

Theorem C18_bound_refuted :
  exists (p : profile R) (n_cap : Z), profile_wf p /\ profile_validate p n_cap = Some 1%Z /\
    (forall i, (i <= p_nmax p)%nat -> 0 < cap_at p i < ext_at p i) /\
    1 < open_area_of n_cap (cap_at p 0) (ext_at p 0).
Proof.
  exists fat, 7%Z. split; [apply fat_wf|]. split; [apply fat_validated|].
  split. { intros [|[|i]] Hi; cbn in *; try lra; lia. }
  rewrite (open_area_eq 7 1); [| lia | apply seven | cbn; lra].
  cbn [cap_at ext_at fat p_cap p_ext nth]. unfold hexagon_area. change (IZR (stack_size 1)) with 7.
  pose proof s3_bounds. pose proof PI2_3_2 as P. unfold PI2 in P.
  assert (3 < PI) by lra.
  apply Rmult_lt_reg_r with (3 * sqrt 3 / 2 * (2 * 2)); [lra|].
  unfold Rdiv at 2. rewrite Rmult_assoc, Rinv_l by lra. lra.
Qed.

Lemma PI_upper : PI <= 3.35.
Proof.
  pose proof (proj2 (PI_ineq 2)) as H. cbn -[INR] in H. unfold tg_alt, PI_tg in H. cbn -[INR] in H.
  rewrite ?INR_IZR_INZ in H. cbn in H. lra.
Qed.

(** C18, with capillary diameter at most the pitch the open area is between 0 and 1. *)
Theorem C88_open_area_bound :
  forall n_cap k cap0 ext0, (1 <= n_cap)%Z -> n_shells n_cap = IZR k -> (1 <= k)%Z -> 0 < ext0 ->
    0 < cap0 -> 2 * cap0 <= pitch ext0 (IZR k) ->
    0 < open_area_of n_cap cap0 ext0 < 1.
Proof.
  intros n_cap k cap0 ext0 Hn E Hk He Hc Hp. rewrite (open_area_eq n_cap k) by auto.
  unfold hexagon_area, stack_size, pitch in *. rewrite !plus_IZR, !mult_IZR.
  assert (1 <= IZR k) by (apply IZR_le; lia). pose proof s3_bounds. pose proof PI_RGT_0. pose proof PI_upper.
  set (kk := IZR k) in *. clearbody kk.
  assert (Hx : 2 * cap0 * (kk + 1) <= ext0).
  { apply Rmult_le_compat_r with (r := kk + 1) in Hp; [|lra]. replace (ext0 / (kk + 1) * (kk + 1)) with ext0 in Hp by (field; lra). exact Hp. }
  split.
  - apply Rdiv_lt_0_compat; [|nra]. apply Rmult_lt_0_compat; [nra|]. apply Rmult_lt_0_compat; nra.
  - apply Rmult_lt_reg_r with (3 * sqrt 3 / 2 * (ext0 * ext0)); [nra|].
    unfold Rdiv at 1. rewrite Rmult_assoc, Rinv_l by nra. rewrite Rmult_1_r, Rmult_1_l.
    assert (S : (2 * cap0 * (kk + 1)) * (2 * cap0 * (kk + 1)) <= ext0 * ext0) by (apply Rmult_le_compat; nra).
    apply Rlt_le_trans with (3 * sqrt 3 / 2 * ((2 * cap0 * (kk + 1)) * (2 * cap0 * (kk + 1)))); [|apply Rmult_le_compat_l; lra].
    replace (3 * sqrt 3 / 2 * (2 * cap0 * (kk + 1) * (2 * cap0 * (kk + 1)))) with ((6 * sqrt 3 * ((kk + 1) * (kk + 1))) * (cap0 * cap0)) by field.
    replace ((3 * kk * kk + 3 * kk + 1) * (PI * (cap0 * cap0))) with (((3 * kk * kk + 3 * kk + 1) * PI) * (cap0 * cap0)) by ring.
    apply Rmult_lt_compat_r; [nra|].
    apply Rle_lt_trans with ((3 * kk * kk + 3 * kk + 1) * 3.35); [apply Rmult_le_compat_l; nra|]. 
    apply Rlt_le_trans with (10.38 * ((kk + 1) * (kk + 1))); [|apply Rmult_le_compat_r; nra]. nra.
Qed.

(** C32 *)
Theorem C32_nearest_capillary :
  forall ext k x y, 0 < ext -> (0 <= k)%Z ->
  exists q r : Z, select_capillary ext (IZR k) x y = (IZR q, IZR r) /\
    (forall q' r' : Z,
      dist2 x y (fst (cap_axis ext (IZR k) q r)) (snd (cap_axis ext (IZR k) q r)) <=
      dist2 x y (fst (cap_axis ext (IZR k) q' r')) (snd (cap_axis ext (IZR k) q' r'))) /\
    (in_hexagon ext x y -> (shell q r <= k + 1)%Z).
Proof. exact select_nearest. Qed.

(** C51 is false: every point of the entrance within half a pitch of the corner of the
    optic is attributed to lattice site (k+1, 0), one shell outside the optic. *)
Theorem C51_phantom_capillary_refuted :
  forall ext k, 0 < ext -> (0 <= k)%Z ->
  (exists x y, in_hexagon ext x y /\ dist2 x y ext 0 < pitch ext (IZR k) / 2) /\
  forall x y, in_hexagon ext x y -> dist2 x y ext 0 < pitch ext (IZR k) / 2 ->
    select_capillary ext (IZR k) x y = (IZR (k + 1), 0) /\ shell (k + 1) 0 = (k + 1)%Z.
Proof.
  intros ext k He Hk. split.
  - exists ext, 0. split.
    + apply strips_hexagon; auto. unfold strips. pose proof s3_pos. rewrite Rabs_R0.
      replace (sqrt 3 / 2 * ext + / 2 * 0) with (ext * (sqrt 3 / 2)) by ring.
      replace (sqrt 3 / 2 * ext - / 2 * 0) with (ext * (sqrt 3 / 2)) by ring.
      rewrite Rabs_pos_eq by nra. nra.
    + unfold dist2, len2. replace ((ext - ext) * (ext - ext) + (0 - 0) * (0 - 0)) with 0 by ring. rewrite sqrt_0.
      pose proof (pitch_pos ext k He Hk). lra.
  - intros x y Hh Hd. split; [now apply select_phantom | unfold shell; lia].
Qed.

(** C50, part: NaN exterior radii pass the validation (binary64, any libm). *)
Theorem C50_nan_profile_validated_refuted :
  forall (lm : libm) (p : profile float) (n_cap : Z),
    length (p_z p) = S (p_nmax p) -> length (p_cap p) = S (p_nmax p) -> length (p_ext p) = S (p_nmax p) ->
    (forall e, In e (p_ext p) -> PrimFloat.eqb e e = false) ->
    @profile_validate float (FNum lm) p n_cap = Some 1%Z.
Proof.
  intros lm p n_cap H1 H2 H3 Hn. apply (validate_nan lm); auto.
  intros e He. unfold is_nan. now rewrite Hn.
Qed.

(** *** The hypotheses are met: a two-shell optic (19 capillaries, even), pitch 1/3. *)
Definition fine : profile R := mkProfile 1 [0; 1] [0.1; 0.05] [1; 0.5].
Example fine_ok : profile_wf fine /\ n_shells 19 = IZR 2 /\
  (forall i, (i <= p_nmax fine)%nat ->
     0 < ext_at fine i /\ 0 < cap_at fine i /\ 2 * cap_at fine i <= pitch (ext_at fine i) (IZR 2)) /\
  profile_validate fine 19 = Some 1%Z.
Proof.
  assert (A : profile_wf fine) by (repeat split).
  assert (B : n_shells 19 = IZR 2) by (apply n_shells_char; lia).
  assert (C : forall i, (i <= p_nmax fine)%nat ->
     0 < ext_at fine i /\ 0 < cap_at fine i /\ 2 * cap_at fine i <= pitch (ext_at fine i) (IZR 2)).
  { intros i Hi. unfold pitch. destruct i as [|[|i]]; cbn in *; try lra; lia. }
  repeat split; auto; try (apply C; auto).
  apply (C98_separated_capillaries fine 19 2); auto; lia.
Qed.

Print Assumptions C10_ring_walk_complete.
Print Assumptions C11_validate_meaning.
Print Assumptions C11_validate_mono.
Print Assumptions C11_validate_range.
Print Assumptions C11_validate_bad_exterior.
Print Assumptions C11_validate_closed_form.
Print Assumptions C85_inner_capillaries_inside.
Print Assumptions C85_even_shells.
Print Assumptions C12_odd_shells_refuted.
Print Assumptions C13_boundary_is_hexagon.
Print Assumptions C13_region_shape.
Print Assumptions C13_contains_inscribed_disc.
Print Assumptions C14_shell_count.
Print Assumptions C14_comment_refuted.
Print Assumptions C88_open_area.
Print Assumptions C88_open_area_bound.
Print Assumptions C18_bound_refuted.
Print Assumptions C32_nearest_capillary.
Print Assumptions C50_nan_profile_validated_refuted.
Print Assumptions C51_phantom_capillary_refuted.
Print Assumptions C52_no_overlap_refuted.
Print Assumptions C98_separated_capillaries.
