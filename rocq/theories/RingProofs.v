(** * The walk over the outer shell and the meaning of profile validation, over the reals *)
From Coq Require Import ZArith List Bool Lia Reals Lra Psatz FinFun.
From Verif Require Import Num Geometry SpecGeom HexProofs.
Import ListNotations.
Local Open Scope R_scope.

Definition cellR (c : Z * Z) : R * R := (IZR (fst c), IZR (snd c)).

(** ** Integer version of the walk *)
Definition zside (n : nat) (d c : Z * Z) : list (Z * Z) :=
  map (fun i => (fst c + Z.of_nat i * fst d, snd c + Z.of_nat i * snd d)%Z) (seq 1 n).

Lemma ring_side_Z : forall n d q r,
  ring_side n d (IZR q) (IZR r) =
  (map cellR (zside n d (q, r)),
   cellR (q + Z.of_nat n * fst d, r + Z.of_nat n * snd d)%Z).
Proof.
  induction n; intros d q r; cbn [ring_side].
  - unfold zside, cellR; simpl. rewrite !Z.add_0_r. reflexivity.
  - rnum. rewrite <- !plus_IZR. rewrite IHn. cbn beta iota.
    assert (E1 : zside (S n) d (q, r) = (q + fst d, r + snd d)%Z :: zside n d (q + fst d, r + snd d)%Z).
    { unfold zside. cbn [seq map fst snd]. rewrite <- seq_shift, map_map. f_equal; [f_equal; lia|].
      apply map_ext. intros a. f_equal; lia. }
    rewrite E1. cbn [map]. unfold cellR at 3. cbn [fst snd].
    replace (q + fst d + Z.of_nat n * fst d)%Z with (q + Z.of_nat (S n) * fst d)%Z by lia.
    replace (r + snd d + Z.of_nat n * snd d)%Z with (r + Z.of_nat (S n) * snd d)%Z by lia.
    reflexivity.
Qed.

Fixpoint zwalk (dirs : list (Z * Z)) (n : nat) (c : Z * Z) : list (Z * Z) :=
  match dirs with
  | [] => []
  | d :: ds => zside n d c ++ zwalk ds n (fst c + Z.of_nat n * fst d, snd c + Z.of_nat n * snd d)%Z
  end.

Lemma ring_walk_Z : forall dirs n q r,
  ring_walk dirs n (IZR q) (IZR r) = map cellR (zwalk dirs n (q, r)).
Proof.
  induction dirs as [|d ds IH]; intros; cbn [ring_walk zwalk]; auto.
  rewrite ring_side_Z. cbn [fst snd]. rewrite map_app, <- IH. reflexivity.
Qed.

Lemma R_trunc_Z z : R_trunc (IZR z) = z.
Proof.
  unfold R_trunc. destruct (Rle_dec 0 (IZR z)).
  - apply Int_part_unique. lra.
  - rewrite (Int_part_unique _ (- z)); [lia|]. rewrite opp_IZR. lra.
Qed.

Definition zring (k : nat) : list (Z * Z) := zwalk ring_dirs k (- Z.of_nat k, Z.of_nat k)%Z.

Lemma ring_cells_Z (k : nat) : ring_cells (IZR (Z.of_nat k)) = map cellR (zring k).
Proof.
  unfold ring_cells, shells_nat. rnum. rewrite R_trunc_Z, Nat2Z.id.
  replace (- (1) * IZR (Z.of_nat k)) with (IZR (- Z.of_nat k)) by (rewrite opp_IZR; ring).
  apply ring_walk_Z.
Qed.

Lemma in_zside n d c x : In x (zside n d c) <->
  exists i, (1 <= i <= Z.of_nat n)%Z /\ x = (fst c + i * fst d, snd c + i * snd d)%Z.
Proof.
  unfold zside. rewrite in_map_iff. split.
  - intros (i & <- & Hi). apply in_seq in Hi. exists (Z.of_nat i). split; [lia|reflexivity].
  - intros (i & Hi & ->). exists (Z.to_nat i). split; [|apply in_seq; lia]. rewrite Z2Nat.id by lia. reflexivity.
Qed.

Lemma zside_length n d c : length (zside n d c) = n.
Proof. unfold zside. now rewrite map_length, seq_length. Qed.

Lemma zring_length k : length (zring k) = (6 * k)%nat.
Proof. unfold zring. cbn [zwalk ring_dirs]. rewrite !app_length, !zside_length. cbn [length]. lia. Qed.

Lemma shell_cases n q r : (0 <= n)%Z -> shell q r = n <->
  ((-n <= q <= n /\ -n <= r <= n /\ -n <= q + r <= n) /\
   (q = n \/ q = -n \/ r = n \/ r = -n \/ q + r = n \/ q + r = -n))%Z.
Proof. unfold shell. lia. Qed.

Lemma shell_sides n q r : (1 <= n)%Z -> shell q r = n ->
  ((r = n /\ -n < q <= 0) \/ (q + r = n /\ 0 < q <= n) \/ (q = n /\ -n <= r < 0)
      \/ (r = -n /\ 0 <= q < n) \/ (q + r = -n /\ -n <= q < 0) \/ (q = - n /\ 0 < r <= n))%Z.
Proof. intros Hn H. apply shell_cases in H; lia. Qed.

Lemma zring_in k q r : In (q, r) (zring k) <-> (1 <= k)%nat /\ shell q r = Z.of_nat k.
Proof.
  unfold zring. cbn [zwalk ring_dirs fst snd]. rewrite !in_app_iff, !in_zside. cbn [fst snd In].
  split.
  - intros H. assert (K : exists i, (1 <= i <= Z.of_nat k)%Z) by (repeat destruct H as [H | H]; try contradiction; destruct H as (i & Hi & _); eauto).
    split; [destruct K; lia|]. apply shell_cases; [lia|].
    repeat destruct H as [H | H]; try contradiction;
      destruct H as (i & Hi & E); injection E; intros -> ->; clear E; lia.
  - intros (Hk & Hs). apply shell_sides in Hs; [|lia]. set (n := Z.of_nat k) in *. clearbody n.
    destruct Hs as [C|[C|[C|[C|[C|C]]]]].
    + left. exists (q + n)%Z. split; [lia | f_equal; lia].
    + right; left. exists q. split; [lia | f_equal; lia].
    + do 2 right; left. exists (- r)%Z. split; [lia | f_equal; lia].
    + do 3 right; left. exists (n - q)%Z. split; [lia | f_equal; lia].
    + do 4 right; left. exists (- q)%Z. split; [lia | f_equal; lia].
    + do 5 right; left. exists r. split; [lia | f_equal; lia].
Qed.

Lemma NoDup_app_disj {A} (l1 l2 : list A) :
  NoDup l1 -> NoDup l2 -> (forall x, In x l1 -> In x l2 -> False) -> NoDup (l1 ++ l2).
Proof.
  induction l1; cbn; auto. intros H1 H2 D. inversion H1; subst. constructor.
  - rewrite in_app_iff. intros [?|?]; [contradiction|]. eapply D; eauto.
  - apply IHl1; auto. intros; eapply D; eauto.
Qed.

Lemma zside_nodup n d c : d <> (0, 0)%Z -> NoDup (zside n d c).
Proof.
  intros Hd. unfold zside. apply Injective_map_NoDup; [| apply seq_NoDup].
  intros i j E. injection E; intros E2 E1. destruct d as [a b]. cbn [fst snd] in *.
  destruct (Z.eq_dec a 0); [destruct (Z.eq_dec b 0); [subst; congruence|]|]; nia.
Qed.

Lemma zring_nodup k : NoDup (zring k).
Proof.
  unfold zring. cbn [zwalk ring_dirs fst snd].
  repeat (apply NoDup_app_disj; [apply zside_nodup; discriminate | |
    intros [q r]; rewrite !in_app_iff, !in_zside; cbn [fst snd In];
    intros (i & Hi & E) H; injection E; intros; subst;
    repeat destruct H as [H | H]; try contradiction;
    destruct H as (j & Hj & E'); injection E'; intros; lia]).
  rewrite app_nil_r. apply zside_nodup; discriminate.
Qed.

(** C10 *)
Lemma ring_complete (n_cap k : Z) : (1 <= n_cap)%Z -> n_shells n_cap = IZR k -> (1 <= k)%Z ->
  exists l : list (Z * Z),
    ring_cells (n_shells n_cap) = map (fun c => (IZR (fst c), IZR (snd c))) l /\
    NoDup l /\ Z.of_nat (length l) = (6 * k)%Z /\
    (forall q r, In (q, r) l <-> shell q r = k).
Proof.
  intros Hn E Hk. rewrite E. exists (zring (Z.to_nat k)).
  rewrite <- (Z2Nat.id k) at 1 by lia. rewrite ring_cells_Z. repeat split.
  - apply zring_nodup.
  - rewrite zring_length. lia.
  - rewrite zring_in. rewrite Z2Nat.id by lia. intros [_ ?]; auto.
  - intros. apply zring_in. rewrite Z2Nat.id by lia. split; auto. lia.
Qed.

(** ** Axes *)
Lemma pi3 : cos (PI / 3) = / 2 /\ sin (PI / 3) = sqrt 3 / 2.
Proof. rewrite cos_PI3, sin_PI3. split; lra. Qed.

Lemma cap_axis_eq rad n q r :
  cap_axis rad n q r = (pitch rad n * (IZR q + IZR r / 2), pitch rad n * (IZR r * (sqrt 3 / 2))).
Proof. unfold cap_axis. destruct pi3 as [-> ->]. reflexivity. Qed.

Lemma axis_model rad n q r : 0 <= n ->
  (axis_x (IZR q) (IZR r) (hex_unit rad n), axis_y (IZR r) (hex_unit rad n)) = cap_axis rad n q r.
Proof.
  intros Hn. rewrite cap_axis_eq. unfold axis_x, axis_y, hex_unit, pitch. rnum.
  pose proof s3_pos. pose proof s3_sq. f_equal.
  - field. split; lra.
  - apply Rmult_eq_reg_r with (sqrt 3); [|lra]. 
    replace (rad / (n + 1) * (IZR r * (sqrt 3 / 2)) * sqrt 3) with (rad / (n + 1) * (IZR r * ((sqrt 3 * sqrt 3) / 2))) by (field; lra).
    rewrite s3_sq. field. split; lra.
Qed.

(** strips of a scaled axis *)
Lemma strips_axis rad n q r t : 0 < rad -> 0 <= n -> 0 <= t ->
  strips rad (t * fst (cap_axis rad n q r)) (t * snd (cap_axis rad n q r)) <-> t * IZR (shell q r) <= n + 1.
Proof.
  intros Hr Hn Ht. rewrite cap_axis_eq. cbn [fst snd]. unfold strips.
  assert (Hp : 0 < pitch rad n) by (unfold pitch; apply Rdiv_lt_0_compat; lra).
  assert (Er : rad = pitch rad n * (n + 1)) by (unfold pitch; field; lra).
  assert (Ed : rad * (sqrt 3 / 2) = pitch rad n * (n + 1) * (sqrt 3 / 2)) by (rewrite <- Er; reflexivity).
  rewrite Ed. clear Ed. set (p := pitch rad n) in *. clearbody p.
  pose proof s3_pos as P3. set (s := sqrt 3) in *. clearbody s.
  replace (s / 2 * (t * (p * (IZR q + IZR r / 2))) + / 2 * (t * (p * (IZR r * (s / 2)))))
    with (p * (s / 2) * (t * IZR (q + r))) by (rewrite plus_IZR; field).
  replace (s / 2 * (t * (p * (IZR q + IZR r / 2))) - / 2 * (t * (p * (IZR r * (s / 2)))))
    with (p * (s / 2) * (t * IZR q)) by field.
  replace (t * (p * (IZR r * (s / 2)))) with (p * (s / 2) * (t * IZR r)) by field.
  replace (p * (n + 1) * (s / 2)) with (p * (s / 2) * (n + 1)) by field.
  assert (PS : 0 < p * (s / 2)) by nra. set (ps := p * (s / 2)) in *. clearbody ps.
  assert (A : forall z, Rabs (ps * (t * IZR z)) <= ps * (n + 1) <-> t * IZR (Z.abs z) <= n + 1).
  { intros z. rewrite !Rabs_mult, (Rabs_pos_eq ps), (Rabs_pos_eq t), <- abs_IZR by lra.
    split; intros; [apply Rmult_le_reg_l with ps | apply Rmult_le_compat_l]; lra. }
  rewrite !A. unfold shell. split.
  - intros (H1 & H2 & H3).
    destruct (Z.max_spec (Z.abs q) (Z.max (Z.abs r) (Z.abs (q + r)))) as [[_ ->]|[_ ->]]; auto.
    destruct (Z.max_spec (Z.abs r) (Z.abs (q + r))) as [[_ ->]|[_ ->]]; auto.
  - intros H.
    assert (M : forall z, (z <= Z.max (Z.abs q) (Z.max (Z.abs r) (Z.abs (q + r))))%Z -> t * IZR z <= n + 1).
    { intros z Hz. eapply Rle_trans; [|exact H]. apply Rmult_le_compat_l; auto. now apply IZR_le. }
    repeat split; apply M; lia.
Qed.

Definition norm2 (q r : Z) : Z := (q * q + q * r + r * r)%Z.

Lemma axis_len rad n q r : 0 < rad -> 0 <= n ->
  len2 (fst (cap_axis rad n q r)) (snd (cap_axis rad n q r)) = pitch rad n * sqrt (IZR (norm2 q r)).
Proof.
  intros Hr Hn. rewrite cap_axis_eq. cbn [fst snd]. unfold len2.
  assert (Hp : 0 < pitch rad n) by (unfold pitch; apply Rdiv_lt_0_compat; lra).
  set (p := pitch rad n) in *. clearbody p.
  assert (N : 0 <= IZR (norm2 q r)) by (apply IZR_le; unfold norm2; nia).
  apply sqrt_unique.
  - apply Rmult_le_pos; [lra | apply sqrt_pos].
  - replace (p * sqrt (IZR (norm2 q r)) * (p * sqrt (IZR (norm2 q r))))
      with (p * p * (sqrt (IZR (norm2 q r)) * sqrt (IZR (norm2 q r)))) by ring.
    rewrite sqrt_sqrt by auto. unfold norm2. rewrite !plus_IZR, !mult_IZR.
    replace (p * (IZR r * (sqrt 3 / 2)) * (p * (IZR r * (sqrt 3 / 2))))
      with (p * p * (IZR r * IZR r) * (sqrt 3 * sqrt 3) / 4) by field.
    rewrite s3_sq. field.
Qed.

Lemma norm2_pos q r : (1 <= shell q r)%Z -> (0 < norm2 q r)%Z.
Proof. unfold shell, norm2. intros. nia. Qed.

Lemma axis_len_pos rad n q r : 0 < rad -> 0 <= n -> (1 <= shell q r)%Z ->
  0 < len2 (fst (cap_axis rad n q r)) (snd (cap_axis rad n q r)).
Proof.
  intros Hr Hn Hs. rewrite axis_len by auto.
  assert (Hp : 0 < pitch rad n) by (unfold pitch; apply Rdiv_lt_0_compat; lra).
  apply Rmult_lt_0_compat; auto. apply sqrt_lt_R0. apply (IZR_lt 0). now apply norm2_pos.
Qed.

(** ** The direction used by the code *)
Lemma len2_sq x y : len2 x y * len2 x y = x * x + y * y.
Proof. unfold len2. apply sqrt_sqrt. nra. Qed.
Lemma len2_pos x y : 0 <= len2 x y.
Proof. apply sqrt_pos. Qed.

Lemma cos_atan_pos u : 0 < cos (atan u).
Proof. pose proof (atan_bound u). apply cos_gt_0; lra. Qed.

Lemma cos_sin_atan x y : 0 < x ->
  cos (atan (y / x)) = x / len2 x y /\ sin (atan (y / x)) = y / len2 x y.
Proof.
  intros Hx. set (a := atan (y / x)).
  pose proof (cos_atan_pos (y / x)) as Hc. fold a in Hc.
  assert (Ht : tan a = y / x) by (unfold a; apply tan_atan).
  assert (Hs : sin a = cos a * (y / x)). { rewrite <- Ht. unfold tan. field. lra. }
  pose proof (sin2_cos2 a) as SC. unfold Rsqr in SC. rewrite Hs in SC.
  assert (L : 0 < len2 x y). { unfold len2. apply sqrt_lt_R0. nra. }
  pose proof (len2_sq x y) as LS.
  assert (C2 : cos a * cos a * (len2 x y * len2 x y) = x * x).
  { rewrite LS. transitivity (x * x * (cos a * (y / x) * (cos a * (y / x)) + cos a * cos a)); [field; lra | rewrite SC; ring]. }
  assert (C : cos a = x / len2 x y).
  { assert (E : cos a * len2 x y = x).
    { assert (P : 0 < cos a * len2 x y) by nra.
      assert (Q : (cos a * len2 x y - x) * (cos a * len2 x y + x) = 0) by nra.
      apply Rmult_integral in Q. destruct Q; lra. }
    rewrite <- E at 1. field. lra. }
  split; auto. rewrite Hs, C. field. lra.
Qed.

Lemma dir_pos x y : 0 < x \/ (x = 0 /\ y <> 0) ->
  cos (R_atandiv y x) = x / len2 x y /\ sin (R_atandiv y x) = y / len2 x y.
Proof.
  unfold R_atandiv. intros [H | [-> Hy]].
  - destruct (Req_EM_T x 0); [lra|]. now apply cos_sin_atan.
  - destruct (Req_EM_T 0 0); [|lra]. unfold len2. replace (0 * 0 + y * y) with (y * y) by ring.
    destruct (Rlt_dec 0 y); [| destruct (Rlt_dec y 0); [|lra]].
    + rewrite sqrt_square by lra. rewrite cos_PI2, sin_PI2. split; field; lra.
    + replace (y * y) with (- y * - y) by ring. rewrite sqrt_square by lra.
      rewrite cos_neg, sin_neg, cos_PI2, sin_PI2. split; field; lra.
Qed.

Lemma len2_opp x y : len2 (- x) (- y) = len2 x y.
Proof. unfold len2. f_equal. ring. Qed.

Lemma dir_neg x y : x < 0 ->
  cos (R_atandiv y x) = - (x / len2 x y) /\ sin (R_atandiv y x) = - (y / len2 x y).
Proof.
  intros H. unfold R_atandiv. destruct (Req_EM_T x 0); [lra|].
  replace (y / x) with (- y / - x) by (field; lra).
  assert (L : 0 < len2 x y). { unfold len2. apply sqrt_lt_R0. nra. }
  destruct (cos_sin_atan (- x) (- y)) as [-> ->]; [lra|]. rewrite len2_opp. split; field; lra.
Qed.

(** Outermost point of a capillary of radius c around axis (x,y): the point of the
    circle furthest from the optic axis. *)
Definition out_pt (c x y : R) : R * R := (x + c * (x / len2 x y), y + c * (y / len2 x y)).

Lemma out_pt_scaled c x y : 0 < len2 x y ->
  out_pt c x y = ((1 + c / len2 x y) * x, (1 + c / len2 x y) * y).
Proof. intros. unfold out_pt. f_equal; field; lra. Qed.

Lemma shell_opp q r : shell (- q) (- r) = shell q r.
Proof. unfold shell. lia. Qed.

Lemma cap_axis_opp rad n q r :
  cap_axis rad n (- q) (- r) = (- fst (cap_axis rad n q r), - snd (cap_axis rad n q r)).
Proof. rewrite !cap_axis_eq. cbn [fst snd]. rewrite !opp_IZR. f_equal; field. Qed.

Lemma out_pt_opp c x y : out_pt c (- x) (- y) = (- fst (out_pt c x y), - snd (out_pt c x y)).
Proof. unfold out_pt. cbn [fst snd]. rewrite len2_opp. f_equal; unfold Rdiv; ring. Qed.

(** What the code tests at one cell *)
Lemma outer_point_cases rad c z n q r : 0 < rad -> 0 <= n -> (1 <= shell q r)%Z ->
  let x := fst (cap_axis rad n q r) in let y := snd (cap_axis rad n q r) in
  let p := outer_point rad c z n (IZR q, IZR r) in
  (0 <= x -> (vx p, vy p) = out_pt c x y) /\
  (x < 0 -> (vx p, vy p) = out_pt (- c) x y).
Proof.
  intros Hr Hn Hs x y p.
  pose proof (axis_model rad n q r Hn) as E.
  pose proof (axis_len_pos rad n q r Hr Hn Hs) as L. fold x y in L.
  assert (Ex : axis_x (IZR q) (IZR r) (hex_unit rad n) = x) by (unfold x; rewrite <- E; reflexivity).
  assert (Ey : axis_y (IZR r) (hex_unit rad n) = y) by (unfold y; rewrite <- E; reflexivity).
  unfold p, outer_point. cbn [fst snd vx vy]. rewrite Ex, Ey. rnum.
  split; intros Hx.
  - destruct (dir_pos x y) as [-> ->].
    { destruct (Rle_lt_or_eq_dec _ _ Hx) as [|Ez]; [left; auto | right; split; auto].
      intros Ey0. rewrite <- Ez, Ey0 in L. unfold len2 in L. replace (0*0+0*0) with 0 in L by ring.
      rewrite sqrt_0 in L. lra. }
    unfold out_pt. f_equal; ring.
  - destruct (dir_neg x y Hx) as [-> ->]. unfold out_pt. f_equal; ring.
Qed.

Lemma strips_inner c x y rad : 0 < c -> 0 < len2 x y ->
  strips rad (fst (out_pt c x y)) (snd (out_pt c x y)) ->
  strips rad (fst (out_pt (- c) x y)) (snd (out_pt (- c) x y)).
Proof.
  intros Hc L H. rewrite out_pt_scaled in * by auto. cbn [fst snd] in *.
  set (a := c / len2 x y) in *. assert (Ha : 0 < a) by (apply Rdiv_lt_0_compat; auto).
  replace (- c / len2 x y) with (- a) by (unfold a; field; lra). clearbody a.
  (* (1 - a) = t (1 + a) + (1 - t) (-(1 + a)) with t = 1/(1+a) *)
  set (t := / (1 + a)).
  assert (Ht : 0 <= t <= 1).
  { unfold t. split; [left; apply Rinv_0_lt_compat; lra|]. rewrite <- Rinv_1. apply Rinv_le_contravar; lra. }
  pose proof (strips_convex _ _ _ _ _ t H (strips_opp _ _ _ H) Ht) as S.
  assert (E : t * (1 + a) = 1) by (unfold t; field; lra).
  replace ((1 + - a) * x) with (t * ((1 + a) * x) + (1 - t) * - ((1 + a) * x)).
  - replace ((1 + - a) * y) with (t * ((1 + a) * y) + (1 - t) * - ((1 + a) * y)); auto.
    transitivity (2 * (t * (1 + a)) * y - (1 + a) * y); [ring | rewrite E; ring].
  - transitivity (2 * (t * (1 + a)) * x - (1 + a) * x); [ring | rewrite E; ring].
Qed.

(** ** first_bad *)
Lemma first_bad_1 {A} (f : A -> Z) l : first_bad f l = 1%Z <-> Forall (fun a => f a = 1%Z) l.
Proof.
  induction l; cbn; [split; auto; constructor|]. destruct (Z.eqb_spec (f a) 1).
  - rewrite IHl. split; intros; [constructor; auto | now inversion H].
  - split; [congruence|]. intros H; inversion H; congruence.
Qed.

Lemma first_bad_ex {A} (f : A -> Z) l :
  first_bad f l = 1%Z \/ exists a, In a l /\ f a <> 1%Z /\ first_bad f l = f a.
Proof.
  induction l; cbn; auto. destruct (Z.eqb_spec (f a) 1).
  - destruct IHl as [|(b & ? & ? & ?)]; auto. right. exists b. auto.
  - right. exists a. auto.
Qed.

(** ** Points of a profile *)
Lemma in_points : forall (e c z : list R) x,
  In x (points e c z) <->
  exists i, (i < length e /\ i < length c /\ i < length z)%nat /\ x = (nth i e 0, nth i c 0, nth i z 0).
Proof.
  induction e as [|e0 e IH]; intros c z x.
  - cbn. split; [tauto | intros (i & ? & _); lia].
  - destruct c as [|c0 c]; [|destruct z as [|z0 z]].
    + cbn. split; [tauto | intros (i & ? & _); lia].
    + cbn. split; [tauto | intros (i & ? & _); lia].
    + cbn [points In]. rewrite IH. split.
      * intros [<- | (i & Hi & ->)]; [exists 0%nat; cbn; split; [lia|auto] | exists (S i); cbn; split; [lia|auto]].
      * intros ([|i] & Hi & ->); cbn in *; [left; auto | right; exists i; split; [lia|auto]].
Qed.

Lemma nth_firstn {A} (d : A) : forall l m i, (i < m)%nat -> nth i (firstn m l) d = nth i l d.
Proof.
  induction l; intros m i H; [now rewrite firstn_nil|].
  destruct m; [lia|]. destruct i; cbn; auto. apply IHl; lia.
Qed.

(** [profile_wf]: the arrays have one entry for each of the nmax+1 points. *)
Definition profile_wf (p : profile R) : Prop :=
  length (p_z p) = S (p_nmax p) /\ length (p_cap p) = S (p_nmax p) /\ length (p_ext p) = S (p_nmax p).

Definition ext_at (p : profile R) i := nth i (p_ext p) 0.
Definition cap_at (p : profile R) i := nth i (p_cap p) 0.
Definition z_at (p : profile R) i := nth i (p_z p) 0.

Lemma profile_points p x : profile_wf p ->
  let m := S (p_nmax p) in
  In x (points (firstn m (p_ext p)) (firstn m (p_cap p)) (firstn m (p_z p))) <->
  exists i, (i <= p_nmax p)%nat /\ x = (ext_at p i, cap_at p i, z_at p i).
Proof.
  intros (H1 & H2 & H3) m. rewrite in_points, !firstn_length, H1, H2, H3. unfold m. rewrite Nat.min_id.
  split; intros (i & Hi & ->); exists i; (split; [lia|]); unfold ext_at, cap_at, z_at;
    rewrite !nth_firstn by lia; reflexivity.
Qed.

Lemma validate_unfold p n_cap : profile_wf p ->
  let m := S (p_nmax p) in
  let pts := points (firstn m (p_ext p)) (firstn m (p_cap p)) (firstn m (p_z p)) in
  profile_validate p n_cap = Some (
    if Reqb (n_shells n_cap) 0 then first_bad (fun '(e, c, _) => if Rleb e c then 0%Z else 1%Z) pts
    else first_bad
        (fun qr => first_bad (fun '(e, c, z) => within_pc_boundary e (outer_point e c z (n_shells n_cap) qr)) pts)
        (ring_cells (n_shells n_cap))).
Proof.
  intros (H1 & H2 & H3) m pts. unfold profile_validate. rewrite H1, H2, H3, Nat.leb_refl. cbn [andb].
  fold m. fold pts. rnum. destruct (Reqb (n_shells n_cap) 0); reflexivity.
Qed.

(** Mono-capillary case *)
Lemma validate_mono p n_cap : profile_wf p -> n_shells n_cap = 0 ->
  profile_validate p n_cap = Some (1%Z) <-> (forall i, (i <= p_nmax p)%nat -> cap_at p i < ext_at p i).
Proof.
  intros W E. rewrite validate_unfold by auto. rewrite Reqb_true by auto. split.
  - intros H i Hi. injection H; intros H1. apply first_bad_1 in H1. rewrite Forall_forall in H1.
    specialize (H1 (ext_at p i, cap_at p i, z_at p i)).
    cbn beta iota in H1.
    destruct (Rleb_spec (ext_at p i) (cap_at p i)); [|lra].
    exfalso. assert (0 = 1)%Z; [apply H1; apply profile_points; eauto | discriminate].
  - intros H. f_equal. apply first_bad_1. apply Forall_forall. intros x Hx.
    apply profile_points in Hx; auto. destruct Hx as (i & Hi & ->). specialize (H i Hi).
    now rewrite Rleb_false.
Qed.

(** Poly-capillary case *)
Lemma validate_poly_iff_code p n_cap k : profile_wf p -> (1 <= n_cap)%Z -> (1 <= k)%Z -> n_shells n_cap = IZR k ->
  profile_validate p n_cap = Some 1%Z <->
  (forall i q r, (i <= p_nmax p)%nat -> shell q r = k ->
    within_pc_boundary (ext_at p i) (outer_point (ext_at p i) (cap_at p i) (z_at p i) (IZR k) (IZR q, IZR r)) = 1%Z).
Proof.
  intros W Hn Hk E. rewrite validate_unfold by auto.
  destruct (ring_complete n_cap k Hn E Hk) as (l & El & _ & _ & Il).
  rewrite E in *. rewrite Reqb_false by (apply not_0_IZR; lia).
  rewrite El. split.
  - intros H i q r Hi Hs. injection H; intros H1. apply first_bad_1 in H1.
    rewrite Forall_forall in H1. specialize (H1 (IZR q, IZR r)).
    assert (H2 : first_bad (fun '(e, c, z) => within_pc_boundary e (outer_point e c z (IZR k) (IZR q, IZR r)))
      (points (firstn (S (p_nmax p)) (p_ext p)) (firstn (S (p_nmax p)) (p_cap p)) (firstn (S (p_nmax p)) (p_z p))) = 1%Z).
    { apply H1. apply in_map_iff. exists (q, r). split; auto. now apply Il. }
    apply first_bad_1 in H2. rewrite Forall_forall in H2.
    apply (H2 (ext_at p i, cap_at p i, z_at p i)). apply profile_points; eauto.
  - intros H. f_equal. apply first_bad_1. apply Forall_forall. intros x Hx.
    apply in_map_iff in Hx. destruct Hx as ((q & r) & <- & Hqr). apply Il in Hqr. cbn [fst snd].
    apply first_bad_1. apply Forall_forall. intros x Hx. apply profile_points in Hx; auto.
    destruct Hx as (i & Hi & ->). now apply H.
Qed.

(** outermost points *)
Definition outermost_inside (p : profile R) (k : Z) (i : nat) : Prop :=
  forall q r, shell q r = k ->
    let x := fst (cap_axis (ext_at p i) (IZR k) q r) in
    let y := snd (cap_axis (ext_at p i) (IZR k) q r) in
    in_hexagon (ext_at p i) (x + cap_at p i * (x / len2 x y)) (y + cap_at p i * (y / len2 x y)).

Lemma validate_poly p n_cap k : profile_wf p -> (1 <= n_cap)%Z -> (1 <= k)%Z -> n_shells n_cap = IZR k ->
  (forall i, (i <= p_nmax p)%nat -> 0 < ext_at p i /\ 0 < cap_at p i) ->
  profile_validate p n_cap = Some 1%Z <-> (forall i, (i <= p_nmax p)%nat -> outermost_inside p k i).
Proof.
  intros W Hn Hk E Pos. rewrite (validate_poly_iff_code p n_cap k) by auto.
  assert (Pk : 0 <= IZR k) by (apply IZR_le; lia).
  unfold outermost_inside. split.
  - intros H i Hi q r Hs. cbv zeta. set (x := fst (cap_axis (ext_at p i) (IZR k) q r)). set (y := snd (cap_axis (ext_at p i) (IZR k) q r)). destruct (Pos i Hi) as (Pe & Pc).
    apply strips_hexagon; auto.
    change (strips (ext_at p i) (fst (out_pt (cap_at p i) x y)) (snd (out_pt (cap_at p i) x y))).
    destruct (Rle_dec 0 x) as [Px | Nx].
    + pose proof (H i q r Hi Hs) as Hw. apply within_hexagon in Hw; auto. apply strips_hexagon in Hw; auto.
      destruct (outer_point_cases (ext_at p i) (cap_at p i) (z_at p i) (IZR k) q r Pe Pk ltac:(lia)) as [O _].
      specialize (O Px). fold x y in O. rewrite <- O. exact Hw.
    + pose proof (H i (- q)%Z (- r)%Z Hi ltac:(now rewrite shell_opp)) as Hw.
      apply within_hexagon in Hw; auto. apply strips_hexagon in Hw; auto.
      destruct (outer_point_cases (ext_at p i) (cap_at p i) (z_at p i) (IZR k) (-q) (-r) Pe Pk ltac:(rewrite shell_opp; lia)) as [O _].
      rewrite cap_axis_opp in O. cbn [fst snd] in O. fold x y in O. specialize (O ltac:(lra)).
      rewrite out_pt_opp in O. pose proof (f_equal fst O) as O1; pose proof (f_equal snd O) as O2. cbn [fst snd] in O1, O2. rewrite O1, O2 in Hw.
      apply strips_opp in Hw. now rewrite !Ropp_involutive in Hw.
  - intros H i q r Hi Hs. destruct (Pos i Hi) as (Pe & Pc).
    apply within_hexagon; auto. apply strips_hexagon; auto.
    specialize (H i Hi q r Hs). cbv zeta in H. apply strips_hexagon in H; auto.
    destruct (outer_point_cases (ext_at p i) (cap_at p i) (z_at p i) (IZR k) q r Pe Pk ltac:(lia)) as [O1 O2].
    pose proof (axis_len_pos (ext_at p i) (IZR k) q r Pe Pk ltac:(lia)) as L.
    set (x := fst (cap_axis (ext_at p i) (IZR k) q r)) in *. set (y := snd (cap_axis (ext_at p i) (IZR k) q r)) in *.
    change (strips (ext_at p i) (fst (out_pt (cap_at p i) x y)) (snd (out_pt (cap_at p i) x y))) in H.
    destruct (Rle_dec 0 x) as [Px | Nx].
    + specialize (O1 Px). pose proof (f_equal fst O1) as E1; pose proof (f_equal snd O1) as E2. cbn [fst snd] in E1, E2. rewrite E1, E2. exact H.
    + specialize (O2 ltac:(lra)). pose proof (f_equal fst O2) as E1; pose proof (f_equal snd O2) as E2. cbn [fst snd] in E1, E2. rewrite E1, E2. now apply strips_inner.
Qed.

(** Closed form *)
Lemma norm2_lower q r k : (1 <= k)%Z -> shell q r = k -> (3 * k * k + k mod 2 <= 4 * norm2 q r)%Z.
Proof.
  intros Hk Hs. unfold norm2.
  pose proof (Z.mod_pos_bound k 2 ltac:(lia)) as B. pose proof (Z.div_mod k 2 ltac:(lia)) as D.
  set (h := (k / 2)%Z) in *. set (m := (k mod 2)%Z) in *. clearbody h m.
  assert (C : (Z.abs q = k \/ Z.abs r = k \/ Z.abs (q + r) = k)%Z) by (unfold shell in Hs; lia).
  assert (S : forall a, (a <> 0 -> 1 <= a * a)%Z) by (intros; nia).
  destruct C as [C | [C | C]].
  - assert ((q * q = k * k)%Z) by nia.
    assert (4 * (q * q + q * r + r * r) = 3 * (k * k) + (2 * r + q) * (2 * r + q))%Z by nia.
    assert (m <= (2 * r + q) * (2 * r + q))%Z.
    { destruct (Z.eq_dec m 0) as [->|]; [apply Z.square_nonneg|]. assert (2 * r + q <> 0)%Z by lia. specialize (S (2 * r + q)%Z ltac:(assumption)). lia. }
    nia.
  - assert ((r * r = k * k)%Z) by nia.
    assert (4 * (q * q + q * r + r * r) = 3 * (k * k) + (2 * q + r) * (2 * q + r))%Z by nia.
    assert (m <= (2 * q + r) * (2 * q + r))%Z.
    { destruct (Z.eq_dec m 0) as [->|]; [apply Z.square_nonneg|]. assert (2 * q + r <> 0)%Z by lia. specialize (S (2 * q + r)%Z ltac:(assumption)). lia. }
    nia.
  - assert (((q + r) * (q + r) = k * k)%Z) by nia.
    assert (4 * (q * q + q * r + r * r) = 3 * (k * k) + (q - r) * (q - r))%Z by nia.
    assert (m <= (q - r) * (q - r))%Z.
    { destruct (Z.eq_dec m 0) as [->|]; [apply Z.square_nonneg|]. assert (q - r <> 0)%Z by lia. specialize (S (q - r)%Z ltac:(assumption)). lia. }
    nia.
Qed.

Lemma norm2_attained k : (1 <= k)%Z -> exists q r, shell q r = k /\ (4 * norm2 q r = 3 * k * k + k mod 2)%Z.
Proof.
  intros Hk. exists k, (- (k / 2))%Z.
  pose proof (Z.mod_pos_bound k 2 ltac:(lia)) as B. pose proof (Z.div_mod k 2 ltac:(lia)) as D.
  set (h := (k / 2)%Z) in *. set (m := (k mod 2)%Z) in *. clearbody h m.
  split; [unfold shell; lia|]. unfold norm2. assert (m = 0 \/ m = 1)%Z as [-> | ->] by lia; nia.
Qed.

Lemma out_pt_inside_iff rad c k q r : 0 < rad -> 0 < c -> (1 <= k)%Z -> shell q r = k ->
  let x := fst (cap_axis rad (IZR k) q r) in let y := snd (cap_axis rad (IZR k) q r) in
  in_hexagon rad (x + c * (x / len2 x y)) (y + c * (y / len2 x y)) <->
  IZR k * c <= pitch rad (IZR k) * sqrt (IZR (norm2 q r)).
Proof.
  intros Hr Hc Hk Hs x y. assert (Pk : 1 <= IZR k) by (apply IZR_le; lia).
  rewrite <- strips_hexagon by auto.
  pose proof (axis_len_pos rad (IZR k) q r Hr ltac:(lra) ltac:(lia)) as L. fold x y in L.
  change (strips rad (fst (out_pt c x y)) (snd (out_pt c x y)) <-> IZR k * c <= pitch rad (IZR k) * sqrt (IZR (norm2 q r))).
  rewrite out_pt_scaled by auto. cbn [fst snd].
  assert (Pcl : 0 < c / len2 x y) by (apply Rdiv_lt_0_compat; lra).
  assert (SA : strips rad ((1 + c / len2 x y) * x) ((1 + c / len2 x y) * y) <-> (1 + c / len2 x y) * IZR k <= IZR k + 1).
  { set (t := 1 + c / len2 x y) in *. assert (0 <= t) by (unfold t; lra). clearbody t. unfold x, y. rewrite strips_axis by lra. rewrite Hs. reflexivity. }
  rewrite SA. rewrite <- axis_len by lra. fold x y.
  assert (Ec : c = c / len2 x y * len2 x y) by (field; lra).
  rewrite Ec at 2. set (a := c / len2 x y) in *. clearbody a. set (l := len2 x y) in *. clearbody l.
  split; intros H.
  - replace (IZR k * (a * l)) with ((IZR k * a) * l) by ring. rewrite <- (Rmult_1_l l) at 2. apply Rmult_le_compat_r; lra.
  - assert (IZR k * a <= 1). { apply Rmult_le_reg_r with l; lra. } lra.
Qed.

(** Closed form of the validation of one profile point *)
Definition fits (rad c : R) (k : Z) : Prop :=
  2 * IZR k * c <= pitch rad (IZR k) * sqrt (IZR (3 * k * k + k mod 2)).

Lemma outermost_fits p k i : 0 < ext_at p i -> 0 < cap_at p i -> (1 <= k)%Z ->
  outermost_inside p k i <-> fits (ext_at p i) (cap_at p i) k.
Proof.
  intros Pe Pc Hk. unfold outermost_inside, fits.
  set (rad := ext_at p i) in *. set (c := cap_at p i) in *. clearbody rad c.
  assert (Pk : 1 <= IZR k) by (apply IZR_le; lia).
  assert (Hp : 0 < pitch rad (IZR k)) by (unfold pitch; apply Rdiv_lt_0_compat; lra).
  assert (S4 : forall z, (0 <= z)%Z -> sqrt (IZR (4 * z)) = 2 * sqrt (IZR z)).
  { intros z Hz. rewrite mult_IZR, sqrt_mult; [| lra | apply IZR_le; auto]. f_equal. apply sqrt_unique; lra. }
  split.
  - intros H. destruct (norm2_attained k Hk) as (q & r & Hs & En). specialize (H q r Hs).
    apply out_pt_inside_iff in H; auto. rewrite <- En, S4 by (unfold norm2; nia). lra.
  - intros H q r Hs. apply out_pt_inside_iff; auto.
    pose proof (norm2_lower q r k Hk Hs) as Hl.
    assert (B : sqrt (IZR (3 * k * k + k mod 2)) <= sqrt (IZR (4 * norm2 q r))).
    { pose proof (Z.mod_pos_bound k 2 ltac:(lia)). apply sqrt_le_1; [apply IZR_le; nia | apply IZR_le; nia | now apply IZR_le]. }
    rewrite S4 in B by (unfold norm2; nia).
    assert (pitch rad (IZR k) * sqrt (IZR (3 * k * k + k mod 2)) <= pitch rad (IZR k) * (2 * sqrt (IZR (norm2 q r))))
      by (apply Rmult_le_compat_l; lra). lra.
Qed.

Lemma validate_closed_form p n_cap k : profile_wf p -> (1 <= n_cap)%Z -> (1 <= k)%Z -> n_shells n_cap = IZR k ->
  (forall i, (i <= p_nmax p)%nat -> 0 < ext_at p i /\ 0 < cap_at p i) ->
  profile_validate p n_cap = Some 1%Z <-> (forall i, (i <= p_nmax p)%nat -> fits (ext_at p i) (cap_at p i) k).
Proof.
  intros W Hn Hk E Pos. rewrite (validate_poly p n_cap k) by auto.
  split; intros H i Hi; destruct (Pos i Hi); apply outermost_fits; auto.
Qed.

(** Non-positive exterior radius: never 1, and the return value is always 1, 0 or -1. *)
Lemma validate_range p n_cap : profile_wf p ->
  profile_validate p n_cap = Some 1%Z \/ profile_validate p n_cap = Some 0%Z \/ profile_validate p n_cap = Some (-1)%Z.
Proof.
  intros W. rewrite validate_unfold by auto. destruct (Reqb (n_shells n_cap) 0).
  - match goal with |- context [first_bad ?f ?l] => destruct (first_bad_ex f l) as [-> | (((e & c) & z) & _ & _ & ->)] end; auto.
    destruct (Rleb e c); auto.
  - match goal with |- context [first_bad ?f ?l] => destruct (first_bad_ex f l) as [-> | (qr & _ & _ & ->)] end; auto.
    match goal with |- context [first_bad ?f ?l] => destruct (first_bad_ex f l) as [-> | (((e & c) & z) & _ & _ & ->)] end; auto.
    destruct (within_cases e (outer_point e c z (n_shells n_cap) qr)) as [-> | [-> | ->]]; auto.
Qed.

Lemma validate_bad_ext p n_cap : profile_wf p -> (1 <= n_cap)%Z ->
  (exists i, (i <= p_nmax p)%nat /\ ext_at p i <= 0) ->
  (forall i, (i <= p_nmax p)%nat -> 0 < cap_at p i) ->
  profile_validate p n_cap <> Some 1%Z.
Proof.
  intros W Hn (i & Hi & He) Pc H.
  destruct (n_shells_ex n_cap Hn) as (k & Pk & Ek).
  destruct (Z.eq_dec k 0) as [-> | Nk].
  - rewrite (validate_mono p n_cap W Ek) in H. specialize (H i Hi). specialize (Pc i Hi). lra.
  - pose proof (proj1 (validate_poly_iff_code p n_cap k W Hn ltac:(lia) Ek) H) as H'.
    destruct (norm2_attained k ltac:(lia)) as (q & r & Hs & _).
    specialize (H' i q r Hi Hs). rewrite within_neg in H' by auto. discriminate.
Qed.
