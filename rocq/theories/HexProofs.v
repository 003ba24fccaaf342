(** * The hexagonal boundary test and the shell count, over the reals *)
From Coq Require Import ZArith List Bool Lia Reals Lra Psatz.
From Verif Require Import Num Geometry SpecGeom.
Import ListNotations.
Local Open Scope R_scope.

Lemma s3_sq : sqrt 3 * sqrt 3 = 3.
Proof. apply sqrt_sqrt; lra. Qed.
Lemma s3_pos : 0 < sqrt 3.
Proof. apply sqrt_lt_R0; lra. Qed.
Lemma s3_bounds : 1.73 < sqrt 3 < 1.7321.
Proof.
  pose proof s3_sq. pose proof s3_pos. split.
  - apply Rnot_le_lt; intro. nra.
  - apply Rnot_le_lt; intro. nra.
Qed.

Lemma sqrt_unique a b : 0 <= b -> b * b = a -> sqrt a = b.
Proof. intros Hb <-. now apply sqrt_square. Qed.

(** ** Coordinates of the vertices *)
Lemma hv0 r : hex_vertex r 0 = (r, 0).
Proof. unfold hex_vertex; simpl. replace (0 * PI / 3) with 0 by lra. rewrite cos_0, sin_0. f_equal; lra. Qed.
Lemma hv1 r : hex_vertex r 1 = (r / 2, r * (sqrt 3 / 2)).
Proof. unfold hex_vertex; simpl. replace (1 * PI / 3) with (PI / 3) by lra. rewrite cos_PI3, sin_PI3. f_equal; lra. Qed.
Lemma hv2 r : hex_vertex r 2 = (- r / 2, r * (sqrt 3 / 2)).
Proof.
  unfold hex_vertex; simpl INR. replace ((1+1) * PI / 3) with (PI - PI / 3) by lra.
  rewrite Rtrigo_facts.cos_pi_minus, Rtrigo_facts.sin_pi_minus, cos_PI3, sin_PI3. f_equal; lra.
Qed.
Lemma hv3 r : hex_vertex r 3 = (- r, 0).
Proof.
  unfold hex_vertex; simpl INR. replace ((1+1+1) * PI / 3) with PI by lra.
  rewrite cos_PI, sin_PI. f_equal; lra.
Qed.
Lemma hv4 r : hex_vertex r 4 = (- r / 2, - (r * (sqrt 3 / 2))).
Proof.
  unfold hex_vertex; simpl INR. replace ((1+1+1+1) * PI / 3) with (PI / 3 + PI) by lra.
  rewrite neg_cos, neg_sin, cos_PI3, sin_PI3. f_equal; lra.
Qed.
Lemma hv5 r : hex_vertex r 5 = (r / 2, - (r * (sqrt 3 / 2))).
Proof.
  unfold hex_vertex; simpl INR. replace ((1+1+1+1+1) * PI / 3) with (2 * PI - PI / 3) by lra.
  rewrite cos_minus, sin_minus, cos_2PI, sin_2PI, cos_PI3, sin_PI3. f_equal; lra.
Qed.

(** ** The three strip conditions *)
Definition strips (r x y : R) : Prop :=
  Rabs y <= r * (sqrt 3 / 2) /\
  Rabs (sqrt 3 / 2 * x + / 2 * y) <= r * (sqrt 3 / 2) /\
  Rabs (sqrt 3 / 2 * x - / 2 * y) <= r * (sqrt 3 / 2).

Lemma strips_hexagon r x y : 0 < r -> strips r x y <-> in_hexagon r x y.
Proof.
  intros Hr. pose proof s3_sq as S3. pose proof s3_pos as P3.
  unfold in_hexagon.
  rewrite hv0, hv1, hv2, hv3, hv4, hv5. cbn [fst snd].
  split.
  - intros (H1 & H2 & H3).
    apply Rabs_le_elim in H1. apply Rabs_le_elim in H2. apply Rabs_le_elim in H3.
    set (u := x / r). set (v := y / (r * (sqrt 3 / 2))).
    assert (Ed : 0 < r * (sqrt 3 / 2)) by nra.
    assert (Hx : x = r * u) by (unfold u; field; lra).
    assert (Hy : y = r * (sqrt 3 / 2) * v) by (unfold v; field; lra).
    assert (Hv : -1 <= v <= 1).
    { split; apply Rmult_le_reg_l with (r * (sqrt 3 / 2)); auto; rewrite <- Hy; lra. }
    assert (Huv : -1 <= u + v / 2 <= 1 /\ -1 <= u - v / 2 <= 1).
    { rewrite Hx, Hy in H2, H3.
      repeat split; apply Rmult_le_reg_l with (r * (sqrt 3 / 2)); auto; nra. }
    clearbody u v. clear H1 H2 H3.
    destruct (Rle_dec 0 v) as [Pv | Nv].
    + set (t := u / (1 - v / 2)).
      assert (Ht : u = t * (1 - v / 2)) by (unfold t; field; lra).
      assert (Bt : -1 <= t <= 1).
      { split; apply Rmult_le_reg_r with (1 - v / 2); try lra; rewrite <- Ht; lra. }
      clearbody t.
      exists (fun k => match k with
        | 0%nat => (1 - v) * (1 + t) / 2 | 1%nat => v * (1 + t) / 2 | 2%nat => v * (1 - t) / 2
        | 3%nat => (1 - v) * (1 - t) / 2 | _ => 0 end).
      split.
      { intros k Hk. do 4 (destruct k; [nra |]). lra. }
      split; [lra |]. rewrite Hx, Hy. split; [rewrite Ht; lra | lra].
    + set (t := u / (1 + v / 2)).
      assert (Ht : u = t * (1 + v / 2)) by (unfold t; field; lra).
      assert (Bt : -1 <= t <= 1).
      { split; apply Rmult_le_reg_r with (1 + v / 2); try lra; rewrite <- Ht; lra. }
      clearbody t.
      exists (fun k => match k with
        | 0%nat => (1 + v) * (1 + t) / 2 | 3%nat => (1 + v) * (1 - t) / 2
        | 4%nat => - v * (1 - t) / 2 | 5%nat => - v * (1 + t) / 2 | _ => 0 end).
      split.
      { intros k Hk. do 6 (destruct k; [nra |]). lra. }
      split; [lra |]. rewrite Hx, Hy. split; [rewrite Ht; lra | lra].
  - intros (w & Hw & Hs & Hx & Hy).
    pose proof (Hw 0%nat ltac:(lia)). pose proof (Hw 1%nat ltac:(lia)). pose proof (Hw 2%nat ltac:(lia)).
    pose proof (Hw 3%nat ltac:(lia)). pose proof (Hw 4%nat ltac:(lia)). pose proof (Hw 5%nat ltac:(lia)).
    set (w0 := w 0%nat) in *. set (w1 := w 1%nat) in *. set (w2 := w 2%nat) in *.
    set (w3 := w 3%nat) in *. set (w4 := w 4%nat) in *. set (w5 := w 5%nat) in *.
    clearbody w0 w1 w2 w3 w4 w5. clear Hw w.
    assert (Ed : 0 < r * (sqrt 3 / 2)) by nra.
    set (d := r * (sqrt 3 / 2)) in *.
    assert (Ey : y = d * (w1 + w2 - w4 - w5)) by (rewrite Hy; ring).
    assert (E2 : sqrt 3 / 2 * x + / 2 * y = d * (w0 + w1 - w3 - w4))
      by (rewrite Hx, Hy; unfold d; field).
    assert (E3 : sqrt 3 / 2 * x - / 2 * y = d * (w0 + w5 - w2 - w3))
      by (rewrite Hx, Hy; unfold d; field).
    unfold strips. fold d. rewrite E2, E3. rewrite Ey.
    repeat split; apply Rabs_le; nra.
Qed.

Lemma apothem r : 0 < r -> sqrt (r * r - r / 2 * (r / 2)) = r * (sqrt 3 / 2).
Proof. intros. pose proof s3_pos. pose proof s3_sq. apply sqrt_unique; nra. Qed.

Lemma within_strips r (c : vec3 R) : 0 < r ->
  (within_pc_boundary r c = 1%Z /\ strips r (vx c) (vy c)) \/
  (within_pc_boundary r c = 0%Z /\ ~ strips r (vx c) (vy c)).
Proof.
  intros Hr. unfold within_pc_boundary, nhalf, strips. rnum.
  rewrite (Rleb_false r 0) by lra. rewrite apothem by auto.
  replace (0 * vx c + 1 * vy c) with (vy c) by ring.
  replace (sqrt 3 / 2 * vx c + 1 / 2 * vy c) with (sqrt 3 / 2 * vx c + / 2 * vy c) by lra.
  replace (sqrt 3 / 2 * vx c + - (1 / 2) * vy c) with (sqrt 3 / 2 * vx c - / 2 * vy c) by lra.
  repeat rcase; cbn [orb]; first [ left; split; [reflexivity | repeat split; lra] | right; split; [reflexivity | intros (?&?&?); lra] ].
Qed.

(** ** C13: the boundary test is exactly the hexagon *)
Lemma within_neg r (c : vec3 R) : r <= 0 -> within_pc_boundary r c = (-1)%Z.
Proof. intros. unfold within_pc_boundary. rnum. now rewrite Rleb_true. Qed.

Lemma within_hexagon r (c : vec3 R) : 0 < r ->
  within_pc_boundary r c = 1%Z <-> in_hexagon r (vx c) (vy c).
Proof.
  intros Hr. rewrite <- strips_hexagon by auto.
  destruct (within_strips r c Hr) as [[-> ?]|[-> ?]]; split; auto; try discriminate. contradiction.
Qed.

Lemma within_cases r (c : vec3 R) :
  within_pc_boundary r c = 1%Z \/ within_pc_boundary r c = 0%Z \/ within_pc_boundary r c = (-1)%Z.
Proof.
  destruct (Rle_dec r 0).
  - right; right; now apply within_neg.
  - destruct (within_strips r c ltac:(lra)) as [[-> ?]|[-> ?]]; auto.
Qed.

Lemma within_spec r (c : vec3 R) :
  (r <= 0 -> within_pc_boundary r c = (-1)%Z) /\
  (0 < r -> in_hexagon r (vx c) (vy c) -> within_pc_boundary r c = 1%Z) /\
  (0 < r -> ~ in_hexagon r (vx c) (vy c) -> within_pc_boundary r c = 0%Z).
Proof.
  repeat split; intros.
  - now apply within_neg.
  - now apply within_hexagon.
  - destruct (within_strips r c H) as [[E S]|[E S]]; auto.
    apply strips_hexagon in S; auto. contradiction.
Qed.

(** *** Consequences: convexity, symmetry, inscribed and circumscribed discs *)
Lemma cvx a b d t : - d <= a <= d -> - d <= b <= d -> 0 <= t <= 1 -> - d <= t * a + (1 - t) * b <= d.
Proof.
  intros [? ?] [? ?] [? ?].
  pose proof (Rmult_le_compat_l t a d). pose proof (Rmult_le_compat_l t (- d) a).
  pose proof (Rmult_le_compat_l (1 - t) b d). pose proof (Rmult_le_compat_l (1 - t) (- d) b). lra.
Qed.

Lemma strips_convex r x y x' y' t :
  strips r x y -> strips r x' y' -> 0 <= t <= 1 ->
  strips r (t * x + (1 - t) * x') (t * y + (1 - t) * y').
Proof.
  intros (A1 & A2 & A3) (B1 & B2 & B3) Ht.
  apply Rabs_le_elim in A1, A2, A3, B1, B2, B3. unfold strips.
  set (d := r * (sqrt 3 / 2)) in *. set (s := sqrt 3 / 2) in *. clearbody d s.
  repeat split; apply Rabs_le.
  - now apply cvx.
  - replace (s * (t * x + (1 - t) * x') + / 2 * (t * y + (1 - t) * y'))
      with (t * (s * x + / 2 * y) + (1 - t) * (s * x' + / 2 * y')) by ring. now apply cvx.
  - replace (s * (t * x + (1 - t) * x') - / 2 * (t * y + (1 - t) * y'))
      with (t * (s * x - / 2 * y) + (1 - t) * (s * x' - / 2 * y')) by ring. now apply cvx.
Qed.

Lemma strips_opp r x y : strips r x y -> strips r (- x) (- y).
Proof.
  intros (A1 & A2 & A3). unfold strips.
  replace (sqrt 3 / 2 * - x + / 2 * - y) with (- (sqrt 3 / 2 * x + / 2 * y)) by ring.
  replace (sqrt 3 / 2 * - x - / 2 * - y) with (- (sqrt 3 / 2 * x - / 2 * y)) by ring.
  rewrite !Rabs_Ropp. auto.
Qed.

Lemma strips_disc r x y : 0 <= r -> len2 x y <= r * (sqrt 3 / 2) -> strips r x y.
Proof.
  intros Hr H. unfold len2 in H. pose proof s3_sq. pose proof s3_pos.
  assert (Q : 0 <= x * x + y * y) by nra.
  pose proof (sqrt_sqrt _ Q) as SS. pose proof (sqrt_pos (x * x + y * y)) as SP.
  set (l := sqrt (x * x + y * y)) in *. clearbody l.
  set (d := r * (sqrt 3 / 2)) in *.
  unfold strips; fold d.
  set (s := sqrt 3 / 2). assert (s * s = 3 / 4) by (unfold s; nra). clearbody s d.
  assert (B : forall a, a * a <= l * l -> Rabs a <= l).
  { intros a Ha. apply Rabs_le. split; nra. }
  repeat split; (eapply Rle_trans; [apply B | eassumption]); try nra.
  - pose proof (Rle_0_sqr (s * y - / 2 * x)) as Q1. unfold Rsqr in Q1. nra.
  - pose proof (Rle_0_sqr (s * y + / 2 * x)) as Q1. unfold Rsqr in Q1. nra.
Qed.

Lemma strips_in_disc r x y : 0 <= r -> strips r x y -> len2 x y <= r.
Proof.
  intros Hr (A1 & A2 & A3).
  apply Rabs_le_elim in A1, A2, A3.
  pose proof s3_sq. pose proof s3_pos.
  unfold len2.
  rewrite <- (sqrt_square r) by auto.
  apply sqrt_le_1; try nra.
  (* x^2+y^2 <= r^2 *)
  assert (Hx : sqrt 3 / 2 * Rabs x + / 2 * Rabs y <= r * (sqrt 3 / 2)).
  { unfold Rabs; destruct (Rcase_abs x), (Rcase_abs y); lra. }
  assert (Hy : Rabs y <= r * (sqrt 3 / 2)) by (apply Rabs_le; lra).
  replace (x * x) with (Rabs x * Rabs x) by (unfold Rabs; destruct Rcase_abs; ring).
  replace (y * y) with (Rabs y * Rabs y) by (unfold Rabs; destruct Rcase_abs; ring).
  pose proof (Rabs_pos x) as Px. pose proof (Rabs_pos y) as Py.
  set (a := Rabs x) in *. set (b := Rabs y) in *. clearbody a b.
  assert (Ha : a <= r - b / sqrt 3).
  { apply Rmult_le_reg_l with (sqrt 3 / 2); [lra|]. replace (sqrt 3 / 2 * (r - b / sqrt 3)) with (r * (sqrt 3 / 2) - / 2 * b) by (field; lra). lra. }
  set (k := b / sqrt 3) in *. assert (Eb : b = k * sqrt 3) by (unfold k; field; lra).
  assert (Hk : 0 <= k) by (unfold k; apply Rle_mult_inv_pos; auto).
  assert (Hk2 : k <= r / 2). { apply Rmult_le_reg_r with (sqrt 3); [lra|]. rewrite <- Eb. lra. }
  clearbody k. subst b.
  replace (k * sqrt 3 * (k * sqrt 3)) with (3 * (k * k)) by (transitivity (k * k * (sqrt 3 * sqrt 3)); [rewrite s3_sq; ring | ring]).
  nra.
Qed.

(** ** C14: the shell count *)
Lemma n_shells_eq (n : Z) : (n_shells n : R) = R_round (sqrt (12 * IZR n - 3) / 6 - 1 / 2).
Proof. reflexivity. Qed.

Lemma n_shells_char (n k : Z) : (1 <= n)%Z -> (0 <= k)%Z ->
  (3 * k * k < n <= 3 * (k + 1) * (k + 1))%Z -> (n_shells n : R) = IZR k.
Proof.
  intros Hn Hk (H1 & H2). rewrite n_shells_eq.
  apply R_round_unique.
  assert (A1 : IZR (3 * k * k) + 1 <= IZR n) by (rewrite <- plus_IZR; apply IZR_le; lia).
  assert (A2 : IZR n <= IZR (3 * (k + 1) * (k + 1))) by (apply IZR_le; lia).
  rewrite !mult_IZR in A1, A2. rewrite plus_IZR in A2.
  assert (Pk : 0 <= IZR k) by (apply IZR_le; lia).
  assert (Pn : 1 <= IZR n) by (apply IZR_le; lia).
  set (kk := IZR k) in *. set (nn := IZR n) in *. clearbody kk nn.
  assert (B1 : 6 * kk < sqrt (12 * nn - 3)).
  { rewrite <- (sqrt_square (6 * kk)) by lra. apply sqrt_lt_1; nra. }
  assert (B2 : sqrt (12 * nn - 3) < 6 * (kk + 1)).
  { rewrite <- (sqrt_square (6 * (kk + 1))) by lra. apply sqrt_lt_1; nra. }
  lra.
Qed.

(** Every n_cap >= 1 lies in exactly one of those intervals. *)
Lemma shell_interval_ex (n : Z) : (1 <= n)%Z ->
  exists k, (0 <= k)%Z /\ (3 * k * k < n <= 3 * (k + 1) * (k + 1))%Z.
Proof.
  intros Hn. 
  exists (Z.sqrt ((n - 1) / 3)).
  assert (D : (0 <= (n - 1) / 3)%Z) by (apply Z.div_pos; lia).
  pose proof (Z.sqrt_spec _ D) as S. pose proof (Z.sqrt_nonneg ((n - 1) / 3)).
  set (k := Z.sqrt ((n - 1) / 3)) in *.
  pose proof (Z.div_mod (n - 1) 3 ltac:(lia)). pose proof (Z.mod_pos_bound (n - 1) 3 ltac:(lia)).
  unfold Z.succ in S. split; [lia|]. split; nia.
Qed.

Lemma n_shells_iff (n k : Z) : (1 <= n)%Z ->
  (n_shells n : R) = IZR k <-> (0 <= k)%Z /\ (3 * k * k < n <= 3 * (k + 1) * (k + 1))%Z.
Proof.
  intros Hn. split.
  - destruct (shell_interval_ex n Hn) as (k' & P & I).
    rewrite (n_shells_char n k' Hn P I). intros E. apply eq_IZR in E. subst. auto.
  - intros (P & I). now apply n_shells_char.
Qed.

Lemma n_shells_ex (n : Z) : (1 <= n)%Z -> exists k, (0 <= k)%Z /\ (n_shells n : R) = IZR k.
Proof.
  intros Hn. destruct (shell_interval_ex n Hn) as (k & P & I). exists k. split; auto. now apply n_shells_char.
Qed.

Lemma n_shells_stack (k : Z) : (0 <= k)%Z -> (n_shells (stack_size k) : R) = IZR k.
Proof. intros. unfold stack_size. apply n_shells_char; nia. Qed.

Lemma n_shells_mono (n m : Z) : (1 <= n <= m)%Z -> (n_shells n : R) <= n_shells m.
Proof.
  intros H. rewrite !n_shells_eq. apply R_round_mono.
  assert (1 <= IZR n) by (apply IZR_le; lia). assert (IZR n <= IZR m) by (apply IZR_le; lia).
  assert (sqrt (12 * IZR n - 3) <= sqrt (12 * IZR m - 3)) by (apply sqrt_le_1; lra). lra.
Qed.

(** nearest full stacking: no other stacking has a size closer to n_cap *)
Lemma n_shells_nearest (n k : Z) : (1 <= n)%Z -> (n_shells n : R) = IZR k ->
  forall k', (0 <= k')%Z -> (Z.abs (n - stack_size k) <= Z.abs (n - stack_size k'))%Z.
Proof.
  intros Hn E k' Hk'. apply n_shells_iff in E; auto. destruct E as (Hk & I).
  unfold stack_size.
  destruct (Z.lt_trichotomy k' k) as [L | [-> | L]]; [| lia |].
  - assert (3 * k' * k' + 3 * k' + 1 <= 3 * k * k - 3 * k + 1)%Z by nia. lia.
  - assert (3 * (k + 1) * (k + 1) + 3 * (k + 1) + 1 <= 3 * k' * k' + 3 * k' + 1)%Z by nia. lia.
Qed.
