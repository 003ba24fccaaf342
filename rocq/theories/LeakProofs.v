(** * Where the light goes: proofs, part 1 (splitting at a wall, paths through the glass) *)
From Coq Require Import ZArith List Bool Lia Reals Lra Psatz Classical_Prop.
From Verif Require Import Num Geometry SpecGeom SpecPhoton RM RMLogic CapilModel TraceModel LaunchModel SpecRay SpecPath SpecLeak
  RingProofs HexProofs PackProofs SourceReal CapilReal NormalReal FresnelReal WeightProofs TraceProofs SafeProofs PathProofs.
Import ListNotations.
Local Open Scope R_scope.

Definition positive (o : optic R) : Prop :=
  Forall (fun v => 0 < v) (p_cap (o_prof o)) /\ Forall (fun v => 0 < v) (p_ext (o_prof o)).

Lemma positive_nth l j (v : R) : Forall (fun v => 0 < v) l -> nth_error l j = Some v -> 0 < v.
Proof. intros F E. rewrite Forall_forall in F. apply F. eapply nth_error_In; exact E. Qed.

(** ** The loop over the energies *)
Lemma splits_nil : splits [] [] [].
Proof. exists []. repeat split. constructor. Qed.
Lemma splits_cons k v w r g : 0 <= k <= 1 -> splits w r g -> splits (v :: w) (k * v :: r) ((1 - k) * v :: g).
Proof. intros K (rho & L & F & -> & ->). exists (k :: rho). repeat split; cbn; auto. Qed.

Lemma rough_range (c : R) : 0 < exp (- (1) * c * c) <= 1.
Proof. apply exp_le_1. pose proof (Rle_0_sqr c) as H. unfold Rsqr in H. lra. Qed.

Lemma sig_cons v w : significant (v :: w) <-> 1 / 10000 <= v \/ significant w.
Proof. split; [intros H; inversion H; auto|intros [H|H]; [now apply Exists_cons_hd|now apply Exists_cons_tl]]. Qed.
Lemma sig_nil : ~ significant [].
Proof. intros H. inversion H. Qed.

Lemma refl_loop_split (o : optic R) sn dir alfa wt dt : forall en amu scatf w ev ev0,
  length amu = length en -> length w = length en ->
  post (refl_loop o sn dir alfa wt dt en amu scatf w ev ev0)
    (fun r => rr_ok r = true -> exists g, splits w (rr_w r) g /\ (rr_wf r = true <-> significant (rr_w r)) /\
       (wt = true -> rr_leak r = attenuated amu dt g /\ (rr_lf r = true <-> significant (attenuated amu dt g))) /\ (wt = false -> rr_lf r = false)).
Proof.
  induction en as [|e en IH]; intros amu scatf w ev ev0 La Lw; cbn [refl_loop].
  { destruct w; [|discriminate]. destruct amu; [|discriminate]. apply post_ret. cbn [rr_w rr_leak rr_ok rr_lf rr_wf]. intros _. exists [].
    split; [apply splits_nil|]. split; [split; [discriminate|intros H; destruct (sig_nil H)]|]. split; [|reflexivity]. intros _. split; [reflexivity|].
    split; [discriminate|intros H; destruct (sig_nil H)]. }
  destruct w as [|w0 w]; [discriminate|]. destruct amu as [|a0 amu]; [discriminate|].
  eapply post_seq; intros s. eapply post_bind; [apply post_rd|]. intros a Ea. cbn in Ea. injection Ea as <-.
  eapply post_seq; intros [[rt ev1] ev2]. rnum.
  destruct (Rltb_spec rt 0) as [A|A]; cbn [orb]. { apply post_seq; intros _. apply post_ret. discriminate. }
  destruct (Rltb_spec 1 rt) as [B|B]; cbn [orb]. { apply post_seq; intros _. apply post_ret. discriminate. }
  eapply post_bind; [apply post_rd|]. intros w0' E. cbn in E. injection E as <-.
  eapply post_bind; [apply (IH amu (tl scatf) w ev1 ev2); [cbn in La; lia|cbn in Lw; lia]|].
  intros r Hr. apply post_ret. cbn [rr_w rr_leak rr_ok rr_lf rr_wf]. intros Ok. destruct (Hr Ok) as (g & Sp & Wf & Lk & Lf).
  pose proof (rough_range (101358 / 100000 * e * alfa * o_rough o)) as Q. set (k := exp _) in *. clearbody k.
  exists ((1 - rt * k) * w0 :: g).
  assert (E1 : w0 * rt * k = rt * k * w0) by ring. rewrite E1.
  split; [apply splits_cons; [nra|exact Sp]|].
  split. { rewrite sig_cons, <- Wf, orb_true_iff. unfold c1em4. rnum. destruct (Rleb_spec (1 / 10000) (rt * k * w0)); intuition (congruence || lra). }
  assert (E2 : exp (- (1) * dt * a0) = exp (- (dt * a0))) by (f_equal; ring).
  split.
  - intros ->. destruct (Lk eq_refl) as [L1 L2]. unfold attenuated in *. cbn [combine map fst snd]. rewrite E2. rewrite L1. split; [reflexivity|].
    rewrite sig_cons, <- L2, orb_true_iff. cbn [andb]. unfold c1em4. rnum. destruct (Rleb_spec (1 / 10000) ((1 - rt * k) * w0 * exp (- (dt * a0)))); intuition (congruence || lra).
  - intros ->. cbn [andb orb]. apply Lf. reflexivity.
Qed.

(** ** Geometry of a path *)
Lemma ahead_of_line a u q : unit u -> 0 < vz u -> on_line a u q -> vz a <= vz q -> ahead a u (dist3 q a) = q.
Proof.
  intros U Z (t & X & Y & Zt) H. assert (T : 0 <= t) by nra.
  assert (D : dist3 q a = t).
  { unfold dist3, vsub. rnum. rewrite vscalar_dot. unfold dot. cbn [vx vy vz]. rewrite X, Y, Zt. unfold unit, dot in U.
    replace (_ + _ + _) with ((vx u * vx u + vy u * vy u + vz u * vz u) * (t * t)) by ring. rewrite U, Rmult_1_l. apply sqrt_square. exact T. }
  rewrite D. unfold ahead. destruct q as [qx qy qz]. cbn [vx vy vz] in *. congruence.
Qed.
Lemma ahead_go a u d : unit u -> 0 <= d -> ahead a u (dist3 (vgo a d u) a) = vgo a d u.
Proof.
  intros U T. assert (D : dist3 (vgo a d u) a = d).
  { unfold dist3, vsub, vgo. rnum. rewrite vscalar_dot. unfold dot. cbn [vx vy vz]. unfold unit, dot in U.
    replace (_ + _ + _) with ((vx u * vx u + vy u * vy u + vz u * vz u) * (d * d)) by ring. rewrite U, Rmult_1_l. apply sqrt_square. exact T. }
  rewrite D. reflexivity.
Qed.
Lemma ray_at_height c d z : vx (ray_at c d z) = vx (at_height z c d) /\ vy (ray_at c d z) = vy (at_height z c d).
Proof. unfold ray_at, at_height, ahead. rnum. cbn [vx vy vz]. split; unfold Rdiv; ring. Qed.

Lemma within_e_post (r : R) c : 0 < r -> post (within_e r c) (fun w => (w = 0%Z /\ ~ in_hexagon r (vx c) (vy c)) \/ (w = 1%Z /\ in_hexagon r (vx c) (vy c))).
Proof.
  intros H. unfold within_e. eapply post_seq; intros _. apply post_ret.
  destruct (within_spec r c) as (_ & A & B). destruct (Classical_Prop.classic (in_hexagon r (vx c) (vy c))) as [I|I]; auto.
Qed.

(** ** polycap_capil_trace_wall *)
Section Wall.
Variables (o : optic R) (W : wf_optic o) (Pos : positive o).
Local Notation p := (o_prof o).
Local Notation nsh := (n_shells (o_ncap o)).
Hypothesis Hn : 0 <= nsh.

Definition wall_fact (ph : photon R) (w : wall_out (T := R)) : Prop :=
  let '(wt, dt, r, q) := w in
  (wt = 1%Z /\ glass p nsh (ph_exit ph) (ph_edir ph) dt (IntoChannel q r)) \/
  (wt = 2%Z /\ glass p nsh (ph_exit ph) (ph_edir ph) dt AtExit) \/
  (wt = 3%Z /\ glass p nsh (ph_exit ph) (ph_edir ph) dt AtSide).

Lemma wall_exit_fact ph zmax last r q : nth_error (p_z p) (p_nmax p) = Some zmax ->
  post (wall_exit o ph zmax last r q) (wall_fact ph).
Proof.
  intros Ez. unfold wall_exit. eapply post_bind; [apply post_rd|]. intros em Ee.
  pose proof (positive_nth _ _ _ (proj2 Pos) Ee) as Pe.
  destruct (ray_at_height (ph_exit ph) (ph_edir ph) zmax) as [X Y].
  eapply post_bind; [apply within_e_post; exact Pe|]. intros w [[-> N]|[-> I]]; cbn [Z.eqb].
  - eapply post_seq; intros i. apply post_ret. right. right. split; [reflexivity|]. split; [apply dist3_nonneg|]. left. exists zmax, em.
    split; [split; assumption|]. rewrite <- X, <- Y. exact N.
  - apply post_ret. right. left. split; [reflexivity|]. split; [apply dist3_nonneg|]. left. exists zmax, em. split; [split; assumption|]. rewrite <- X, <- Y. exact I.
Qed.

Lemma capillary_at q r j z c e : nth_error (p_z p) j = Some z -> nth_error (p_cap p) j = Some c -> nth_error (p_ext p) j = Some e ->
  nth_error (capillary_of p nsh q r) j = Some (mkV (axis_x (IZR q) (IZR r) (hex_unit e nsh)) (axis_y (IZR r) (hex_unit e nsh)) z, c).
Proof. intros A B C. rewrite (capillary_nth _ _ _ _ _ _ _ _ A B C). rewrite <- (axis_model e nsh q r Hn). reflexivity. Qed.

(** The search along the segments. *)
Lemma wall_segs_fact ph axis q r : unit (ph_edir ph) ->
  (forall i, post (axis i) (fun xy => (i <= p_nmax p)%nat -> exists e, nth_error (p_ext p) i = Some e /\ xy = (axis_x (IZR q) (IZR r) (hex_unit e nsh), axis_y (IZR r) (hex_unit e nsh)))) ->
  forall k zid inter sn, vz (ph_exit ph) <= vz inter -> (zid < p_nmax p)%nat ->
  post (wall_segs o ph axis k zid inter sn) (fun w => let '(iesc, inter', zid') := w in
     vz (ph_exit ph) <= vz inter' /\ (zid' <= p_nmax p)%nat /\
     (iesc = 1%Z -> let c := capillary_of p nsh q r in
        in_channel c (ahead (ph_exit ph) (ph_edir ph) (dist3 inter' (ph_exit ph))) \/ ~ regular c (ph_edir ph))).
Proof.
  intros U Ha. pose proof W as (W1 & W2 & W3 & W4).
  induction k as [|k IH]; intros zid inter sn Hz Hi; cbn [wall_segs]; [apply post_nofuel|].
  eapply post_bind; [apply post_rd|]. intros rad0 Er0. eapply post_bind; [apply post_rd|]. intros rad1 Er1.
  eapply post_bind; [apply post_rd|]. intros z0 Ez0. eapply post_bind; [apply post_rd|]. intros z1 Ez1.
  eapply post_bind; [apply Ha|]. intros xy0 A0. destruct (A0 ltac:(lia)) as (e0 & Ee0 & ->). cbv beta iota.
  eapply post_bind; [apply Ha|]. intros xy1 A1. destruct (A1 ltac:(lia)) as (e1 & Ee1 & ->). cbv beta iota.
  set (c := capillary_of p nsh q r).
  pose proof (capillary_at q r _ _ _ _ Ez0 Er0 Ee0) as C0. pose proof (capillary_at q r _ _ _ _ Ez1 Er1 Ee1) as C1. fold c in C0, C1.
  set (a0 := mkV _ _ z0) in *. set (a1 := mkV _ _ z1) in *.
  eapply post_bind with (P := fun s => let '(iesc, inter', sn') := s in vz inter <= vz inter' /\
     (iesc = 1%Z -> regular c (ph_edir ph) -> on_line (ph_exit ph) (ph_edir ph) inter' /\ on_wall a0 a1 rad0 rad1 inter')).
  { intros e s e' K. destruct s as [[iesc inter'] sn'].
    pose proof (segment_z a0 a1 rad0 rad1 (ray_at (ph_exit ph) (ph_edir ph) z0) (ray_at (ph_exit ph) (ph_edir ph) z1) (ph_edir ph) inter sn e) as S. rewrite K in S. cbv beta iota in S.
    split. { destruct S as [S1 S2]. destruct (Z.eq_dec iesc 1) as [E|E]; [destruct (S2 E); lra|rewrite (S1 E); lra]. }
    intros E [Rz Rg]. destruct (Rg zid a0 rad0 a1 rad1 (conj C0 C1)) as (R0 & R1 & R2 & R3).
    assert (Q := segment_post a0 a1 rad0 rad1 (ray_at (ph_exit ph) (ph_edir ph) z0) (ray_at (ph_exit ph) (ph_edir ph) z1) (ph_edir ph) inter sn Rz R2 R0 R1 R3 _ _ _ K).
    cbv beta iota in Q. destruct Q as [_ Q]. destruct (Q E) as (L & Wl & _). split; [apply ray_at_line in L; auto|exact Wl]. }
  intros [[iesc inter'] sn'] [Hz' Hit].
  destruct (negb _ && _)%bool eqn:Go.
  - apply andb_prop in Go. destruct Go as [_ Go]. apply Z.ltb_lt in Go. apply IH; [lra|lia].
  - apply post_ret. split; [lra|]. split; [lia|]. intros E. cbv zeta. fold c. destruct (classic_reg c (ph_edir ph)) as [Rg|Rg]; [left|right; exact Rg].
    destruct (Hit E Rg) as [L Wl]. rewrite ahead_of_line; [|exact U|apply Rg|exact L|lra].
    right. exists zid, a0, rad0, a1, rad1. split; [split; assumption|]. destruct Wl as [_ Wl]. unfold dist2, len2. rewrite <- Wl. right. f_equal. ring.
Qed.

Lemma axis_of_post q r i : post (axis_of o nsh (IZR q) (IZR r) i) (fun xy => (i <= p_nmax p)%nat -> exists e, nth_error (p_ext p) i = Some e /\ xy = (axis_x (IZR q) (IZR r) (hex_unit e nsh), axis_y (IZR r) (hex_unit e nsh))).
Proof. unfold axis_of. eapply post_bind; [apply post_rd|]. intros e E. apply post_ret. intros _. exists e. auto. Qed.

Lemma lin_axis z0 z1 e0 e1 z (q r : R) :
  axis_x q r (hex_unit (lin z0 z1 e0 e1 z) nsh) = lin z0 z1 (axis_x q r (hex_unit e0 nsh)) (axis_x q r (hex_unit e1 nsh)) z /\
  axis_y r (hex_unit (lin z0 z1 e0 e1 z) nsh) = lin z0 z1 (axis_y r (hex_unit e0 nsh)) (axis_y r (hex_unit e1 nsh)) z.
Proof. unfold axis_x, axis_y, hex_unit, lin. rnum. split; unfold Rdiv; ring. Qed.

(** Walking through the glass. *)
Lemma wall_walk_fact ph zmax q r : unit (ph_edir ph) -> forall fuel dist zid, 0 <= dist -> (zid < p_nmax p)%nat ->
  post (wall_walk o ph nsh zmax (IZR q) (IZR r) fuel dist zid) (fun w => match w with
    | Stumbled d => glass p nsh (ph_exit ph) (ph_edir ph) d (IntoChannel q r)
    | Left d zid' pos q' r' => 0 <= d /\ (zid' < p_nmax p)%nat /\ exists qz rz : Z, q' = IZR qz /\ r' = IZR rz end).
Proof.
  intros U. pose proof W as (W1 & W2 & W3 & W4). induction fuel; intros dist zid Hd Hz; cbn [wall_walk]; [apply post_nofuel|].
  eapply post_bind; [apply post_rd|]. intros cap Ec. pose proof (positive_nth _ _ _ (proj1 Pos) Ec) as Pc. rnum.
  set (dist' := dist + cap / 10). assert (D' : 0 <= dist') by (unfold dist'; lra).
  set (pos := vgo _ dist' _).
  eapply post_bind; [apply last_le_bound|]. intros zid' Hz'. assert (Z' : (zid' < p_nmax p)%nat) by (destruct Hz' as [-> |Hz']; [exact Hz|clear -Hz'; lia]).
  eapply post_bind; [apply interp_lin|]. intros ext (z0 & z1 & e0 & e1 & Ez0 & Ez1 & Ee0 & Ee1 & ->).
  eapply post_bind; [apply interp_lin|]. intros rad (z0' & z1' & r0 & r1 & Ez0' & Ez1' & Er0 & Er1 & ->).
  assert (z0' = z0) by congruence. assert (z1' = z1) by congruence. subst z0' z1'.
  destruct (hex_round_int (hex_frac (vx pos) (vy pos) (hex_unit (lin z0 z1 e0 e1 (vz pos)) nsh))) as (qn & rn & E). rewrite E.
  destruct (Rltb_spec (sqrt ((vx pos - axis_x (IZR q) (IZR r) (hex_unit (lin z0 z1 e0 e1 (vz pos)) nsh)) * (vx pos - axis_x (IZR q) (IZR r) (hex_unit (lin z0 z1 e0 e1 (vz pos)) nsh)) + (vy pos - axis_y (IZR r) (hex_unit (lin z0 z1 e0 e1 (vz pos)) nsh)) * (vy pos - axis_y (IZR r) (hex_unit (lin z0 z1 e0 e1 (vz pos)) nsh)))) (lin z0 z1 r0 r1 (vz pos))) as [In|Out]; cbn [andb]; [destruct (in_stack nsh (IZR q) (IZR r) && _)%bool|].
  - apply post_ret. split; [apply dist3_nonneg|]. left. pose proof (ahead_go (ph_exit ph) (ph_edir ph) dist' U D') as Ag. fold pos in Ag. rewrite Ag. right.
    exists zid'. eexists. exists r0. eexists. exists r1. split; [split; [exact (capillary_at q r _ _ _ _ Ez0 Er0 Ee0)|exact (capillary_at q r _ _ _ _ Ez1 Er1 Ee1)]|].
    unfold seg_axis_x, seg_axis_y, seg_radius. cbn [vx vy vz]. destruct (lin_axis z0 z1 e0 e1 (vz pos) (IZR q) (IZR r)) as [Lx Ly]. rewrite <- Lx, <- Ly.
    unfold dist2, len2. lra.
  - destruct (andb _ _); [apply IHfuel; assumption|]. apply post_ret. split; [exact D'|]. split; [exact Z'|]. exists qn, rn. auto.
  - destruct (andb _ _); [apply IHfuel; assumption|]. apply post_ret. split; [exact D'|]. split; [exact Z'|]. exists qn, rn. auto.
Qed.

Lemma to_int_IZR z : post (to_int (IZR z)) (fun k => k = z).
Proof.
  unfold to_int. rnum. apply post_ret. unfold R_trunc.
  assert (F : forall m, Int_part (IZR m) = m). { intros m. unfold Int_part. rewrite <- (tech_up (IZR m) (m + 1)); [lia| |]; rewrite plus_IZR; lra. }
  try (destruct (Rle_dec 0 (IZR z))); try (destruct (Rltb_spec (IZR z) 0)); try rewrite F; try rewrite <- opp_IZR; try rewrite F; lia.
Qed.

Lemma wall_hex_fact ph zmax : unit (ph_edir ph) -> nth_error (p_z p) (p_nmax p) = Some zmax ->
  forall fuel dist zid q r inter, 0 <= dist -> (zid < p_nmax p)%nat -> vz (ph_exit ph) <= vz inter ->
  post (wall_hex o ph nsh zmax fuel dist zid (IZR q) (IZR r) inter) (wall_fact ph).
Proof.
  intros U Ez. pose proof W as (W1 & W2 & W3 & W4). induction fuel; intros dist zid q r inter Hd Hz Hi; cbn [wall_hex]; [apply post_nofuel|].
  eapply post_bind; [apply wall_walk_fact; assumption|]. intros [d|d' z' pos q' r'] P.
  - eapply post_bind; [apply to_int_IZR|]. intros ? ->. eapply post_bind; [apply to_int_IZR|]. intros ? ->. apply post_ret. left. auto.
  - destruct P as (D' & Z' & qz & rz & -> & ->). destruct (orb _ _).
    + eapply post_seq; intros r''. eapply post_seq; intros q''. apply wall_exit_fact. exact Ez.
    + eapply post_bind; [apply (wall_segs_fact ph _ qz rz U); [intros i; apply axis_of_post|exact Hi|exact Z']|].
      intros [[iesc it] zz] (H1 & H2 & H3). destruct (Nat.leb _ _ && _)%bool eqn:Go; [apply IHfuel; [exact D'|lia|exact H1]|].
      eapply post_bind; [apply to_int_IZR|]. intros ? ->. eapply post_bind; [apply to_int_IZR|]. intros ? ->.
      unfold wall_end. destruct (Z.eqb_spec iesc 1) as [E|E]; cbn [negb]; [|apply wall_exit_fact; exact Ez].
      apply post_ret. destruct (Nat.leb_spec (p_nmax p) zz) as [L|L]; [subst iesc; discriminate Go|].
      left. split; [reflexivity|]. split; [apply dist3_nonneg|]. apply H3. exact E.
Qed.

Lemma trace_wall_fact fuel ph : unit (vnorm (ph_edir ph)) ->
  post (trace_wall fuel o ph) (fun wp => let '(wt, dt, r, q) := fst wp in snd wp = set_edir (vnorm (ph_edir ph)) ph /\ ((0 < wt)%Z -> wall_fact (set_edir (vnorm (ph_edir ph)) ph) (wt, dt, r, q) /\ (nsh = 0 -> q = 0%Z /\ r = 0%Z))).
Proof.
  intros U. pose proof W as (W1 & W2 & W3 & W4). unfold trace_wall. eapply post_bind; [apply post_rd|]. intros zmax Ez.
  destruct (nleb _ _). { apply post_ret. cbn [fst snd]. split; [reflexivity|lia]. }
  eapply post_bind; [apply last_le_bound|]. intros zid Hz. eapply post_seq; intros ext. rnum. destruct (Reqb_spec nsh 0) as [N0|N0].
  - destruct (Rltb _ _). { eapply post_seq; intros _. apply post_ret. cbn [fst snd]. split; [reflexivity|lia]. }
    eapply post_bind. { apply (wall_segs_fact (set_edir (vnorm (ph_edir ph)) ph) _ 0 0 U); [|apply Rle_refl|lia].
      intros i. apply post_ret. intros Hi. destruct (nth_ex (p_ext p) i ltac:(lia)) as [e Ee]. exists e. split; [exact Ee|]. unfold axis_x, axis_y. rnum. f_equal; ring. }
    intros [[iesc it] zz] (H1 & H2 & H3).
    eapply post_bind with (P := fun w => wall_fact (set_edir (vnorm (ph_edir ph)) ph) w /\ (let '(wt, dt, r, q) := w in q = 0%Z /\ r = 0%Z)).
    + apply post_and; [|unfold wall_end, wall_exit; destruct (negb _); [eapply post_seq; intros ?; eapply post_seq; intros ?; destruct (Z.eqb _ 0); [eapply post_seq; intros ?|]|]; apply post_ret; auto].
      unfold wall_end. destruct (Z.eqb_spec iesc 1) as [E|E]; cbn [negb]; [|apply wall_exit_fact; exact Ez].
      apply post_ret. destruct (Nat.leb (p_nmax p) zz).
      * right. left. split; [reflexivity|]. split; [apply dist3_nonneg|]. right. split; [exact N0|]. apply H3. exact E.
      * left. split; [reflexivity|]. split; [apply dist3_nonneg|]. apply H3. exact E.
    + intros [[[wt dt] r] q] F. apply post_ret. cbn [fst snd]. split; [reflexivity|]. intros _. split; [exact (proj1 F)|intros _; exact (proj2 F)].
  - eapply post_seq; intros w. destruct (Z.eqb w 0). { apply post_ret. cbn [fst snd]. split; [reflexivity|lia]. }
    match goal with |- context [hex_round ?x] => destruct (hex_round_int x) as (q & r & E); rewrite E end.
    eapply post_bind; [apply wall_hex_fact; [exact U|exact Ez|apply Rle_refl|lia|apply Rle_refl]|]. intros [[[wt dt] r'] q'] F. apply post_ret. cbn [fst snd]. split; [reflexivity|]. intros _. split; [exact F|intros; contradiction].
Qed.

End Wall.
