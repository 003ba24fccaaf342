(** * A photon on the axis of a narrowing mono-capillary *)
From Coq Require Import Reals ZArith List Bool Lia Lra Permutation.
From Verif Require Import Num Geometry SpecPhoton RM CapilModel TraceModel LaunchModel SourceModel RunModel
  TeamProofs RunProofs EffectProofs FinalProofs SpecRun SimProofs ReachProofs TotalProofs HexProofs PackProofs ExampleRun.
Import ListNotations.
Local Open Scope R_scope.

(** A bore that gets narrower all the way from the entrance plane on, inside an outer wall. *)
Definition narrowing (p : profile R) : Prop :=
  length (p_z p) = S (p_nmax p) /\ length (p_cap p) = S (p_nmax p) /\ length (p_ext p) = S (p_nmax p) /\ (1 <= p_nmax p)%nat /\
  nth 0 (p_z p) 0 = 0 /\
  (forall i, (i < p_nmax p)%nat -> nth i (p_z p) 0 < nth (S i) (p_z p) 0) /\
  (forall i, (i < p_nmax p)%nat -> nth (S i) (p_cap p) 0 < nth i (p_cap p) 0) /\
  (forall i, (i <= p_nmax p)%nat -> 0 < nth i (p_cap p) 0) /\
  (forall i, (i <= p_nmax p)%nat -> 0 < nth i (p_ext p) 0).

Lemma rd_nth {A} (l : list A) i d (e : slot) : (i < length l)%nat -> rd l i e = Ret (nth i l d, e).
Proof. intros H. unfold rd. rewrite (nth_error_nth' l d H). reflexivity. Qed.
Lemma bindr {A B} (m : RM A) (f : A -> RM B) e a e' : m e = Ret (a, e') -> bind m f e = f a e'.
Proof. intros H. unfold bind. rewrite H. reflexivity. Qed.

Lemma miss_segment z0 z1 r0 r1 p1 pc sn (e : slot) : 0 <= z0 < z1 -> 0 < r1 < r0 -> vz p1 = z1 ->
  CapilModel.segment (mkV 0 0 z0) (mkV 0 0 z1) r0 r1 (mkV 0 0 z0) p1 (mkV 0 0 1) pc sn e = Ret ((-4)%Z, pc, mkV 0 0 0, e).
Proof.
  intros Hz Hr E1. unfold CapilModel.segment. cbn [vx vy vz]. rewrite E1. rnum. rewrite !(Rltb_false) by lra.
  rewrite (Rleb_false z1 z0) by lra. rewrite !Reqb_true by lra. cbn [orb negb].
  rewrite vnorm_z. unfold seg_a, seg_b, seg_c, vsub. cbn [vx vy vz]. rnum.
  set (k := (r1 - r0) / (z1 - z0)).
  assert (Hk : k < 0) by (unfold k, Rdiv; assert (0 < / (z1 - z0)) by (apply Rinv_0_lt_compat; lra); nra).
  match goal with |- context [seg_pick ?a ?b ?c] => replace a with (- (k * k)) by (unfold k; field; lra); replace b with (- (2 * r0 * k)) by (unfold k; field; lra); replace c with (- (r0 * r0)) by ring end.
  unfold seg_pick. rnum.
  match goal with |- context [Rltb ?d 0] => replace d with 0 by ring end. rewrite Rltb_false by lra. rewrite Reqb_true by lra.
  rewrite Rltb_true; [reflexivity|].
  assert (E : -1 * - (2 * r0 * k) / (2 * - (k * k)) = r0 / (- k)) by (field; lra).
  first [rewrite E|idtac].
  assert (K2 : (z1 - z0) * - k < r0) by (replace ((z1 - z0) * - k) with (r0 - r1) by (unfold k; field; lra); lra).
  assert (0 < - k) by lra.
  assert (z1 - z0 < r0 / - k). { apply (Rmult_lt_reg_r (- k)); [lra|]. replace (r0 / - k * - k) with r0 by (field; lra). lra. }
  try (match goal with |- _ < ?z + ?q => replace q with (r0 / - k) by (field; lra) end). lra.
Qed.

Section Axis.
Variable o : optic R.
Hypothesis One : o_ncap o = 1%Z.
Hypothesis Nar : narrowing (o_prof o).
Let p := o_prof o.
Let n := p_nmax p.
Let zz i := nth i (p_z p) 0.

Lemma zz_mono i j : (i <= j <= n)%nat -> zz i <= zz j.
Proof.
  destruct Nar as (_ & _ & _ & _ & _ & Hz & _). intros [H1 H2]. induction H1 as [|j H1 IH]; [lra|].
  specialize (IH ltac:(lia)). specialize (Hz j H2). unfold zz, p in *. lra.
Qed.
Lemma zz_lt i j : (i < j <= n)%nat -> zz i < zz j.
Proof. intros H. destruct Nar as (_ & _ & _ & _ & _ & Hz & _). specialize (Hz i ltac:(unfold n, p in *; lia)). pose proof (zz_mono (S i) j ltac:(lia)). unfold zz, p in *. lra. Qed.
Lemma zz0 : zz 0 = 0. Proof. apply Nar. Qed.

(** The index of the segment a height lies in. *)
Lemma segment_of z : 0 <= z < zz n -> exists k, (k < n)%nat /\ zz k <= z < zz (S k).
Proof.
  intros [H1 H2]. assert (H : forall m, (m <= n)%nat -> z < zz m -> exists k, (k < m)%nat /\ zz k <= z < zz (S k)).
  { induction m as [|m IH]; intros Hm Hz; [rewrite zz0 in Hz; lra|]. destruct (Rlt_le_dec z (zz m)) as [L|L].
    - destruct (IH ltac:(lia) L) as (k & K1 & K2). exists k. split; [lia|exact K2].
    - exists m. split; [lia|lra]. }
  destruct (H n (Nat.le_refl n) H2) as (k & K). eauto.
Qed.
Lemma last_le_eq z k (e : slot) : (k < n)%nat -> zz k <= z < zz (S k) -> forall m i id, (i + m <= S n)%nat -> (k < i + m)%nat -> (i <= k)%nat \/ id = k ->
  last_le (p_z p) z m i id e = Ret (k, e).
Proof.
  intros Hk Hz. destruct Nar as (L1 & _). fold p in L1. fold n in L1.
  induction m as [|m IH]; intros i id H1 H2 H3; [cbn [last_le]; unfold ret; destruct H3 as [H3|H3]; [lia|congruence]|].
  cbn [last_le]. rewrite (bindr _ _ _ _ _ (rd_nth (p_z p) i 0 e ltac:(lia))). fold (zz i). rnum.
  destruct (Nat.lt_total i k) as [L|[->|L]].
  - apply IH; try lia.
  - rewrite Rleb_true by lra. destruct (Nat.eq_dec m 0) as [->|M]; [reflexivity|]. apply IH; lia.
  - destruct H3 as [H3|H3]; [lia|]. rewrite Rleb_false; [|pose proof (zz_mono (S k) i ltac:(lia)); lra]. destruct (Nat.eq_dec m 0) as [->|M]; [cbn; unfold ret; congruence|].
    apply IH; try lia.
Qed.
Lemma lin_pos z0 z1 v0 v1 z : z0 <= z < z1 -> 0 < v0 -> 0 < v1 -> 0 < (v1 - v0) / (z1 - z0) * (z - z0) + v0.
Proof.
  intros Hz H0 H1. set (t := (z - z0) / (z1 - z0)).
  assert (I : 0 < / (z1 - z0)) by (apply Rinv_0_lt_compat; lra).
  assert (T1 : 0 <= t) by (unfold t, Rdiv; apply Rmult_le_pos; lra).
  assert (T2 : t < 1). { apply (Rmult_lt_reg_r (z1 - z0)); [lra|]. unfold t. replace ((z - z0) / (z1 - z0) * (z1 - z0)) with (z - z0) by (field; lra). lra. }
  replace ((v1 - v0) / (z1 - z0) * (z - z0) + v0) with (v0 * (1 - t) + v1 * t) by (unfold t; field; lra). nra.
Qed.

Lemma axes_zero : forall m i (e : slot), (i + m <= S n)%nat -> launch_axes o 0 0 0 m i e = Ret (repeat (0, 0) m, e).
Proof.
  destruct Nar as (_ & _ & L3 & _). fold p n in L3. induction m as [|m IH]; intros i e H; [reflexivity|].
  cbn [launch_axes]. fold p. rewrite (bindr _ _ _ _ _ (rd_nth (p_ext p) i 0 e ltac:(lia))). cbv zeta. rewrite (bindr _ _ _ _ _ (IH (S i) e ltac:(lia))).
  unfold ret. cbn [repeat]. unfold axis_x, axis_y. rnum. do 4 f_equal; ring.
Qed.

Lemma axis_segs ph (e : slot) : ph_edir ph = mkV 0 0 1 -> vx (ph_exit ph) = 0 -> vy (ph_exit ph) = 0 ->
  forall m i pc sn, (i + m = n)%nat -> trace_segs o ph (repeat (0, 0) (S n)) 0 m i pc sn e = Ret (Miss, e).
Proof.
  intros E2 X0 Y0. destruct Nar as (L1 & L2 & L3 & L4 & Z0 & Hz & Hc & Pc & Pe). fold p n in L1, L2, L3, L4, Hz, Hc, Pc, Pe.
  assert (La : length (repeat (0, 0) (S n)) = S n) by apply repeat_length.
  assert (Na : forall i, nth i (repeat (0, 0) (S n)) (0, 0) = (0, 0)) by (intros i; apply nth_repeat).
  assert (Ra : forall z, ray_at (ph_exit ph) (ph_edir ph) z = mkV 0 0 z).
  { intros z. unfold ray_at. rewrite E2, X0, Y0. cbn [vx vy vz]. rnum. f_equal; field. }
  set (axes := repeat (0, 0) (S n)) in *. clearbody axes.
  induction m as [|m IH]; intros i pc sn Hi; [reflexivity|]. cbn [trace_segs]. fold p.
  rewrite (bindr _ _ _ _ _ (rd_nth axes i (0, 0) e ltac:(lia))), Na.
  rewrite (bindr _ _ _ _ _ (rd_nth (p_z p) i 0 e ltac:(lia))), (bindr _ _ _ _ _ (rd_nth (p_cap p) i 0 e ltac:(lia))).
  rewrite (bindr _ _ _ _ _ (rd_nth axes (S i) (0, 0) e ltac:(lia))), Na.
  rewrite (bindr _ _ _ _ _ (rd_nth (p_z p) (S i) 0 e ltac:(lia))), (bindr _ _ _ _ _ (rd_nth (p_cap p) (S i) 0 e ltac:(lia))).
  rewrite (bindr _ _ _ _ _ (rd_nth (p_ext p) i 0 e ltac:(lia))), (bindr _ _ _ _ _ (rd_nth (p_ext p) (S i) 0 e ltac:(lia))).
  rewrite !within0 by (apply Pe; lia). cbn [Z.eqb orb]. rewrite !Ra, E2.
  assert (Zi : 0 <= zz i) by (rewrite <- zz0; apply zz_mono; lia).
  rewrite (bindr _ _ _ _ _ (miss_segment _ _ _ _ (mkV 0 0 (nth (S i) (p_z p) 0)) pc sn e (conj Zi (Hz i ltac:(lia))) (conj (Pc (S i) ltac:(lia)) (Hc i ltac:(lia))) eq_refl)).
  assert (V : vscalar (mkV 0 0 0) (mkV 0 0 1) = 0 :> R) by (unfold vscalar; cbn; ring). rewrite V. rnum. rewrite acos_0.
  rewrite !Rltb_false by (pose proof PI_RGT_0; lra). cbn [orb Z.eqb]. unfold within_e. rnum. rewrite Rleb_false by (apply Pe; lia). unfold bind at 1 2, ret. cbn beta iota.
  rewrite within0 by (apply Pe; lia). cbn [Z.eqb]. apply IH. lia.
Qed.

Lemma axis_through x junk fuel lc k ph (e : slot) : (k <= n)%nat -> vx (ph_exit ph) = 0 -> vy (ph_exit ph) = 0 -> ph_edir ph = mkV 0 0 1 -> ph_sdir ph = mkV 0 0 1 ->
  trace x o junk lc (S fuel) k ph (repeat (0, 0) (S n)) e = Ret ((-2)%Z, k, set_sdir (mkV 0 0 1) (set_edir (mkV 0 0 1) ph), e).
Proof.
  intros Hk X0 Y0 E2 E3. cbn [trace]. unfold trace_body. rewrite E2, E3, vnorm_z, One, shells1. cbv zeta. fold p n.
  rewrite (bindr _ _ _ Miss e); [reflexivity|]. apply axis_segs; auto. lia.
Qed.

(** The optic's glass and the energies are usable: src/polycap-photon.c:371-399 and launch. *)
Definition usable (en : list R) : Prop :=
  0 < o_dens o /\ o_iz o <> [] /\ Forall (fun zw => 0 <= snd zw <= 1 /\ (1 <= fst zw <= 111)%Z) (combine (o_iz o) (o_wi o)) /\
  en <> [] /\ Forall (fun e => 1 <= e <= 100) en.

Lemma en_fine en : Forall (fun e => 1 <= e <= 100) en -> List.existsb (fun e => (Rltb e 1) || (Rltb 100 e)) en = false.
Proof. induction 1 as [|e en [H1 H2] _ IH]; [reflexivity|]. cbn [existsb]. rewrite !Rltb_false by lra. exact IH. Qed.

Lemma axis_launched x junk fuel lc ph z en : ph_start ph = mkV 0 0 z -> ph_sdir ph = mkV 0 0 1 -> 0 <= z < zz n -> usable en ->
  exists ph', launch x o junk (S fuel) ph (Some en) false lc None = Ret (1%Z, ph', Some (map (fun _ => Some 1) en), None) /\
    ph_exit ph' = mkV 0 0 z /\ ph_edir ph' = mkV 0 0 1 /\ ph_irefl ph' = 0%Z /\ ph_ext ph' = [] /\ ph_int ph' = [].
Proof.
  intros E1 E2 Hz (U1 & U2 & U3 & U4 & U5). destruct (segment_of z Hz) as (k & Kn & Kz).
  pose proof Nar as (L1 & L2 & L3 & L4 & Z0 & _ & _ & Pc & Pe). fold p n in L1, L2, L3, L4, Pc, Pe.
  unfold launch. destruct en as [|e0 en0] eqn:Een; [congruence|]. rewrite <- Een in *. clear U4.
  assert (EF : List.existsb (fun e : R => ((e <? #1) || (e >? #100))%num%bool) en = false) by (apply en_fine; exact U5).
  rewrite EF. cbn [orb]. cbv zeta.
  assert (Sc : photon_scatf x o (launch_init ph en) None = Ret (set_cs (Some (map (xl_amu x o) en)) (Some (map (xl_scatf x o) en)) (launch_init ph en), None)).
  { unfold photon_scatf. cbn [ph_en launch_init]. rewrite EF. rnum. rewrite Rleb_false by lra. destruct (o_iz o) eqn:Ei; [congruence|]. rewrite <- Ei in *. rewrite Een. rewrite <- Een. cbn [orb].
    assert (EG : List.existsb (fun zw : Z * R => Rltb (snd zw) 0 || Rltb 1 (snd zw) || Z.ltb (fst zw) 1 || Z.ltb 111 (fst zw)) (combine (o_iz o) (o_wi o)) = false).
    { clear - U3. induction U3 as [|zw l [[H1 H2] [H3 H4]] _ IH]; [reflexivity|]. cbn [existsb]. rewrite !Rltb_false by lra.
      rewrite (proj2 (Z.ltb_ge _ _) H3), (proj2 (Z.ltb_ge _ _) H4). exact IH. }
    rewrite EG. reflexivity. }
  rewrite (bindr _ _ _ _ _ Sc).
  match goal with |- context [launch_reset ?q] => set (p1 := launch_reset q) end.
  assert (S1 : ph_start p1 = mkV 0 0 z) by exact E1.
  assert (S2 : ph_exit p1 = mkV 0 0 z) by exact E1.
  assert (S3 : ph_edir p1 = mkV 0 0 1) by (unfold p1; cbn; rewrite E2, !vnorm_z; auto).
  assert (S4 : ph_sdir p1 = mkV 0 0 1) by (unfold p1; cbn; rewrite E2, !vnorm_z; auto).
  assert (S5 : ph_w p1 = map (fun _ => 1) en) by reflexivity.
  assert (S6 : ph_irefl p1 = 0%Z /\ ph_ext p1 = [] /\ ph_int p1 = []) by (split; [|split]; reflexivity).
  clearbody p1. rewrite S1. cbn [vx vy vz]. rewrite One, shells1. fold p n.
  set (zid := if Rltb 0 z then k else 0%nat).
  assert (Zid : zid = k). { unfold zid. destruct (Rltb 0 z) eqn:R0; [reflexivity|]. assert (z = 0) by (destruct (Rle_lt_dec z 0) as [L|L]; [lra|rewrite (Rltb_true _ _ L) in R0; discriminate]). subst z.
     destruct k as [|k]; [reflexivity|]. pose proof (zz_lt 0 (S k) ltac:(lia)). rewrite zz0 in *. lra. }
  rewrite (bindr _ _ None zid None).
  2:{ unfold zid. rnum. destruct (Rltb 0 z); [|reflexivity]. apply last_le_eq; auto; lia. }
  rewrite Zid in *. clear zid Zid.
  set (ext := (nth k (p_ext p) 0 - nth (S k) (p_ext p) 0) / (zz k - zz (S k)) * (z - zz k) + nth k (p_ext p) 0).
  assert (Pext : 0 < ext).
  { pose proof (lin_pos (zz k) (zz (S k)) (nth k (p_ext p) 0) (nth (S k) (p_ext p) 0) z Kz (Pe k ltac:(lia)) (Pe (S k) ltac:(lia))) as H.
    unfold ext. replace ((nth k (p_ext p) 0 - nth (S k) (p_ext p) 0) / (zz k - zz (S k))) with ((nth (S k) (p_ext p) 0 - nth k (p_ext p) 0) / (zz (S k) - zz k)) by (field; lra). exact H. }
  rewrite (bindr _ _ None ext None).
  2:{ unfold launch_ext. rewrite (bindr _ _ _ _ _ (rd_nth (p_ext p) k 0 _ ltac:(lia))), (bindr _ _ _ _ _ (rd_nth (p_ext p) (S k) 0 _ ltac:(lia))).
      rewrite (bindr _ _ _ _ _ (rd_nth (p_z p) k 0 _ ltac:(lia))), (bindr _ _ _ _ _ (rd_nth (p_z p) (S k) 0 _ ltac:(lia))). reflexivity. }
  clearbody ext. rnum. rewrite Reqb_true by lra. replace (0 * 0 + 0 * 0) with 0 by ring. rewrite sqrt_0, (Rltb_false ext 0) by lra.
  rewrite (bindr _ _ _ _ _ eq_refl). cbn [negb].
  rewrite (bindr _ _ _ _ _ (axes_zero (S n) 0 None ltac:(lia))).
  rewrite (bindr _ _ None k None) by (apply last_le_eq; auto; lia).
  assert (RD : exists rad, 0 < rad /\ forall (K : R * R * R -> RM (Z * photon R * @weights_out R)),
     bind (if Rltb 0 z then bind (interp (p_z p) (p_cap p) z k) (fun rad => bind (interp (p_z p) (map fst (repeat (0, 0) (S n))) z k) (fun cx => bind (interp (p_z p) (map snd (repeat (0, 0) (S n))) z k) (fun cy => ret (rad, cx, cy))))
       else bind (rd (p_cap p) 0) (fun rad => bind (rd (repeat (0, 0) (S n)) 0) (fun '(cx, cy) => ret (rad, cx, cy)))) K None = K (rad, 0, 0) None).
  { assert (IN : forall vs (e : slot), length vs = S n -> interp (p_z p) vs z k e = Ret ((nth (S k) vs 0 - nth k vs 0) / (zz (S k) - zz k) * (z - zz k) + nth k vs 0, e)).
    { intros vs e Lv. unfold interp. rewrite (bindr _ _ _ _ _ (rd_nth vs (S k) 0 _ ltac:(lia))), (bindr _ _ _ _ _ (rd_nth vs k 0 _ ltac:(lia))).
      rewrite (bindr _ _ _ _ _ (rd_nth (p_z p) (S k) 0 _ ltac:(lia))), (bindr _ _ _ _ _ (rd_nth (p_z p) k 0 _ ltac:(lia))). reflexivity. }
    assert (Zr : forall f : R * R -> R, f (0, 0) = 0 -> forall i, nth i (map f (repeat (0, 0) (S n))) 0 = 0).
    { intros f Hf i. assert (E := map_nth f (repeat (0, 0) (S n)) (0, 0) i). rewrite Hf in E. rewrite E, nth_repeat. exact Hf. }
    destruct (Rltb 0 z).
    - eexists. split; [apply (lin_pos (zz k) (zz (S k)) (nth k (p_cap p) 0) (nth (S k) (p_cap p) 0) z Kz); apply Pc; lia|].
      intros K. unfold bind at 1. rewrite (bindr _ _ _ _ _ (IN (p_cap p) None ltac:(lia))).
      rewrite (bindr _ _ _ _ _ (IN _ None ltac:(rewrite map_length, repeat_length; reflexivity))), (bindr _ _ _ _ _ (IN _ None ltac:(rewrite map_length, repeat_length; reflexivity))).
      rewrite !(Zr fst), !(Zr snd) by reflexivity. unfold ret. match goal with |- K (_, ?a, _) _ = _ => replace a with 0 by (unfold Rdiv; ring) end. reflexivity.
    - exists (nth 0 (p_cap p) 0). split; [apply Pc; lia|]. intros K. unfold bind at 1. rewrite (bindr _ _ _ _ _ (rd_nth (p_cap p) 0 0 _ ltac:(lia))). reflexivity. }
  destruct RD as (rad & Prad & RD). rewrite RD. clear RD.
  match goal with |- context [sqrt ?y] => replace y with 0 by ring end. rewrite sqrt_0, Rltb_false by lra.
  cbn [trace_many].
  assert (TR := axis_through x junk fuel lc k p1 None ltac:(lia) ltac:(rewrite S2; reflexivity) ltac:(rewrite S2; reflexivity) S3 S4).
  unfold bind at 1 2. rewrite TR. cbn [Z.eqb Pos.eqb]. unfold ret. cbn [Z.eqb Pos.eqb orb ph_w set_sdir set_edir]. rewrite S5, map_map.
  eexists. split; [reflexivity|]. cbn. rewrite S2. destruct S6 as (S6 & S7 & S8). rewrite S6, S7, S8. auto.
Qed.
End Axis.

(** ** Whole simulations with such an optic and the source [axisR] *)
Lemma axis_draw_any cap0 ext0 : exists ev, forall rest, draw_photon axisR 1 cap0 ext0 (zeros6 ++ rest) = Some (mkDrawn (mkV 0 0 0) (mkV 0 0 0) (mkV 0 0 1) ev, rest).
Proof.
  eexists. intros rest. unfold draw_photon, zeros6. cbn [app]. unfold draw_ray, draw_source_point. rnum. cbn [so_sigx so_sigy so_d so_shx so_shy axisR].
  rewrite (Rltb_false 0 0) by lra. cbn [orb]. rewrite sqrt_0. cbn [vx vy].
  replace (0 * (1 - 2 * Rabs 0)) with 0 by ring. rewrite vnorm_z.
  match goal with |- Some (mkDrawn (mkV ?a ?b _) (mkV ?c ?d _) _ _, _) = _ =>
    replace c with 0 by lra; replace d with 0 by lra; replace a with 0 by lra; replace b with 0 by lra end.
  reflexivity.
Qed.

Section Runs.
Variable o : optic R.
Variable x : xraylib R.
Variable en : list R.
Hypothesis One : o_ncap o = 1%Z.
Hypothesis Nar : narrowing (o_prof o).
Hypothesis Use : usable o en.

Lemma axis_tried junk lc fuel : exists a, at_code a = 1%Z /\ at_w a = map (fun _ => Some 1) en /\
  (forall rest, attempt_run x o axisR en junk lc (S fuel) (zeros6 ++ rest) None = Ret (Some (a, rest), None)) /\
  classify o a None = Ret (1%Z, None).
Proof.
  pose proof Nar as (L1 & L2 & L3 & L4 & Z0 & Hz & _ & Pc & Pe).
  assert (Zn : 0 < nth (p_nmax (o_prof o)) (p_z (o_prof o)) 0) by (pose proof (zz_lt o Nar 0 (p_nmax (o_prof o)) ltac:(lia)) as K; cbv beta in K; rewrite Z0 in K; exact K).
  destruct (axis_draw_any (nth 0 (p_cap (o_prof o)) 0) (nth 0 (p_ext (o_prof o)) 0)) as (ev & D).
  destruct (axis_launched o One Nar x junk fuel lc (mkPhoton (mkV 0 0 0) (mkV 0 0 1) ev (mkV 0 0 0) (mkV 0 0 1) ev [] [] None None 0%Z 0 [] []) 0 en eq_refl eq_refl ltac:(lra) Use) as (ph' & K & Ee & Ed & _).
  exists (mkAttempt 1%Z ph' (map (fun _ => Some 1) en) (mkV 0 0 0)). split; [auto|]. split; [auto|]. split.
  - intros rest. unfold attempt_run. rewrite (bindr _ _ _ _ _ (rd_nth (p_cap (o_prof o)) 0 0 None ltac:(lia))), (bindr _ _ _ _ _ (rd_nth (p_ext (o_prof o)) 0 0 None ltac:(lia))).
    rewrite One, (D rest). unfold fresh_photon. cbn [dr_start dr_dir dr_elecv dr_src vz]. rnum. rewrite !Rltb_false by lra. cbn [orb].
    unfold bind at 1, ret at 1. unfold bind at 1, quiet. rewrite K. reflexivity.
  - unfold classify. cbn [at_code Z.eqb Pos.eqb at_ph]. rewrite (bindr _ _ _ _ _ (rd_nth (p_z (o_prof o)) (p_nmax (o_prof o)) 0 None ltac:(lia))), (bindr _ _ _ _ _ (rd_nth (p_ext (o_prof o)) (p_nmax (o_prof o)) 0 None ltac:(lia))).
    rewrite One, shells1, Ee, Ed. rnum. rewrite Reqb_true by lra. cbn [exit_point vx vy vz]. rnum.
    match goal with |- context [sqrt ?y] => replace y with 0 by field end. rewrite sqrt_0, Rltb_false by (pose proof (Pe (p_nmax (o_prof o)) (Nat.le_refl _)); lra). reflexivity.
Qed.
Lemma axis_attempts_any junk lc n dist : (1 <= n)%nat -> Permutation (concat dist) (seq 0 n) ->
  exists streams jobs,
  (1 <= n)%nat /\ Permutation (concat dist) (seq 0 n) /\ length streams = length dist /\
  (forall t js rs, nth_error dist t = Some js -> nth_error streams t = Some rs ->
     exists k fuel, jobs_run k x o axisR en junk lc fuel rs (length js) None = Ret (Some (map jobs js), None)).
Proof.
  intros Hn Pd. destruct (axis_tried junk lc 0) as (a & _ & _ & Ka & Kc).
  assert (G : forall m s rest, jobs_run 1 x o axisR en junk lc 1 (flat_map (fun _ => zeros6) (seq s m) ++ rest) m None = Ret (Some (repeat [(a, 1%Z)] m), None)).
  { induction m as [|m IH]; intros s rest; [reflexivity|]. cbn [jobs_run seq flat_map job_run]. unfold bind. rewrite <- app_assoc, Ka, Kc. cbn [again Z.eqb Pos.eqb orb].
    unfold ret. rewrite IH. reflexivity. }
  exists (map (fun js : list nat => flat_map (fun _ => zeros6) (seq 0 (length js))) dist), (fun _ => [(a, 1%Z)]).
  split; [exact Hn|]. split; [exact Pd|]. split; [apply map_length|].
  intros t js rs Et Es. rewrite nth_error_map, Et in Es. injection Es as <-. exists 1%nat, 1%nat.
  pose proof (G (length js) 0%nat []) as K. rewrite app_nil_r in K. rewrite K. do 3 f_equal. clear. induction js; cbn; congruence.
Qed.
End Runs.
