(** * A complete simulation in exact arithmetic: the hypotheses of the theorems are met *)
From Coq Require Import Reals ZArith List Bool Lia Lra Permutation.
From Verif Require Import Num Geometry SpecPhoton RM CapilModel TraceModel LaunchModel SourceModel RunModel
  TeamProofs RunProofs EffectProofs FinalProofs SpecRun SimProofs ReachProofs TotalProofs HexProofs PackProofs.
Import ListNotations.
Local Open Scope R_scope.

(** A tapered mono-capillary, and a source on its axis that emits along the axis. *)
Definition coneR : optic R := mkOptic (mkProfile 1 [0;1] [1/2;1/4] [1;1]) 1%Z 0 2 [14%Z] [1].
Definition axisR : source_nums R := mkSource 1 1 1 0 0 0 0 0.
Definition zeros6 : list R := [0;0;0;0;0;0].
Definition oneR : xraylib R := {| cs_total := fun _ _ => 1; fi := fun _ _ => 0; atomic_weight := fun _ => 28 |}.

Lemma shells1 : (n_shells 1 : R) = 0.
Proof. change 0 with (IZR 0). apply n_shells_char; lia. Qed.
Lemma vnorm_z : vnorm (mkV 0 0 1) = mkV 0 0 1 :> vec3 R.
Proof. unfold vnorm, vscalar. cbn. replace (0*0+0*0+1*1) with 1 by ring. rewrite sqrt_1. f_equal; field. Qed.

Lemma axis_draw rest : exists ev, draw_photon axisR 1 (1/2) 1 (zeros6 ++ rest) = Some (mkDrawn (mkV 0 0 0) (mkV 0 0 0) (mkV 0 0 1) ev, rest).
Proof.
  unfold draw_photon, zeros6. cbn [app]. unfold draw_ray, draw_source_point. rnum. cbn [so_sigx so_sigy so_d so_shx so_shy axisR].
  rewrite (Rltb_false 0 0) by lra. cbn [orb]. rewrite sqrt_0. cbn [vx vy].
  replace (0 * (1 - 2 * Rabs 0)) with 0 by ring. rewrite vnorm_z. eexists. 
  match goal with |- Some (mkDrawn (mkV ?a ?b _) (mkV ?c ?d _) _ _, _) = _ =>
    replace c with 0 by lra; replace d with 0 by lra; replace a with 0 by lra; replace b with 0 by lra end.
  reflexivity.
Qed.

Lemma within0 e z : 0 < e -> within_pc_boundary e (mkV 0 0 z : vec3 R) = 1%Z.
Proof.
  intros He. destruct (within_strips e (mkV 0 0 z) He) as [[E _]|[_ Hs]]; auto. exfalso. apply Hs. unfold strips. cbn [vx vy].
  pose proof s3_pos. replace (sqrt 3 / 2 * 0 + / 2 * 0) with 0 by ring. replace (sqrt 3 / 2 * 0 - / 2 * 0) with 0 by ring. rewrite Rabs_R0. nra.
Qed.

(** The photon on the axis misses the wall. *)
Lemma axis_segment pc junk e :
  CapilModel.segment (mkV 0 0 0) (mkV 0 0 1) (1/2) (1/4) (mkV 0 0 0) (mkV 0 0 1) (mkV 0 0 1) pc junk e = Ret ((-4)%Z, pc, mkV 0 0 0, e).
Proof.
  unfold CapilModel.segment. cbn [vx vy vz]. rnum. rewrite !(Rltb_false) by lra.
  rewrite (Rleb_false 1 0) by lra. rewrite !Reqb_true by lra. cbn [orb negb].
  rewrite vnorm_z. unfold seg_a, seg_b, seg_c, vsub. cbn [vx vy vz]. rnum.
  match goal with |- context [seg_pick ?a ?b ?c] => replace a with (-1/16) by field; replace b with (1/4) by field; replace c with (-1/4) by field end.
  unfold seg_pick. rnum.
  replace (1/4 * (1/4) - 4 * (-1/16) * (-1/4)) with 0 by field. rewrite Rltb_false by lra. rewrite Reqb_true by lra.
  rewrite Rltb_true by lra. reflexivity.
Qed.

Ltac rs := repeat (progress (unfold bind, rd, ret; cbn [nth_error p_z p_cap p_ext p_nmax o_prof o_ncap coneR]; cbv beta iota)).

Lemma axis_trace x junk fuel lc ph e : ph_exit ph = mkV 0 0 0 -> ph_edir ph = mkV 0 0 1 -> ph_sdir ph = mkV 0 0 1 ->
  trace x coneR junk lc (S fuel) 0%nat ph [(0,0);(0,0)] e = Ret ((-2)%Z, 0%nat, set_sdir (mkV 0 0 1) (set_edir (mkV 0 0 1) ph), e).
Proof.
  intros E1 E2 E3. cbn [trace]. unfold trace_body. rewrite E2, E3, vnorm_z. cbn [ph_exit ph_edir set_sdir set_edir].
  cbn [p_nmax o_prof coneR Nat.sub]. cbn [trace_segs]. rs.
  rewrite E1. cbn [ph_exit ph_edir set_sdir set_edir]. rewrite !within0 by lra. cbn [Z.eqb orb].
  rs. cbn [ph_exit ph_edir]. rewrite ?E1.
  assert (Ra : forall z, ray_at (mkV 0 0 0) (mkV 0 0 1) z = (mkV 0 0 z : vec3 R)) by (intros z; unfold ray_at; cbn; f_equal; field).
  rewrite !Ra, axis_segment. cbv beta iota.
  assert (V : vscalar (mkV 0 0 0) (mkV 0 0 1) = 0 :> R) by (unfold vscalar; cbn; ring). rewrite V. rnum. rewrite acos_0.
  rewrite !Rltb_false by (pose proof PI_RGT_0; lra). cbn [orb Z.eqb]. unfold within_e. rnum. rewrite Rleb_false by lra. rs. rewrite within0 by lra. cbn [Z.eqb]. reflexivity.
Qed.

Lemma axis_launch x junk fuel lc ph : ph_start ph = mkV 0 0 0 -> ph_sdir ph = mkV 0 0 1 ->
  exists ph', launch x coneR junk (S fuel) ph (Some [10]) false lc None = Ret (1%Z, ph', Some [Some 1], None) /\
    ph_exit ph' = mkV 0 0 0 /\ ph_edir ph' = mkV 0 0 1.
Proof.
  intros E1 E2. unfold launch. cbn [existsb]. rnum. rewrite !Rltb_false by lra. cbn [orb].
  unfold bind at 1. unfold photon_scatf. cbn [ph_en launch_init o_dens o_iz o_wi coneR existsb combine fst snd Z.ltb Z.compare Pos.compare Pos.compare_cont]. rnum.
  rewrite Rleb_false by lra. rewrite !Rltb_false by lra. cbn [orb]. unfold ret at 1. 
  match goal with |- context [launch_reset ?p] => set (p1 := launch_reset p) end.
  assert (S1 : ph_start p1 = mkV 0 0 0) by exact E1.
  assert (S2 : ph_exit p1 = mkV 0 0 0) by exact E1.
  assert (S3 : ph_edir p1 = mkV 0 0 1) by (unfold p1; cbn; rewrite E2, !vnorm_z; auto).
  assert (S4 : ph_sdir p1 = mkV 0 0 1) by (unfold p1; cbn; rewrite E2, !vnorm_z; auto).
  assert (S5 : ph_w p1 = [1]) by reflexivity.
  clearbody p1. rewrite S1. cbn [vx vy vz o_ncap coneR o_prof p_z p_cap p_ext p_nmax].
  rewrite shells1. rewrite (Rltb_false 0 0) by lra. unfold launch_ext. rs.
  rewrite Reqb_true by lra. replace (0 * 0 + 0 * 0) with 0 by ring. rewrite sqrt_0. rs.
  rnum. replace ((1 - 1) / (0 - 1) * (0 - 0) + 1) with 1 by field. rewrite (Rltb_false 1 0) by lra. cbn [negb]. rs. rnum.
  cbn [launch_axes]. rs. unfold axis_x, axis_y. rnum. rs.
  cbn [last_le]. rs. rnum. rewrite (Rleb_false 1 0), (Rleb_true 0 0) by lra. cbv iota beta.
  repeat match goal with |- context [(?a, ?b)] => match type of (a, b) with (R * R)%type => first [progress replace a with 0 by ring | progress replace b with 0 by ring] end end.
  match goal with |- context [sqrt ?x] => replace x with 0 by ring end. rewrite sqrt_0. rewrite Rltb_false by lra.
  change (Datatypes.S 1) with 2%nat. cbn [trace_many]. rs. rewrite axis_trace by auto. cbn [Z.eqb Pos.eqb orb]. rs.
  cbn [ph_w set_sdir set_edir map]. rewrite S5. eexists. split; [reflexivity|]. cbn. auto.
Qed.

Lemma axis_attempt junk lc fuel : exists a, at_code a = 1%Z /\ at_w a = [Some 1] /\
  (forall rest, attempt_run oneR coneR axisR [10] junk lc (S fuel) (zeros6 ++ rest) None = Ret (Some (a, rest), None)) /\
  classify coneR a None = Ret (1%Z, None).
Proof.
  destruct (axis_draw []) as (ev & D0).
  assert (D : forall rest, draw_photon axisR 1 (1/2) 1 (zeros6 ++ rest) = Some (mkDrawn (mkV 0 0 0) (mkV 0 0 0) (mkV 0 0 1) ev, rest)).
  { intros rest. destruct (axis_draw rest) as (ev' & D'). rewrite D'. do 3 f_equal.
    assert (H : forall r d d' l, draw_photon axisR 1 (1/2) 1 (zeros6 ++ r) = Some (d, l) -> draw_photon axisR 1 (1/2) 1 (zeros6 ++ []) = Some (d', []) -> dr_elecv d = dr_elecv d').
    { intros r d d' l. unfold draw_photon, zeros6. cbn [app]. destruct (draw_ray axisR 1 (1/2) 1 _ _) as [[[? ?] [|? ?]]|] eqn:X; try discriminate.
      destruct (draw_ray axisR 1 (1/2) 1 _ [0;0;0]) as [[[? ?] [|? ?]]|] eqn:Y; try discriminate.
      intros K1 K2. injection K1 as <- _. injection K2 as <- _. cbn. unfold draw_ray in X, Y. destruct (orb _ _); [|injection X as _ <- <- _; injection Y as _ <- <- _; auto].
      unfold draw_entrance in X, Y. rewrite shells1 in X, Y. rnum. rewrite Reqb_true in X, Y by lra. injection X as _ <- <- _; injection Y as _ <- <- _; auto. }
    pose proof (H _ _ _ _ D' D0) as E. cbn in E. rewrite E. reflexivity. }
  destruct (axis_launch oneR junk fuel lc (mkPhoton (mkV 0 0 0) (mkV 0 0 1) ev (mkV 0 0 0) (mkV 0 0 1) ev [] [] None None 0%Z 0 [] []) eq_refl eq_refl) as (ph' & K & Ee & Ed).
  exists (mkAttempt 1%Z ph' [Some 1] (mkV 0 0 0)). split; [auto|]. split; [auto|]. split.
  - intros rest. unfold attempt_run. unfold bind, rd. cbn [nth_error o_prof coneR p_cap p_ext]. unfold ret. change (o_ncap coneR) with 1%Z. rewrite (D rest). cbv beta iota.
    unfold fresh_photon. cbn [dr_start dr_dir dr_elecv dr_src vz]. rnum. rewrite !Rltb_false by lra. cbn [orb]. unfold ret, quiet. cbv beta iota.
    rewrite K. reflexivity.
  - unfold classify. cbn [at_code Z.eqb Pos.eqb at_ph]. rs. rewrite shells1, Ee, Ed. rnum. rewrite Reqb_true by lra. cbn [exit_point vx vy vz]. rnum.
    match goal with |- context [sqrt ?x] => replace x with 0 by field end. rewrite sqrt_0, Rltb_false by lra. reflexivity.
Qed.

Lemma axis_jobs junk lc fuel : exists a, at_w a = [Some 1] /\ at_code a = 1%Z /\ forall m rest,
  jobs_run 1 oneR coneR axisR [10] junk lc (S fuel) (flat_map (fun _ => zeros6) (seq 0 m) ++ rest) m None = Ret (Some (repeat [(a, 1%Z)] m), None).
Proof.
  destruct (axis_attempt junk lc fuel) as (a & Ec & Ew & Ka & Kc). exists a. split; [auto|]. split; [auto|].
  assert (G : forall m s rest, jobs_run 1 oneR coneR axisR [10] junk lc (S fuel) (flat_map (fun _ => zeros6) (seq s m) ++ rest) m None = Ret (Some (repeat [(a, 1%Z)] m), None)).
  { induction m as [|m IH]; intros s rest; [reflexivity|]. cbn [jobs_run seq flat_map job_run]. unfold bind. rewrite <- app_assoc, Ka, Kc. cbn [again Z.eqb Pos.eqb orb].
    unfold ret. rewrite IH. reflexivity. }
  intros m. apply G.
Qed.

(** Any number of photons, any distribution over any number of threads. *)
Lemma axis_attempts junk lc n dist : (1 <= n)%nat -> Permutation (concat dist) (seq 0 n) ->
  exists a, at_w a = [Some 1] /\ at_code a = 1%Z /\
  let jobs := fun _ : nat => [(a, 1%Z)] in
  let streams := map (fun js : list nat => flat_map (fun _ => zeros6) (seq 0 (length js))) dist in
  length streams = length dist /\
  forall t js rs, nth_error dist t = Some js -> nth_error streams t = Some rs ->
     exists k fuel, jobs_run k oneR coneR axisR [10] junk lc fuel rs (length js) None = Ret (Some (map jobs js), None).
Proof.
  intros Hn Pd. destruct (axis_jobs junk lc 0) as (a & Ew & Ec & K). exists a. split; [auto|]. split; [auto|]. split; [apply map_length|].
  intros t js rs Et Es. rewrite nth_error_map, Et in Es. injection Es as <-. exists 1%nat, 1%nat.
  specialize (K (length js) []). rewrite app_nil_r in K. rewrite K. do 3 f_equal. clear. induction js; cbn; congruence.
Qed.
