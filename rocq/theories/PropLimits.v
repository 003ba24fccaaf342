(** * Limits of polycap_source_get_transmission_efficiencies: photons that are not counted,
      simulations that never end, the progress output *)
From Coq Require Import Floats Reals ZArith List Bool Lia Lra Permutation.
From Verif Require Import Num Geometry SpecPhoton RM CapilModel TraceModel LaunchModel SourceModel SourceReal RunModel
  HexProofs PackProofs TeamProofs RunProofs EffectProofs FinalProofs SpecRun SimProofs ReachProofs TotalProofs PropRun ExampleRun
  ProfileFloat Libm PropLaunch PropSource ProgressModel.
Import ListNotations.

(** Given the attempts of every iteration, a simulation completes. *)
Lemma completes {T} {N : Num T} (x : xraylib T) (o : optic T) src en junk lc n dist streams jobs before zmax :
  1 <= n -> Permutation (concat dist) (seq 0 n) -> length streams = length dist ->
  (forall t js rs, nth_error dist t = Some js -> nth_error streams t = Some rs ->
     exists k fuel, jobs_run k x o src en junk lc fuel rs (length js) None = Ret (Some (map jobs js), None)) ->
  zmax_of o = Some zmax -> (forall j, j < n -> weighed (length en) (jobs j)) ->
  exists r, simulation x o src en junk lc n dist streams jobs before r.
Proof.
  intros Hn Pd Ls Hj Ez Hw.
  destruct (threads_run_total o lc (length en) jobs zmax dist None Ez) with (tid := 0) as (progs & Kt).
  { intros j Ij. apply Hw. apply (Permutation_in _ Pd) in Ij. apply in_seq in Ij. lia. }
  assert (Nd : dist <> []).
  { intros ->. apply Permutation_length in Pd. rewrite seq_length in Pd. cbn in Pd. lia. }
  destruct (can_finish _ _ _ _ _ _ zmax Kt (or_introl Ez) Nd _ (steps_refl _)) as (ths & s & St & D).
  exists (finish en (length dist) before s). split; [auto|]. split; [auto|]. split; [auto|]. split; [auto|].
  exists progs, ths, s. auto.
Qed.

(** ** C62 *)
(** A tapered capillary lit from a point beside its axis. *)
Definition coneF : optic float :=
  mkOptic (mkProfile 1 [0;1]%float [0.5;0.25]%float [1;1]%float) 1%Z 0%float 2%float [14%Z] [1%float].
Definition besideF : source_nums float :=
  mkSource 0.125%float 1%float 1%float (-1)%float (-1)%float (-0.5)%float 0%float 0%float.
Definition numbers : list float := [0;0;0;0.9999999;0.5;0.9; 0;0;0.25;0.5;0.5;0.9]%float.

(** Two photons are launched into the optic, one reaches the exit window, and the result
    says one photon was started. *)
Theorem C62_every_launched_photon_counted_refuted :
  forall lm, libm_std lm ->
  exists jobs (r : result float), let N := FNum lm in
    simulation xl coneF besideF [10%float] nulls false 1 [[0]] [numbers] jobs 0%float r /\
    length (launched jobs 1) = 2 /\ Forall (fun y => at_code (fst y) = 1%Z) (launched jobs 1) /\
    re_start r = 1%Z /\ re_exit r = 1%Z.
Proof.
  intros lm L. cbv zeta. rewrite <- (libm_std_patch _ L).
  set (N := FNum (patch lm)).
  assert (K : exists a b w, @jobs_run float N 2 xl coneF besideF [10%float] nulls false 20 numbers 1 None
                       = Ret (Some [[(a, 0%Z); (b, 1%Z)]], None) /\ at_code a = 1%Z /\ at_code b = 1%Z /\ at_w b = [Some w]).
  { assert (C : match @jobs_run float N 2 xl coneF besideF [10%float] nulls false 20 numbers 1 None with
                | Ret (Some [[(a, 0%Z); (b, 1%Z)]], None) =>
                    (Z.eqb (at_code a) 1 && Z.eqb (at_code b) 1 && match at_w b with [Some _] => true | _ => false end)%bool
                | _ => false end = true) by (vm_compute; reflexivity).
    destruct (jobs_run _ _ _ _ _ _ _ _ _ _ _) as [[v e]| |]; try discriminate. destruct v as [v|]; [|discriminate].
    destruct v as [|l v]; [discriminate|]. destruct l as [|[a i] l]; [discriminate|]. destruct i; try discriminate.
    destruct l as [|[b i] l]; [discriminate|]. destruct i as [|[ | | ]|]; try discriminate. destruct l; [|discriminate].
    destruct v; [|discriminate]. destruct e; [discriminate|].
    apply andb_prop in C. destruct C as (C & Cw). apply andb_prop in C. destruct C as (C1 & C2).
    apply Z.eqb_eq in C1, C2. destruct (at_w b) as [|[w|] [|]] eqn:Ew; try discriminate. exists a, b, w. auto. }
  destruct K as (a & b & w & K & Ca & Cb & Wb).
  pose (jobs := fun _ : nat => [(a, 0%Z); (b, 1%Z)]).
  destruct (@completes float N xl coneF besideF [10%float] nulls false 1 [[0]] [numbers] jobs 0%float 1%float) as (r & Sim).
  - lia.
  - apply Permutation_refl.
  - reflexivity.
  - intros [|[|t]] js rs E1 E2; cbn [nth_error] in E1, E2; try discriminate E1. injection E1 as <-. injection E2 as <-.
    exists 2, 20. change (length [0]) with 1. rewrite K. reflexivity.
  - reflexivity.
  - intros j _. exists [(a, 0%Z)], b, 1%Z, [w]. split; [reflexivity|]. split; [exact Wb|reflexivity].
  - exists jobs, r. split; [exact Sim|]. split; [reflexivity|]. split; [repeat constructor; auto|].
    destruct (@C41_every_photon_recorded float N _ _ _ _ _ _ _ _ _ _ _ _ Sim) as (E1 & E2 & _). split; [|exact E1].
    rewrite E2. unfold launched. cbn [seq flat_map]. unfold jobs, with_code. cbn [app filter fst]. rewrite Ca, Cb. reflexivity.
Qed.

Local Open Scope R_scope.
(** ** C63 *)
(** A source whose photons all miss the optic: parallel to the axis, beside the entrance. *)
Definition misses (k : source_nums R) (ext0 : R) : Prop :=
  so_sigx k = 0 /\ so_sigy k = 0 /\ 0 < so_x k /\ 0 < so_y k /\ 0 <= ext0 /\ so_x k + ext0 < so_shx k.

Lemma ellipse_x a b r x y : 0 < a -> 0 < b -> r <= 1 -> (x / a) ^ 2 + (y / b) ^ 2 = r -> - a <= x.
Proof.
  intros Ha Hb Hr E. assert (H : (x / a) ^ 2 <= 1) by (assert (0 <= (y / b) ^ 2) by nra; lra).
  assert (E2 : x = a * (x / a)) by (field; lra). set (t := x / a) in *. nra.
Qed.

Lemma beside_start (k : source_nums R) n_cap cap0 ext0 rs d rs' : misses k ext0 -> Forall unit_interval rs ->
  draw_photon k n_cap cap0 ext0 rs = Some (d, rs') -> ext0 < vx (dr_start d) /\ vz (dr_start d) = 0 /\ Forall unit_interval rs'.
Proof.
  intros (S1 & S2 & X & Y & E0 & Sh) U H. unfold draw_photon in H.
  destruct rs as [|r1 [|r2 [|r3 rs]]]; try discriminate. unfold draw_ray in H. revert H. rnum. rewrite S1, S2, (Rltb_false 0 0) by lra. cbn [orb].
  destruct rs as [|r4 [|r5 rs]]; try discriminate. destruct rs as [|r6 rs]; try discriminate. intros H. injection H as <- <-. cbn [dr_start vx vy vz].
  assert (U3 : unit_interval r3) by (rewrite Forall_forall in U; apply U; cbn; auto).
  destruct (source_point_ellipse k r1 r2 r3 X Y) as (E & _). { unfold unit_interval in U3. lra. }
  unfold unit_interval in U3. assert (E' := ellipse_x _ _ _ _ _ X Y (proj2 U3) E). split; [|split; [auto|]].
  - replace (0 * (1 - 2 * Rabs r4) * so_d k / 1) with 0 by field. unfold draw_source_point in E'. revert E'. rnum. cbn [vx]. lra.
  - rewrite Forall_forall in *. intros r Ir. apply U. cbn. auto 8.
Qed.

Lemma launch_outside x (o : optic R) junk fuel ph en lc e code ph' w e' ext0 :
  o_ncap o = 1%Z -> nth_error (p_ext (o_prof o)) 0 = Some ext0 -> 0 <= ext0 ->
  vz (ph_start ph) = 0 -> ext0 < vx (ph_start ph) -> hd_error (p_z (o_prof o)) = Some 0 ->
  launch x o junk fuel ph (Some en) false lc e = Ret (code, ph', Some w, e') -> code = (-2)%Z.
Proof.
  intros Nc Ex E0 Z0 Hx Hz K. unfold launch in K. destruct (orb _ false); [discriminate|].
  rewrite Nc in K. unfold bind at 1 in K. destruct (photon_scatf x o (launch_init ph en) e) as [[p1 e1]| |] eqn:Kp; try discriminate.
  assert (S1 : ph_start p1 = ph_start ph).
  { unfold photon_scatf in Kp. destruct (orb _ _) in Kp; unfold bind, report, ret in Kp; injection Kp as <- _; reflexivity. }
  change (ph_start (launch_reset p1)) with (ph_start p1) in K. rewrite S1, Z0, shells1 in K.
  revert K. rnum. rewrite (Rltb_false 0 0) by lra. unfold bind at 1, ret at 1. unfold bind at 1, launch_ext, bind at 1, rd at 1. rewrite Ex. cbv beta iota. unfold ret at 1.
  unfold bind at 1, rd at 1. destruct (nth_error (p_ext (o_prof o)) 1) as [e2|]; [|discriminate]. unfold ret at 1.
  unfold bind at 1, rd at 1. destruct (p_z (o_prof o)) as [|z0 zs] eqn:Ezs; [discriminate|]. injection Hz as ->. cbn [nth_error]. unfold ret at 1.
  unfold bind at 1, rd at 1. destruct (nth_error (0 :: zs) 1) as [z1|]; [|discriminate]. unfold ret at 1, ret at 1.
  rewrite Reqb_true by lra. unfold bind at 1, ret at 1. rnum.
  replace ((ext0 - e2) / (0 - z1) * (0 - 0) + ext0) with ext0 by (unfold Rdiv; ring).
  rewrite Rltb_true.
  - cbn [negb]. unfold bind, report, ret. intros H. injection H as <- _ _ _. reflexivity.
  - apply Rlt_le_trans with (vx (ph_start ph)); auto. rewrite <- (sqrt_Rsqr (vx (ph_start ph))) at 1 by lra.
    apply sqrt_le_1_alt. unfold Rsqr. nra.
Qed.

Lemma beside_attempt x (o : optic R) src en junk lc fuel rs a rs' cap0 ext0 :
  o_ncap o = 1%Z -> nth_error (p_cap (o_prof o)) 0 = Some cap0 -> nth_error (p_ext (o_prof o)) 0 = Some ext0 ->
  hd_error (p_z (o_prof o)) = Some 0 -> misses src ext0 -> Forall unit_interval rs ->
  attempt_run x o src en junk lc fuel rs None = Ret (Some (a, rs'), None) -> at_code a = (-2)%Z /\ Forall unit_interval rs'.
Proof.
  intros Nc Ec Ex Hz M U K. unfold attempt_run in K. unfold bind at 1, rd at 1 in K. rewrite Ec in K. unfold ret at 1 in K.
  unfold bind at 1, rd at 1 in K. rewrite Ex in K. unfold ret at 1 in K.
  destruct (draw_photon src (o_ncap o) cap0 ext0 rs) as [[d rs1]|] eqn:D; [|discriminate].
  destruct (beside_start _ _ _ _ _ _ _ M U D) as (Hx & Z0 & U').
  unfold bind at 1 in K. unfold fresh_photon in K. destruct (orb _ _) in K; [discriminate|]. unfold ret at 1 in K.
  unfold bind, quiet in K.
  match type of K with context [launch x o junk fuel ?p (Some en) false lc None] => destruct (launch x o junk fuel p (Some en) false lc None) as [[[[c p1] w] e1]| |] eqn:Kl end; try discriminate.
  destruct w as [w|]; [|discriminate]. unfold ret in K. injection K as <- <-. cbn [at_code].
  split; [|exact U']. eapply launch_outside; [exact Nc|exact Ex| | | |exact Hz|exact Kl]; cbn [ph_start]; auto. apply M.
Qed.

(** However long it runs: no iteration ever ends, so no simulation has a result. *)
Theorem C63_terminates_refuted :
  forall (x : xraylib R) (o : optic R) (src : source_nums R) en junk lc cap0 ext0,
  o_ncap o = 1%Z -> nth_error (p_cap (o_prof o)) 0 = Some cap0 -> nth_error (p_ext (o_prof o)) 0 = Some ext0 ->
  hd_error (p_z (o_prof o)) = Some 0 -> misses src ext0 ->
  (forall rs k fuel l rs', Forall unit_interval rs -> job_run k x o src en junk lc fuel rs None <> Ret (Some (l, rs'), None)) /\
  (forall n dist streams jobs before r, Forall (Forall unit_interval) streams ->
     ~ simulation x o src en junk lc n dist streams jobs before r).
Proof.
  intros x o src en junk lc cap0 ext0 Nc Ec Ex Hz M.
  assert (J : forall k rs fuel l rs', Forall unit_interval rs -> job_run k x o src en junk lc fuel rs None <> Ret (Some (l, rs'), None)).
  { induction k as [|k IH]; intros rs fuel l rs' U K; cbn [job_run] in K; [discriminate|].
    unfold bind at 1 in K. destruct (attempt_run x o src en junk lc fuel rs None) as [[[[a rs1]|] e1]| |] eqn:Ka; try discriminate.
    assert (e1 = None) as ->.
    { unfold attempt_run, bind, rd in Ka. destruct (nth_error (p_cap (o_prof o)) 0); [|discriminate]. unfold ret in Ka.
      destruct (nth_error (p_ext (o_prof o)) 0); [|discriminate]. destruct (draw_photon _ _ _ _ _) as [[d q]|]; [|discriminate].
      unfold fresh_photon in Ka. destruct (orb _ _) in Ka; [discriminate|]. unfold ret, quiet in Ka.
      destruct (launch _ _ _ _ _ _ _ _ _) as [[[[? ?] [w|]] ?]| |] in Ka; try discriminate. injection Ka as _ _ <-. reflexivity. }
    destruct (beside_attempt _ _ _ _ _ _ _ _ _ _ _ _ Nc Ec Ex Hz M U Ka) as (Ca & U1).
    unfold bind at 1, classify in K. rewrite Ca in K. cbn [Z.eqb] in K. unfold ret at 1 in K. cbn [again Z.eqb Pos.eqb orb] in K.
    unfold bind in K. destruct (job_run k x o src en junk lc fuel rs1 None) as [[[[l1 rs2]|] e2]| |] eqn:Kj; try discriminate.
    unfold ret in K. injection K as _ _ ->. exact (IH _ _ _ _ U1 Kj). }
  split; [intros rs k fuel l rs'; apply J|].
  intros n dist streams jobs before r U (Hn & Pd & Ls & Hj & _).
  assert (I0 : In 0%nat (concat dist)) by (eapply Permutation_in; [apply Permutation_sym; exact Pd|]; apply in_seq; lia).
  apply in_concat in I0. destruct I0 as (js & Ijs & I0). destruct (In_nth_error _ _ Ijs) as (t & Et).
  destruct (nth_error streams t) as [rs|] eqn:Er.
  2:{ apply nth_error_None in Er. assert (t < length dist)%nat by (apply nth_error_Some; congruence). cbn in *. lia. }
  destruct (Hj t js rs Et Er) as (k & fuel & K). destruct js as [|j js]; [contradiction|]. cbn [length jobs_run] in K.
  unfold bind at 1 in K. destruct (job_run k x o src en junk lc fuel rs None) as [[[[l1 rs2]|] e2]| |] eqn:Kj; try discriminate.
  assert (Ur : Forall unit_interval rs) by (rewrite Forall_forall in U; apply U; eapply nth_error_In; eauto).
  destruct e2 as [c|]; [|exact (J _ _ _ _ _ Ur Kj)].
  unfold bind in K. exfalso.
  assert (Q : forall k rs fuel (e : slot) v e', job_run k x o src en junk lc fuel rs e = Ret (v, e') -> e' = e).
  { clear -Ec. induction k as [|k IH]; intros rs fuel e v e' K; cbn [job_run] in K; [discriminate|].
    unfold bind at 1 in K. destruct (attempt_run x o src en junk lc fuel rs e) as [[[[a rs1]|] e1]| |] eqn:Ka; try discriminate.
    - assert (e1 = e) as ->.
      { unfold attempt_run, bind, rd in Ka. destruct (nth_error (p_cap (o_prof o)) 0); [|discriminate]. unfold ret in Ka.
        destruct (nth_error (p_ext (o_prof o)) 0); [|discriminate]. destruct (draw_photon _ _ _ _ _) as [[d q]|]; [|discriminate].
        unfold fresh_photon in Ka. destruct (orb _ _) in Ka; [discriminate|]. unfold ret, quiet in Ka.
        destruct (launch _ _ _ _ _ _ _ _ _) as [[[[? ?] [w|]] ?]| |] in Ka; try discriminate. injection Ka as _ _ <-. reflexivity. }
      unfold bind at 1 in K. destruct (classify o a e) as [[i e1]| |] eqn:Kc; try discriminate.
      assert (e1 = e) as ->.
      { unfold classify, bind, rd in Kc. destruct (Z.eqb (at_code a) 1); [|unfold ret in Kc; injection Kc as _ ->; auto].
        destruct (nth_error (p_z (o_prof o)) _); [|discriminate]. unfold ret in Kc. destruct (nth_error (p_ext (o_prof o)) _); [|discriminate].
        destruct (neqb _ _) in Kc; [injection Kc as _ ->; auto|]. unfold quiet in Kc. destruct (within_e _ _ _) as [[? ?]| |]; try discriminate. injection Kc as _ ->; auto. }
      destruct (again i); [|unfold ret in K; injection K as _ ->; auto]. unfold bind in K.
      destruct (job_run k x o src en junk lc fuel rs1 e) as [[[[l1 rs2]|] e2]| |] eqn:Kj; try discriminate; unfold ret in K; injection K as _ <-; eapply IH; eauto.
    - unfold ret in K. injection K as _ ->. unfold attempt_run, bind, rd in Ka. destruct (nth_error (p_cap (o_prof o)) 0); [|discriminate]. unfold ret in Ka.
      destruct (nth_error (p_ext (o_prof o)) 0); [|discriminate]. destruct (draw_photon _ _ _ _ _) as [[d q]|]; [|injection Ka as ->; auto].
      unfold fresh_photon in Ka. destruct (orb _ _) in Ka; [discriminate|]. unfold ret, quiet in Ka. destruct (launch _ _ _ _ _ _ _ _ _) as [[[[? ?] [w|]] ?]| |] in Ka; discriminate. }
  apply Q in Kj. discriminate.
Qed.

(** Such optics and sources exist. *)
Example C63_example : misses (mkSource 1 1 1 0 0 10 0 0) 1 /\ o_ncap coneR = 1%Z /\
  nth_error (p_cap (o_prof coneR)) 0 = Some (1/2) /\ nth_error (p_ext (o_prof coneR)) 0 = Some 1 /\ hd_error (p_z (o_prof coneR)) = Some 0.
Proof. unfold misses. cbn. repeat split; auto; lra. Qed.

(** ** C64 *)
(** The progress output does no harm when every thread has work to do and there are at most
    21 474 837 photons, whatever the arithmetic. *)
Theorem C101_progress_output :
  forall (T : Type) (N : Num T) n_photons max_threads i js e,
  (1 <= max_threads <= n_photons)%Z -> Forall (fun j => (0 <= j <= 21474836)%Z) js ->
  exists ps, progress_run n_photons max_threads i js e = Ret (ps, e) /\ Forall (fun p => (0 <= p)%Z) ps.
Proof.
  intros T N n mt i js e Hm F. revert i. induction F as [|j js Hj F IH]; intros i; cbn [progress_run]; [exists []; split; [reflexivity|constructor]|].
  destruct (nleb _ _); [|apply IH].
  assert (Q : (1 <= Z.quot n mt)%Z) by (apply Z.quot_le_lower_bound; lia).
  unfold percent, int_max. destruct (Z.ltb_spec 2147483647 (j * 100)); [lia|]. destruct (Z.eqb_spec (Z.quot n mt) 0); [lia|]. cbn [orb].
  destruct (IH 1%Z) as (ps & K & Fp). unfold bind, ret. rewrite K. eexists. split; [reflexivity|]. constructor; auto.
  apply Z.quot_pos; lia.
Qed.

(** With fewer photons than requested threads, the second iteration of thread 0 divides by
    zero (a team that is smaller than requested, as inside another parallel region, or a
    schedule that gives thread 0 two iterations). *)
Theorem C64_progress_division_by_zero_refuted :
  forall n_photons max_threads j0 j1 js e, (1 <= n_photons < max_threads)%Z ->
  progress_run (T := R) n_photons max_threads 0 (j0 :: j1 :: js) e = Ub.
Proof.
  intros n mt j0 j1 js e H. cbn [progress_run]. rnum.
  assert (Hn : 1 <= IZR n) by (apply IZR_le; lia). assert (Hm : IZR n < IZR mt) by (apply IZR_lt; lia).
  rewrite Rleb_false.
  2:{ unfold Rdiv at 1. rewrite Rmult_0_l. lra. }
  cbn [Z.add].
  rewrite Rleb_true.
  - unfold bind, percent. rewrite Z.quot_small by lia. cbn [Z.eqb]. rewrite orb_true_r. reflexivity.
  - assert (P : 0 < IZR n / IZR mt / 10) by (unfold Rdiv; repeat apply Rmult_lt_0_compat; try apply Rinv_0_lt_compat; lra).
    apply Rmult_le_reg_r with (IZR n / IZR mt / 10); [exact P|]. rewrite Rmult_1_l. unfold Rdiv at 3. rewrite Rmult_assoc, Rinv_l by lra.
    rewrite Rmult_1_r. apply Rmult_le_reg_r with (IZR mt * 10); [lra|]. replace (IZR n / IZR mt / 10 * (IZR mt * 10)) with (IZR n) by (field; lra). lra.
Qed.

(** The percentage itself: j*100 leaves the range of int from photon 21 474 837 on. *)
Theorem C64_progress_overflow_refuted :
  forall (T : Type) (N : Num T) n_photons max_threads j e, (21474837 <= j)%Z -> percent j n_photons max_threads e = Ub.
Proof.
  intros T N n mt j e H. unfold percent, int_max. destruct (Z.ltb_spec 2147483647 (j * 100)); [reflexivity|lia].
Qed.

Example C64_example : exists ps, progress_run (T := R) 100 4 0 [0;1;2;3]%Z None = Ret (ps, None) /\ ps = [12]%Z.
Proof.
  cbn [progress_run]. rnum. do 3 (rewrite Rleb_false by lra; cbn [Z.add Pos.add Pos.succ]).
  rewrite Rleb_true by lra. unfold bind, percent, int_max, ret. eexists. split; [reflexivity|]. reflexivity.
Qed.

Print Assumptions C62_every_launched_photon_counted_refuted.
Print Assumptions C63_terminates_refuted.
Print Assumptions C101_progress_output.
Print Assumptions C64_progress_division_by_zero_refuted.
