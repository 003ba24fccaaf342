(** * Theorems about the returned efficiencies *)
From Coq Require Import Reals ZArith List Bool Lia Lra Permutation.
From Verif Require Import Num Geometry SpecPhoton RM CapilModel TraceModel LaunchModel SourceModel RunModel
  TeamProofs RunProofs EffectProofs FinalProofs SpecRun SimProofs ReachProofs WeightProofs PropLaunch PropRun.
Import ListNotations.
Local Open Scope R_scope.

(** The weight at energy [i] recorded for exit [j]. *)
Definition rec_weight (r : result R) (i j : nat) : R := match re_img r (FWeight i) j with Some (ED v) => v | _ => 0 end.

Lemma rec_weight_spec x o src en junk lc n dist streams jobs ob r :
  simulation x o src en junk lc n dist streams jobs ob r ->
  forall i j, (i < length en)%nat -> (j < n)%nat -> exists fs a, jobs j = fs ++ [(a, 1%Z)] /\
    nth_error (at_w a) i = Some (Some (rec_weight r i j)) /\ nth i (job_w (length en) (jobs j)) 0 = rec_weight r i j /\
    length (job_w (length en) (jobs j)) = length en.
Proof.
  intros Sim i j Li Lj.
  destruct (C41_every_photon_recorded _ _ _ _ _ _ _ _ _ _ _ _ Sim) as (_ & _ & (z & _ & H) & _).
  destruct (H j Lj) as (fs & a & E & _ & _ & Rec). unfold recorded in Rec.
  do 15 (destruct Rec as [_ Rec]). destruct (Rec i Li) as (v & E1 & E2).
  destruct Sim as (Hn & Pd & Ls & Hj & progs & ths & s & Kt & St & D & ->).
  destruct (core _ _ _ _ _ _ _ _ _ Hn Pd Kt St D) as (z' & sumw & _ & Fj & _). destruct (Fj j Lj) as [Lw _].
  pose proof (job_w_last _ _ _ _ _ E Lw) as Fw.
  exists fs, a. unfold rec_weight. rewrite E2. split; [auto|]. split; [auto|]. split; [|auto].
  assert (G : nth_error (map Some (job_w (length en) (jobs j))) i = Some (Some v)) by (rewrite <- Fw, nth_firstn; auto).
  rewrite nth_error_map in G. destruct (nth_error (job_w (length en) (jobs j)) i) as [u|] eqn:Eu; [|discriminate].
  cbn in G. injection G as ->. apply nth_error_nth. auto.
Qed.

Lemma rsum_le {A} (f g : A -> R) l : (forall a, In a l -> f a <= g a) -> rsum f l <= rsum g l.
Proof. unfold rsum. induction l as [|a l IH]; cbn; intros H; [lra|]. assert (f a <= g a) by auto. assert (rsum f l <= rsum g l) by (apply IH; auto). unfold rsum in *. lra. Qed.
Lemma rsum_const {A} c (l : list A) : rsum (fun _ => c) l = INR (length l) * c.
Proof. unfold rsum. induction l as [|a l IH]; [cbn; lra|]. cbn [map fold_right length]. rewrite IH, S_INR. lra. Qed.

(** ** C42 *)
(** The efficiency at energy i is the sum of the recorded exit weights divided by the number
    of counted photons. *)
Theorem C42_efficiency_is_mean_weight :
  forall (x : xraylib R) (o : optic R) (src : source_nums R) en junk lc n dist streams jobs before r,
  simulation x o src en junk lc n dist streams jobs before r ->
  re_energies r = en /\ length (re_eff r) = length en /\
  forall i, (i < length en)%nat -> nth i (re_eff r) 0 = rsum (rec_weight r i) (seq 0 n) / IZR (re_start r).
Proof.
  intros x o src en junk lc n dist streams jobs ob r Sim.
  destruct (C41_every_photon_recorded _ _ _ _ _ _ _ _ _ _ _ _ Sim) as (Eexit & Estart & _).
  pose proof (rec_weight_spec _ _ _ _ _ _ _ _ _ _ _ _ Sim) as Rw.
  destruct Sim as (Hn & Pd & Ls & Hj & progs & ths & s & Kt & St & D & Er).
  destruct (core _ _ _ _ _ _ _ _ _ Hn Pd Kt St D) as (z & sumw & Ez & Fj & Tot & _ & _ & _ & Psum & Esum & _).
  assert (Lw : forall j, (j < n)%nat -> length (job_w (length en) (jobs j)) = length en) by (intros j Lj; apply Fj; auto).
  assert (Ls' : length (sh_sumw s) = length en).
  { rewrite Esum. apply (proj2 (sumw_closed _ _ _ _ _ 0%nat Pd Lw Psum)). }
  subst r. set (r := finish en (length dist) ob s) in *.
  assert (En : re_energies r = en) by reflexivity.
  assert (Ef : re_eff r = map (fun w => w / (nofZ (re_exit r) + nofZ (total CNotTransmitted (length dist) s)) *
     (nofZ (re_exit r + total CNotTransmitted (length dist) s)%Z / nofZ (re_start r))) (sh_sumw s)) by reflexivity.
  assert (Et : re_start r = (re_exit r + total CNotEntered (length dist) s + total CNotTransmitted (length dist) s)%Z) by reflexivity.
  split; [auto|]. split; [rewrite Ef, map_length; auto|].
  intros i Li. rewrite Ef.
  match goal with |- nth i (map ?f _) 0 = _ => rewrite (nth_indep _ 0 (f 0)) by (rewrite map_length; cbn in *; lia); rewrite (map_nth f) end.
  cbn [nofZ RNum]. rewrite Esum.
  cbn [nofZ RNum]. rewrite (proj1 (sumw_closed _ _ _ _ _ i Pd Lw Psum)).
  rewrite (rsum_ext _ (rec_weight r i)).
  2:{ intros j Ij. apply in_seq in Ij. destruct (Rw i j Li (proj2 Ij)) as (fs & a & _ & _ & E & _). exact E. }
  clearbody r. set (nt := total CNotTransmitted (length dist) s) in *.
  assert (Nt : (0 <= nt)%Z) by (unfold nt; rewrite Tot; lia).
  assert (Nne : (0 <= total CNotEntered (length dist) s)%Z) by (rewrite Tot; lia).
  cbn [re_exit re_start] in *. rewrite plus_IZR.
  assert (P1 : 1 <= IZR (re_exit r)) by (apply IZR_le; lia).
  assert (P2 : 0 <= IZR nt) by (apply IZR_le; lia).
  assert (P3 : 1 <= IZR (re_start r)) by (apply IZR_le; lia).
  field. lra.
Qed.

(** Every efficiency, and the open area, is in [0,1]. *)
Theorem C42_efficiency_range :
  forall (x : xraylib R) (o : optic R) (src : source_nums R) en junk lc n dist streams jobs before r,
  (forall z e, 0 <= cs_total x z e) ->
  simulation x o src en junk lc n dist streams jobs before r ->
  Forall (fun e => 0 <= e <= 1) (re_eff r) /\ 0 < re_open r <= 1.
Proof.
  intros x o src en junk lc n dist streams jobs ob r Cs Sim.
  pose proof (C42_efficiency_is_mean_weight _ _ _ _ _ _ _ _ _ _ _ _ Sim) as (_ & Le & Ef).
  destruct (C41_every_photon_recorded _ _ _ _ _ _ _ _ _ _ _ _ Sim) as (Eexit & Estart & _).
  pose proof (rec_weight_spec _ _ _ _ _ _ _ _ _ _ _ _ Sim) as Rw.
  pose proof (simulation_jobs _ _ _ _ _ _ _ _ _ _ _ _ Sim) as Ok.
  assert (Hn : (1 <= n)%nat) by (destruct Sim; auto).
  assert (W : forall i j, (i < length en)%nat -> (j < n)%nat -> 0 <= rec_weight r i j <= 1).
  { intros i j Li Lj. destruct (Rw i j Li Lj) as (fs & a & E & Ew & _).
    destruct (Ok j Lj) as (F & _). rewrite E in F. apply Forall_app in F. destruct F as [_ F]. inversion F as [|? ? Ha _]; subst.
    destruct Ha as ((fuel & rs & rs' & Ka) & _). cbn [fst] in Ka.
    destruct (attempt_inv _ _ _ _ _ _ _ _ _ _ _ Ka) as (d & rs1 & ph & e' & _ & _ & Am & _ & _ & Kl).
    exact (C31_weights_are_probabilities x o junk fuel ph en false lc None (at_code a) (at_ph a) (at_w a) e' i _ Cs Am Kl Ew). }
  assert (Q1 : INR n = IZR (re_exit r)) by (rewrite Eexit, <- INR_IZR_INZ; auto).
  assert (Q2 : IZR (re_exit r) <= IZR (re_start r)) by (apply IZR_le; lia).
  assert (Q3 : 1 <= IZR (re_exit r)) by (apply IZR_le; lia).
  split.
  - apply Forall_forall. intros v Iv. apply In_nth with (d := 0) in Iv. destruct Iv as (i & Li & <-).
    rewrite Le in Li. rewrite (Ef i Li).
    assert (B1 : 0 <= rsum (rec_weight r i) (seq 0 n)).
    { replace 0 with (rsum (fun _ : nat => 0) (seq 0 n)) at 1 by (rewrite rsum_const; lra).
      apply rsum_le. intros j Ij. apply in_seq in Ij. apply W; auto; lia. }
    assert (B2 : rsum (rec_weight r i) (seq 0 n) <= INR n).
    { replace (INR n) with (rsum (fun _ : nat => 1) (seq 0 n)) by (rewrite rsum_const, seq_length; lra).
      apply rsum_le. intros j Ij. apply in_seq in Ij. apply W; auto; lia. }
    split; [apply Rmult_le_pos; [auto|left; apply Rinv_0_lt_compat; lra]|].
    apply Rmult_le_reg_r with (IZR (re_start r)); [lra|]. unfold Rdiv. rewrite Rmult_assoc, Rinv_l by lra. lra.
  - destruct Sim as (Hn' & Pd & _ & _ & progs & ths & s & Kt & St & D & Er).
    assert (Eo : re_open r = IZR (re_exit r + total CNotTransmitted (length dist) s) / IZR (re_exit r + total CNotEntered (length dist) s + total CNotTransmitted (length dist) s)) by (subst r; reflexivity).
    assert (Es : re_start r = (re_exit r + total CNotEntered (length dist) s + total CNotTransmitted (length dist) s)%Z) by (subst r; reflexivity).
    assert (T0 : (0 <= total CNotTransmitted (length dist) s /\ 0 <= total CNotEntered (length dist) s)%Z).
    { destruct (core _ _ _ _ _ _ _ _ _ Hn' Pd Kt St D) as (z & sumw & Ez & Fj & Tot & _).
      split; rewrite ?Tot; lia. }
    destruct T0 as [T1 T2]. rewrite Eo, <- Es.
    assert (Q4 : IZR (re_exit r) <= IZR (re_exit r + total CNotTransmitted (length dist) s) <= IZR (re_start r)).
    { split; apply IZR_le; cbn in *; lia. }
    split; [apply Rmult_lt_0_compat; [lra|apply Rinv_0_lt_compat; lra]|].
    apply Rmult_le_reg_r with (IZR (re_start r)); [lra|]. unfold Rdiv. rewrite Rmult_assoc, Rinv_l by lra. lra.
Qed.

(** The hypotheses are met: three photons on two threads; the photons pass without a
    reflection, the efficiency is 1. *)
From Verif Require Import ExampleRun PropSched.
Example C42_example : forall junk lc before, exists streams jobs r,
  simulation oneR coneR axisR [10] junk lc 3 [[2];[0;1]]%nat streams jobs before r /\ Forall (fun e => 0 <= e <= 1) (re_eff r).
Proof.
  intros junk lc b.
  assert (P : Permutation (concat [[2];[0;1]]%nat) (seq 0 3)).
  { cbn. apply perm_trans with [0;2;1]%nat; [apply perm_swap|]. apply perm_skip. apply perm_swap. }
  destruct (simulation_example junk lc 3 [[2];[0;1]]%nat b ltac:(lia) P) as (streams & jobs & r & S).
  exists streams, jobs, r. split; [exact S|]. apply (C42_efficiency_range oneR _ _ _ _ _ _ _ _ _ _ _ (fun _ _ => Rle_0_1) S).
Qed.

Print Assumptions C42_efficiency_range.
Print Assumptions C42_efficiency_is_mean_weight.
