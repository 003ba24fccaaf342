(** * Given its attempts, a thread never gets stuck *)
From Coq Require Import Reals ZArith List Bool Lia Lra Permutation.
From Verif Require Import Num Geometry SpecPhoton RM CapilModel TraceModel LaunchModel SourceModel RunModel
  TeamProofs RunProofs EffectProofs FinalProofs SpecRun SimProofs ReachProofs.
Import ListNotations.

Section Total.
Context {T : Type} {N : Num T}.
Implicit Types (l : list (attempt T * Z)) (a : attempt T).

(** The last attempt has a weight for each of the [ne] energies. *)
Definition weighed (ne : nat) l : Prop := exists fs a i w, l = fs ++ [(a, i)] /\ at_w a = map Some w /\ length w = ne.

Lemma keep_leaks_total lc lo a i e E I : holds (lo_etmp lo) E -> holds (lo_itmp lo) I ->
  exists lo' E' I', keep_leaks lc lo a i e = Ret (lo', e) /\ holds (lo_etmp lo') E' /\ holds (lo_itmp lo') I'.
Proof.
  intros HE HI. unfold keep_leaks. destruct (andb _ _); [|exists lo, E, I; auto].
  destruct (lb_append_holds (lo_etmp lo) E (ph_ext (at_ph a)) e HE) as (b1 & K1 & H1).
  destruct (lb_append_holds (lo_itmp lo) I (ph_int (at_ph a)) e HI) as (b2 & K2 & H2).
  unfold bind. rewrite K1, K2. eexists _, _, _. split; [reflexivity|]. cbn. eauto.
Qed.

Lemma failed_run_total lc tid l : forall lo e E I, holds (lo_etmp lo) E -> holds (lo_itmp lo) I ->
  exists acts lo', failed_run lc tid lo l e = Ret (acts, lo', e).
Proof.
  induction l as [|[a i] l IH]; intros lo e E I HE HI; cbn [failed_run]; [eexists _, _; reflexivity|].
  destruct (keep_leaks_total lc lo a i e E I HE HI) as (lo1 & E' & I' & K & H1 & H2).
  destruct (IH lo1 e _ _ H1 H2) as (acts & lo' & Kf). unfold bind. rewrite K, Kf. eexists _, _. reflexivity.
Qed.

Lemma exited_run_total o lc ne tid j lo a i e E I Et It z w :
  zmax_of o = Some z -> at_w a = map Some w -> length w = ne ->
  holds (lo_ext lo) E -> holds (lo_int lo) I -> holds (lo_etmp lo) Et -> holds (lo_itmp lo) It ->
  exists acts lo', exited_run o lc ne tid j lo a i e = Ret (acts, lo', e).
Proof.
  intros Ez Ew Lw HE HI HEt HIt. unfold exited_run.
  assert (Kw : read_all ne (at_w a) e = Ret (w, e)).
  { rewrite Ew, <- Lw. pose proof (read_all_map w [] e) as K. rewrite app_nil_r in K. exact K. }
  assert (Kx : exists ex, exit_actions o j a w e = Ret (ex, e)).
  { unfold exit_actions, bind, rd. unfold zmax_of in Ez. rewrite Ez. eexists. reflexivity. }
  destruct Kx as (ex & Kx). destruct lc.
  - unfold bind. rewrite (read_all_holds _ _ _ HEt), (read_all_holds _ _ _ HIt). cbn [ret]. unfold ret. rewrite Kw, Kx.
    cbn [lo_w lo_ext lo_int lo_etmp lo_itmp].
    destruct (lb_append_holds _ _ (ph_ext (at_ph a) ++ Et) e HE) as (b1 & K1 & _).
    destruct (lb_append_holds _ _ (ph_int (at_ph a) ++ It) e HI) as (b2 & K2 & _).
    rewrite K1, K2. eexists _, _. reflexivity.
  - unfold bind, ret. rewrite Kw, Kx. eexists _, _. reflexivity.
Qed.

Lemma body_run_total o lc ne tid j lo l e E I z :
  zmax_of o = Some z -> weighed ne l ->
  holds (lo_ext lo) E -> holds (lo_int lo) I -> holds (lo_etmp lo) [] -> holds (lo_itmp lo) [] ->
  exists acts lo', body_run o lc ne tid j lo l e = Ret (acts, lo', e).
Proof.
  intros Ez (fs & a & i & w & -> & Ew & Lw) HE HI HEt HIt. unfold body_run. rewrite rev_app_distr. cbn [rev app]. rewrite rev_involutive.
  destruct (failed_run_total lc tid fs lo e _ _ HEt HIt) as (acts & lo1 & Kf).
  destruct (failed_run_spec _ _ _ _ _ _ _ _ _ _ Kf HEt HIt) as (_ & _ & F1 & F2 & F3 & F4 & F5).
  unfold bind. rewrite Kf. rewrite <- F2 in HE. rewrite <- F3 in HI.
  destruct (exited_run_total o lc ne tid j lo1 a i e _ _ _ _ z w Ez Ew Lw HE HI F4 F5) as (acts2 & lo2 & Kx). rewrite Kx.
  eexists _, _. reflexivity.
Qed.

Lemma loop_run_total o lc ne tid jobs z js : zmax_of o = Some z -> (forall j, In j js -> weighed ne (jobs j)) ->
  forall lo e E I, holds (lo_ext lo) E -> holds (lo_int lo) I -> holds (lo_etmp lo) [] -> holds (lo_itmp lo) [] ->
  exists acts lo', loop_run o lc ne tid jobs lo js e = Ret (acts, lo', e).
Proof.
  intros Ez. induction js as [|j js IH]; intros W lo e E I HE HI HEt HIt; cbn [loop_run]; [eexists _, _; reflexivity|].
  destruct (body_run_total o lc ne tid j lo (jobs j) e _ _ z Ez (W j (or_introl eq_refl)) HE HI HEt HIt) as (acts & lo1 & Kb).
  destruct (body_run_spec _ _ _ _ _ _ _ _ _ _ _ _ _ Kb HE HI HEt HIt) as (_ & _ & _ & _ & _ & _ & _ & G2 & G3 & G4 & G5).
  destruct (IH (fun k H => W k (or_intror H)) lo1 e _ _ G2 G3 G4 G5) as (acts2 & lo2 & Kl).
  unfold bind. rewrite Kb, Kl. eexists _, _. reflexivity.
Qed.

Lemma thread_run_total o lc ne tid jobs z js e : zmax_of o = Some z -> (forall j, In j js -> weighed ne (jobs j)) ->
  exists p, thread_run o lc ne tid jobs js e = Ret (p, e).
Proof.
  intros Ez W. destruct (loop_run_total o lc ne tid jobs z js Ez W (locals0 ne) e [] [] holds_empty holds_empty holds_empty holds_empty) as (acts & lo & Kl).
  destruct (loop_run_spec _ _ _ _ _ _ _ _ _ _ _ [] [] Kl holds_empty holds_empty holds_empty holds_empty)
    as (_ & _ & _ & _ & _ & _ & A6 & A7). cbn [app] in A6, A7.
  unfold thread_run, bind. rewrite Kl. destruct lc; [|eexists; reflexivity].
  rewrite (read_all_holds _ _ _ A6), (read_all_holds _ _ _ A7). eexists. reflexivity.
Qed.

Lemma threads_run_total o lc ne jobs z dist e : zmax_of o = Some z -> (forall j, In j (concat dist) -> weighed ne (jobs j)) ->
  forall tid, exists ps, threads_run o lc ne tid jobs dist e = Ret (ps, e).
Proof.
  intros Ez. induction dist as [|js dist IH]; intros W tid; cbn [threads_run]; [eexists; reflexivity|].
  destruct (thread_run_total o lc ne tid jobs z js e Ez) as (p & K). { intros j Ij. apply W. cbn. apply in_app_iff. auto. }
  destruct (IH (fun j H => W j ltac:(cbn; apply in_app_iff; auto)) (S tid)) as (ps & Ks).
  unfold bind. rewrite K, Ks. eexists. reflexivity.
Qed.

End Total.

(** Over the reals every completed job is weighed. *)
From Verif Require Import WeightProofs PropLaunch.
Local Open Scope R_scope.
Lemma job_weighed (x : xraylib R) o src en junk lc l : (forall z e, 0 <= cs_total x z e) ->
  job_ok x o src en junk lc l -> weighed (length en) l.
Proof.
  intros Cs Ok. destruct (job_exit _ _ _ _ _ _ _ Ok) as (fs & a & -> & Ec & _ & _). destruct Ok as (F & _).
  apply Forall_app in F. destruct F as [_ F]. inversion F as [|? ? Ha _]; subst.
  destruct Ha as ((fuel & rs & rs' & Ka) & _). cbn [fst] in Ka.
  destruct (attempt_inv _ _ _ _ _ _ _ _ _ _ _ Ka) as (d & rs1 & ph & e' & Z0 & Es & Am & _ & _ & Kl).
  destruct (C92_weights_delivered x o junk fuel ph en false lc None (at_code a) (at_ph a) (Some (at_w a)) e' Cs Am) as (ws & E1 & E2); auto.
  - right. rewrite Es, Z0. cbn. lra.
  - injection E1 as E1. exists fs, a, 1%Z, ws. auto.
Qed.

Lemma job_zmax (x : xraylib R) o src en junk lc l : job_ok x o src en junk lc l -> exists z, zmax_of o = Some z.
Proof.
  intros Ok. destruct (job_exit _ _ _ _ _ _ _ Ok) as (fs & a & -> & Ec & _ & _). destruct Ok as (F & _).
  apply Forall_app in F. destruct F as [_ F]. inversion F as [|? ? Ha _]; subst. destruct Ha as (_ & Kc).
  unfold classify in Kc. cbn [fst] in Kc. rewrite Ec in Kc. cbn [Z.eqb Pos.eqb] in Kc. unfold bind, rd in Kc. unfold zmax_of.
  destruct (nth_error (p_z (o_prof o)) (p_nmax (o_prof o))); [eauto|discriminate].
Qed.
