(** * The threads of a simulation in memory: no undefined behaviour, and what is there at the end *)
From Coq Require Import ZArith List Bool Lia Permutation.
From Verif Require Import Num Mem SpecHeap Geometry SpecPhoton RM CapilModel TraceModel LaunchModel SourceModel RunModel
  TeamProofs RunProofs EffectProofs FinalProofs ReachProofs SimProofs LenProofs ConsModel ResultModel H5Model SimModel SimHeap SimStep.
Import ListNotations.

Section SimRun.
Context {T : Type} {N : Num T}.
Implicit Types (jobs : nat -> list (attempt T * Z)).

Lemma zapp_legal (P : list (instr T) -> Prop) (segs : list (list (instr T))) rests : length segs = length rests ->
  (forall p q, In p segs -> In q rests -> P (p ++ q)) -> Forall P (zapp segs rests).
Proof.
  revert rests. induction segs as [|p segs IH]; intros [|q rests] L H; cbn in *; try discriminate; constructor; auto.
Qed.

Lemma fold_vec_length (l : list (list T)) a : length (fold_left vec_add l a) = length a.
Proof. revert a. induction l as [|w l IH]; intros a; cbn; auto. rewrite IH. apply vec_add_length. Qed.

Lemma job_leaks_full ne (ls : photon T -> list (leak_data T)) l : (forall p, fullp ne p -> full ne (ls p)) ->
  Forall (fun y => fullp ne (at_ph (fst y))) l -> full ne (job_leaks ls l).
Proof.
  intros Hls F. unfold job_leaks. destruct (rev l) as [|[a i] before] eqn:E; [constructor|].
  assert (F' : Forall (fun y => fullp ne (at_ph (fst y))) ((a, i) :: before)).
  { rewrite <- E. apply Forall_rev. exact F. }
  inversion F' as [|? ? Fa Fb]; subst. apply Forall_app. split; [apply Hls; exact Fa|].
  apply Forall_forall. intros d Hd. apply in_flat_map in Hd. destruct Hd as (y & Hy & Hd).
  apply in_rev in Hy. rewrite Forall_forall in Fb. specialize (Fb y Hy). unfold left_over in Hd.
  destruct (_ || _)%bool; [|destruct Hd]. specialize (Hls _ Fb). unfold full in Hls. rewrite Forall_forall in Hls. auto.
Qed.

Lemma progs_legal o lc n ne jobs dist progs : 1 <= n -> Permutation (concat dist) (seq 0 n) ->
  threads_run o lc ne 0 jobs dist None = Ret (progs, None) ->
  (forall j, j < n -> Forall (fun y => fullp ne (at_ph (fst y))) (jobs j)) ->
  Forall (legal_prog n ne (length dist)) progs.
Proof.
  intros Hn Pd Kt Hf.
  destruct (threads_run_spec _ _ _ _ _ _ _ _ _ Kt) as (_ & C1 & C2 & C3).
  assert (Nd : concat dist <> []).
  { intros E. rewrite E in Pd. apply Permutation_length in Pd. rewrite seq_length in Pd. cbn in Pd. lia. }
  destruct (zmax_of o) as [z|] eqn:Ez; [|destruct (C1 Nd eq_refl)].
  rewrite (C3 z (or_introl eq_refl)). clear C3 Kt.
  assert (Lg : forall a, In a (concat (segs_of z lc ne jobs 0 dist)) -> legal n ne (length dist) a).
  { intros a Ia.
    assert (E := early_acts z lc ne jobs dist 0). rewrite Forall_forall in E. specialize (E a Ia).
    assert (Td := segs_tids z lc ne jobs dist 0 (length dist) (le_n _)). rewrite Forall_forall in Td. specialize (Td a Ia).
    assert (Lc := locs_segs z lc ne jobs dist 0 C2).
    assert (Sm := segs_sums z lc ne jobs dist 0).
    destruct a as [c t|f j e|m|w l| |e i]; cbn [legal]; try exact I; try contradiction.
    - exact Td.
    - assert (In (f, j) (flat_map (fun j => map (fun f => (f, j)) (fields ne)) (concat dist))) as Hin.
      { rewrite <- Lc. apply in_flat_map. exists (AStore f j e). split; [auto|cbn; auto]. }
      apply in_flat_map in Hin. destruct Hin as (j' & Hj & Hin). apply in_map_iff in Hin. destruct Hin as (f' & E' & Hf'). injection E' as -> ->.
      split; [apply (Permutation_in _ Pd) in Hj; apply in_seq in Hj; lia|].
      destruct f; auto. unfold fields in Hf'. rewrite !in_app_iff in Hf'. destruct Hf' as [Hf'|[Hf'|Hf']]; [cbn in Hf'; intuition discriminate| |cbn in Hf'; intuition discriminate].
      apply in_map_iff in Hf'. destruct Hf' as (q & Eq & Hq). injection Eq as ->. apply in_seq in Hq. lia.
    - assert (In w (map (t_w ne jobs) dist)) as Hin.
      { rewrite <- Sm. apply in_flat_map. exists (ASum w l). split; [auto|cbn; auto]. }
      apply in_map_iff in Hin. destruct Hin as (js & <- & _). unfold t_w. rewrite fold_vec_length. apply repeat_length. }
  assert (Lc : forall js, In js dist -> legal n ne (length dist) (t_copy jobs js)).
  { intros js Hj. cbn [legal t_copy]. 
    assert (Fj : forall j, In j js -> Forall (fun y => fullp ne (at_ph (fst y))) (jobs j)).
    { intros j Hin. apply Hf. assert (In j (concat dist)) as Hc by (apply in_concat; eauto). apply (Permutation_in _ Pd) in Hc. apply in_seq in Hc. lia. }
    split; apply Forall_forall; intros d Hd; unfold t_leaks in Hd; apply in_flat_map in Hd; destruct Hd as (j & Hin & Hd).
    - assert (F : full ne (job_leaks ph_ext (jobs j))) by (apply job_leaks_full; [intros p Hp; apply Hp|auto]).
      unfold full in F. rewrite Forall_forall in F. auto.
    - assert (F : full ne (job_leaks ph_int (jobs j))) by (apply job_leaks_full; [intros p Hp; apply Hp|auto]).
      unfold full in F. rewrite Forall_forall in F. auto. }
  apply zapp_legal.
  { rewrite !map_length. apply segs_of_length. }
  intros p q Hp Hq. apply in_map_iff in Hp. destruct Hp as (g & <- & Hg). apply in_map_iff in Hq. destruct Hq as (js & <- & Hj).
  unfold legal_prog. apply Forall_app. split.
  - apply Forall_map. apply Forall_forall. intros a Ia. apply Lg. apply in_concat. eauto.
  - destruct lc; [|constructor]. repeat constructor. apply (Lc js Hj). apply (Lc js Hj).
Qed.


(** The whole run, in memory. *)
Lemma heap_run (s0 : st T) src sb x o nums en junk lc n dist streams jobs progs v L s1 c' :
  mem s0 src = Some sb -> nth_error sb S_NEN = Some (Vint (Z.of_nat (length en))) -> 1 <= length en -> (forall k, orc s0 k = true) ->
  1 <= n -> Permutation (concat dist) (seq 0 n) -> length streams = length dist ->
  (forall t js rs, nth_error dist t = Some js -> nth_error streams t = Some rs ->
     exists k fuel, jobs_run k x o nums en junk lc fuel rs (length js) None = Ret (Some (map jobs js), None)) ->
  threads_run o lc (length en) 0 jobs dist None = Ret (progs, None) ->
  in_memory s0 src n (length en) (length dist) [] L (shared0 (length en)) s1 -> the_vars src (length dist) L v ->
  hsteps v (progs, Some (frame0, s1)) c' ->
  exists L' sh fr s2, snd c' = Some (fr, s2) /\ steps (progs, Some (shared0 (length en))) (fst c', Some sh) /\
    in_memory s0 src n (length en) (length dist) (grown sh) L' sh s2 /\ frame_of (length en) sh fr /\ the_vars src (length dist) L' v.
Proof.
  intros Hs Hn Hne Ho Hn1 Pd Ls Hj Kt Im Tv St.
  assert (Nd : concat dist <> []).
  { intros E. rewrite E in Pd. apply Permutation_length in Pd. rewrite seq_length in Pd. cbn in Pd. lia. }
  destruct (threads_run_spec _ _ _ _ _ _ _ _ _ Kt) as (_ & C1 & C2 & C3).
  destruct (zmax_of o) as [z|] eqn:Ez; [|destruct (C1 Nd eq_refl)].
  assert (Jok : forall j, j < n -> Forall (fun y => fullp (length en) (at_ph (fst y))) (jobs j)).
  { intros j Lj.
    assert (Ij : In j (concat dist)) by (eapply Permutation_in; [apply Permutation_sym; exact Pd|]; apply in_seq; lia).
    apply in_concat in Ij. destruct Ij as (js & Ijs & Ij). destruct (In_nth_error _ _ Ijs) as (t & Et).
    destruct (nth_error streams t) as [rs|] eqn:Er.
    2:{ apply nth_error_None in Er. assert (t < length dist) by (apply nth_error_Some; congruence). lia. }
    destruct (Hj t js rs Et Er) as (k & fuel & K). apply jobs_run_ok in K. destruct K as (_ & _ & F).
    rewrite Forall_forall in F. assert (O : job_ok x o nums en junk lc (jobs j)) by (apply F; apply in_map; auto).
    destruct O as (O & _). eapply Forall_impl; [|exact O]. intros y ((fu & rs1 & rs2 & Ka) & _). eapply attempt_len; exact Ka. }
  destruct (hsteps_sim s0 src sb n (length en) (length dist) Hs Hn Hne Ho v _ _ St progs frame0 s1 L (shared0 (length en)) eq_refl) as (L' & sh & fr & s2 & H1 & H2 & H3 & H4 & H5); auto.
  - intros ths' y Sy. pose proof (reach _ _ _ _ _ _ z _ Kt (or_introl Ez) Sy) as P. cbn in P.
    destruct (phase_live _ _ _ _ _ _ _ (fun E => Nd (f_equal (@concat _) E)) P) as (s' & -> & _). discriminate.
  - eapply progs_legal; eauto.
  - repeat split; auto. cbn. apply repeat_length.
  - exists L', sh, fr, s2. auto.
Qed.

End SimRun.
