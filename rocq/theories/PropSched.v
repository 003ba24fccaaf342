(** * Theorems about the schedules of polycap_source_get_transmission_efficiencies *)
From Coq Require Import Reals ZArith List Bool Lia Lra Permutation.
From Verif Require Import Num Geometry SpecPhoton RM CapilModel TraceModel LaunchModel SourceModel RunModel
  TeamProofs RunProofs EffectProofs FinalProofs SpecRun SimProofs ReachProofs TotalProofs SpecRace.
Import ListNotations.

Section Race.
Context {T : Type} {N : Num T}.
Notation action := (action T). Notation shared := (shared T).

(** What thread [t] does before the barriers: its own counters, the slots of its own
    iterations, critical sections. *)
Definition own (t : nat) (js : list nat) (a : action) : Prop :=
  match a with
  | AIncr _ t' => t' = t
  | AStore _ j _ => In j js
  | ARefl _ | ASum _ _ => True
  | ASingle | ACopy _ _ => False
  end.

Lemma t_acts_own z lc ne jobs tid js : Forall (own tid js) (t_acts z ne jobs tid js ++ [t_sum lc ne jobs js]).
Proof.
  apply Forall_app. split; [|repeat constructor]. apply Forall_forall. intros a Ia. unfold t_acts in Ia.
  apply in_flat_map in Ia. destruct Ia as (j & Ij & Ia). unfold job_acts in Ia.
  destruct (rev (jobs j)) as [|[b i] before]; [contradiction|]. rewrite !in_app_iff in Ia. destruct Ia as [Ia|[Ia|[<-|[]]]].
  - unfold counts in Ia. apply in_flat_map in Ia. destruct Ia as ([c k] & _ & Ia). unfold count_actions in Ia. cbn [fst snd] in Ia.
    destruct (Z.eqb (at_code c) 0), (Z.eqb (at_code c) 2), (Z.eqb k 1); cbn in Ia; intuition (subst; cbn; auto).
  - destruct (in_stores _ _ _ _ _ Ia) as (f & e & ->). exact Ij.
  - exact I.
Qed.

Lemma segs_nth z lc ne jobs dist : forall tid t seg, nth_error (segs_of z lc ne jobs tid dist) t = Some seg ->
  exists js, nth_error dist t = Some js /\ Forall (own (tid + t) js) seg.
Proof.
  induction dist as [|js dist IH]; intros tid [|t] seg E; cbn in E; try discriminate.
  - injection E as <-. exists js. split; [auto|]. rewrite Nat.add_0_r. apply t_acts_own.
  - rewrite Nat.add_succ_r, <- Nat.add_succ_l. apply IH. auto.
Qed.

Lemma nodup_concat (dist : list (list nat)) : NoDup (concat dist) -> forall t t' js js' j, t <> t' ->
  nth_error dist t = Some js -> nth_error dist t' = Some js' -> In j js -> In j js' -> False.
Proof.
  assert (D : forall (l l' : list nat), NoDup (l ++ l') -> forall j, In j l -> In j l' -> False).
  { induction l as [|a l IH]; intros l' Nd j Hj Hj'; [contradiction|]. cbn in Nd. inversion Nd as [|? ? Hn Nd']; subst.
    destruct Hj as [->|Hj]; [apply Hn; apply in_app_iff; auto|eapply IH; eauto]. }
  induction dist as [|x dist IH]; intros Nd t t' js js' j Ne E E' Ij Ij'; [destruct t; discriminate|]. cbn in Nd.
  assert (Nd2 : NoDup (concat dist)) by (clear -Nd; induction x; auto; inversion Nd; auto).
  destruct t as [|t], t' as [|t']; cbn in E, E'; try congruence.
  - injection E as ->. eapply (D _ _ Nd j); auto. apply in_concat. exists js'. split; auto. eapply nth_error_In; eauto.
  - injection E' as ->. eapply (D _ _ Nd j); auto. apply in_concat. exists js. split; auto. eapply nth_error_In; eauto.
  - eapply IH with (t := t) (t' := t'); eauto.
Qed.

Lemma own_no_race t t' js js' a b : t <> t' -> (forall j, In j js -> In j js' -> False) -> own t js a -> own t' js' b -> ~ race a b.
Proof.
  intros Ne Dj Oa Ob ((p & H) & Nc & Ns).
  destruct a, b; cbn in *; try contradiction; try tauto;
   repeat match goal with l : option (Z * Z) |- _ => destruct l end; cbn in *;
   decompose [and or] H; subst; try discriminate; try tauto;
   repeat match goal with
   | E : PCounter _ _ = PCounter _ _ |- _ => injection E; clear E; intros; subst; tauto
   | E : PImage _ _ = PImage _ _ |- _ => injection E; clear E; intros; subst; eauto
   end.
Qed.

(** The head of a thread inside a phase. *)
Lemma head_in (dones segs' : list (list action)) (rests : list (list (instr T))) segs t a rest :
  segs = zapp dones segs' -> length dones = length segs' -> length segs' = length rests ->
  Forall (fun p => match p with Act _ :: _ => False | _ => True end) rests ->
  nth_error (zapp (map (map Act) segs') rests) t = Some (Act a :: rest) ->
  exists seg, nth_error segs t = Some seg /\ In a seg.
Proof.
  intros -> L1 L2 F E. rewrite zapp_nth in E by (rewrite map_length; auto). rewrite nth_error_map in E.
  destruct (nth_error segs' t) as [g|] eqn:Eg; [|discriminate]. cbn in E. destruct (nth_error rests t) as [r|] eqn:Er; [|discriminate].
  injection E as E. destruct g as [|b g].
  - cbn in E. subst r. apply nth_error_In in Er. rewrite Forall_forall in F. destruct (F _ Er).
  - cbn in E. injection E as -> _. rewrite zapp_nth by auto.
    destruct (nth_error dones t) as [d|] eqn:Ed.
    + rewrite Eg. exists (d ++ a :: g). split; [auto|]. apply in_app_iff. right. left. auto.
    + apply nth_error_None in Ed. assert (t < length segs') by (apply nth_error_Some; congruence). lia.
Qed.
End Race.

(** ** C61 *)
(** The random streams let every thread find the photons of its iterations. *)
Definition attempts_made {T} {N : Num T} (x : xraylib T) (o : optic T) (src : source_nums T) (en : list T) (junk : vec3 T)
    (leak_calc : bool) (n : nat) (dist : list (list nat)) (streams : list (list T)) (jobs : nat -> list (attempt T * Z)) : Prop :=
  1 <= n /\ Permutation (concat dist) (seq 0 n) /\ length streams = length dist /\
  (forall t js rs, nth_error dist t = Some js -> nth_error streams t = Some rs ->
     exists k fuel, jobs_run k x o src en junk leak_calc fuel rs (length js) None = Ret (Some (map jobs js), None)).

(** No two threads ever are about to execute racing actions. *)
Theorem C61_no_data_race :
  forall (T : Type) (N : Num T) (o : optic T) lc n_energies n dist jobs progs ths s,
  1 <= n -> Permutation (concat dist) (seq 0 n) ->
  threads_run o lc n_energies 0 jobs dist None = Ret (progs, None) ->
  steps (progs, Some (shared0 n_energies)) (ths, s) ->
  forall t t' a b rest rest', t <> t' ->
  nth_error ths t = Some (Act a :: rest) -> nth_error ths t' = Some (Act b :: rest') -> ~ race a b.
Proof.
  intros T N o lc ne n dist jobs progs ths s Hn Pd Kt St t t' a b rest rest' Ne Et Et'.
  assert (Nd : NoDup (concat dist)) by (eapply Permutation_NoDup; [apply Permutation_sym; exact Pd|apply seq_NoDup]).
  assert (Nc : concat dist <> []).
  { intros E. rewrite E in Pd. apply Permutation_length in Pd. rewrite seq_length in Pd. cbn in Pd. lia. }
  destruct (threads_run_spec _ _ _ _ _ _ _ _ _ Kt) as (_ & Hz & _ & _). specialize (Hz Nc).
  destruct (zmax_of o) as [z|] eqn:Ez; [|congruence].
  pose proof (reach _ _ _ _ _ _ z _ Kt (or_introl Ez) St) as P. cbn [fst snd] in P.
  destruct P as [dones segs' tr E Ld Ls Sh|dones segs' tr tr1 s1 Elc P1 R1 E Ld Ls Sh|dones segs' tr tr1 s1 s2 Elc _ P1 R1 A E Ld Ls Sh].
  - assert (Fw : Forall (fun p : list (instr T) => match p with Act _ :: _ => False | _ => True end)
      (map (fun js => if lc then [Barrier; Act ASingle; Barrier; Act (t_copy jobs js)] else []) dist)).
    { apply Forall_forall. intros p Ip. apply in_map_iff in Ip. destruct Ip as (js & <- & _). destruct lc; exact I. }
    destruct (head_in _ _ _ _ _ _ _ E Ld (eq_trans Ls (eq_sym (map_length _ _))) Fw Et) as (seg & Es & Ia).
    destruct (head_in _ _ _ _ _ _ _ E Ld (eq_trans Ls (eq_sym (map_length _ _))) Fw Et') as (seg' & Es' & Ib).
    destruct (segs_nth _ _ _ _ _ _ _ _ Es) as (js & Ej & F). destruct (segs_nth _ _ _ _ _ _ _ _ Es') as (js' & Ej' & F').
    rewrite Forall_forall in F, F'. apply (own_no_race (0 + t) (0 + t') js js'); auto.
    intros j. eapply nodup_concat; eauto.
  - assert (Fw : Forall (fun p : list (instr T) => match p with Act _ :: _ => False | _ => True end)
      (map (fun js => [Barrier; Act (t_copy jobs js)]) dist)).
    { apply Forall_forall. intros p Ip. apply in_map_iff in Ip. destruct Ip as (js & <- & _). exact I. }
    destruct (head_in _ _ _ _ _ _ _ E Ld (eq_trans Ls (eq_sym (map_length _ _))) Fw Et) as (seg & Es & Ia).
    destruct (head_in _ _ _ _ _ _ _ E Ld (eq_trans Ls (eq_sym (map_length _ _))) Fw Et') as (seg' & Es' & Ib).
    rewrite nth_error_map in Es, Es'. destruct (nth_error dist t); [|discriminate]. destruct (nth_error dist t'); [|discriminate].
    injection Es as <-. injection Es' as <-. destruct Ia as [<-|[]]. destruct Ib as [<-|[]]. intros (_ & _ & Ns). apply Ns. split; exact I.
  - assert (Hc : forall u c r, nth_error (map (map (@Act T)) segs') u = Some (Act c :: r) -> exists js, c = t_copy jobs js).
    { intros u c r Eu. rewrite nth_error_map in Eu. destruct (nth_error segs' u) as [g|] eqn:Eg; [|discriminate]. cbn in Eu.
      destruct g as [|b0 g]; [discriminate|]. cbn in Eu. injection Eu as -> _.
      assert (Ez2 : nth_error (map (fun js => [t_copy jobs js]) dist) u = nth_error (zapp dones segs') u) by congruence.
      rewrite zapp_nth, Eg in Ez2 by auto. destruct (nth_error dones u) as [d|] eqn:Ed.
      - rewrite nth_error_map in Ez2. destruct (nth_error dist u) as [js|]; [|discriminate]. cbn in Ez2. injection Ez2 as Ez2.
        exists js. assert (In c [t_copy jobs js]) by (rewrite Ez2; apply in_app_iff; right; left; auto). destruct H as [H|[]]; auto.
      - apply nth_error_None in Ed. assert (u < length segs') by (apply nth_error_Some; congruence). lia. }
    destruct (Hc _ _ _ Et) as (js & ->). destruct (Hc _ _ _ Et') as (js' & ->). intros (_ & Nc' & _). apply Nc'. split; exact I.
Qed.

Local Open Scope R_scope.
(** Whatever the schedule: no undefined behaviour, no deadlock, no infinite execution, and
    every execution that is over is a completed simulation. *)
Theorem C61_every_schedule_completes :
  forall (x : xraylib R) (o : optic R) (src : source_nums R) en junk lc n dist streams jobs before,
  (forall z e, 0 <= cs_total x z e) ->
  attempts_made x o src en junk lc n dist streams jobs ->
  exists progs, threads_run o lc (length en) 0 jobs dist None = Ret (progs, None) /\
  (forall ths s, steps (progs, Some (shared0 (length en))) (ths, s) ->
     (exists m, s = Some m /\ (done ths -> simulation x o src en junk lc n dist streams jobs before (finish en (length dist) before m))) /\
     (done ths \/ exists c', step (ths, s) c')) /\
  (forall f : nat -> list (list (instr R)) * option (shared R),
     f 0%nat = (progs, Some (shared0 (length en))) -> ~ forall k, step (f k) (f (S k))).
Proof.
  intros x o src en junk lc n dist streams jobs ob Cs (Hn & Pd & Ls & Hj).
  assert (Ok : forall j, (j < n)%nat -> job_ok x o src en junk lc (jobs j)).
  { intros j Lj. assert (Ij : In j (concat dist)) by (eapply Permutation_in; [apply Permutation_sym; exact Pd|]; apply in_seq; lia).
    apply in_concat in Ij. destruct Ij as (js & Ijs & Ij). destruct (In_nth_error _ _ Ijs) as (t & Et).
    destruct (nth_error streams t) as [rs|] eqn:Er.
    2:{ apply nth_error_None in Er. assert (t < length dist)%nat by (apply nth_error_Some; congruence). cbn in *. lia. }
    destruct (Hj t js rs Et Er) as (k & fuel & K). apply jobs_run_ok in K. destruct K as (_ & _ & F).
    rewrite Forall_forall in F. apply F. apply in_map. auto. }
  destruct (job_zmax _ _ _ _ _ _ _ (Ok 0%nat Hn)) as (z & Ez).
  assert (Ij : forall j, In j (concat dist) -> (j < n)%nat).
  { intros j H. apply (Permutation_in _ Pd) in H. apply in_seq in H. lia. }
  destruct (threads_run_total o lc (length en) jobs z dist None Ez (fun j H => job_weighed _ _ _ _ _ _ _ Cs (Ok j (Ij j H))) 0) as (progs & Kt).
  exists progs. split; [exact Kt|]. split.
  - intros ths s St. assert (Nd : dist <> []).
    { intros ->. apply Permutation_length in Pd. rewrite seq_length in Pd. cbn in Pd. lia. }
    destruct (phase_live _ _ _ _ _ _ _ Nd (reach _ _ _ _ _ _ z _ Kt (or_introl Ez) St)) as (s' & Es & H).
    cbn [fst snd] in *. split; [|exact H]. exists s'. split; [auto|]. intros D. subst s.
    split; [auto|]. split; [auto|]. split; [auto|]. split; [auto|]. exists progs, ths, s'. auto.
  - intros f _ H. assert (G : forall k, (size (fst (f k)) + k <= size (fst (f 0%nat)))%nat).
    { induction k as [|k IH]; [lia|]. pose proof (step_size _ _ (H k)). lia. }
    specialize (G (S (size (fst (f 0%nat))))). lia.
Qed.

(** The hypotheses are met: [axisR] shining through [coneR], for any number of photons and
    any distribution over threads. *)
From Verif Require Import ExampleRun.
Example C61_example : forall junk lc n dist, (1 <= n)%nat -> Permutation (concat dist) (seq 0 n) ->
  exists streams jobs, attempts_made oneR coneR axisR [10] junk lc n dist streams jobs.
Proof.
  intros junk lc n dist Hn Pd. destruct (axis_attempts junk lc n dist Hn Pd) as (a & _ & _ & L & H).
  do 2 eexists. split; [exact Hn|]. split; [exact Pd|]. split; [exact L|exact H].
Qed.
(** ... so a completed simulation exists for each of them. *)
Example simulation_example : forall junk lc n dist before, (1 <= n)%nat -> Permutation (concat dist) (seq 0 n) ->
  exists streams jobs r, simulation oneR coneR axisR [10] junk lc n dist streams jobs before r.
Proof.
  intros junk lc n dist b Hn Pd. destruct (C61_example junk lc n dist Hn Pd) as (streams & jobs & A). exists streams, jobs.
  destruct (C61_every_schedule_completes oneR coneR axisR [10] junk lc n dist streams jobs b (fun _ _ => Rle_0_1) A) as (progs & Kt & H & _).
  assert (Nc : concat dist <> []).
  { intros E. rewrite E in Pd. apply Permutation_length in Pd. rewrite seq_length in Pd. cbn in Pd. lia. }
  assert (Nd : dist <> []) by (intros ->; apply Nc; reflexivity).
  destruct (threads_run_spec _ _ _ _ _ _ _ _ _ Kt) as (_ & Hz & _ & _). specialize (Hz Nc). destruct (zmax_of coneR) as [z|] eqn:Ez; [|congruence].
  destruct (can_finish _ _ _ _ _ _ z Kt (or_introl Ez) Nd _ (steps_refl _)) as (ths & s & St & D).
  destruct (H ths (Some s) St) as ((m & Em & Sim) & _). injection Em as <-. exists (finish [10] (length dist) b s). apply Sim. exact D.
Qed.

Print Assumptions C61_no_data_race.
Print Assumptions C61_every_schedule_completes.
