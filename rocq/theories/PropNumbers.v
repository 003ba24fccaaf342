(** * Property theorems: what decides the outcome of launches and simulations (C141 to C143)

    [junk] stands for the contents of uninitialised variables, the [fuel]s are the step budgets
    of the model: neither is part of the property. *)
From Coq Require Import ZArith List Bool Lia Reals Lra Permutation.
From Verif Require Import Num Geometry SpecPhoton RM CapilModel TraceModel LaunchModel SourceModel RunModel
  TeamProofs RunProofs EffectProofs FinalProofs SpecRun SimProofs ReachProofs TotalProofs PropRun PropSched FuelProofs JunkProofs ExampleRun.
Import ListNotations.

(** ** C142: one outcome *)
Section Any.
Context {T : Type} {N : Num T}.
Hypothesis neg1 : nltb (nopp (nofZ 1)) (nofZ 0) = true.

Lemma one_outcome (x : xraylib T) (o : optic T) ph en wnull lc e junk junk' n m r :
  launch x o junk n ph en wnull lc e = Ret r -> launch x o junk' m ph en wnull lc e = Ret r \/ launch x o junk' m ph en wnull lc e = Fuel.
Proof.
  intros E. destruct r as [r e1]. rewrite (launch_same x o junk junk') by exact neg1.
  pose proof (grows_ret _ _ _ _ _ (launch_grows x o junk n (Nat.max n m) ph en wnull lc ltac:(lia)) E) as H.
  destruct (launch_grows x o junk m (Nat.max n m) ph en wnull lc ltac:(lia) e) as [K|K]; [right; exact K|left; congruence].
Qed.
Lemma one_undefined (x : xraylib T) (o : optic T) ph en wnull lc e junk junk' n m r :
  launch x o junk n ph en wnull lc e = Ub -> launch x o junk' m ph en wnull lc e <> Ret r.
Proof. intros E E'. destruct (one_outcome x o ph en wnull lc e junk' junk m n r E') as [K|K]; congruence. Qed.

Lemma jobs_once x o s en junk junk' lc n m k k' c (rs : list T) e r r' :
  jobs_run k x o s en junk lc n rs c e = Ret r -> jobs_run k' x o s en junk' lc m rs c e = Ret r' -> r = r'.
Proof.
  intros E E'. destruct r as [r e1], r' as [r' e2]. rewrite (jobs_same x o s en junk junk') in E' by exact neg1.
  pose proof (grows_ret _ _ _ _ _ (jobs_grows x o s en junk lc n (Nat.max n m) k (Nat.max k k') c rs ltac:(lia) ltac:(lia)) E) as H.
  pose proof (grows_ret _ _ _ _ _ (jobs_grows x o s en junk lc m (Nat.max n m) k' (Nat.max k k') c rs ltac:(lia) ltac:(lia)) E') as H'. congruence.
Qed.

Lemma nth_pair {A B} (l : list A) (l' : list B) i a : length l' = length l -> nth_error l i = Some a -> exists b, nth_error l' i = Some b.
Proof.
  intros L E. destruct (nth_error l' i) as [b|] eqn:Eb; [eauto|]. apply nth_error_None in Eb. assert (i < length l) by (apply nth_error_Some; congruence). lia.
Qed.

(** Same numbers, same distribution: the same attempts for every photon. *)
Lemma same_jobs (x : xraylib T) (o : optic T) src en junk junk' lc n dist streams jobs jobs' :
  Permutation (concat dist) (seq 0 n) -> length streams = length dist ->
  (forall t js rs, nth_error dist t = Some js -> nth_error streams t = Some rs -> exists k fuel, jobs_run k x o src en junk lc fuel rs (length js) None = Ret (Some (map jobs js), None)) ->
  (forall t js rs, nth_error dist t = Some js -> nth_error streams t = Some rs -> exists k fuel, jobs_run k x o src en junk' lc fuel rs (length js) None = Ret (Some (map jobs' js), None)) ->
  forall j, j < n -> jobs j = jobs' j.
Proof.
  intros Pd Ls H H' j Lj. assert (Ij : In j (concat dist)) by (eapply Permutation_in; [apply Permutation_sym; exact Pd|]; apply in_seq; lia).
  apply in_concat in Ij. destruct Ij as (js & Ijs & Ij). destruct (In_nth_error _ _ Ijs) as (t & Et). destruct (nth_pair _ streams t js Ls Et) as (rs & Er).
  destruct (H t js rs Et Er) as (k & f & K). destruct (H' t js rs Et Er) as (k' & f' & K'). pose proof (jobs_once _ _ _ _ _ _ _ _ _ _ _ _ _ _ _ _ K K') as E. injection E as E.
  clear - E Ij. induction js as [|i js IH]; [destruct Ij|]. cbn in E. injection E as E1 E2. destruct Ij as [<-|Ij]; auto.
Qed.

Lemma loop_jobs (o : optic T) lc ne tid jobs jobs' js : (forall j, In j js -> jobs j = jobs' j) -> forall lo, loop_run o lc ne tid jobs lo js = loop_run o lc ne tid jobs' lo js.
Proof.
  induction js as [|j js IH]; intros H lo; [reflexivity|]. cbn [loop_run]. rewrite (H j) by (left; reflexivity).
  assert (G : forall lo, loop_run o lc ne tid jobs lo js = loop_run o lc ne tid jobs' lo js) by (apply IH; intros i Hi; apply H; right; exact Hi).
  apply FunctionalExtensionality.functional_extensionality. intros e. rewrite 2!bind_def. destruct (body_run _ _ _ _ _ _ _ e) as [[[acts lo'] e1]| |]; [|reflexivity|reflexivity]. rewrite G. reflexivity.
Qed.

Lemma threads_jobs (o : optic T) lc ne jobs jobs' dist : (forall j, In j (concat dist) -> jobs j = jobs' j) -> forall tid e, threads_run o lc ne tid jobs dist e = threads_run o lc ne tid jobs' dist e.
Proof.
  induction dist as [|js dist IH]; intros H tid e; [reflexivity|]. cbn [threads_run].
  assert (Et : thread_run o lc ne tid jobs js = thread_run o lc ne tid jobs' js).
  { unfold thread_run. rewrite (loop_jobs o lc ne tid jobs jobs' js); [reflexivity|]. intros j Hj. apply H. cbn. apply in_app_iff. left. exact Hj. }
  rewrite Et. unfold bind. destruct (thread_run o lc ne tid jobs' js e) as [[p e1]| |]; [|reflexivity|reflexivity].
  rewrite IH by (intros j Hj; apply H; cbn; apply in_app_iff; right; exact Hj). reflexivity.
Qed.

Lemma simulation_jobs_ext (x : xraylib T) (o : optic T) src en junk junk' lc n dist streams jobs jobs' before r :
  simulation x o src en junk lc n dist streams jobs before r ->
  (forall t js rs, nth_error dist t = Some js -> nth_error streams t = Some rs -> exists k fuel, jobs_run k x o src en junk' lc fuel rs (length js) None = Ret (Some (map jobs' js), None)) ->
  simulation x o src en junk' lc n dist streams jobs' before r.
Proof.
  intros (Hn & Pd & Ls & Hj & progs & ths & s & Kt & St & D & E) H'.
  pose proof (same_jobs x o src en junk junk' lc n dist streams jobs jobs' Pd Ls Hj H') as Ej.
  split; [exact Hn|]. split; [exact Pd|]. split; [exact Ls|]. split; [exact H'|]. exists progs, ths, s.
  split; [|auto]. rewrite <- Kt. symmetry. apply threads_jobs. intros j Ij. apply Ej. apply (Permutation_in _ Pd) in Ij. apply in_seq in Ij. lia.
Qed.
End Any.

(** Whatever uninitialised variables hold: a launch has one outcome.  Over the reals *)
Theorem C142_one_outcome :
  forall (x : xraylib R) (o : optic R) ph en wnull lc e junk junk' n m r r',
    launch x o junk n ph en wnull lc e = Ret r -> launch x o junk' m ph en wnull lc e = Ret r' -> r = r'.
Proof.
  intros x o ph en wnull lc e junk junk' n m r r' E E'.
  destruct (one_outcome (N := RNum) (Rltb_true (- 1) 0 ltac:(lra)) x o ph en wnull lc e junk junk' n m r E) as [K|K]; congruence.
Qed.
(** and with doubles; and it is not undefined for some contents and defined for others. *)
Theorem C142_one_outcome_double :
  forall lm, let N := FNum lm in forall (x : xraylib PrimFloat.float) (o : optic PrimFloat.float) ph en wnull lc e junk junk' n m r r',
    launch x o junk n ph en wnull lc e = Ret r -> launch x o junk' m ph en wnull lc e = Ret r' -> r = r'.
Proof.
  intros lm N x o ph en wnull lc e junk junk' n m r r' E E'. subst N.
  destruct (one_outcome (N := FNum lm) eq_refl x o ph en wnull lc e junk junk' n m r E) as [K|K]; congruence.
Qed.
Theorem C142_defined_or_not :
  forall (x : xraylib R) (o : optic R) ph en wnull lc e junk junk' n m r,
    launch x o junk n ph en wnull lc e = Ub -> launch x o junk' m ph en wnull lc e <> Ret r.
Proof. intros x o ph en wnull lc e junk junk' n m r. apply (one_undefined (N := RNum) (Rltb_true (- 1) 0 ltac:(lra))). Qed.

(** ** C141: the numbers of the generators decide the result *)
(** Two simulations of the same photons by the same threads, with the same random numbers for each
    thread: the same result, whatever the schedules, whatever uninitialised variables hold and
    whatever was simulated before. *)
Theorem C141_numbers_decide :
  forall (x : xraylib R) (o : optic R) (src : source_nums R) en junk junk' lc n dist streams jobs jobs' before before' r r',
    simulation x o src en junk lc n dist streams jobs before r ->
    simulation x o src en junk' lc n dist streams jobs' before' r' ->
    same_result r r'.
Proof.
  intros x o src en junk junk' lc n dist streams jobs jobs' before before' r r' S1 S2.
  assert (Neg : @nltb R RNum (@nopp R RNum (nofZ 1)) (nofZ 0) = true) by exact (Rltb_true (- 1) 0 ltac:(lra)).
  eapply C40_schedule_independent; [|exact S2]. eapply (simulation_jobs_ext Neg); [exact S1|]. destruct S2 as (_ & _ & _ & H & _). exact H.
Qed.

(** ** C143: every photon has its own random numbers *)
Section Own.
Context {T : Type} {N : Num T}.

Lemma hex_loop_own ext0 k : forall rs : list T, length rs <= k -> forall x y rs', hex_loop ext0 rs = Some (x, y, rs') ->
  exists used, used <> [] /\ rs = used ++ rs' /\ forall rest, hex_loop ext0 (used ++ rest) = Some (x, y, rest).
Proof.
  induction k as [|k IH]; intros rs L x y rs' E; (destruct rs as [|r1 [|r2 rs]]; [discriminate|discriminate|]); [cbn in L; lia|]. cbn [hex_loop] in E. cbn [length] in L.
  destruct (Z.eqb _ 0) eqn:Ez.
  - destruct (IH rs ltac:(lia) _ _ _ E) as (u & Hu & -> & G). exists (r1 :: r2 :: u). split; [discriminate|]. split; [reflexivity|].
    intros rest. cbn [app hex_loop]. rewrite Ez. apply G.
  - injection E as <- <- <-. exists [r1; r2]. split; [discriminate|]. split; [reflexivity|]. intros rest. cbn [app hex_loop]. rewrite Ez. reflexivity.
Qed.

Lemma draw_own s n_cap cap0 ext0 (rs : list T) d rs' : draw_photon s n_cap cap0 ext0 rs = Some (d, rs') ->
  exists used, used <> [] /\ rs = used ++ rs' /\ forall rest, draw_photon s n_cap cap0 ext0 (used ++ rest) = Some (d, rest).
Proof.
  unfold draw_photon. destruct rs as [|r1 [|r2 [|r3 rs]]]; try discriminate. unfold draw_ray. destruct (orb _ _).
  - destruct (draw_entrance _ _ _ rs) as [[[x y] rs1]|] eqn:Ed; [|discriminate]. destruct rs1 as [|r rs1]; [discriminate|]. intros E. injection E as <- <-.
    assert (G : exists u, rs = u ++ r :: rs1 /\ forall rest, draw_entrance n_cap cap0 ext0 (u ++ rest) = Some (x, y, rest)).
    { unfold draw_entrance in *. destruct (neqb _ _).
      - destruct rs as [|a [|b rs]]; [discriminate|discriminate|]. injection Ed as <- <- ->. exists [a; b]. split; [reflexivity|]. intros rest. reflexivity.
      - destruct (hex_loop_own ext0 (length rs) rs (Nat.le_refl _) _ _ _ Ed) as (u & _ & -> & G). exists u. auto. }
    destruct G as (u & -> & G). exists (r1 :: r2 :: r3 :: u ++ [r]). split; [discriminate|]. split; [cbn; rewrite <- app_assoc; reflexivity|].
    intros rest. cbn [app]. rewrite <- app_assoc, G. reflexivity.
  - destruct rs as [|a [|b [|r rs]]]; try discriminate. intros E. injection E as <- <-. exists [r1; r2; r3; a; b; r]. split; [discriminate|]. split; [reflexivity|]. intros rest. reflexivity.
Qed.

Lemma attempt_own x o s en junk lc fuel (rs : list T) a rs' e e' : attempt_run x o s en junk lc fuel rs e = Ret (Some (a, rs'), e') ->
  exists used, used <> [] /\ rs = used ++ rs' /\ forall rest, attempt_run x o s en junk lc fuel (used ++ rest) e = Ret (Some (a, rest), e').
Proof.
  unfold attempt_run. rewrite !bind_def. destruct (rd _ 0 e) as [[c e1]| |] eqn:E1; try discriminate. rewrite bind_def. destruct (rd _ 0 e1) as [[c1 e2]| |] eqn:E2; try discriminate.
  destruct (draw_photon _ _ _ _ rs) as [[d rs1]|] eqn:Ed; [|discriminate]. rewrite bind_def. destruct (fresh_photon d e2) as [[ph e3]| |] eqn:E3; try discriminate.
  rewrite bind_def. destruct (quiet _ e3) as [[[[c2 p] [w|]] e4]| |] eqn:E4; try discriminate. intros E. injection E as <- <- <-.
  destruct (draw_own _ _ _ _ _ _ _ Ed) as (u & Hu & -> & G). exists u. split; [exact Hu|]. split; [reflexivity|]. intros rest.
  rewrite bind_def, E1, bind_def, E2, G, bind_def, E3, bind_def, E4. reflexivity.
Qed.

Lemma job_own x o s en junk lc fuel k : forall (rs : list T) l rs' e e', job_run k x o s en junk lc fuel rs e = Ret (Some (l, rs'), e') ->
  exists used, used <> [] /\ rs = used ++ rs' /\ forall rest, job_run k x o s en junk lc fuel (used ++ rest) e = Ret (Some (l, rest), e').
Proof.
  induction k as [|k IH]; intros rs l rs' e e' E; [discriminate|]. cbn [job_run] in E. rewrite bind_def in E.
  destruct (attempt_run x o s en junk lc fuel rs e) as [[[[a rs1]|] e1]| |] eqn:Ea; try discriminate. apply attempt_own in Ea. destruct Ea as (u & Hu & -> & G).
  rewrite bind_def in E. destruct (classify o a e1) as [[c e2]| |] eqn:Ec; try discriminate. destruct (again c) eqn:Eg.
  - rewrite bind_def in E. destruct (job_run k x o s en junk lc fuel rs1 e2) as [[[[l1 rs2]|] e3]| |] eqn:Ej; try discriminate. injection E as <- <- <-.
    destruct (IH _ _ _ _ _ Ej) as (v & _ & -> & G2). exists (u ++ v). split; [destruct u; [congruence|discriminate]|]. split; [apply app_assoc|].
    intros rest. cbn [job_run]. rewrite <- app_assoc, bind_def, G, bind_def, Ec, Eg, bind_def, G2. reflexivity.
  - injection E as <- <- <-. exists u. split; [exact Hu|]. split; [reflexivity|]. intros rest. cbn [job_run]. rewrite bind_def, G, bind_def, Ec, Eg. reflexivity.
Qed.

(** The attempts [l] were made with the numbers [used] and no others: whatever numbers follow,
    they come out the same and leave those that follow. *)
Definition made_with x o s en junk lc (used : list T) (l : list (attempt T * Z)) : Prop :=
  exists k fuel, forall rest, job_run k x o s en junk lc fuel (used ++ rest) None = Ret (Some (l, rest), None).

Lemma jobs_parts x o s en junk lc fuel k c : forall (rs : list T) ls e, jobs_run k x o s en junk lc fuel rs c None = Ret (Some ls, e) ->
  exists parts rest, rs = concat parts ++ rest /\ Forall2 (fun used l => used <> [] /\ made_with x o s en junk lc used l) parts ls.
Proof.
  induction c as [|c IH]; intros rs ls e E; cbn [jobs_run] in E.
  - injection E as <- _. exists [], rs. split; [reflexivity|constructor].
  - rewrite bind_def in E. destruct (job_run k x o s en junk lc fuel rs None) as [[[[l rs1]|] e1]| |] eqn:Ej; try discriminate.
    pose proof (job_run_ok _ _ _ _ _ _ _ _ _ _ _ _ Ej) as (-> & _). destruct (job_own _ _ _ _ _ _ _ _ _ _ _ _ _ Ej) as (used & Hu & -> & G).
    rewrite bind_def in E. destruct (jobs_run k x o s en junk lc fuel rs1 c None) as [[[ls1|] e2]| |] eqn:Er; try discriminate. injection E as <- _.
    destruct (IH _ _ _ Er) as (parts & rest & -> & F). exists (used :: parts), rest. split; [cbn; rewrite app_assoc; reflexivity|].
    constructor; [|exact F]. split; [exact Hu|]. exists k, fuel. exact G.
Qed.

(** The numbers of every thread are divided among its photons, in order: none is used twice. *)
Theorem C143_own_numbers_partial :
  forall (x : xraylib T) (o : optic T) (src : source_nums T) en junk lc n dist streams jobs before r,
    simulation x o src en junk lc n dist streams jobs before r ->
    forall t js rs, nth_error dist t = Some js -> nth_error streams t = Some rs ->
      exists parts rest, rs = concat parts ++ rest /\
        Forall2 (fun used j => used <> [] /\ made_with x o src en junk lc used (jobs j)) parts js.
Proof.
  intros x o src en junk lc n dist streams jobs before r (_ & _ & _ & H & _) t js rs Et Er. destruct (H t js rs Et Er) as (k & fuel & K).
  destruct (jobs_parts _ _ _ _ _ _ _ _ _ _ _ _ K) as (parts & rest & E & F). exists parts, rest. split; [exact E|].
  clear - F. remember (map jobs js) as ls eqn:El. revert js El. induction F as [|u l parts ls H F IH]; intros [|j js] El; try discriminate; constructor.
  - injection El as -> _. exact H.
  - injection El as _ E. apply IH. exact E.
Qed.
End Own.

(** C143 is refuted: threads whose generators give the same numbers -- as they do if their seeds are
    the same, see C139_same_clock -- record the same photons, one by one. *)
Theorem C143_same_seed_refuted :
  forall (x : xraylib R) (o : optic R) (src : source_nums R) en junk lc n dist streams jobs before r t t' js js' rs i j j',
    simulation x o src en junk lc n dist streams jobs before r ->
    nth_error dist t = Some js -> nth_error dist t' = Some js' -> length js = length js' ->
    nth_error streams t = Some rs -> nth_error streams t' = Some rs ->
    nth_error js i = Some j -> nth_error js' i = Some j' ->
    jobs j = jobs j' /\ exists zmax a, recorded (re_img r) (length en) zmax j a /\ recorded (re_img r) (length en) zmax j' a.
Proof.
  intros x o src en junk lc n dist streams jobs before r t t' js js' rs i j j' Sim Et Et' Ln Er Er' Ej Ej'.
  assert (Neg : @nltb R RNum (@nopp R RNum (nofZ 1)) (nofZ 0) = true) by exact (Rltb_true (- 1) 0 ltac:(lra)).
  pose proof (C41_every_photon_recorded _ _ _ _ _ _ _ _ _ _ _ _ Sim) as (_ & _ & (zmax & _ & Rec) & _).
  destruct Sim as (Hn & Pd & Ls & H & _). destruct (H t js rs Et Er) as (k & f & K). destruct (H t' js' rs Et' Er') as (k' & f' & K'). rewrite <- Ln in K'.
  pose proof (jobs_once Neg _ _ _ _ _ _ _ _ _ _ _ _ _ _ _ _ K K') as E. injection E as E.
  assert (Ejj : jobs j = jobs j').
  { pose proof (map_nth_error jobs _ _ Ej) as M. pose proof (map_nth_error jobs _ _ Ej') as M'. rewrite E in M. congruence. }
  split; [exact Ejj|]. exists zmax.
  assert (Lj : forall t js i j, nth_error dist t = Some js -> nth_error js i = Some j -> j < n).
  { intros t0 js0 i0 j0 A B. assert (Ij : In j0 (concat dist)) by (apply in_concat; exists js0; split; [eapply nth_error_In; exact A|eapply nth_error_In; exact B]). apply (Permutation_in _ Pd) in Ij. apply in_seq in Ij. lia. }
  destruct (Rec j (Lj _ _ _ _ Et Ej)) as (fs & a & Ea & _ & _ & Ra). destruct (Rec j' (Lj _ _ _ _ Et' Ej')) as (fs' & a' & Ea' & _ & _ & Ra').
  rewrite Ejj, Ea' in Ea. apply app_inj_tail in Ea. destruct Ea as [_ Ea]. injection Ea as ->. exists a. auto.
Qed.

(** The hypotheses can be met: simulations of two photons by two threads whose generators give the
    same numbers (of C143_same_seed_refuted too). *)
Lemma attempts_complete junk lc n dist streams jobs before : attempts_made oneR coneR axisR [10%R] junk lc n dist streams jobs ->
  exists r, simulation oneR coneR axisR [10%R] junk lc n dist streams jobs before r.
Proof.
  intros A. destruct (C61_every_schedule_completes oneR coneR axisR [10%R] junk lc n dist streams jobs before (fun _ _ => Rle_0_1) A) as (progs & Kt & H & _).
  destruct A as (Hn & Pd & _).
  assert (Nc : concat dist <> []).
  { intros E. rewrite E in Pd. apply Permutation_length in Pd. rewrite seq_length in Pd. cbn in Pd. lia. }
  assert (Nd : dist <> []) by (intros ->; apply Nc; reflexivity).
  destruct (threads_run_spec _ _ _ _ _ _ _ _ _ Kt) as (_ & Hz & _ & _). specialize (Hz Nc). destruct (zmax_of coneR) as [z|] eqn:Ez; [|congruence].
  destruct (can_finish _ _ _ _ _ _ z Kt (or_introl Ez) Nd _ (steps_refl _)) as (ths & s & St & D).
  destruct (H ths (Some s) St) as ((m & Em & Sim) & _). injection Em as <-. exists (finish [10%R] (length dist) before s). apply Sim. exact D.
Qed.
Example C143_met : forall junk before, exists rs jobs r,
  simulation oneR coneR axisR [10%R] junk false 2 [[0]; [1]] [rs; rs] jobs before r.
Proof.
  intros junk b. assert (Pd : Permutation (concat [[0]; [1]]) (seq 0 2)) by apply Permutation_refl.
  destruct (axis_attempts junk false 2 [[0]; [1]] ltac:(lia) Pd) as (a & Ew & Ec & Ls & Hj). cbn [map length seq flat_map app] in Ls, Hj.
  eexists. eexists. eapply attempts_complete. split; [lia|]. split; [exact Pd|]. split; [exact Ls|exact Hj].
Qed.

Print Assumptions C142_one_outcome.
Print Assumptions C142_one_outcome_double.
Print Assumptions C142_defined_or_not.
Print Assumptions C141_numbers_decide.
Print Assumptions C143_own_numbers_partial.
Print Assumptions C143_same_seed_refuted.
