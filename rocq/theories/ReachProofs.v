(** * Every state a team of threads can reach: no undefined behaviour, no deadlock, no race *)
From Coq Require Import ZArith List Bool Lia Permutation.
From Verif Require Import Num Geometry SpecPhoton RM CapilModel TraceModel LaunchModel RunModel
  TeamProofs RunProofs EffectProofs FinalProofs.
Import ListNotations.

Section Reach.
Context {T : Type} {N : Num T}.
Notation action := (action T). Notation shared := (shared T). Notation instr := (instr T).

(** [segs'] are what is left of [segs]. *)
Definition suffixes (segs segs' : list (list action)) : Prop :=
  exists dones, segs = zapp dones segs' /\ length dones = length segs'.

(** The states a team can reach. *)
Inductive phase (z : T) (lc : bool) ne jobs (dist : list (list nat)) : list (list instr) -> option shared -> Prop :=
| ph_loop dones segs' tr :
    segs_of z lc ne jobs 0 dist = zapp dones segs' -> length dones = length segs' -> length segs' = length dist ->
    shuf dones tr ->
    phase z lc ne jobs dist
      (zapp (map (map Act) segs') (map (fun js => if lc then [Barrier; Act ASingle; Barrier; Act (t_copy jobs js)] else []) dist))
      (run tr (shared0 ne))
| ph_single dones segs' tr tr1 s1 :
    lc = true -> Permutation (concat (segs_of z lc ne jobs 0 dist)) tr1 -> run tr1 (shared0 ne) = Some s1 ->
    map (fun _ => [ASingle]) dist = zapp dones segs' -> length dones = length segs' -> length segs' = length dist ->
    shuf dones tr ->
    phase z lc ne jobs dist (zapp (map (map Act) segs') (map (fun js => [Barrier; Act (t_copy jobs js)]) dist)) (run tr s1)
| ph_copy dones segs' tr tr1 s1 s2 :
    lc = true -> dist <> [] -> Permutation (concat (segs_of z lc ne jobs 0 dist)) tr1 -> run tr1 (shared0 ne) = Some s1 ->
    act ASingle s1 = Some s2 ->
    map (fun js => [t_copy jobs js]) dist = zapp dones segs' -> length dones = length segs' -> length segs' = length dist ->
    shuf dones tr ->
    phase z lc ne jobs dist (map (map Act) segs') (run tr s2).

Lemma reach o lc ne jobs dist progs z c :
  threads_run o lc ne 0 jobs dist None = Ret (progs, None) -> (zmax_of o = Some z \/ concat dist = []) ->
  steps (progs, Some (shared0 ne)) c -> phase z lc ne jobs dist (fst c) (snd c).
Proof.
  intros Kt Hz St. destruct (threads_run_spec _ _ _ _ _ _ _ _ _ Kt) as (_ & _ & _ & C3).
  rewrite (C3 z Hz) in St. clear C3 Kt Hz.
  destruct (segment _ _ St (segs_of z lc ne jobs 0 dist) (map (fun js => if lc then [Barrier; Act ASingle; Barrier; Act (t_copy jobs js)] else []) dist) (shared0 ne) eq_refl)
    as [(dones & segs' & tr & E & Ld & Ls & Sh & ->)|(tr1 & s1 & rests' & Sh & R & Er & Ne & St2)].
  { rewrite segs_of_length, map_length. auto. }
  { apply Forall_forall. intros p Ip. apply in_map_iff in Ip. destruct Ip as (js & <- & _). destruct lc; exact I. }
  { cbn [fst snd]. rewrite segs_of_length in Ls. eapply ph_loop; eauto. }
  destruct lc.
  2:{ exfalso. destruct rests' as [|r rests']; [congruence|]. destruct dist; cbn in Er; discriminate. }
  assert (E2 : rests' = zapp (map (map Act) (map (fun _ => [@ASingle T]) dist)) (map (fun js => [Barrier; Act (t_copy jobs js)]) dist)).
  { clear -Er. revert rests' Er. induction dist as [|js dist IH]; intros [|r rests'] E; cbn in *; try discriminate; auto.
    injection E as <- E. f_equal. apply IH. exact E. }
  apply shuf_perm in Sh. subst rests'.
  assert (Nd : dist <> []) by (intros ->; cbn in Ne; congruence).
  destruct (segment _ _ St2 (map (fun _ => [ASingle]) dist) (map (fun js => [Barrier; Act (t_copy jobs js)]) dist) s1 eq_refl)
    as [(dones & segs' & tr & E & Ld & Ls & Sh2 & ->)|(tr2 & s2 & rests2 & Sh2 & R2 & Er2 & Ne2 & St3)].
  { rewrite !map_length. auto. }
  { apply Forall_forall. intros p Ip. apply in_map_iff in Ip. destruct Ip as (js & <- & _). exact I. }
  { cbn [fst snd]. rewrite map_length in Ls. eapply ph_single; eauto. }
  apply shuf_single in Sh2; [|apply Forall_forall; intros g Ig; apply in_map_iff in Ig; destruct Ig as (? & <- & _); auto]. subst tr2.
  rewrite map_length in R2. destruct dist as [|js0 dist0] eqn:Ed; [congruence|]. cbn [length] in R2. rewrite single_run in R2. rewrite <- Ed in *.
  assert (E3 : rests2 = zapp (map (map Act) (map (fun js => [t_copy jobs js]) dist)) (map (fun _ => []) dist)).
  { clear -Er2. revert rests2 Er2. induction dist as [|js dist IH]; intros [|r rests'] E; cbn in *; try discriminate; auto.
    injection E as <- E. f_equal. apply IH. exact E. }
  subst rests2.
  destruct (segment _ _ St3 (map (fun js => [t_copy jobs js]) dist) (map (fun _ => []) dist) s2 eq_refl)
    as [(dones & segs' & tr & E & Ld & Ls & Sh3 & ->)|(tr3 & s3 & rests3 & Sh3 & R3 & Er3 & Ne3 & St4)].
  { rewrite !map_length. auto. }
  { apply Forall_forall. intros p Ip. apply in_map_iff in Ip. destruct Ip as (js & <- & _). exact I. }
  { cbn [fst snd]. rewrite map_length in Ls.
    replace (zapp (map (map Act) segs') (map (fun _ => []) dist)) with (map (map (@Act T)) segs').
    - eapply ph_copy; eauto.
    - clear -Ls. revert dist Ls. induction segs' as [|g l IH]; intros [|js dist] L; cbn in *; try discriminate; auto.
      rewrite app_nil_r. f_equal. apply IH. congruence. }
  exfalso. destruct rests3 as [|r rests3]; [congruence|]. subst dist. cbn in Er3. discriminate.
Qed.

Lemma zapp_incl (a b : list (list action)) : length a = length b -> incl (concat a) (concat (zapp a b)).
Proof.
  revert b. induction a as [|x a IH]; intros [|y b] L; cbn in *; try discriminate; [easy|].
  intros q Iq. rewrite in_app_iff in *. destruct Iq as [Iq|Iq]; [left; rewrite in_app_iff; auto|right; apply IH; auto].
Qed.

Lemma some_or_nil {A} (segs : list (list A)) : Forall (fun g => g = []) segs \/ exists t a rest, nth_error segs t = Some (a :: rest).
Proof.
  induction segs as [|[|a g] segs IH]; [left; auto| |right; exists 0, a, g; auto].
  destruct IH as [F|(t & a & rest & E)]; [left; auto|right; exists (S t), a, rest; auto].
Qed.

Lemma zapp_nils (segs : list (list action)) (rests : list (list instr)) : Forall (fun g => g = []) segs -> length segs = length rests ->
  zapp (map (map Act) segs) rests = rests.
Proof. intros F. revert rests. induction F as [|g segs -> _ IH]; intros [|r rests] L; cbn in *; try discriminate; auto. f_equal. apply IH. congruence. Qed.

Lemma step_head (segs : list (list action)) (rests : list (list instr)) t a rest s : length segs = length rests ->
  nth_error segs t = Some (a :: rest) -> exists c', step (zapp (map (map Act) segs) rests, Some s) c'.
Proof.
  intros L E. destruct (nth_error rests t) as [r|] eqn:Er.
  - eexists. eapply step_act with (t := t) (a := a) (rest := map Act rest ++ r).
    rewrite zapp_nth by (rewrite map_length; auto). rewrite nth_error_map, E, Er. reflexivity.
  - apply nth_error_None in Er. assert (t < length segs) by (apply nth_error_Some; congruence). lia.
Qed.

Lemma flat_map_sublen {B} (f : action -> list B) (dones segs' : list (list action)) :
  length dones = length segs' ->
  length (flat_map f (concat dones)) <= length (flat_map f (concat (zapp dones segs'))).
Proof.
  revert segs'. induction dones as [|d dones IH]; intros [|g segs'] L; cbn in *; try discriminate; [lia|].
  rewrite !flat_map_app, !app_length. specialize (IH segs' (eq_add_S _ _ L)). lia.
Qed.

(** No reachable state is undefined, and a team that is not done can go on. *)
Lemma phase_live z lc ne jobs dist ths s : dist <> [] -> phase z lc ne jobs dist ths s ->
  exists s', s = Some s' /\ (done ths \/ exists c', step (ths, s) c').
Proof.
  intros Nd P. destruct P as [dones segs' tr E Ld Ls Sh|dones segs' tr tr1 s1 Elc P1 R1 E Ld Ls Sh|dones segs' tr tr1 s1 s2 Elc _ P1 R1 A E Ld Ls Sh].
  - assert (Fe : Forall early tr).
    { eapply Permutation_Forall; [apply shuf_perm; exact Sh|]. apply Forall_forall. intros a Ia.
      apply (zapp_incl dones segs' Ld) in Ia. rewrite <- E in Ia. revert a Ia. apply Forall_forall. apply early_acts. }
    destruct (early_run tr (shared0 ne) Fe) as (s' & R & _). exists s'. split; [auto|]. rewrite R.
    destruct (some_or_nil segs') as [F|(t & a & rest & Et)].
    + rewrite zapp_nils by (auto; rewrite map_length; auto). destruct lc.
      * right. replace (map (fun js => [Barrier; Act ASingle; Barrier; Act (t_copy jobs js)]) dist)
          with (map (cons Barrier) (map (fun js => [Act ASingle; Barrier; Act (t_copy jobs js)]) dist)) by (rewrite map_map; auto).
        eexists. apply step_barrier. destruct dist; [congruence|discriminate].
      * left. clear. induction dist; constructor; auto.
    + right. eapply step_head; eauto. rewrite map_length. auto.
  - assert (Rt : exists s', run tr s1 = Some s').
    { assert (Ft : Forall (fun a => a = ASingle) tr).
      { eapply Permutation_Forall; [apply shuf_perm; exact Sh|]. apply Forall_forall. intros a Ia. apply (zapp_incl dones segs' Ld) in Ia. rewrite <- E in Ia.
        apply in_concat in Ia. destruct Ia as (g & Ig & Ia). apply in_map_iff in Ig. destruct Ig as (? & <- & _). destruct Ia as [<-|[]]. auto. }
      clear -Ft. revert s1. induction Ft as [|a tr -> _ IH]; intros s1; cbn; eauto. destruct (sh_single s1); auto. }
    destruct Rt as (s' & R). exists s'. split; [auto|]. rewrite R. right.
    destruct (some_or_nil segs') as [F|(t & a & rest & Et)].
    + rewrite zapp_nils by (auto; rewrite map_length; auto).
      replace (map (fun js => [Barrier; Act (t_copy jobs js)]) dist) with (map (cons Barrier) (map (fun js => [Act (t_copy jobs js)]) dist)) by (rewrite map_map; auto).
      eexists. apply step_barrier. destruct dist; [congruence|discriminate].
    + eapply step_head; eauto. rewrite map_length. auto.
  - assert (Rt : exists s', run tr s2 = Some s').
    { assert (Fe : Forall early tr1) by (eapply Permutation_Forall; [exact P1|]; apply early_acts).
      destruct (early_run tr1 (shared0 ne) Fe) as (s1' & R' & _ & _ & _ & H4 & H5 & H6 & _). rewrite R1 in R'. injection R' as <-.
      cbn in A. rewrite H6 in A. cbn in A. injection A as <-. subst lc.
      destruct (segs_leaks z ne jobs dist 0) as [L1 L2]. rewrite (zsum_perm _ _ _ P1) in L1; rewrite (zsum_perm _ _ _ P1) in L2.
      rewrite L1 in H4; rewrite L2 in H5. cbn in H4, H5.
      assert (Ft : Forall is_copy tr).
      { eapply Permutation_Forall; [apply shuf_perm; exact Sh|]. apply Forall_forall. intros a Ia. apply (zapp_incl dones segs' Ld) in Ia. rewrite <- E in Ia.
        apply in_concat in Ia. destruct Ia as (g & Ig & Ia). apply in_map_iff in Ig. destruct Ig as (? & <- & _). destruct Ia as [<-|[]]. exact I. }
      pose proof (flat_map_sublen c_ext dones segs' Ld) as B1. pose proof (flat_map_sublen c_int dones segs' Ld) as B2.
      rewrite <- E in B1, B2. apply shuf_perm in Sh.
      rewrite (Permutation_length (Permutation_flat_map c_ext Sh)) in B1.
      rewrite (Permutation_length (Permutation_flat_map c_int Sh)) in B2.
      assert (G1 : flat_map c_ext (concat (map (fun js => [t_copy jobs js]) dist)) = flat_map (fun j => job_leaks ph_ext (jobs j)) (concat dist)).
      { clear. induction dist as [|js dist IH]; cbn; auto. rewrite flat_map_app, IH. auto. }
      assert (G2 : flat_map c_int (concat (map (fun js => [t_copy jobs js]) dist)) = flat_map (fun j => job_leaks ph_int (jobs j)) (concat dist)).
      { clear. induction dist as [|js dist IH]; cbn; auto. rewrite flat_map_app, IH. auto. }
      rewrite G1 in B1. rewrite G2 in B2.
      match goal with |- exists s', run tr ?s2 = _ =>
        destruct (copy_run tr s2 [] [] (Z.to_nat (sh_iext s1)) (Z.to_nat (sh_iint s1)) Ft) as (s' & R & _) end; cbn; auto.
      - rewrite H4, Nat2Z.id. auto.
      - rewrite H5, Nat2Z.id. auto.
      - exists s'. exact R. }
    destruct Rt as (s' & R). exists s'. split; [auto|]. rewrite R.
    destruct (some_or_nil segs') as [F|(t & a & rest & Et)].
    + left. clear -F. induction F as [|g l -> _ IH]; cbn; constructor; auto.
    + right. eexists. eapply step_act with (t := t). rewrite nth_error_map, Et. reflexivity.
Qed.

(** ** Every execution ends *)
Definition size (ths : list (list instr)) : nat := length (concat ths).

Lemma step_size c c' : step c c' -> size (fst c') < size (fst c).
Proof.
  unfold size. intros S. destruct S as [t a rest ths s E|rests s Ne]; cbn [fst].
  - destruct (set_nth_split t rest ths _ E) as (l1 & l2 & -> & _ & ->). rewrite !concat_app. cbn. rewrite !app_length. cbn. repeat rewrite app_length. lia.
  - destruct rests as [|r rests]; [congruence|]. cbn. rewrite !app_length.
    assert (H : length (concat rests) <= length (concat (map (cons (@Barrier T)) rests))).
    { clear. induction rests as [|q l IH]; cbn; auto. rewrite !app_length. lia. }
    cbn in H |- *. repeat rewrite app_length in *. lia.
Qed.

Lemma steps_trans (c1 c2 c3 : list (list instr) * option shared) : steps c1 c2 -> steps c2 c3 -> steps c1 c3.
Proof. induction 1 as [c|c c' c'' S _ IH]; intros H; auto. econstructor; eauto. Qed.

Lemma can_finish o lc ne jobs dist progs z :
  threads_run o lc ne 0 jobs dist None = Ret (progs, None) -> (zmax_of o = Some z \/ concat dist = []) -> dist <> [] ->
  forall c, steps (progs, Some (shared0 ne)) c -> exists ths s, steps c (ths, Some s) /\ done ths.
Proof.
  intros Kt Hz Nd c. remember (size (fst c)) as m eqn:Em. revert c Em.
  induction m as [m IH] using lt_wf_ind. intros [ths s] Em St.
  destruct (phase_live _ _ _ _ _ _ _ Nd (reach _ _ _ _ _ _ _ _ Kt Hz St)) as (s' & Es & [D|(c' & S)]); cbn in Es.
  - subst s. exists ths, s'. split; [constructor|auto].
  - cbn in S. pose proof (step_size _ _ S) as Lt. rewrite <- Em in Lt.
    destruct (IH _ Lt c' eq_refl) as (ths' & s2 & St' & D).
    + eapply steps_trans; [exact St|]. econstructor; [exact S|constructor].
    + exists ths', s2. split; [|auto]. econstructor; eauto.
Qed.

End Reach.
