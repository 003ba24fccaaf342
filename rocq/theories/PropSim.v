(** * Theorems about polycap_source_get_transmission_efficiencies in memory (C74-C77) *)
From Coq Require Import Reals ZArith List Bool Lia Lra Permutation String.
From Verif Require Import Num Mem SpecHeap ErrorModel ErrorProofs ProfileModel ProfileProofs Geometry SpecPhoton RM CapilModel TraceModel LaunchModel SourceModel
  ConsModel HeapLib SpecResult ResultModel H5Model H5Table RunModel TeamProofs RunProofs EffectProofs FinalProofs ReachProofs SpecRun SimProofs PropRun LenProofs SrcProofs
  SpecSim SimModel SimHeap SimStep SimRun SimPrep SimPrep2 SimEnd SimObj SimCount SimFinal PropSched.
Import ListNotations.

Section Aux.
Context {T : Type} {N : Num T}.
Implicit Types (s : st T).

Lemma range_exists (l : list T) : List.Exists (fun e => nltb e (nofZ 1) = true \/ nltb (nofZ 100) e = true) l -> forallb en_in_range l = false.
Proof.
  induction 1 as [e l H|e l _ IH]; cbn [forallb].
  - unfold en_in_range. destruct H as [H|H]; rewrite H; [reflexivity|]. rewrite orb_true_r. reflexivity.
  - rewrite IH. apply andb_false_r.
Qed.
Lemma range_forall (l : list T) : List.Forall (fun e => nltb e (nofZ 1) = false /\ nltb (nofZ 100) e = false) l -> forallb en_in_range l = true.
Proof.
  induction 1 as [|e l [H1 H2] _ IH]; cbn [forallb]; [reflexivity|]. rewrite IH. unfold en_in_range. rewrite H1, H2. reflexivity.
Qed.

Lemma good_good s source monitor n : good_request s source monitor n ->
  exists src d ne le en, source = Some src /\ source_cells s src (Some d) ne (Some le) en /\ good_args monitor (Some d) ne (Some le) en n = true.
Proof.
  intros (src & d & ne & le & en & E & C & -> & H1 & H2 & H3). exists src, d, ne, le, en. split; [exact E|]. split; [exact C|].
  unfold good_args. rewrite (range_forall _ H2). cbn. rewrite andb_true_r.
  destruct (Z.ltb_spec ne 1); [lia|]. destruct (Z.ltb_spec n 1); [lia|]. reflexivity.
Qed.
Lemma bad_bad s src desc ne ep en monitor n : source_cells s src desc ne ep en ->
  (monitor <> NULL \/ desc = NULL \/ (ne < 1)%Z \/ ep = NULL \/
     List.Exists (fun e => nltb e (nofZ 1) = true \/ nltb (nofZ 100) e = true) (firstn (Z.to_nat ne) en) \/ (n < 1)%Z) ->
  good_args monitor desc ne ep en n = false.
Proof.
  intros _ H. unfold good_args. destruct H as [H|[H|[H|[H|[H|H]]]]].
  - destruct monitor; [reflexivity|congruence].
  - subst. cbn. rewrite andb_false_r. reflexivity.
  - destruct (Z.ltb_spec ne 1); [|lia]. cbn. rewrite andb_false_r. reflexivity.
  - subst. cbn. rewrite andb_false_r. reflexivity.
  - rewrite (range_exists _ H). rewrite andb_false_r. reflexivity.
  - destruct (Z.ltb_spec n 1); [|lia]. cbn. apply andb_false_r.
Qed.
End Aux.

(** ** C74 *)
(** A bad request is refused with INVALID_ARGUMENT; nothing but the error report changes
    memory, whatever the threads would have done. *)
Theorem C74_bad_request :
  forall (T : Type) (N : Num T) source monitor max_threads n_photons omp_max err progs (s : st T) r,
  wf s -> legal_err s err -> report_fits err s -> bad_request s source monitor n_photons ->
  sim_call source monitor max_threads n_photons omp_max err progs s r ->
  exists s' m, r = Some (NULL, s') /\ error_reported err POLYCAP_ERROR_INVALID_ARGUMENT m s s'.
Proof.
  intros T N source monitor mt n omp err progs s r W Le Rf Bad Call.
  pose proof (prepare_ok source monitor mt n omp err s
    (fun v s' => v = None /\ exists m, error_reported err POLYCAP_ERROR_INVALID_ARGUMENT m s s') W Le) as P.
  assert (H : wp (prepare source monitor mt n omp err)
    (fun v s' => v = None /\ exists m, error_reported err POLYCAP_ERROR_INVALID_ARGUMENT m s s') s).
  { apply P. destruct Bad as [->|(src & desc & ne & ep & en & -> & Sc & Bad)].
    - split; [exact Rf|]. eauto.
    - exists desc, ne, ep, en. split; [exact Sc|]. rewrite (bad_bad _ _ _ _ _ _ _ _ Sc Bad). split; [exact Rf|]. eauto. }
  unfold wp in H. destruct Call as [E|s' E|v s1 ths E _|v s1 ths fr s2 E _ _]; rewrite E in H; try contradiction.
  - destruct H as [_ (m & H)]. eauto.
  - destruct H as [H _]. discriminate.
  - destruct H as [H _]. discriminate.
Qed.
(** ... and such a call does end. *)
Theorem C74_refusal_happens :
  forall (T : Type) (N : Num T) source monitor max_threads n_photons omp_max err progs (s : st T),
  wf s -> legal_err s err -> report_fits err s -> bad_request s source monitor n_photons ->
  exists s', sim_call source monitor max_threads n_photons omp_max err progs s (Some (NULL, s')).
Proof.
  intros T N source monitor mt n omp err progs s W Le Rf Bad.
  destruct (prepare source monitor mt n omp err s) as [[[v|] s']|] eqn:E.
  - exfalso. destruct (C74_bad_request T N source monitor mt n omp err [] s _ W Le Rf Bad
      (call_complete source monitor mt n omp err [] s v s' [] frame0 s' E (hsteps_refl _ _) (Forall_nil _))) as (s2 & m & A & _).
    pose proof (prepare_ok source monitor mt n omp err s (fun v _ => v = None) W Le) as P.
    unfold wp in P. rewrite E in P. discriminate P.
    destruct Bad as [->|(src & desc & ne & ep & en & -> & Sc & Bad)]; [auto|].
    exists desc, ne, ep, en. split; [exact Sc|]. rewrite (bad_bad _ _ _ _ _ _ _ _ Sc Bad). auto.
  - exists s'. apply call_refused. exact E.
  - exfalso. destruct (C74_bad_request T N source monitor mt n omp err progs s _ W Le Rf Bad (call_prepare_ub _ _ _ _ _ _ _ _ E)) as (s2 & m & A & _). discriminate.
Qed.

(** ** C75 *)
Lemma out_of_memory {T} {N : Num T} source monitor max_threads n_photons omp_max err progs (s : st T) r k :
  wf s -> legal_err s err -> reports_fit err s -> good_request s source monitor n_photons ->
  cnt s <= k < cnt s + 26 -> orc s k = false ->
  sim_call source monitor max_threads n_photons omp_max err progs s r ->
  exists s', r = Some (NULL, s') /\ gave_up err s s'.
Proof.
  rename max_threads into mt, n_photons into n, omp_max into omp. intros W Le Rf Good Hk Hf Call.
  destruct (good_good _ _ _ _ Good) as (src & d & ne & le & en & -> & Sc & G).
  assert (H : wp (prepare (Some src) monitor mt n omp err) (fun v s' => v = None -> gave_up err s s') s).
  { apply prepare_ok; auto. exists (Some d), ne, (Some le), en. split; [exact Sc|]. rewrite G. split; [exact Rf|].
    split; [intros; discriminate|auto]. }
  assert (Nu : forall v s1, prepare (Some src) monitor mt n omp err s = Ok (Some v, s1) -> False).
  { intros v s1 E. apply prepare_uses in E. destruct E as (_ & _ & E). rewrite (E k Hk) in Hf. discriminate. }
  unfold wp in H. destruct Call as [E|s' E|v s1 ths E _|v s1 ths fr s2 E _ _]; try (exfalso; eapply Nu; exact E); rewrite E in H.
  - contradiction.
  - exists s'. auto.
Qed.

(** One of the 26 allocations of the preparation fails: NULL, a MEMORY error, and no block
    the caller had is changed. *)
Theorem C75_out_of_memory :
  forall (T : Type) (N : Num T) source monitor max_threads n_photons omp_max err progs (s : st T) r k,
  wf s -> legal_err s err -> reports_fit err s -> good_request s source monitor n_photons ->
  cnt s <= k < cnt s + 26 -> orc s k = false ->
  sim_call source monitor max_threads n_photons omp_max err progs s r ->
  exists s', r = Some (NULL, s') /\ failed err POLYCAP_ERROR_MEMORY [] s s'.
Proof.
  intros T N source monitor mt n omp err progs s r k W Le Rf Good Hk Hf Call.
  destruct (out_of_memory _ _ _ _ _ _ _ _ _ _ W Le Rf Good Hk Hf Call) as (s' & E & _ & F & _). eauto.
Qed.

(** ** C77 *)
(** At most three blocks are lost. *)
Theorem C77_out_of_memory_partial :
  forall (T : Type) (N : Num T) source monitor max_threads n_photons omp_max err progs (s : st T) r k,
  wf s -> legal_err s err -> reports_fit err s -> good_request s source monitor n_photons ->
  cnt s <= k < cnt s + 26 -> orc s k = false ->
  sim_call source monitor max_threads n_photons omp_max err progs s r ->
  exists s' lost, r = Some (NULL, s') /\ List.length lost <= 3 /\ left_behind err lost s s'.
Proof.
  intros T N source monitor mt n omp err progs s r k W Le Rf Good Hk Hf Call.
  destruct (out_of_memory _ _ _ _ _ _ _ _ _ _ W Le Rf Good Hk Hf Call) as (s' & E & _ & _ & lost & L & B & _). eauto.
Qed.
(** Missing: that no block is lost.  Whenever it is not the first allocation that fails, some
    are: the caller gets NULL and nothing to release them with. *)
Theorem C77_temporary_arrays_lost_refuted :
  forall (T : Type) (N : Num T) source monitor max_threads n_photons omp_max err progs (s : st T) r k,
  wf s -> legal_err s err -> reports_fit err s -> good_request s source monitor n_photons ->
  cnt s < k < cnt s + 26 -> orc s k = false -> orc s (cnt s) = true ->
  sim_call source monitor max_threads n_photons omp_max err progs s r ->
  exists s' l, r = Some (NULL, s') /\ abandoned err l s s'.
Proof.
  intros T N source monitor mt n omp err progs s r k W Le Rf Good Hk Hf H0 Call.
  destruct (out_of_memory _ _ _ _ _ _ _ _ _ _ W Le Rf Good (conj (Nat.lt_le_incl _ _ (proj1 Hk)) (proj2 Hk)) Hf Call) as (s' & E & _ & _ & lost & _ & _ & A).
  destruct (A H0) as (l & _ & Al). exists s', l. auto.
Qed.

(** ** C76 *)
(** How many threads there are: max_threads, or as many as OpenMP offers if that is not
    positive or too many. *)
Definition team_size (max_threads omp_max : Z) : Z :=
  if (Z.ltb max_threads 1 || Z.ltb omp_max max_threads)%bool then omp_max else max_threads.

(** A source at [src] and the description at [d] it refers to, not overlapping. *)
Definition source_with_description {T} (s : st T) (src le d : loc) (en : list T) (db : list (val T)) : Prop :=
  (exists lr lg nums, source_object s src le lr lg d nums en /\ List.length nums = 8) /\
  mem s d = Some db /\ 2 < List.length db /\ d <> src /\ d <> le.

Section Aux2.
Context {T : Type} {N : Num T}.
Implicit Types (s : st T).

Lemma swd_cells s src le d en db : source_with_description s src le d en db ->
  exists sb, mem s src = Some sb /\ nth_error sb 0 = Some (Vptr (Some d)) /\ nth_error sb 10 = Some (Vint (Z.of_nat (List.length en))) /\
    nth_error sb 11 = Some (Vptr (Some le)) /\ dbl_array s le en.
Proof.
  intros ((lr & lg & nums & (H & A & _) & L) & _). eexists. split; [exact H|].
  do 8 (destruct nums as [|? nums]; [discriminate L|]). destruct nums; [|discriminate L]. cbn. auto.
Qed.

(** From the call to the team at work. *)
Lemma prepared s src le d en db err max_threads n omp dist (Q : option sim_vars -> st T -> Prop) :
  wf s -> legal_err s err -> memory_available s -> source_with_description s src le d en db ->
  1 <= List.length en -> List.Forall (fun e => nltb e (nofZ 1) = false /\ nltb (nofZ 100) e = false) en -> 1 <= n ->
  Z.of_nat (List.length dist) = team_size max_threads omp ->
  (forall v L s1, in_memory s src n (List.length en) (@List.length (list nat) dist) [] L (shared0 (List.length en)) s1 ->
     the_vars src (List.length dist) L v -> v_desc v = Some d -> Q (Some v) s1) ->
  wp (prepare (Some src) NULL max_threads (Z.of_nat n) omp err) Q s.
Proof.
  intros W Le Ho Sw Hen Hr Hn Hd HQ. destruct (swd_cells _ _ _ _ _ _ Sw) as (sb & S1 & S2 & S3 & S4 & S5).
  apply prepare_ok; auto. exists (Some d), (Z.of_nat (List.length en)), (Some le), en. split.
  { exists sb. repeat (split; [assumption|]). split; [intros l E; injection E as <-; exact S5|lia]. }
  assert (G : good_args NULL (Some d) (Z.of_nat (List.length en)) (Some le) en (Z.of_nat n) = true).
  { unfold good_args. rewrite Nat2Z.id, firstn_all, (range_forall _ Hr).
    destruct (Z.ltb_spec (Z.of_nat (List.length en)) 1); [lia|]. destruct (Z.ltb_spec (Z.of_nat n) 1); [lia|]. reflexivity. }
  rewrite G. split; [intros k F; rewrite Ho in F; discriminate|]. rewrite !Nat2Z.id.
  assert (Ec : Z.to_nat (clamp_threads max_threads omp) = List.length dist).
  { change (clamp_threads max_threads omp) with (team_size max_threads omp). rewrite <- Hd. apply Nat2Z.id. }
  rewrite Ec. split.
  - intros L s1 Im. apply (HQ _ L); auto. repeat split; auto.
  - intros s' ((k & F) & _). rewrite Ho in F. discriminate.
Qed.
End Aux2.

(** The call cannot run into undefined behaviour and cannot fail: whenever it returns, the
    result is a new object that holds the outcome of a completed simulation by the team, the
    open area in the description is that of the simulation, and nothing else in memory has
    changed: all temporary memory has been released. *)
Theorem C76_returned_object :
  forall (T : Type) (N : Num T) (s : st T) src le d en db err max_threads omp_max
    (x : xraylib T) (o : optic T) nums junk lc n dist streams jobs progs before r,
  wf s -> legal_err s err -> memory_available s -> source_with_description s src le d en db ->
  1 <= List.length en -> List.Forall (fun e => nltb e (nofZ 1) = false /\ nltb (nofZ 100) e = false) en ->
  attempts_made x o nums en junk lc n dist streams jobs -> Z.of_nat (List.length dist) = team_size max_threads omp_max ->
  threads_run o lc (List.length en) 0 jobs dist None = Ret (progs, None) ->
  sim_call (Some src) NULL max_threads (Z.of_nat n) omp_max err progs s r ->
  exists eff im pen peff p1 p2 p3 q res s',
    r = Some (Some eff, s') /\
    simulation x o nums en junk lc n dist streams jobs before res /\
    result_object s' eff im pen peff (Some src) p1 p2 p3 q /\ holds q res /\
    NoDup (result_blocks eff im pen peff p1 p2 p3) /\ all_free s (result_blocks eff im pen peff p1 p2 p3) /\
    mem s' d = Some (Mem.set_nth db 2 (Vdbl (re_open res))) /\
    same_memory_except (d :: result_blocks eff im pen peff p1 p2 p3) s s' /\ wf s' /\ memory_available s'.
Proof.
  intros T N s src le d en db err mt omp x o nums junk lc n dist streams jobs progs b r W Le Ho Sw Hen Hr Am Hd Kt Call.
  pose proof (swd_cells _ _ _ _ _ _ Sw) as (sb & S1 & S2 & S3 & S4 & S5). pose proof Sw as (_ & D1 & D2 & D3 & D4).
  pose proof Am as (Hn & Pd & Ls & Hj).
  assert (P : wp (prepare (Some src) NULL mt (Z.of_nat n) omp err) (fun v s1 => exists v0 L, v = Some v0 /\
    in_memory s src n (List.length en) (List.length dist) [] L (shared0 (List.length en)) s1 /\ the_vars src (List.length dist) L v0 /\ v_desc v0 = Some d) s).
  { eapply (prepared s src le d en db err mt n omp dist); eauto. intros v L s1 A B C. exists v, L. auto. }
  unfold wp in P. destruct Call as [E|s' E|v s1 ths E St|v s1 ths fr s2 E St D]; rewrite E in P.
  - contradiction.
  - destruct P as (v0 & L & A & _). discriminate.
  - exfalso. destruct P as (v0 & L & A & Im & Tv & _). injection A as <-.
    destruct (heap_run s src sb x o nums en junk lc n dist streams jobs progs v L s1 _ S1 S3 Hen Ho Hn Pd Ls Hj Kt Im Tv St) as (L' & sh & fr & s2 & A & _). discriminate.
  - destruct P as (v0 & L & A & Im & Tv & Vd). injection A as <-.
    destruct (finished s src d le sb db x o nums en junk lc n dist streams jobs progs v L s1 ths fr s2 b S1 S3 S4 S5 D1 D2 D3 D4 Hen Ho) as
      (res & eff & im & pen & peff & p1 & p2 & p3 & q & s' & Hsim & Ec & Ob & Hh & Nd & Fr & Ed & Sm & Hw & Hor); auto.
    { split; [|split; [|split; [|split]]]; auto. }
    rewrite Ec. exists eff, im, pen, peff, p1, p2, p3, q, res, s'. repeat (split; [first [reflexivity|assumption]|]). intros j. rewrite Hor. apply Ho.
Qed.

(** ... and it can return. *)
Theorem C76_call_can_return :
  forall (T : Type) (N : Num T) (s : st T) src le d en db err max_threads omp_max
    (x : xraylib T) (o : optic T) nums junk lc n dist streams jobs progs,
  wf s -> legal_err s err -> memory_available s -> source_with_description s src le d en db ->
  1 <= List.length en -> List.Forall (fun e => nltb e (nofZ 1) = false /\ nltb (nofZ 100) e = false) en ->
  attempts_made x o nums en junk lc n dist streams jobs -> Z.of_nat (List.length dist) = team_size max_threads omp_max ->
  threads_run o lc (List.length en) 0 jobs dist None = Ret (progs, None) ->
  exists r, sim_call (Some src) NULL max_threads (Z.of_nat n) omp_max err progs s r.
Proof.
  intros T N s src le d en db err mt omp x o nums junk lc n dist streams jobs progs W Le Ho Sw Hen Hr Am Hd Kt.
  destruct (prepare (Some src) NULL mt (Z.of_nat n) omp err s) as [[[v|] s1]|] eqn:E.
  - pose proof Am as (Hn & Pd & _ & _).
    assert (Nc : List.concat dist <> []).
    { intros E0. rewrite E0 in Pd. apply Permutation_length in Pd. rewrite seq_length in Pd. cbn in Pd. lia. }
    assert (Nd : dist <> []) by (intros ->; apply Nc; reflexivity).
    destruct (threads_run_spec _ _ _ _ _ _ _ _ _ Kt) as (_ & Hz & _ & _). specialize (Hz Nc). destruct (zmax_of o) as [z|] eqn:Ez; [|congruence].
    destruct (can_finish _ _ _ _ _ _ z Kt (or_introl Ez) Nd _ (steps_refl _)) as (ths & m & St & D).
    destruct (follow v _ _ St ltac:(cbn; discriminate) _ _ eq_refl frame0 s1) as [([[fr s2]|] & H)|(ths1 & H)].
    + eexists. eapply call_complete; [exact E|exact H|exact D].
    + eexists. eapply call_run_ub; [exact E|exact H].
    + eexists. eapply call_run_ub; [exact E|exact H].
  - eexists. eapply call_refused. exact E.
  - eexists. apply call_prepare_ub. exact E.
Qed.

(** ** The hypotheses are met *)
From Verif Require Import PropCons ExampleRun.
Local Open Scope R_scope.
(** [demo_heap] with a source at 17 of one energy, 10 keV. *)
Definition demo_sim_heap : list (@block R) :=
  demo_heap [0.4; 0.6] ++
  [ Vptr (Some 7%nat) :: Vptr (Some 18%nat) :: List.map Vdbl [100; 0.1; 0.2; -1; -1; 0; 0; 0.5] ++ [Vint 1; Vptr (Some 20%nat)];
    [Vptr (Some 19%nat)]; []; List.map Vdbl [10] ].
Definition demo_sim (orc : nat -> bool) : st R := mkSt (blocks_of demo_sim_heap) 21%nat orc 0%nat.

Lemma demo_sim_wf orc : wf (demo_sim orc) /\ legal_err (demo_sim orc) (Some 0%nat) /\ slot_holds (demo_sim orc) 0%nat NULL.
Proof.
  split; [|split; [exists NULL; reflexivity|reflexivity]]. intros l Hl. cbn in *. unfold blocks_of. apply nth_error_None. exact Hl.
Qed.
Lemma demo_sim_source orc : exists db, source_with_description (demo_sim orc) 17%nat 20%nat 7%nat [10] db.
Proof.
  eexists. split; [|split; [reflexivity|split; [cbn; lia|split; discriminate]]].
  exists 18%nat, 19%nat, [100; 0.1; 0.2; -1; -1; 0; 0; 0.5]. split; [|reflexivity]. split; [reflexivity|]. split; [reflexivity|].
  split; [reflexivity|]. eexists. reflexivity.
Qed.
Lemma demo_sim_cells orc : source_cells (demo_sim orc) 17%nat (Some 7%nat) 1 (Some 20%nat) [10].
Proof.
  eexists. split; [reflexivity|]. split; [reflexivity|]. split; [reflexivity|]. split; [reflexivity|].
  split; [intros l E; injection E as <-; reflexivity|cbn; lia].
Qed.
Lemma ten_ok : List.Forall (fun e : R => nltb e (nofZ 1) = false /\ nltb (nofZ 100) e = false) [10].
Proof. constructor; [|constructor]. rnum. split; apply Rltb_false; lra. Qed.

Example C74_met : bad_request (demo_sim (fun _ => true)) NULL NULL 5 /\
  bad_request (demo_sim (fun _ => true)) (Some 17%nat) (Some 0%nat) 5 /\ bad_request (demo_sim (fun _ => true)) (Some 17%nat) NULL 0.
Proof.
  split; [left; reflexivity|]. split; right; exists 17%nat, (Some 7%nat), 1%Z, (Some 20%nat), [10];
    (split; [reflexivity|]; split; [apply demo_sim_cells|]); [left; discriminate|].
  do 5 right. lia.
Qed.
Definition fail_at (k n : nat) : bool := negb (Nat.eqb n k).
Example C75_C77_met : forall k, (k < 26)%nat -> let s := demo_sim (fail_at k) in
  reports_fit (Some 0%nat) s /\ good_request s (Some 17%nat) NULL 5 /\ (cnt s <= k < cnt s + 26)%nat /\ orc s k = false /\
  (k <> 0%nat -> orc s (cnt s) = true).
Proof.
  intros k Hk s. split.
  { intros j Hj. right. cbn in *. unfold fail_at in *. destruct (Nat.eqb_spec j k) as [E0|]; [|discriminate].
    split; apply negb_true_iff, Nat.eqb_neq; lia. }
  split.
  { exists 17%nat, 7%nat, 1%Z, 20%nat, [10]. split; [reflexivity|]. split; [apply demo_sim_cells|]. split; [reflexivity|]. split; [lia|].
    split; [apply ten_ok|lia]. }
  split; [cbn; lia|]. cbn. unfold fail_at. rewrite Nat.eqb_refl. split; [reflexivity|]. destruct k; [congruence|reflexivity].
Qed.
(** A team of two threads for five photons returns an object. *)
Example C76_met : forall (junk : vec3 R) (lc : bool), exists streams jobs progs eff s',
  attempts_made oneR coneR axisR [10] junk lc 5 [[0; 2; 4]; [1; 3]]%nat streams jobs /\
  threads_run coneR lc 1 0 jobs [[0; 2; 4]; [1; 3]]%nat None = Ret (progs, None) /\
  sim_call (Some 17%nat) NULL 2 5 4 (Some 0%nat) progs (demo_sim (fun _ => true)) (Some (Some eff, s')).
Proof.
  intros junk lc. destruct (demo_sim_wf (fun _ => true)) as (W & Le & _). destruct (demo_sim_source (fun _ => true)) as (db & Sw).
  assert (Pd : Permutation (List.concat [[0; 2; 4]; [1; 3]]%nat) (seq 0 5)).
  { apply NoDup_Permutation; [repeat constructor; cbn; intuition lia|apply seq_NoDup|]. intros j. rewrite in_seq. cbn. lia. }
  destruct (C61_example junk lc 5 _ ltac:(lia) Pd) as (streams & jobs & A).
  destruct (C61_every_schedule_completes oneR coneR axisR [10] junk lc 5 _ streams jobs 0 (fun _ _ => Rle_0_1) A) as (progs & Kt & _).
  destruct (C76_call_can_return R _ _ 17%nat 20%nat 7%nat [10] db (Some 0%nat) 2 4 oneR coneR axisR junk lc 5 _ streams jobs progs W Le
    (fun _ => eq_refl) Sw (le_n 1) ten_ok A eq_refl Kt) as (r & Call).
  destruct (C76_returned_object R _ _ 17%nat 20%nat 7%nat [10] db (Some 0%nat) 2 4 oneR coneR axisR junk lc 5 _ streams jobs progs 0 r W Le
    (fun _ => eq_refl) Sw (le_n 1) ten_ok A eq_refl Kt Call) as (eff & im & pen & peff & p1 & p2 & p3 & q & res & s' & -> & _).
  exists streams, jobs, progs, eff, s'. auto.
Qed.

Print Assumptions C74_bad_request.
Print Assumptions C74_refusal_happens.
Print Assumptions C75_out_of_memory.
Print Assumptions C77_out_of_memory_partial.
Print Assumptions C77_temporary_arrays_lost_refuted.
Print Assumptions C76_returned_object.
Print Assumptions C76_call_can_return.
