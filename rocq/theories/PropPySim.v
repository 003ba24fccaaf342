(** * Property theorems: simulations started from Python (C120-C122)

    [simulates e u p max_threads n_photons omp_max progs ops s r] (PySim.v): the method
    get_transmission_efficiencies of a Source whose C object is [p] is called, the user evaluates the
    result as in [ops] and deletes it; [r] is how that can end. *)
From Coq Require Import Reals ZArith List Bool Lia Lra Permutation String.
From Verif Require Import Num Mem SpecHeap ErrorModel ErrorProofs ProfileModel ProfileProofs Geometry SpecPhoton RM CapilModel TraceModel LaunchModel SourceModel
  ConsModel HeapLib SpecResult ResultModel RunModel TeamProofs RunProofs EffectProofs FinalProofs ReachProofs SpecRun SimProofs PropRun LenProofs SrcProofs
  SpecSim SimModel SimHeap SimStep SimRun SimPrep SimPrep2 SimEnd SimObj SimCount SimFinal PropSched PropSim
  SrcPhoton PyModel SpecPy PropPython PyResult SepLib PropPyResult PySim SpecFlight FlightLaunch2 PyResInv SpecPyObj PyObjects PyObjHeap PyObjRun PropPyObj.
Import ListNotations.
Local Notation ret := Mem.ret.
Local Notation bind := Mem.bind.

Section Generic.
Context {T : Type} {N : Num T}.
Implicit Types (s : st T).

(** A usable energy, between 1 and 100 keV. *)
Definition usable (e : T) : Prop := nltb e (nofZ 1) = false /\ nltb (nofZ 100) e = false.

(** The state a simulation is started in: a Source with usable energies, in the blocks [L], and the
    variables of the method and of the result object. *)
Definition simulation_ready (s : st T) (e : loc) (u : te) (p : loc) (L : list loc) (o : optic T) (k : source_nums T) (ens : list T) : Prop :=
  wf s /\ memory_available s /\ source_in s p o (nums_list k) ens L /\ NoDup (e :: variables u ++ L) /\
  (forall l, In l (e :: variables u) -> variable s l) /\ ens <> [] /\ Forall usable ens.

Lemma source_swd s p (o : optic T) k ens L : source_in s p o (nums_list k) ens L -> NoDup L ->
  exists len lr lg d D db, L = [p; len; lr; lg] ++ D /\ source_with_description s p len d ens db /\ (exists D1, D = d :: D1) /\ optic_at s d D o /\
   (forall s' v, (forall l, In l L -> l <> d -> mem s' l = mem s l) -> mem s' d = Some (Mem.set_nth db 2 (Vdbl v)) -> source_in s' p o (nums_list k) ens L).
Proof.
  intros (len & lr & lg & d & D & -> & (H1 & H2 & H3 & bg & H4) & (liz & lwi & lp & lz & lc & le & open & -> & HD & So)) ND.
  pose proof HD as (E1 & E2 & E3 & E4 & E5 & E6 & E7 & NDd).
  cbn [app] in ND. assert (Dif : d <> p /\ d <> len /\ d <> lr /\ d <> lg /\ d <> liz /\ d <> lwi /\ d <> lp /\ d <> lz /\ d <> lc /\ d <> le).
  { clear - ND. rewrite !NoDup_cons_iff in ND. cbn [In] in ND. intuition congruence. }
  destruct Dif as (X1 & X2 & X3 & X4 & X5 & X6 & X7 & X8 & X9 & X10).
  eexists len, lr, lg, d, _, _. split; [reflexivity|]. split; [|split; [eexists; reflexivity|split]].
  - split; [|split; [exact E1|split; [cbn; lia|auto]]]. exists lr, lg, (nums_list k). split; [repeat split; eauto|reflexivity].
  - exists liz, lwi, lp, lz, lc, le, open. auto.
  - intros s' v Hl Hd. exists len, lr, lg, d, [d; liz; lwi; lp; lz; lc; le]. split; [reflexivity|]. cbn [app In] in Hl. unfold source_object, dbl_array in *. split.
    + rewrite !Hl by auto 12. eauto.
    + exists liz, lwi, lp, lz, lc, le, v. split; [reflexivity|]. split; [|exact So]. unfold description_object, dbl_array, int_array in *. rewrite Hd. rewrite !Hl by auto 14. cbn [Mem.set_nth]. repeat (split; [first [reflexivity|assumption]|]). assumption.
Qed.

Lemma ready_ok s e u p L (o : optic T) k ens : simulation_ready s e u p L o k ens ->
  exists v, mem s e = Some [v] /\ let s1 := mkSt (upd (mem s) e (Some [Vptr NULL])) (nxt s) (orc s) (cnt s) in
    store (Some e) 0 (Vptr NULL) s = Ok (tt, s1) /\ simulation_ready s1 e u p L o k ens /\ slot_holds s1 e NULL.
Proof.
  intros (W & A & Hs & ND & HV & Hne & HU). destruct (HV e (or_introl eq_refl)) as [v Ev]. exists v. split; [exact Ev|]. cbv zeta. split; [unfold store, Mem.store; cbn; rewrite Ev; reflexivity|].
  split; [|unfold slot_holds; cbn; apply upd_same]. split; [|split; [exact A|split; [|split; [exact ND|split; [|auto]]]]].
  - intros l Hl. cbn in *. rewrite upd_other; [apply W; exact Hl|]. intros ->. specialize (W _ Hl). congruence.
  - apply NoDup_cons_iff in ND. destruct ND as [Ni ND']. assert (NL : forall l, In l L -> l <> e) by (intros l I ->; apply Ni, in_or_app; auto).
    assert (NDL : NoDup L) by (apply nodup_app_inv in ND'; apply ND').
    refine (proj1 (stands_same s (mkSt (upd (mem s) e (Some [Vptr NULL])) (nxt s) (orc s) (cnt s)) (Some (PSource (Some p))) (Some (ASource o (nums_list k) ens)) L Hs _)).
    intros l I. cbn [mem]. apply upd_other. exact (NL l I).
  - intros l I. unfold variable. cbn [mem]. destruct (Nat.eq_dec l e) as [->|Nl]; [eexists; apply upd_same|]. rewrite (upd_other _ _ _ _ Nl). apply HV. exact I.
Qed.

(** ** C120 *)
(** However the threads are scheduled: if the method returns, the user sees the energies of the Source,
    the efficiencies of a completed simulation of [n] transmitted photons in the optic of the Source,
    and in every property the photons and leaks of that simulation; once the result is deleted memory is
    as before, except for the open area of the Source's description (and the variables): nothing was
    lost, and the Source is what it was. *)
Theorem C120_python_simulation :
  forall s e u p L (o : optic T) k ens max_threads omp_max (x : xraylib T) junk lc n dist streams jobs progs before ops r,
  simulation_ready s e u p L o k ens ->
  attempts_made x o k ens junk lc n dist streams jobs -> Z.of_nat (List.length dist) = team_size max_threads omp_max ->
  threads_run o lc (List.length ens) 0 jobs dist None = Ret (progs, None) ->
  simulates e u (Some p) max_threads (Z.of_nat n) omp_max progs ops s r ->
  exists s' res q len d db,
    r = Some (Value (ens, re_eff res, answers q ops []), s') /\
    simulation x o k ens junk lc n dist streams jobs before res /\ holds q res /\
    source_with_description s p len d ens db /\ In d L /\ mem s' d = Some (Mem.set_nth db 2 (Vdbl (re_open res))) /\
    same_memory_except (d :: e :: variables u) s s' /\
    simulation_ready s' e u p L o k ens.
Proof.
  intros s e u p L o k ens mt omp x junk lc n dist streams jobs progs b ops r Rd Am Hd Kt Call.
  destruct (ready_ok _ _ _ _ _ _ _ _ Rd) as (v & Ev & Es & Rd1 & Sl). cbv zeta in *. set (s1 := mkSt (upd (mem s) e (Some [Vptr NULL])) (nxt s) (orc s) (cnt s)) in *.
  assert (X : forall l, l <> e -> mem s1 l = mem s l) by (intros l Nl; unfold s1; cbn [mem]; apply upd_other; exact Nl). clearbody s1.
  pose proof Rd1 as (W1 & A1 & Hs1 & ND & HV & Hne & HU). apply NoDup_cons_iff in ND. destruct ND as [Ni ND].
  assert (NDL : NoDup L) by (apply nodup_app_inv in ND; apply ND).
  assert (NDV : NoDup (variables u)) by (apply nodup_app_inv in ND; apply ND).
  assert (Dis : forall l, In l (variables u) -> ~ In l L).
  { clear - ND. intros l I J. induction (variables u) as [|a V IH]; [destruct I|]. cbn [app] in ND. apply NoDup_cons_iff in ND. destruct ND as [N1 N2].
    destruct I as [<-|I]; [apply N1, in_or_app; auto|exact (IH N2 I)]. }
  destruct (source_swd s1 p o k ens L Hs1 NDL) as (len & lr & lg & d & D & db & EL & Sw & Id & _ & Hk).
  assert (IdL : In d L) by (destruct Id as (D1 & ->); subst L; cbn; auto 8).
  assert (Ned : d <> e) by (intros ->; apply Ni, in_or_app; auto).
  assert (Sw0 : source_with_description s p len d ens db).
  { pose proof Rd as (_ & _ & Hs0 & _). destruct (source_swd s p o k ens L Hs0 NDL) as (len' & lr' & lg' & d' & D' & db' & EL' & Sw' & (D2 & ED2) & _).
    destruct Id as (D1 & ED1). rewrite EL, ED1, ED2 in EL'. injection EL' as <- <- <- <- _. destruct Sw as (_ & Md & _). destruct Sw' as (Z1 & Md' & Z2).
    rewrite (X d Ned) in Md. rewrite Md in Md'. injection Md' as <-. split; [exact Z1|]. split; [exact Md|exact Z2]. }
  assert (Hcall : forall r0, sim_call (Some p) NULL mt (Z.of_nat n) omp (Some e) progs s1 r0 -> _) by
    (intros r0 Hr0; refine (C76_returned_object T N s1 p len d ens db (Some e) mt omp x o k junk lc n dist streams jobs progs b r0 W1 (ex_intro _ NULL Sl) A1 Sw _ HU Am Hd Kt Hr0); destruct ens; [congruence|cbn; lia]).
  destruct Call as [E|s1' E C|s1' eff' s2' E C]; [congruence| |]; rewrite E in Es; injection Es as ->;
    destruct (Hcall _ C) as (eff & im & pen & peff & p1 & p2 & p3 & q & res & s2 & Er & Sim & Ob & Hh & NDr & Fr & Ed & Sm & W2 & A2); [discriminate|].
  injection Er as -> ->. pose proof Hh as (G1 & G2 & G3 & G4 & _).
  destruct (C41_every_photon_recorded _ _ _ _ _ _ _ _ _ _ _ _ Sim) as (R1 & R2 & _). pose proof Am as (Hn & _).
  assert (Een : re_energies res = ens) by (destruct Sim as (_ & _ & _ & _ & pr & th & sh & _ & _ & _ & ->); reflexivity).
  assert (Hvar : forall l, In l (e :: variables u) -> ~ In l (result_blocks eff im pen peff p1 p2 p3)).
  { intros l I J. destruct (HV l I) as [w Ew]. rewrite (Fr l J) in Ew. discriminate. }
  assert (He2 : mem s2 e = Some [Vptr NULL]).
  { rewrite Sm; [exact Sl|]. intros [K|K]; [congruence|]. exact (Hvar e (or_introl eq_refl) K). }
  assert (Hv2 : forall l, In l (variables u) -> variable s2 l /\ ~ In l (result_blocks eff im pen peff p1 p2 p3)).
  { intros l I. split; [|apply Hvar; right; exact I]. destruct (HV l (or_intror I)) as [w Ew]. exists w. rewrite Sm; [exact Ew|].
    intros [K|K]; [subst l; exact (Dis d I IdL)|]. exact (Hvar l (or_intror I) K). }
  destruct (C104_python_result s2 eff im pen peff (Some p) p1 p2 p3 q u ops W2 A2 Ob NDr NDV Hv2) as (s' & Eu & Fr' & Sm' & W' & A' & V'); [lia| | |].
  { intros Eq. rewrite Eq in G4. cbn in G4. lia. }
  { rewrite G2, Een. exact Hne. }
  assert (Nd : ~ In d (result_blocks eff im pen peff p1 p2 p3)).
  { intros J. destruct Sw as (_ & Md & _). rewrite (Fr d J) in Md. discriminate. }
  assert (Nv : ~ In d (variables u)) by (intros J; exact (Dis d J IdL)).
  exists s', res, q, len, d, db. split; [|split; [exact Sim|split; [exact Hh|split; [exact Sw0|split; [exact IdL|split; [|split]]]]]].
  - unfold raise_or_use, bind, load_ptr, load, Mem.bind, Mem.load. cbn. rewrite He2. cbn. unfold set_exception. rewrite Eu, G2, G3, Een. reflexivity.
  - rewrite Sm'; [exact Ed|]. rewrite in_app_iff. tauto.
  - intros l I. cbn [In] in I. destruct (in_dec Nat.eq_dec l (result_blocks eff im pen peff p1 p2 p3)) as [J|J].
    + rewrite (Fr' l J), <- X by (intros ->; tauto). symmetry. apply Fr. exact J.
    + rewrite Sm' by (rewrite in_app_iff; tauto). rewrite Sm by (cbn [In]; tauto). apply X. intros ->. tauto.
  - split; [exact W'|]. split; [exact A'|]. split; [|split; [apply NoDup_cons_iff; auto|split; [|auto]]].
    2:{ intros l [<-|I]; [|apply V'; exact I]. exists (Vptr NULL). rewrite Sm'; [exact He2|]. rewrite in_app_iff. intros [K|K]; [exact (Hvar e (or_introl eq_refl) K)|]. apply Ni, in_or_app. auto. }
    apply (Hk s' (re_open res)).
    + intros l I Nl. destruct (in_dec Nat.eq_dec l (result_blocks eff im pen peff p1 p2 p3)) as [J|J].
      * rewrite (Fr' l J). symmetry. apply Fr. exact J.
      * rewrite Sm' by (rewrite in_app_iff; intros [K|K]; [tauto|exact (Dis l K I)]). apply Sm. cbn [In]. intros [K|K]; [congruence|tauto].
    + rewrite Sm'; [exact Ed|]. rewrite in_app_iff. tauto.
Qed.

(** ... and it can return. *)
Theorem C120_can_return :
  forall s e u p L (o : optic T) k ens max_threads omp_max (x : xraylib T) junk lc n dist streams jobs progs ops,
  simulation_ready s e u p L o k ens ->
  attempts_made x o k ens junk lc n dist streams jobs -> Z.of_nat (List.length dist) = team_size max_threads omp_max ->
  threads_run o lc (List.length ens) 0 jobs dist None = Ret (progs, None) ->
  exists r, simulates e u (Some p) max_threads (Z.of_nat n) omp_max progs ops s r.
Proof.
  intros s e u p L o k ens mt omp x junk lc n dist streams jobs progs ops Rd Am Hd Kt.
  destruct (ready_ok _ _ _ _ _ _ _ _ Rd) as (v & Ev & Es & Rd1 & Sl). cbv zeta in *. set (s1 := mkSt (upd (mem s) e (Some [Vptr NULL])) (nxt s) (orc s) (cnt s)) in *. clearbody s1.
  pose proof Rd1 as (W1 & A1 & Hs1 & ND & HV & Hne & HU). apply NoDup_cons_iff in ND. destruct ND as [Ni ND].
  assert (NDL : NoDup L) by (apply nodup_app_inv in ND; apply ND).
  destruct (source_swd s1 p o k ens L Hs1 NDL) as (len & lr & lg & d & D & db & EL & Sw & _).
  assert (Ln : 1 <= List.length ens) by (destruct ens; [congruence|cbn; lia]).
  destruct (C76_call_can_return T N s1 p len d ens db (Some e) mt omp x o k junk lc n dist streams jobs progs W1 (ex_intro _ NULL Sl) A1 Sw Ln HU Am Hd Kt) as ([[eff s2]|] & C);
    eexists; [eapply simulates_returns; eauto|eapply simulates_ub; eauto].
Qed.

(** ** C121: exceptions *)
Lemma raised_ok s e eff u ops x t c m : slot_holds s e (Some x) -> error_object s x t c m -> e <> x -> e <> t ->
  exists s', raise_or_use (T := T) e u eff ops s = Ok (Raised (class_of c) m, s') /\ mem s' x = None /\ mem s' t = None /\ same_memory_except [x; t] s s'.
Proof.
  intros Sl Eo N1 N2. destruct (C68_errors_raise _ (te_session u eff ops) s x t c m) as [_ H]. specialize (H Eo). unfold wp in H.
  unfold raise_or_use, bind, load_ptr, Mem.bind, Mem.load. cbn. unfold slot_holds in Sl. rewrite Sl. cbn.
  destruct (set_exception (Some x) (te_session u eff ops) s) as [[y s']|] eqn:E; [|contradiction]. destruct H as (-> & A & B & C). exists s'. auto.
Qed.

(** Fewer than one photon: a ValueError, and memory is as it was. *)
Theorem C121_no_photons :
  forall s e u p L (o : optic T) k ens max_threads n_photons omp_max progs ops r,
  simulation_ready s e u p L o k ens -> (n_photons < 1)%Z ->
  simulates e u (Some p) max_threads n_photons omp_max progs ops s r ->
  exists s' m, r = Some (Raised ValueError m, s') /\ same_memory_except [e] s s'.
Proof.
  intros s e u p L o k ens mt n omp progs ops r Rd Hn Call.
  destruct (ready_ok _ _ _ _ _ _ _ _ Rd) as (v & Ev & Es & Rd1 & Sl). cbv zeta in *. set (s1 := mkSt (upd (mem s) e (Some [Vptr NULL])) (nxt s) (orc s) (cnt s)) in *.
  assert (X : forall l, l <> e -> mem s1 l = mem s l) by (intros l Nl; unfold s1; cbn [mem]; apply upd_other; exact Nl). clearbody s1.
  pose proof Rd1 as (W1 & A1 & Hs1 & ND & HV & Hne & HU). apply NoDup_cons_iff in ND. destruct ND as [Ni ND].
  assert (NDL : NoDup L) by (apply nodup_app_inv in ND; apply ND).
  destruct (source_swd s1 p o k ens L Hs1 NDL) as (len & lr & lg & d & D & db & EL & Sw & _).
  assert (Bad : bad_request s1 (Some p) NULL n).
  { right. destruct (swd_cells _ _ _ _ _ _ Sw) as (sb & S1 & S2 & S3 & S4 & S5). exists p, (Some d), (Z.of_nat (List.length ens)), (Some len), ens. split; [reflexivity|]. split; [|auto 8].
    exists sb. repeat (split; [assumption|]). split; [intros l E; injection E as <-; exact S5|lia]. }
  assert (Hc : forall r0, sim_call (Some p) NULL mt n omp (Some e) progs s1 r0 -> _) by
    (intros r0; refine (C74_bad_request T N (Some p) NULL mt n omp (Some e) progs s1 r0 W1 (ex_intro _ NULL Sl) _ Bad); intros _; split; apply A1).
  destruct Call as [E|s1' E C|s1' eff s2 E C]; [congruence| |]; rewrite E in Es; injection Es as ->; destruct (Hc _ C) as (s2' & m & Er & Rep & _); [discriminate|].
  injection Er as -> <-. destruct (Rep Sl) as (y & t & Sl2 & Eo & F1 & F2 & Sm).
  assert (Ny : e <> y) by (intros <-; unfold slot_holds in Sl; congruence). assert (Nt : e <> t) by (intros <-; unfold slot_holds in Sl; congruence).
  destruct (raised_ok s2 e NULL u ops y t _ m Sl2 Eo Ny Nt) as (s' & -> & G1 & G2 & Sm'). exists s', m. split; [reflexivity|].
  intros l Nl. cbn [In] in Nl. destruct (Nat.eq_dec l y) as [->|N1]; [rewrite G1, <- X by auto; auto|]. destruct (Nat.eq_dec l t) as [->|N2]; [rewrite G2, <- X by auto; auto|].
  rewrite Sm' by (cbn; intuition congruence). rewrite Sm by (cbn; intuition congruence). apply X. intuition congruence.
Qed.

(** Memory runs out while the simulation is being prepared (one of its 26 allocations fails, the report
    itself succeeds): a MemoryError, and everything the program had is as it was. *)
Theorem C121_memory_error :
  forall s e u p L (o : optic T) k ens max_threads n_photons omp_max progs ops r j,
  wf s -> source_in s p o (nums_list k) ens L -> NoDup (e :: L) -> variable s e -> ens <> [] -> Forall usable ens -> (1 <= n_photons)%Z ->
  (forall i, orc s i = false <-> i = j) -> cnt s <= j < cnt s + 26 ->
  simulates e u (Some p) max_threads n_photons omp_max progs ops s r ->
  exists s' m, r = Some (Raised MemoryError m, s') /\ (forall l b, mem s l = Some b -> l <> e -> mem s' l = Some b).
Proof.
  intros s e u p L o k ens mt n omp progs ops r j W Hs ND [v Ev] Hne HU Hn Hj Rj Call. apply NoDup_cons_iff in ND. destruct ND as [Ni ND].
  set (s1 := mkSt (upd (mem s) e (Some [Vptr NULL])) (nxt s) (orc s) (cnt s)).
  assert (Es : store (Some e) 0 (Vptr NULL) s = Ok (tt, s1)) by (unfold store, Mem.store; cbn; rewrite Ev; reflexivity).
  assert (X : forall l, l <> e -> mem s1 l = mem s l) by (intros l Nl; unfold s1; cbn [mem]; apply upd_other; exact Nl).
  assert (Sl : slot_holds s1 e NULL) by (unfold slot_holds, s1; cbn; apply upd_same).
  assert (W1 : wf s1). { intros l Hl. unfold s1 in *. cbn in *. rewrite upd_other; [apply W; exact Hl|]. intros ->. specialize (W _ Hl). congruence. }
  assert (Hs1 : source_in s1 p o (nums_list k) ens L).
  { refine (proj1 (stands_same s s1 (Some (PSource (Some p))) (Some (ASource o (nums_list k) ens)) L Hs _)). intros l I. apply X. intros ->. exact (Ni I). }
  assert (Ho : orc s1 = orc s) by reflexivity. assert (Hcn : cnt s1 = cnt s) by reflexivity. clearbody s1.
  destruct (source_swd s1 p o k ens L Hs1 ND) as (len & lr & lg & d & D & db & EL & Sw & _).
  assert (Good : good_request s1 (Some p) NULL n).
  { destruct (swd_cells _ _ _ _ _ _ Sw) as (sb & S1 & S2 & S3 & S4 & S5). exists p, d, (Z.of_nat (List.length ens)), len, ens. split; [reflexivity|].
    split; [exists sb; repeat (split; [assumption|]); split; [intros l E; injection E as <-; exact S5|lia]|]. split; [reflexivity|]. split; [destruct ens; [congruence|cbn; lia]|].
    split; [|exact Hn]. rewrite Nat2Z.id, firstn_all. exact HU. }
  assert (Rf : reports_fit (Some e) s1).
  { intros i Hi. right. rewrite Ho in *. apply Hj in Hi. subst i. split; (destruct (orc s _) eqn:Eo; [reflexivity|apply Hj in Eo; lia]). }
  assert (Hc : forall r0, sim_call (Some p) NULL mt n omp (Some e) progs s1 r0 -> _) by
    (intros r0; refine (C75_out_of_memory T N (Some p) NULL mt n omp (Some e) progs s1 r0 j W1 (ex_intro _ NULL Sl) Rf Good _ _); [rewrite Hcn; exact Rj|rewrite Ho; apply Hj; reflexivity]).
  destruct Call as [E|s1' E C|s1' eff s2 E C]; [congruence| |]; rewrite E in Es; injection Es as ->; destruct (Hc _ C) as (s2' & Er & Keep & Rep); [discriminate|].
  injection Er as -> <-. destruct (Rep e eq_refl) as [Rep1 _]. destruct (Rep1 Sl) as (y & t & m & Sl2 & Eo & Fr).
  assert (Old : forall l b, mem s1 l = Some b -> l <> e -> mem s2 l = Some b) by (intros l b E1 N1; apply Keep; [exact E1|intros []|congruence]).
  assert (Fy : mem s1 y = None) by (apply Fr; auto). assert (Ft : mem s1 t = None) by (apply Fr; auto).
  assert (Ny : e <> y) by (intros <-; unfold slot_holds in Sl; congruence). assert (Nt : e <> t) by (intros <-; unfold slot_holds in Sl; congruence).
  destruct (raised_ok s2 e NULL u ops y t _ m Sl2 Eo Ny Nt) as (s' & -> & G1 & G2 & Sm'). exists s', m. split; [reflexivity|].
  intros l b El Nl. rewrite Sm'; [apply Old; [rewrite X; auto|exact Nl]|]. rewrite <- (X l Nl) in El. cbn. intros [<-|[<-|[]]]; congruence.
Qed.
End Generic.

(** ** C122: a whole program *)
Section Program.
Context {T : Type} {N : Num T}.
Variable fit : list (T * T) -> T * T * T.
Variable tb : tables T.
Local Notation concat := (@List.concat _).
Local Notation blocks := (list (loc * @block T)).

(** Every Source a program has made has usable energies. *)
Definition sources_usable (ts : list (option (thing T))) : Prop :=
  forall i o nums ens, nth_error ts i = Some (Some (ASource o nums ens)) -> ens <> [] /\ Forall usable ens.
Lemma usable_set ts i : sources_usable ts -> sources_usable (Mem.set_nth ts i None).
Proof.
  intros H j o nums ens E. destruct (Nat.eq_dec i j) as [->|Ni].
  - exfalso. clear H. revert j E. induction ts as [|t ts IH]; intros [|j] E; cbn in E; try discriminate. exact (IH j E).
  - apply (H j o nums ens). rewrite <- E. clear - Ni. revert i j Ni. induction ts as [|t ts IH]; intros [|i] [|j] Ni; cbn; auto; try congruence; symmetry; apply IH; lia.
Qed.
Lemma usable_snoc ts t : sources_usable ts -> (forall o nums ens, t = Some (ASource o nums ens) -> ens <> [] /\ Forall usable ens) -> sources_usable (ts ++ [t]).
Proof.
  intros H Ht i o nums ens E. destruct (Nat.lt_ge_cases i (List.length ts)) as [L|L].
  - rewrite nth_error_app1 in E by exact L. eapply H; exact E.
  - rewrite nth_error_app2 in E by exact L. destruct (i - List.length ts) as [|j]; cbn in E; [injection E as E; eapply Ht; exact E|]. destruct j; discriminate.
Qed.
Lemma source_ok_usable (ens : list T) d x y hp : source_ok d x y hp ens = true -> ens <> [] /\ Forall usable ens.
Proof.
  unfold source_ok. rewrite !andb_true_iff. intros (((((_ & _) & _) & _) & H1) & H2). split; [destruct ens; [discriminate|discriminate]|].
  apply Forall_forall. intros e I. rewrite forallb_forall in H2. specialize (H2 e I). apply negb_true_iff in H2. apply orb_false_iff in H2. exact H2.
Qed.
Lemma story_usable : forall prog ts rs ts' n, sources_usable ts -> story fit tb prog ts = (rs, ts', n) -> sources_usable ts'.
Proof.
  induction prog as [|a prog IH]; intros ts rs ts' n H E; cbn [story] in E; [injection E as _ <- _; exact H|].
  destruct (outcome fit tb ts a) as [[r t] k] eqn:Eo. destruct (story fit tb prog _) as [[rs1 ts1] m] eqn:Es. injection E as _ <- _.
  eapply IH; [|exact Es]. destruct a; try (apply usable_set; exact H); (apply usable_snoc; [exact H|]); intros o nums ens ->; cbn [outcome] in Eo.
  - destruct (made_profile _ _ _ _ _ _ _ _ _); discriminate.
  - destruct (_ && _)%bool; discriminate.
  - destruct (nth_error ts profile) as [[[]|]|]; try discriminate. destruct (elements_of tb c); [|discriminate].
    destruct (negb (description_ok _ _ _ _)); [discriminate|]. destruct (negb (shape_ok _ _)); [discriminate|]. destruct (negb (fractions_ok _)); discriminate.
  - destruct (nth_error ts description) as [[[]|]|]; try discriminate. destruct (source_ok _ _ _ _ _) eqn:Eok; [|discriminate]. injection Eo as _ -> _ <- _. eapply source_ok_usable; exact Eok.
Qed.

Lemma reps_put : forall i os ts Bs o t (B' : blocks), reps os ts Bs -> nth_error os i = Some o -> nth_error ts i = Some t -> rep o t B' ->
  reps os ts (Mem.set_nth Bs i B') /\ Permutation (concat (Mem.set_nth Bs i B')) (B' ++ concat (Mem.set_nth Bs i [])).
Proof.
  induction i as [|i IH]; intros [|o0 os] [|t0 ts] [|B Bs] o t B' R Eo Et R'; try contradiction; try discriminate; cbn [nth_error Mem.set_nth reps] in *.
  - injection Eo as ->. injection Et as ->. destruct R. split; [auto|reflexivity].
  - destruct R as [R1 R2]. destruct (IH os ts Bs o t B' R2 Eo Et R') as [A P]. split; [auto|]. cbn [concat]. rewrite P, !app_assoc. apply Permutation_app_tail, Permutation_app_comm.
Qed.

(** ** C122 *)
(** A program makes objects as in [prog], simulates with the Source that object [i] is, evaluates the
    result as in [ops] and deletes it, and goes on as in [prog2]: it sees what [story] says, before and
    after, and in between the outcome of a completed simulation of that Source; every object holds what
    it should hold, and apart from their memory, the variables, and one block for every description
    refused because of its shape, memory is as before the program. *)
Theorem C122_simulating_program :
  forall prog rs1 ts n1 i o k ens prog2 rs2 ts2 n2 e v s u max_threads omp_max (x : xraylib T) junk lc n dist streams jobs progs before ops,
  one_law T -> wf s -> memory_available s -> mem s e = Some [v] -> NoDup (e :: variables u) -> (forall l, In l (variables u) -> variable s l) ->
  story fit tb prog [] = (rs1, ts, n1) -> nth_error ts i = Some (Some (ASource o (nums_list k) ens)) -> story fit tb prog2 ts = (rs2, ts2, n2) ->
  attempts_made x o k ens junk lc n dist streams jobs -> Z.of_nat (List.length dist) = team_size max_threads omp_max ->
  threads_run o lc (List.length ens) 0 jobs dist None = Ret (progs, None) ->
  exists s1 os p,
    py_run fit tb e prog [] s = Ok ((rs1, os), s1) /\ nth_error os i = Some (Some (PSource (Some p))) /\
    (exists r, simulates e u (Some p) max_threads (Z.of_nat n) omp_max progs ops s1 r) /\
    forall r, simulates e u (Some p) max_threads (Z.of_nat n) omp_max progs ops s1 r ->
    exists s2 res q s3 os2 Ls lost,
      r = Some (Value (ens, re_eff res, answers q ops []), s2) /\
      simulation x o k ens junk lc n dist streams jobs before res /\ holds q res /\
      py_run fit tb e prog2 os s2 = Ok ((rs2, os2), s3) /\ stand s3 os2 ts2 Ls /\ List.length lost = n1 + n2 /\
      NoDup (e :: variables u ++ concat Ls ++ lost) /\ all_free s (concat Ls ++ lost) /\
      same_memory_except (e :: variables u ++ concat Ls ++ lost) s s3.
Proof.
  intros prog rs1 ts n1 i o k ens prog2 rs2 ts2 n2 e v s u mt omp x junk lc n dist streams jobs progs b ops Law W A E NDu HV ES1 Et ES2 Am Hd Kt.
  apply NoDup_cons_iff in NDu. destruct NDu as [Neu NDu].
  assert (H0 : hs (FlightProp.without [e] s) ((e, [v]) :: concat [] ++ []) s).
  { apply (FlightProp.hs_intro s [(e, [v])]); [exact W|exact A|constructor; [intros []|constructor]|]. intros l bl [El|[]]. injection El as <- <-. exact E. }
  pose proof (run_ok fit tb Law _ e prog v [] [] [] [] rs1 ts n1 s I H0 ES1) as P. unfold wp in P.
  destruct (py_run fit tb e prog [] s) as [[[rs' os] s1]|] eqn:Er1; [|contradiction]. destruct P as [Ers (Bs & new & v1 & Ln & R & H1)]. cbn [fst snd] in *. subst rs'. rewrite app_nil_r in H1.
  exists s1, os. pose proof (reps_nth i os ts Bs R) as Rn. destruct (nth_error os i) as [ob|] eqn:Eo; [|destruct Rn; congruence].
  destruct Rn as (t & B & Et' & Rb & Pb & _). rewrite Et in Et'. injection Et' as <-.
  inversion Rb as [| | |p len lr lg d nums ens' bg liz lwi lp lz lc0 le open o' L8 So]; subst ob o' nums ens' B. exists p. split; [reflexivity|]. split; [reflexivity|].
  set (B := srcb p len lr lg d (nums_list k) ens bg ++ descb d liz lwi lp lz lc0 le open o) in *.
  set (C := concat (Mem.set_nth Bs i [])) in *.
  assert (H1' : hs (FlightProp.without [e] s) ((e, [v1]) :: B ++ C ++ new) s1).
  { eapply hs_perm; [|exact H1]. apply perm_skip. rewrite Pb. rewrite app_assoc. reflexivity. }
  pose proof (hs_distinct _ _ _ H1') as ND1. pose proof H1' as (W1 & A1 & _ & Hh1 & Ho1 & Hn1).
  assert (Fn : forall l, In l (map fst (B ++ C ++ new)) -> l <> e /\ mem s l = None).
  { intros l J. cbn [map fst] in ND1. apply NoDup_cons_iff in ND1. destruct ND1 as [Ne _]. assert (Nl : l <> e) by (intros ->; exact (Ne J)). split; [exact Nl|].
    specialize (Hn1 l (or_intror J)). unfold FlightProp.without in Hn1. destruct (in_dec Nat.eq_dec l [e]) as [K|K]; [destruct K as [K|[]]; congruence|exact Hn1]. }
  assert (Fv : forall l, In l (variables u) -> l <> e /\ ~ In l (map fst (B ++ C ++ new)) /\ mem s1 l = mem s l).
  { intros l J. assert (Nl : l <> e) by (intros ->; exact (Neu J)). assert (Nm : ~ In l (map fst (B ++ C ++ new))) by (intros K; destruct (HV l J) as [w Ew]; destruct (Fn l K); congruence).
    split; [exact Nl|]. split; [exact Nm|]. rewrite Ho1; [|cbn [map fst]; intros [K|K]; [congruence|exact (Nm K)]]. unfold FlightProp.without. destruct (in_dec Nat.eq_dec l [e]) as [K|K]; [destruct K as [K|[]]; congruence|reflexivity]. }
  cbn [map fst] in ND1. apply NoDup_cons_iff in ND1. destruct ND1 as [Ne1 ND1].
  assert (NDB : NoDup (map fst B)) by (rewrite map_app in ND1; apply nodup_app_inv in ND1; apply ND1).
  assert (HB : hold s1 B) by (intros l bl J; apply Hh1; right; apply in_or_app; left; exact J).
  assert (Us : ens <> [] /\ Forall usable ens).
  { refine (story_usable prog [] rs1 ts n1 _ ES1 i o _ ens Et). intros j o0 nm en0 K. destruct j; discriminate. }
  assert (Rd : simulation_ready s1 e u p (map fst B) o k ens).
  { split; [exact W1|]. split; [exact A1|]. split; [exact (rep_stands s1 _ _ _ Rb NDB HB)|]. split; [|split; [|exact Us]].
    - constructor.
      + rewrite in_app_iff. intros [K|K]; [exact (Neu K)|]. apply Ne1. rewrite map_app. apply in_or_app. left. exact K.
      + apply nodup_join; [exact NDu|exact NDB|]. intros l J K. destruct (Fv l J) as (_ & Z & _). apply Z. rewrite map_app. apply in_or_app. left. exact K.
    - intros l [<-|J]; [exists v1; apply Hh1; left; reflexivity|]. destruct (Fv l J) as (_ & _ & Z). destruct (HV l J) as [w Ew]. exists w. congruence. }
  split; [eapply C120_can_return; eauto|]. intros r Call.
  destruct (C120_python_simulation s1 e u p (map fst B) o k ens mt omp x junk lc n dist streams jobs progs b ops r Rd Am Hd Kt Call)
    as (s2 & res & q & len' & d' & db & Er & Sim & Hh & Sw & Id & Md & Sm & Rd2).
  assert (d' = d /\ db = [Vdbl (o_rough o); Vint (o_ncap o); Vdbl open; Vint (Z.of_nat (List.length (o_iz o))); Vptr (Some liz); Vptr (Some lwi); Vdbl (o_dens o); Vptr (Some lp)]) as [-> ->].
  { destruct Sw as ((lr' & lg' & nm & (S1 & _) & _) & S2 & _). assert (M : forall l bl, In (l, bl) B -> mem s1 l = Some bl) by exact HB.
    unfold B, srcb in M. rewrite (M p _ (or_introl eq_refl)) in S1. injection S1 as Z _ _. subst d'. split; [reflexivity|].
    assert (Md0 : mem s1 d = Some [Vdbl (o_rough o); Vint (o_ncap o); Vdbl open; Vint (Z.of_nat (List.length (o_iz o))); Vptr (Some liz); Vptr (Some lwi); Vdbl (o_dens o); Vptr (Some lp)]) by (apply M; apply in_or_app; right; left; reflexivity).
    congruence. }
  cbn [Mem.set_nth] in Md.
  set (B' := srcb p len lr lg d (nums_list k) ens bg ++ descb d liz lwi lp lz lc0 le (re_open res) o).
  assert (EB : map fst B' = map fst B) by reflexivity.
  destruct (reps_put i os ts Bs _ _ B' R Eo Et (rep_src p len lr lg d (nums_list k) ens bg liz lwi lp lz lc0 le (re_open res) o L8 So)) as [R' P'].
  destruct Rd2 as (W2 & A2 & _ & _ & HV2 & _). destruct (HV2 e (or_introl eq_refl)) as [v2 Ev2].
  assert (KB : hold s2 (B' ++ C ++ new)).
  { intros l bl J. destruct (Nat.eq_dec l d) as [->|Nd].
    - assert (Jd : In (d, bl) B').
      { apply in_app_or in J. destruct J as [J|J]; [exact J|]. exfalso. rewrite map_app in ND1. apply nodup_app_inv in ND1. destruct ND1 as (_ & _ & Z). apply (Z d Id). apply in_map_iff. exists (d, bl). auto. }
      assert (Ed : In (d, [Vdbl (o_rough o); Vint (o_ncap o); Vdbl (re_open res); Vint (Z.of_nat (List.length (o_iz o))); Vptr (Some liz); Vptr (Some lwi); Vdbl (o_dens o); Vptr (Some lp)]) B') by (apply in_or_app; right; left; reflexivity).
      rewrite Md. f_equal. rewrite <- EB in NDB. clear - Jd Ed NDB. induction B' as [|[l0 b0] B' IH]; [destruct Jd|]. cbn [map fst] in NDB. apply NoDup_cons_iff in NDB. destruct NDB as [Z1 Z2].
      destruct Jd as [Jd|Jd], Ed as [Ed|Ed]; [congruence| | |exact (IH Z2 Jd Ed)].
      + injection Jd as -> ->. exfalso. apply Z1. apply (in_map fst) in Ed. exact Ed.
      + injection Ed as -> ->. exfalso. apply Z1. apply (in_map fst) in Jd. exact Jd.
    - assert (Jl : In (l, bl) (B ++ C ++ new)).
      { apply in_app_or in J. apply in_or_app. destruct J as [J|J]; [left|right; exact J]. unfold B', B, srcb, descb in *. cbn [app In] in *. intuition congruence. }
      rewrite Sm; [apply Hh1; right; exact Jl|]. pose proof (in_map fst _ _ Jl) as Jm. cbn [fst] in Jm. cbn [In]. intros [K|[K|K]]; [congruence|subst l; exact (Ne1 Jm)|]. destruct (Fv l K) as (_ & Z & _). exact (Z Jm). }
  assert (H2 : hs (FlightProp.without (e :: map fst (B ++ C ++ new)) s2) ((e, [v2]) :: concat (Mem.set_nth Bs i B') ++ new) s2).
  { eapply (hs_perm _ ((e, [v2]) :: B' ++ C ++ new)); [apply perm_skip; rewrite P', app_assoc; reflexivity|].
    replace (e :: map fst (B ++ C ++ new)) with (map fst ((e, [v2]) :: B' ++ C ++ new)) by (cbn [map fst]; rewrite !map_app; reflexivity).
    apply FlightProp.hs_intro; [exact W2|exact A2| |].
    - cbn [map fst]. rewrite map_app, EB, <- map_app. constructor; assumption.
    - intros l bl [J|J]; [injection J as <- <-; exact Ev2|apply KB; exact J]. }
  pose proof (run_ok fit tb Law _ e prog2 v2 os ts (Mem.set_nth Bs i B') new rs2 ts2 n2 s2 R' H2 ES2) as P2. unfold wp in P2.
  destruct (py_run fit tb e prog2 os s2) as [[[rs' os2] s3]|] eqn:Er2; [|contradiction]. destruct P2 as [Ers (Bs2 & new2 & v3 & Ln2 & R2 & H3)]. cbn [fst snd] in *. subst rs'.
  pose proof (hs_distinct _ _ _ H3) as ND3. cbn [map fst] in ND3. apply NoDup_cons_iff in ND3. destruct ND3 as [Ne3 ND3].
  pose proof H3 as (W3 & A3 & _ & Hh3 & Ho3 & Hn3).
  exists s2, res, q, s3, os2, (map (map fst) Bs2), (map fst (new2 ++ new)).
  assert (EL : concat (map (map fst) Bs2) ++ map fst (new2 ++ new) = map fst (concat Bs2 ++ new2 ++ new)) by (rewrite (map_app fst (concat Bs2)), concat_map; reflexivity).
  assert (Out : forall l, ~ In l (e :: map fst (B ++ C ++ new)) -> ~ In l (variables u) -> mem s2 l = mem s l).
  { intros l J K. cbn [In] in J. rewrite Sm. 2:{ cbn [In]. intros [Z|[Z|Z]]; [|tauto|tauto]. subst l. apply J. right. rewrite map_app. apply in_or_app. left. exact Id. }
    rewrite Ho1 by exact J. unfold FlightProp.without. destruct (in_dec Nat.eq_dec l [e]) as [Z|Z]; [destruct Z as [Z|[]]; tauto|reflexivity]. }
  assert (Nv : forall l, In l (variables u) -> ~ In l (map fst (concat Bs2 ++ new2 ++ new))).
  { intros l J K. specialize (Hn3 l (or_intror K)). unfold FlightProp.without in Hn3. destruct (Fv l J) as (Z1 & Z2 & _).
    destruct (in_dec Nat.eq_dec l (e :: map fst (B ++ C ++ new))) as [Z|Z]; [destruct Z; [congruence|contradiction]|]. destruct (HV2 l (or_intror J)) as [w Ew]. congruence. }
  split; [exact Er|]. split; [exact Sim|]. split; [exact Hh|]. split; [exact Er2|]. split; [|split; [|split; [|split]]].
  - apply reps_stand; [exact R2| |intros l bl J; apply Hh3; right; apply in_or_app; left; exact J]. rewrite map_app in ND3. apply nodup_app_inv in ND3. apply ND3.
  - rewrite map_length, app_length. lia.
  - rewrite EL. constructor; [rewrite in_app_iff; intros [K|K]; [exact (Neu K)|exact (Ne3 K)]|]. apply nodup_join; [exact NDu|exact ND3|exact Nv].
  - rewrite EL. intros l J. specialize (Hn3 l (or_intror J)). unfold FlightProp.without in Hn3.
    destruct (in_dec Nat.eq_dec l (e :: map fst (B ++ C ++ new))) as [Z|Z].
    + destruct Z as [Z|Z]; [subst l; contradiction|]. apply (Fn l Z).
    + rewrite <- Out; [exact Hn3|exact Z|]. intros K. exact (Nv l K J).
  - intros l J. rewrite EL in J. cbn [In] in J. rewrite in_app_iff in J.
    assert (Z1 : ~ In l (map fst ((e, [v3]) :: concat Bs2 ++ new2 ++ new))) by (cbn [map fst In]; tauto). rewrite (Ho3 l Z1). unfold FlightProp.without.
    destruct (in_dec Nat.eq_dec l (e :: map fst (B ++ C ++ new))) as [Z|Z]; [|apply Out; tauto].
    destruct Z as [Z|Z]; [tauto|]. symmetry. apply (Fn l Z).
Qed.

(** In particular: if everything is deleted in the end and no description was refused because of its
    shape, memory is as it was before the program. *)
Theorem C122_all_deleted :
  forall prog rs1 ts i o k ens prog2 rs2 ts2 e v s u max_threads omp_max (x : xraylib T) junk lc n dist streams jobs progs ops,
  one_law T -> wf s -> memory_available s -> mem s e = Some [v] -> NoDup (e :: variables u) -> (forall l, In l (variables u) -> variable s l) ->
  story fit tb prog [] = (rs1, ts, 0) -> nth_error ts i = Some (Some (ASource o (nums_list k) ens)) -> story fit tb prog2 ts = (rs2, ts2, 0) ->
  Forall (fun t => t = None) ts2 ->
  attempts_made x o k ens junk lc n dist streams jobs -> Z.of_nat (List.length dist) = team_size max_threads omp_max ->
  threads_run o lc (List.length ens) 0 jobs dist None = Ret (progs, None) ->
  exists s1 os p, py_run fit tb e prog [] s = Ok ((rs1, os), s1) /\ nth_error os i = Some (Some (PSource (Some p))) /\
    forall r, simulates e u (Some p) max_threads (Z.of_nat n) omp_max progs ops s1 r ->
    exists y s2 s3 os2, r = Some (y, s2) /\ py_run fit tb e prog2 os s2 = Ok ((rs2, os2), s3) /\ same_memory_except (e :: variables u) s s3.
Proof.
  intros prog rs1 ts i o k ens prog2 rs2 ts2 e v s u mt omp x junk lc n dist streams jobs progs ops Law W A E NDu HV ES1 Et ES2 Fa Am Hd Kt.
  destruct (C122_simulating_program prog rs1 ts 0 i o k ens prog2 rs2 ts2 0 e v s u mt omp x junk lc n dist streams jobs progs (nofZ 0) ops Law W A E NDu HV ES1 Et ES2 Am Hd Kt)
    as (s1 & os & p & H1 & H2 & _ & H3).
  exists s1, os, p. split; [exact H1|]. split; [exact H2|]. intros r Hr. destruct (H3 r Hr) as (s2 & res & q & s3 & os2 & Ls & lost & Er & _ & _ & Er2 & St & Ll & _ & _ & Sm).
  destruct lost; [|discriminate Ll]. rewrite (stand_none _ _ _ _ St Fa) in Sm. rewrite !app_nil_r in Sm. eauto 8.
Qed.
End Program.

(** ** The hypotheses are met *)
(** A program on doubles: a straight optic of seven capillaries, a source of two energies; profile and
    description are deleted; two threads simulate one photon each; the source is deleted. *)
From Coq Require Import Floats.
From Verif Require Import Libm ProfileFloat PropLaunch PropLeak PropFlight PropPyPhoton ExampleRun.
Section Concrete.
Local Open Scope nat_scope.
Local Open Scope string_scope.
Definition prog10 : list (order float) :=
  [straight; NewDescription 0 0%float 7 (Dict [(Symbol "Si", 1%float)]) 2%float; NewSource 1 10 0.1 0.1 0.001 0.001 0 0 0.5 [5;10]; Delete 0; Delete 1]%float.
Definition nums10 : source_nums float := mkSource 10%float 0.1%float 0.1%float 0.001%float 0.001%float 0%float 0%float 0.5%float.
Definition rs10 : list float := [0.1; 0.5; 0.1; 0.1; 0.9; 0.5]%float.
Definition vars10 : te := mkTe 1 2 3 4 5 6 7 8 9 10 11 12 13 14 15 16 17 18 19 20 21 22.
Definition state10 : st float := mkSt (fun l => if Nat.ltb l 23 then Some [Vundef] else None) 23 (fun _ => true) 0.
Example C122_met :
  exists lm, libm_std lm /\ let N := FNum lm in
  one_law float /\ wf state10 /\ memory_available state10 /\ mem state10 0 = Some [Vundef] /\ NoDup (0 :: variables vars10) /\
  (forall l, In l (variables vars10) -> variable state10 l) /\
  exists rs1 ts rs2 ts2 streams jobs progs,
    story nofit tables1 prog10 [] = (rs1, ts, 0) /\ nth_error ts 2 = Some (Some (ASource long7 (nums_list nums10) [5;10]%float)) /\
    story nofit tables1 [Delete 2] ts = (rs2, ts2, 0) /\ Forall (fun t => t = None) ts2 /\
    attempts_made clear_glass long7 nums10 [5;10]%float nulls true 2 [[0];[1]] streams jobs /\
    Z.of_nat (List.length [[0];[1]]) = team_size 2 4 /\
    threads_run long7 true 2 0 jobs [[0];[1]] None = Ret (progs, None).
Proof.
  exists series. split; [exact series_std|]. split; [apply one_law_F|]. split.
  { intros l Hl. cbn [mem nxt state10] in *. destruct (Nat.ltb_spec l 23); [lia|reflexivity]. }
  split; [intros k; reflexivity|]. split; [reflexivity|]. split. { change (0 :: variables vars10) with (seq 0 23). apply seq_NoDup. }
  split. { intros l I. exists Vundef. change (variables vars10) with (seq 1 22) in I. apply in_seq in I. cbn [mem state10]. destruct (Nat.ltb_spec l 23); [reflexivity|lia]. }
  exists [Made; Made; Made; Gone; Gone]. eexists. exists [Gone]. eexists. exists [rs10; rs10].
  exists (fun _ => match @jobs_run float (FNum series) 1 clear_glass long7 nums10 [5;10]%float nulls true 4000 rs10 1 None with Ret (Some (l :: _), _) => l | _ => [] end).
  eexists. split; [vm_compute; reflexivity|]. split; [reflexivity|]. split; [vm_compute; reflexivity|]. split; [repeat constructor|].
  split; [|split; [reflexivity|vm_compute; reflexivity]].
  split; [lia|]. split; [apply Permutation_refl|]. split; [reflexivity|].
  intros t js rs E1 E2. exists 1, 4000. destruct t as [|[|[]]]; cbn in E1, E2; try discriminate; injection E1 as <-; injection E2 as <-; vm_compute; reflexivity.
Qed.

(** The same source, already in memory: C120, C121. *)
Definition heap11 : list (@block float) :=
  repeat [Vundef] 23 ++
  [ Vptr (Some 27) :: Vptr (Some 25) :: map Vdbl (nums_list nums10) ++ [Vint 2; Vptr (Some 24)]; map Vdbl [5;10]%float; [Vptr (Some 26)]; [Vundef];   (* 23-26 *)
    [Vdbl 0%float; Vint 7; Vdbl 0.28%float; Vint 1; Vptr (Some 28); Vptr (Some 29); Vdbl 2%float; Vptr (Some 30)]; [Vint 14]; [Vdbl 1%float];                      (* 27-29 *)
    [Vint 2; Vptr (Some 31); Vptr (Some 32); Vptr (Some 33)]; map Vdbl [0;100;200]%float; map Vdbl [0.2;0.2;0.2]%float; map Vdbl [1;1;1]%float ].      (* 30-33 *)
Definition state11 (orc : nat -> bool) : st float := mkSt (nth_error heap11) 34 orc 0.
Definition blocks11 : list loc := [23;24;25;26;27;28;29;30;31;32;33].
Lemma source11 orc : source_in (state11 orc) 23 long7 (nums_list nums10) [5;10]%float blocks11.
Proof.
  exists 24, 25, 26, 27, [27;28;29;30;31;32;33]. split; [reflexivity|]. split; [split; [reflexivity|split; [reflexivity|split; [reflexivity|eexists; reflexivity]]]|].
  exists 28, 29, 30, 31, 32, 33, 0.28%float. split; [reflexivity|]. split; [|repeat split]. unfold description_object. repeat (split; [reflexivity|]). repeat constructor; cbn; lia.
Qed.
Lemma wf11 orc : wf (state11 orc).
Proof. intros l Hl. cbn [mem nxt state11] in *. apply nth_error_None. cbn. lia. Qed.
Lemma vars11 orc l : In l (0 :: variables vars10) -> variable (state11 orc) l.
Proof.
  intros I. exists Vundef. change (0 :: variables vars10) with (seq 0 23) in I. apply in_seq in I. cbn [mem state11]. unfold heap11. rewrite nth_error_app1 by (rewrite repeat_length; lia).
  apply nth_error_repeat. lia.
Qed.
Definition out_of_memory11 (N : Num float) (j : nat) : Prop := let s := state11 (fail_at j) in
  wf s /\ source_in s 23 long7 (nums_list nums10) [5;10]%float blocks11 /\ NoDup (0 :: blocks11) /\ variable s 0 /\
  Forall usable [5;10]%float /\ (forall i, orc s i = false <-> i = j) /\ cnt s <= j < cnt s + 26 /\
  exists r, simulates 0 vars10 (Some 23) 2 10 4 [] [] s r.
Example C120_C121_met :
  exists lm, libm_std lm /\ let N := FNum lm in
  simulation_ready (state11 (fun _ => true)) 0 vars10 23 blocks11 long7 nums10 [5;10]%float /\
  (exists r, simulates 0 vars10 (Some 23) 2 0 4 [] [] (state11 (fun _ => true)) r) /\
  forall j, j < 26 -> out_of_memory11 N j.
Proof.
  exists series. split; [exact series_std|]. cbv zeta.
  assert (Us : Forall (@usable float (FNum series)) [5;10]%float) by (repeat constructor).
  split; [|split].
  - split; [apply wf11|]. split; [intros k; reflexivity|]. split; [apply source11|]. split.
    { change (0 :: variables vars10 ++ blocks11) with (seq 0 34). apply seq_NoDup. }
    split; [apply vars11|]. split; [discriminate|exact Us].
  - eexists. eapply simulates_returns; [reflexivity|]. eapply call_refused. vm_compute. reflexivity.
  - intros j Hj. split; [apply wf11|]. split; [apply source11|]. split; [repeat constructor; cbn; lia|]. split; [apply vars11; left; reflexivity|]. split; [exact Us|].
    split. { intros i. cbn. unfold fail_at. rewrite negb_false_iff. apply Nat.eqb_eq. }
    split; [cbn; lia|].
    do 26 (destruct j as [|j]; [eexists; eapply simulates_returns; [reflexivity|]; eapply call_refused; vm_compute; reflexivity|]). lia.
Qed.
End Concrete.
Print Assumptions C120_python_simulation.
Print Assumptions C120_can_return.
Print Assumptions C121_no_photons.
Print Assumptions C121_memory_error.
Print Assumptions C122_simulating_program.
Print Assumptions C122_all_deleted.
Print Assumptions C122_met.
Print Assumptions C120_C121_met.
