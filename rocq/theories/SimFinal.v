(** * Simulations in memory, from the call to the returned object *)
From Coq Require Import ZArith List Bool Lia Permutation.
From Verif Require Import Num Mem SpecHeap ErrorModel ErrorProofs ProfileModel ProfileProofs Geometry SpecPhoton RM CapilModel TraceModel LaunchModel SourceModel
  ConsModel HeapLib SpecResult ResultModel H5Model H5Table RunModel TeamProofs RunProofs EffectProofs FinalProofs ReachProofs SpecRun SimProofs PropRun LenProofs SrcProofs
  SpecSim SimModel SimHeap SimStep SimRun SimPrep SimPrep2 SimEnd SimObj SimCount.
Import ListNotations.

Section Final.
Context {T : Type} {N : Num T}.
Implicit Types (s : st T).

(** ** What the threads were asked to do *)
Definition team (x : xraylib T) (o : optic T) (nums : source_nums T) en junk lc n dist streams jobs progs : Prop :=
  1 <= n /\ Permutation (concat dist) (seq 0 n) /\ length streams = length dist /\
  (forall t js rs, nth_error dist t = Some js -> nth_error streams t = Some rs ->
     exists k fuel, jobs_run k x o nums en junk lc fuel rs (length js) None = Ret (Some (map jobs js), None)) /\
  threads_run o lc (length en) 0 jobs dist None = Ret (progs, None).

Lemma grown_ids (sh : shared T) k : In k (grown sh) -> 21 <= k < 38.
Proof. unfold grown. destruct (sh_single sh); [|intros []]. unfold leak_ids. rewrite in_app_iff, !in_seq. lia. Qed.

Lemma Forall_perm_full ne (l l' : list (leak_data T)) : Permutation l l' -> full ne l -> full ne l'.
Proof. intros P F. eapply Permutation_Forall; eauto. Qed.

Definition dval (o : option (entry T)) : T := match o with Some (ED v) => v | _ => nofZ 0 end.
Definition zval (o : option (entry T)) : Z := match o with Some (EI v) => v | _ => 0%Z end.
Definition read_row (img : field -> nat -> option (entry T)) (ne j : nat) : exit_row T :=
  let f k := dval (img k j) in
  mkRow (f FSrcX, f FSrcY) (f FStartX, f FStartY) (f FSdirX, f FSdirY) (f FSelecX, f FSelecY)
    (mkV (f FExitX) (f FExitY) (f FExitZ)) (f FEdirX, f FEdirY) (f FEelecX, f FEelecY) (zval (img FNrefl j)) (f FDtravel)
    (map (fun k => f (FWeight k)) (seq 0 ne)).

Lemma read_row_ok img ne z j a : recorded img ne z j a -> row_records img ne j (read_row img ne j).
Proof.
  unfold recorded, row_records, read_row. cbv zeta. cbn [fst snd r_src r_start r_start_dir r_start_elecv r_exit r_exit_dir r_exit_elecv r_nrefl r_travel r_weights vx vy vz].
  intros (R1 & R2 & R3 & R4 & R5 & R6 & R7 & R8 & R9 & R10 & R11 & R12 & R13 & (e1 & R14 & R15) & (e2 & R16 & R17) & R18).
  rewrite R1, R2, R3, R4, R5, R6, R7, R8, R9, R10, R11, R12, R13, R14, R15, R16, R17. cbn [dval zval]. repeat (split; [reflexivity|]).
  split; [now rewrite map_length, seq_length|]. intros k w E. rewrite nth_error_map in E. destruct (nth_error (seq 0 ne) k) as [i|] eqn:E2; [|discriminate].
  assert (Lk : k < ne) by (rewrite <- (seq_length ne 0); apply nth_error_Some; congruence).
  rewrite (nth_error_nth' _ 0) in E2 by (rewrite seq_length; auto). rewrite seq_nth in E2 by auto. injection E2 as <-. injection E as <-.
  cbn [Nat.add]. destruct (R18 k Lk) as (v & _ & ->). reflexivity.
Qed.

Lemma finished s0 src d le sb db x o nums en junk lc n dist streams jobs progs v L s1 ths fr s2 b :
  mem s0 src = Some sb -> nth_error sb S_NEN = Some (Vint (Z.of_nat (length en))) -> nth_error sb S_EN = Some (Vptr (Some le)) ->
  dbl_array s0 le en -> mem s0 d = Some db -> 2 < length db -> d <> src -> d <> le -> 1 <= length en -> (forall k, orc s0 k = true) ->
  team x o nums en junk lc n dist streams jobs progs ->
  in_memory s0 src n (length en) (length dist) [] L (shared0 (length en)) s1 -> the_vars src (length dist) L v -> v_desc v = Some d ->
  hsteps v (progs, Some (frame0, s1)) (ths, Some (fr, s2)) -> done ths ->
  exists r eff im pen peff p1 p2 p3 q s',
    simulation x o nums en junk lc n dist streams jobs b r /\
    complete v s2 = Ok (Some eff, s') /\
    result_object s' eff im pen peff (Some src) p1 p2 p3 q /\ holds q r /\
    NoDup (result_blocks eff im pen peff p1 p2 p3) /\ all_free s0 (result_blocks eff im pen peff p1 p2 p3) /\
    mem s' d = Some (Mem.set_nth db 2 (Vdbl (re_open r))) /\
    same_memory_except (d :: result_blocks eff im pen peff p1 p2 p3) s0 s' /\ wf s' /\ orc s' = orc s0.
Proof.
  intros Hs Hn He Hle Hd Hdl Ds Dl Hne1 Ho Tm Im Tv Vd St D. destruct Tm as (Hn1 & Pd & Ls & Hj & Kt).
  destruct (heap_run s0 src sb x o nums en junk lc n dist streams jobs progs v L s1 _ Hs Hn Hne1 Ho Hn1 Pd Ls Hj Kt Im Tv St)
    as (L' & sh & fr' & s2' & E & Sh & Im' & Fo & Tv').
  cbn [snd fst] in E, Sh. injection E as <- <-.
  assert (Sim : simulation x o nums en junk lc n dist streams jobs b (finish en (length dist) b sh)).
  { repeat split; auto. exists progs, ths, sh. auto. }
  pose proof (simulation_jobs _ _ _ _ _ _ _ _ _ _ _ _ Sim) as Jok.
  destruct (C41_every_photon_recorded _ _ _ _ _ _ _ _ _ _ _ _ Sim) as (Eexit & _ & (z & _ & Rec) & _).
  destruct (core _ _ _ _ _ _ _ _ _ Hn1 Pd Kt Sh D) as (z' & sumw & _ & _ & _ & _ & _ & _ & _ & _ & (el & il & Pe & Ee & Ie & Pi & Ei & Ii)).
  assert (Jf : forall j, j < n -> Forall (fun y => fullp (length en) (at_ph (fst y))) (jobs j)).
  { intros j Lj. destruct (Jok j Lj) as (O & _). eapply Forall_impl; [|exact O]. intros y ((fu & rs1 & rs2 & Ka) & _). eapply attempt_len; exact Ka. }
  assert (Fl : forall ls : photon T -> list (leak_data T), (forall p, fullp (length en) p -> full (length en) (ls p)) ->
     full (length en) (if lc then flat_map (job_leaks ls) (map jobs (seq 0 n)) else [])).
  { intros ls Hls. destruct lc; [|constructor]. apply Forall_forall. intros k Hk. apply in_flat_map in Hk. destruct Hk as (l & Hl & Hk).
    apply in_map_iff in Hl. destruct Hl as (j & <- & Hjj). apply in_seq in Hjj.
    assert (F : full (length en) (job_leaks ls (jobs j))) by (apply job_leaks_full; [exact Hls|apply Jf; lia]).
    unfold full in F. rewrite Forall_forall in F. auto. }
  assert (Fel : full (length en) el) by (eapply Forall_perm_full; [exact Pe|apply Fl; intros p Hp; apply Hp]).
  assert (Fil : full (length en) il) by (eapply Forall_perm_full; [exact Pi|apply Fl; intros p Hp; apply Hp]).
  destruct Fo as (_ & _ & _ & _ & F5 & F6).
  assert (Hno : sh_single sh = false -> el = [] /\ il = []).
  { intros E. destruct (F5 E) as (A & B & _). rewrite A in Ee. rewrite B in Ei. destruct el, il; try discriminate; auto. }
  cbn [re_exit finish] in Eexit.
  assert (Hrow : forall j, j < n -> row_records (sh_img sh) (length en) j (read_row (sh_img sh) (length en) j)).
  { intros j Lj. destruct (Rec j Lj) as (fs & a & _ & _ & _ & R). cbn [re_img finish] in R. eapply read_row_ok; exact R. }
  pose proof (complete_ok s0 src d le sb db en n (length dist) Hs Hn He Hle Hd Hdl Ds Dl (grown sh) L' sh (grown_ids sh) F6 v s2
    (fun p s' => p = Some (L' 44) /\ hp (s0e s0 d db (length dist) sh) (grown sh ++ seq 2 18 ++ seq 44 4) L'
       (arr (len n (length en) (length dist) sh) (ecell src en (length dist) (grown sh) L' sh (length en))) s') Im' Tv' Vd) as Cm.
  specialize (Cm (fun s' H => conj eq_refl H)). unfold wp in Cm. destruct (complete v s2) as [[p s']|] eqn:Ec; [|destruct Cm]. destruct Cm as [-> Hp].
  destruct (object_ok s0 src d db en n (length dist) Hne1 Hdl L' sh el il Ee Ei Ie Ii Fel Fil Hno F6 Eexit _ Hrow s' Hp) as (O1 & O2 & O3 & O4).
  exists (finish en (length dist) b sh), (L' 44), (L' 47), (Some (L' 45)), (Some (L' 46)), (ptrs L' (seq 2 18)), (lptrs L' sh (seq 21 7)), (lptrs L' sh (seq 29 9)),
    (obj en n (length dist) sh el il (read_row (sh_img sh) (length en))), s'.
  split; [exact Sim|]. split; [reflexivity|]. split; [exact O1|]. split; [apply holds_obj; auto|]. split; [exact O2|]. split; [exact O3|]. split.
  - rewrite O4; [unfold s0e; cbn; apply upd_same|]. intros A. apply O3 in A. congruence.
  - split; [intros l Hl; rewrite O4 by (intros A; apply Hl; right; exact A); unfold s0e; cbn; apply upd_other; intros ->; apply Hl; left; reflexivity|].
    destruct Hp as (Hw & Hor & _). auto.
Qed.

(** Every finished run of the threads is a finished run in memory. *)
Lemma follow v c c' : steps c c' -> snd c' <> None -> forall ths (sh : shared T), c = (ths, Some sh) -> forall fr (s : st T),
  (exists x, hsteps v (ths, Some (fr, s)) (fst c', x)) \/ (exists ths1, hsteps v (ths, Some (fr, s)) (ths1, None)).
Proof.
  induction 1 as [c|c c1 c2 S1 S2 IH]; intros Hn ths sh -> fr s.
  - left. eexists. constructor.
  - inversion S1 as [t a rest ths0 s0 E Ea Eb|rests s0 Nr Ea Eb]; subst.
    + destruct (act a sh) as [sh1|] eqn:Es.
      2:{ inversion S2; subst; [cbn in Hn; congruence|]. match goal with H : step (_, None) _ |- _ => inversion H end. }
      destruct (hrun (hact v a fr) s) as [[fr1 s1]|] eqn:Eh.
      * destruct (IH Hn _ _ eq_refl fr1 s1) as [(x & Hx)|(ths1 & Hx)]; [left; exists x|right; exists ths1];
          (econstructor; [apply hstep_act; exact E|rewrite Eh; exact Hx]).
      * right. eexists. econstructor; [apply hstep_act; exact E|]. rewrite Eh. constructor.
    + destruct (IH Hn _ _ eq_refl fr s) as [(x & Hx)|(ths1 & Hx)]; [left; exists x|right; exists ths1];
        (econstructor; [apply hstep_barrier; exact Nr|exact Hx]).
Qed.

End Final.
