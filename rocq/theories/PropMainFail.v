(** * Property theorem: the command line program when memory runs out in the simulation (C133) *)
From Coq Require Import ZArith List Bool Lia Reals Lra String.
From Verif Require Import Num Mem SpecHeap HeapLib ErrorModel ProfileModel ProfileReal Geometry ConsModel TraceModel SourceModel ConsReal SepLib SpecResult SpecSim SimModel RunModel PropSched PropSim
  FlightRep FlightHeap FlightLaunch2 FlightProp PyModel PyResProofs PyResInv SpecPyObj PyObjHeap PyObjCons PyObjProofs FromFile FromFileProofs LineModel ProfFile SpecInput FileSrc FileSrcProofs FileSrcRead PropFileSrc OomFile
  H5Lib H5Model SpecH5 H5Proofs MainModel MainProofs MainOom PropMain.
Import ListNotations.
Local Notation ret := Mem.ret.
Local Notation bind := Mem.bind.
Local Notation without := FlightProp.without.

Section Any.
Context {T : Type} {N : Num T}.
Variable fit : list (T * T) -> T * T * T.
Variable names_at : list (token T) -> list Z * list Z * list Z * list (token T).
Variable disk : list Z -> option (list (token T)).
Variable open_file : string -> option (list (token T)).
Variable atoi : string -> Z.
Variable v : h5version.
Variable tabs : ptr.

Lemma fails_after_source e input rest omp_max progs (w : hw T) s src fn s1 k r :
  begin_run fit names_at disk open_file e (input :: rest) input s = Ok ((Some src, fn), s1) ->
  wf s1 -> slot_holds s1 e NULL -> reports_fit (Some e) s1 -> good_request s1 (Some src) NULL 30000 ->
  cnt s1 <= k < cnt s1 + 26 -> orc s1 k = false ->
  program fit names_at disk open_file atoi v tabs e (input :: rest) omp_max progs w s r ->
  exists m s' o t, r = Some ((1%Z, Some m), w, s') /\ slot_holds s' e (Some o) /\ error_object s' o t POLYCAP_ERROR_MEMORY m.
Proof.
  rename omp_max into omp. intros Eb W Sl Rf Good Hk Hf P.
  assert (X : forall q, sim_call (Some src) NULL (threads_of atoi (input :: rest) omp) n_photons omp (Some e) (progs (leaks_of atoi (input :: rest))) s1 q ->
    exists s' o t m, q = Some (NULL, s') /\ slot_holds s' e (Some o) /\ error_object s' o t POLYCAP_ERROR_MEMORY m).
  { intros q Hq. assert (Le : legal_err s1 (Some e)) by (exists NULL; exact Sl).
    destruct (C75_out_of_memory _ _ _ _ _ _ _ _ _ _ _ _ W Le Rf Good Hk Hf Hq) as (s' & E & (_ & F)).
    destruct (F e eq_refl) as (F1 & _). destruct (F1 Sl) as (o & t & m & A & B & _). exists s', o, t, m. auto. }
  inversion P as [E0|i0 r0 E0 Eb0|i0 r0 fn0 s10 E0 Eb0|i0 r0 src0 fn0 s10 E0 Eb0 Hq|i0 r0 src0 fn0 s10 s2 E0 Eb0 Hq|i0 r0 src0 fn0 s10 eff s2 E0 Eb0 Hq]; subst; try discriminate;
    injection E0 as <- <-; rewrite Eb in Eb0; try discriminate; injection Eb0 as <- <- <-; destruct (X _ Hq) as (s' & o & t & m & E & A & B); try discriminate.
  injection E as <-. exists m, s2, o, t. unfold ends. rewrite (fail_ok e o t _ m w s2 A B). auto.
Qed.

Lemma fails_in_simulation e input rest (w : hw T) s ts f :
  wf s -> memory_available s -> (exists x, mem s e = Some [x]) -> open_file input = Some ts ->
  (forall pff, source_from_file fit pff None ts = FDone None (Some f)) ->
  fs_energies f <> [] -> Forall (fun y => nltb y (nofZ 1) = false /\ nltb (nofZ 100) y = false) (fs_energies f) ->
  exists n, forall k omp_max progs o r, n <= k < n + 26 -> (forall i, o i = false <-> i = cnt s + k) ->
    program fit names_at disk open_file atoi v tabs e (input :: rest) omp_max progs w (mkSt (mem s) (nxt s) o (cnt s)) r ->
    exists m s' q t, r = Some ((1%Z, Some m), w, s') /\ slot_holds s' e (Some q) /\ error_object s' q t POLYCAP_ERROR_MEMORY m.
Proof.
  intros W A Ex Ho Hr Hne HU.
  destruct (begin_outcome fit names_at disk open_file e (input :: rest) input ts None f s W A Ex Ho Hr)
    as (src & len & lr & lg & bg & d & liz & lwi & lp & lz & lc & lx & lf & b & EB & s1 & Eb & Eec & SE & H1).
  destruct b; [discriminate|]. inversion SE; subst EB. clear SE Eec.
  destruct (objects_at _ [(e, [Vptr NULL])] [(lf, [Vstr (out_name (input :: rest))])] _ _ _ _ _ _ _ _ _ _ _ _ _ _ H1) as ((O1 & O2) & ND1).
  destruct (nodup_app_inv _ _ ND1) as (_ & ND2 & _). destruct (nodup_app_inv _ _ ND2) as (NDl & _ & _).
  assert (Sw : exists db, source_with_description s1 src len d (fs_energies f) db).
  { destruct O2 as (O2' & _). eexists. split; [exists lr, lg, (nums_of f); split; [exact O1|reflexivity]|]. split; [exact O2'|]. split; [cbn; lia|].
    rewrite !NoDup_cons_iff in NDl. cbn [In] in NDl. intuition congruence. }
  destruct Sw as (db & Sw).
  destruct (oks_begin fit names_at disk open_file e (input :: rest) input s (fun _ => true) _ _ Eb) as (C1 & Os & _).
  exists (cnt s1 - cnt s). intros k omp progs o r Hk Hoo P.
  destruct (oks_begin fit names_at disk open_file e (input :: rest) input s o _ _ Eb) as (_ & _ & X).
  assert (Eb' : begin_run fit names_at disk open_file e (input :: rest) input (swap o s) = Ok ((Some src, Some lf), swap o s1)).
  { apply X. intros i Hi. rewrite A. destruct (o i) eqn:Oi; [reflexivity|]. apply Hoo in Oi. lia. }
  apply (fails_after_source e input rest omp progs w (swap o s) src (Some lf) (swap o s1) (cnt s + k) r Eb').
  - intros l Hl. cbn [swap mem nxt] in *. apply H1. exact Hl.
  - unfold slot_holds. cbn [swap mem]. eapply hs_in; [exact H1|]. left. reflexivity.
  - intros i Hi. cbn [swap orc] in *. apply Hoo in Hi. right. split; [destruct (o (S i)) eqn:Oi|destruct (o (S (S i))) eqn:Oi]; try reflexivity; apply Hoo in Oi; lia.
  - destruct (swd_cells s1 src len d (fs_energies f) db Sw) as (sb & E1 & E2 & E3 & E4 & E5).
    exists src, d, (Z.of_nat (List.length (fs_energies f))), len, (fs_energies f). split; [reflexivity|]. split; [|split; [reflexivity|split; [|split; [|lia]]]].
    + exists sb. cbn [swap mem]. split; [exact E1|]. split; [exact E2|]. split; [exact E3|]. split; [exact E4|]. split; [intros l El; injection El as <-; exact E5|]. rewrite Nat2Z.id. lia.
    + destruct (fs_energies f); [congruence|cbn; lia].
    + rewrite Nat2Z.id, firstn_all. exact HU.
  - cbn [swap cnt]. lia.
  - cbn [swap orc]. apply Hoo. reflexivity.
  - exact P.
Qed.
End Any.

Local Open Scope R_scope.
(** C133: with a complete and acceptable input file, if the memory runs out between the reading
    of the input (which takes [n] allocations) and the start of the threads (that takes 26), the
    program exits with status 1 and prints the message of the MEMORY error it was given; it has
    not asked the HDF5 library for anything.  (What is missing: allocations of the threads, and
    the errors of C133_unnoticed_error_refuted.) *)
Theorem C133_out_of_memory_partial :
  forall fit names_at disk open_file atoi v tabs e input rest (w : hw R) s c h ts ne,
  wf s -> memory_available s -> (exists x, mem s e = Some [x]) -> open_file input = Some ts ->
  acceptable_file fit c h ne ts -> Rsum (List.map snd (i_elems c)) = 100 ->
  exists n, forall k omp_max progs supply r, (n <= k < n + 26)%nat -> (forall i, supply i = false <-> i = (cnt s + k)%nat) ->
    program fit names_at disk open_file atoi v tabs e (input :: rest) omp_max progs w (mkSt (mem s) (nxt s) supply (cnt s)) r ->
    exists m s' q t, r = Some ((1%Z, Some m), w, s') /\ slot_holds s' e (Some q) /\ error_object s' q t POLYCAP_ERROR_MEMORY m.
Proof.
  intros fit names_at disk open_file atoi v tabs e input rest w s c h ts n W A Ex Ho (Cf & Ht & Ps & Le & Ec & Ac) Sm.
  assert (Rd : forall pff, source_from_file fit pff None ts = FDone None (Some (the_source fit c h n (fractions c)))).
  { intros pff. rewrite (read_acceptable fit pff c h ts n Cf Ht Ps Le Ec Ac). pose proof (fractions_sum c) as Fs.
    destruct (norm_weights_one (fractions c)) as [N1 N2]; [rewrite Fs, Sm; field|]. rewrite N1, N2. reflexivity. }
  destruct Ac as (_ & _ & _ & A4 & _). destruct (count_Z c n Ps Le Ec) as [_ Pn].
  assert (Ln : List.length (energies c n) = n) by (unfold energies; rewrite map_length, seq_length; reflexivity).
  apply (fails_in_simulation fit names_at disk open_file atoi v tabs e input rest w s ts _ W A Ex Ho Rd).
  - cbn [the_source fs_energies]. intros E. rewrite E in Ln. cbn in Ln. lia.
  - cbn [the_source fs_energies]. eapply Forall_impl; [|exact A4]. cbn. intros y Hy. rnum. split; apply Rltb_false; lra.
Qed.

(** The hypotheses are met: by the input file of C131_met, with 100 percent of silicon. *)
Example C133_out_of_memory_met :
  forall fit, let open_file := fun f => if String.eqb f "in.inp" then Some (taper_file 100) else None in
  wf main_memory /\ memory_available main_memory /\ (exists x, mem main_memory 0%nat = Some [x]) /\ open_file "in.inp"%string = Some (taper_file 100) /\
  acceptable_file fit (taper_input 100) taper_shape 1 (taper_file 100) /\ Rsum (List.map snd (i_elems (taper_input 100))) = 100 /\
  forall k : nat, exists supply : nat -> bool, forall i, supply i = false <-> i = (cnt main_memory + k)%nat.
Proof.
  intros fit open_file. destruct main_memory_ok as (W & A & Ex & _). split; [exact W|]. split; [exact A|]. split; [exact Ex|]. split; [reflexivity|].
  split; [apply taper_acceptable|]. split; [cbn; lra|].
  intros k. exists (fun i => negb (Nat.eqb i (cnt main_memory + k))). intros i. rewrite negb_false_iff. apply Nat.eqb_eq.
Qed.
