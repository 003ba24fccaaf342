(** * Property theorems: the command line program (C131 - C134) and the axial photon (C135)

    [program fit names_at disk open_file atoi v tabs e args omp_max progs w s r]: started with the
    arguments [args], the HDF5 library in state [w] and memory [s], the program of src/main.c can
    end with [r]: exit status, line printed on stderr, library and memory ([None]: undefined
    behaviour).  [open_file] gives the content of a file (None: it cannot be opened), [atoi] the
    number an argument stands for.  [e] is the error variable, [tabs] the tables of the HDF5
    writer.  Vocabulary: SpecHeap.v, SpecH5.v, SpecInput.v, SpecSim.v. *)
From Coq Require Import ZArith List Bool Lia Reals Lra String Permutation.
From Verif Require Import Num Mem SpecHeap HeapLib ErrorModel ProfileModel ProfileProofs ProfileReal Geometry SpecPhoton RM ConsModel CapilModel TraceModel LaunchModel SourceModel DescProofs SrcProofs ConsReal HexProofs RingProofs SepLib
  SpecResult ResultModel ResultProofs PropResult RunModel SpecRun PropRun SpecSim SimModel PropSched PropSim FlightRep FlightHeap FlightLaunch2 FlightProp PyModel SpecPy PyResult PyResProofs PyResInv SpecPyObj
  PyObjHeap PyObjCons PyObjProofs FromFile FromFileProofs LineModel ProfFile SpecInput FileSrc FileSrcProofs FileSrcRead H5Lib H5Model SpecH5 H5Proofs PropH5 PropFileSrc MainModel MainProofs ExampleRun AxisProofs.
Import ListNotations.
Local Notation ret := Mem.ret.
Local Notation bind := Mem.bind.
Local Notation without := FlightProp.without.

Section Any.
Context {T : Type} {N : Num T}.
Variable fit : list (T * T) -> T * T * T.
Variable names_at : list (token T) -> list Z * list Z * list Z * list (token T).
Variable disk : list Z -> option (list (token T)).
Variable open_file : string -> option (list (token T)).
Variable atoi : string -> Z.
Variable v : h5version.
Variable tabs : loc.
Implicit Types (s : st T) (w : hw T).
Local Notation run := (program fit names_at disk open_file atoi v (Some tabs)).

(** C131: without arguments nothing happens, and that is success. *)
Theorem C131_no_arguments :
  forall e omp_max progs w s r, run e [] omp_max progs w s r <-> r = Some (0%Z, None, w, s).
Proof. intros e omp_max progs w s r. split; [intros P; inversion P; subst; congruence|intros ->; apply program_usage; reflexivity]. Qed.

(** The team a run has: the third argument when it is between 1 and omp_get_max_threads(),
    else that maximum. *)
Theorem C131_threads :
  forall args omp_max, team_size (threads_of atoi args omp_max) omp_max =
    match nth_error args 2 with
    | Some a => if (Z.leb 1 (atoi a) && Z.leb (atoi a) omp_max)%bool then atoi a else omp_max
    | None => omp_max
    end.
Proof.
  intros args omp. unfold threads_of, team_size. destruct (nth_error args 2) as [a|]; [|reflexivity].
  destruct (Z.ltb_spec (atoi a) 1); destruct (Z.ltb_spec omp (atoi a)); destruct (Z.leb_spec 1 (atoi a)); destruct (Z.leb_spec (atoi a) omp); cbn [orb andb]; try lia;
  repeat match goal with |- context [Z.ltb ?x ?y] => destruct (Z.ltb_spec x y) end; cbn [orb]; lia.
Qed.
Theorem C131_leaks :
  forall args, leaks_of atoi args = true <-> exists a, nth_error args 3 = Some a /\ atoi a = 1%Z.
Proof.
  intros args. unfold leaks_of. destruct (nth_error args 3) as [a|].
  - rewrite Z.eqb_eq. split; [eauto|intros (b & E & K); congruence].
  - split; [discriminate|intros (b & E & _); discriminate].
Qed.

(** C132: an input file the source constructor refuses. *)
Definition refused_input (input : string) (c : Z) : Prop :=
  (open_file input = None /\ c = POLYCAP_ERROR_IO) \/
  exists ts, open_file input = Some ts /\ forall pff, source_from_file fit pff None ts = FDone (Some c) None.

Lemma start_s0 e args s : wf s -> memory_available s -> (exists y, mem s e = Some [y]) ->
  exists fn (s0 : st T), bind (store (Some e) 0 (Vptr NULL)) (fun _ => alloc [Vstr (out_name args)]) s = Ok (fn, s0) /\ wf s0 /\ memory_available s0 /\ slot_holds s0 e NULL.
Proof.
  intros W A Ex. pose proof (begin_ok e args s W A Ex) as B. unfold wp in B.
  destruct (bind (store (Some e) 0 (Vptr NULL)) (fun _ => alloc [Vstr (out_name args)]) s) as [[fn s0]|]; [|contradiction].
  destruct B as (lf & -> & H). exists (Some lf), s0. split; [reflexivity|]. split; [apply H|]. split; [apply H|]. eapply hs_in; [exact H|left; reflexivity].
Qed.

Theorem C132_refused_input :
  forall e input rest omp_max progs w s c r,
    at_start tabs s e -> refused_input input c -> run e (input :: rest) omp_max progs w s r ->
    exists m (s' : st T) o t, r = Some ((1%Z, Some m), w, s') /\ slot_holds s' e (Some o) /\ error_object s' o t c m.
Proof.
  intros e input rest omp progs w s c r (W & A & Ex & _) Rf P. remember (input :: rest) as args eqn:Ea.
  assert (B : exists fn m (s' : st T) o t, begin_run fit names_at disk open_file e args input s = Ok ((NULL, fn), s') /\ slot_holds s' e (Some o) /\ error_object s' o t c m).
  { destruct (start_s0 e args s W A Ex) as (fn & s0 & E0 & W0 & A0 & Sl).
    assert (K : wp (source_new_from_file fit names_at disk (Some (open_file input)) (Some e)) (fun q s' => fst q = NULL /\ exists m, error_reported (Some e) c m s0 s') s0).
    { destruct Rf as [[-> ->]|(ts & -> & Hr)].
      - eapply wp_mono; [apply (C128_unopened_file fit names_at disk s0 e W0 A0 Sl)|]. cbn. intros q s' [-> E]. auto.
      - eapply wp_mono; [apply (C130_any_file fit names_at disk ts (Some c) None s0 e W0 A0 Sl Hr)|]. cbn. intros q s' (E1 & c' & m & E2 & E3). injection E2 as <-. eauto. }
    unfold begin_run. rewrite (bind_assoc (store (Some e) 0 (Vptr NULL)) (fun _ => alloc [Vstr (out_name args)])).
    unfold bind at 1. rewrite E0. unfold wp in K. unfold bind.
    destruct (source_new_from_file fit names_at disk (Some (open_file input)) (Some e) s0) as [[q s1]|]; [|contradiction]. destruct K as (E1 & m & (R1 & _)).
    destruct (R1 Sl) as (o & t & Se & Eo & _). exists fn, m, s1, o, t. rewrite <- E1. auto. }
  destruct B as (fn & m & s1 & o & t & Eb & Se & Eo).
  destruct P as [E|i0 r0 E Bu|i0 r0 fn' s1' E Bo|i0 r0 src' fn' s1' E Bo C|i0 r0 src' fn' s1' s2 E Bo C|i0 r0 src' fn' s1' eff' s2' E Bo C];
    [congruence| | | | |]; rewrite Ea in E; injection E as <- <-; try (rewrite Eb in Bu; discriminate); rewrite Eb in Bo; try discriminate Bo.
  injection Bo as <- <-. exists m, s1, o, t. unfold ends. rewrite (fail_ok e o t c m w s1 Se Eo). cbn [fst snd]. auto.
Qed.
Theorem C132_happens :
  forall e input rest omp_max progs w s c, at_start tabs s e -> refused_input input c -> exists r, run e (input :: rest) omp_max progs w s r.
Proof.
  intros e input rest omp progs w s c (W & A & Ex & _) Rf.
  destruct (begin_run fit names_at disk open_file e (input :: rest) input s) as [[[[src|] fn] s1]|] eqn:Eb.
  - exfalso. destruct (start_s0 e (input :: rest) s W A Ex) as (fn0 & s0 & E0 & W0 & A0 & Sl).
    assert (K : wp (source_new_from_file fit names_at disk (Some (open_file input)) (Some e)) (fun q s' => fst q = NULL) s0).
    { destruct Rf as [[-> ->]|(ts & -> & Hr)].
      - eapply wp_mono; [apply (C128_unopened_file fit names_at disk s0 e W0 A0 Sl)|]. cbn. intros q s' [-> E]. auto.
      - eapply wp_mono; [apply (C130_any_file fit names_at disk ts (Some c) None s0 e W0 A0 Sl Hr)|]. cbn. intros q s' (E1 & _). exact E1. }
    unfold begin_run in Eb. rewrite (bind_assoc (store (Some e) 0 (Vptr NULL)) (fun _ => alloc [Vstr (out_name (input :: rest))])) in Eb.
    unfold bind at 1 in Eb. rewrite E0 in Eb. unfold wp in K. unfold bind in Eb.
    destruct (source_new_from_file fit names_at disk (Some (open_file input)) (Some e) s0) as [[q s1']|]; [|contradiction].
    unfold ret in Eb. injection Eb as Eb _ _. congruence.
  - eexists. eapply program_no_source; [reflexivity|exact Eb].
  - eexists. eapply program_begin_ub; [reflexivity|exact Eb].
Qed.

(** Runs whose input was read, whatever the HDF5 library does. *)
Definition ready_to_run e input rest omp_max (progs : bool -> list (list (instr T))) (w : hw T) (s : st T) ts ec f (x : xraylib T) junk dist streams jobs : Prop :=
  let args := input :: rest in
  at_start tabs s e /\ h5_explains w /\ h5_ids w /\ file_open w (out_name args) = false /\
  open_file input = Some ts /\ (forall pff, source_from_file fit pff None ts = FDone ec (Some f)) /\
  sized (optic_of f) /\ fs_energies f <> [] /\ Forall (fun e => nltb e (nofZ 1) = false /\ nltb (nofZ 100) e = false) (fs_energies f) /\
  attempts_made x (optic_of f) (fs_nums f) (fs_energies f) junk (leaks_of atoi args) (Z.to_nat n_photons) dist streams jobs /\
  Z.of_nat (List.length dist) = team_size (threads_of atoi args omp_max) omp_max /\
  threads_run (optic_of f) (leaks_of atoi args) (List.length (fs_energies f)) 0 jobs dist None = Ret (progs (leaks_of atoi args), None).

Lemma run_outcome e input rest omp_max progs w s ts ec f x junk dist streams jobs before r :
  ready_to_run e input rest omp_max progs w s ts ec f x junk dist streams jobs -> run e (input :: rest) omp_max progs w s r ->
  exists x' (w' : hw T) (s' : st T) res q, r = Some (x', w', s') /\
    simulated x f junk (leaks_of atoi (input :: rest)) dist streams jobs before res /\ SpecSim.holds q res /\
    (forall g, g <> out_name (input :: rest) -> h_disk w' g = h_disk w g) /\
    ((x' = (0%Z, None) /\ h_open w' = h_open w /\ h_disk w' (out_name (input :: rest)) = Some (result_file q (file_input f (re_open res))) /\
      exists pm pe X, error_state ec e X s' /\ all_free s (pm :: pe :: X) /\ same_memory_except (e :: tabs :: pm :: pe :: X) s s')
     \/
     (~ h5_works w /\
      (x' = (0%Z, None) \/ exists o t c m, x' = (1%Z, Some m) /\ slot_holds s' e (Some o) /\ error_object s' o t c m) /\
      (h_disk w' (out_name (input :: rest)) = None \/ (fst x' = 1%Z /\ same_library w w')))).
Proof. intros (H1 & H2 & H3 & H4 & H5 & H6 & H7 & H8 & H9 & H10 & H11 & H12) P. eapply run_ok; eauto. Qed.

(** Such a run comes to an end. *)
Theorem C131_can_end :
  forall e input rest omp_max progs w s ts ec f x junk dist streams jobs,
  ready_to_run e input rest omp_max progs w s ts ec f x junk dist streams jobs -> exists r, run e (input :: rest) omp_max progs w s r.
Proof.
  intros e input rest omp progs w s ts ec f x junk dist streams jobs ((W & A & Ex & Tf) & _ & _ & _ & Ho & Hr & _ & Hne & HU & Am & Hd & Kt).
  destruct (begin_outcome fit names_at disk open_file e (input :: rest) input ts ec f s W A Ex Ho Hr)
    as (src & len & lr & lg & bg & d & liz & lwi & lp & lz & lc & lx & lf & b & EB & s1 & Eb & Eec & SE & H1).
  destruct (objects_at _ EB [(lf, [Vstr (out_name (input :: rest))])] _ _ _ _ _ _ _ _ _ _ _ _ _ _ H1) as ((O1 & O2) & ND1).
  destruct (nodup_app_inv _ _ ND1) as (_ & ND2 & _). destruct (nodup_app_inv _ _ ND2) as (NDl & _ & _).
  pose proof O2 as (O2' & _).
  assert (Sw : exists db, source_with_description s1 src len d (fs_energies f) db).
  { eexists. split; [exists lr, lg, (nums_of f); split; [exact O1|reflexivity]|]. split; [exact O2'|]. split; [cbn; lia|].
    rewrite !NoDup_cons_iff in NDl. cbn [In] in NDl. intuition congruence. }
  destruct Sw as (db & Sw).
  assert (Hn : Z.of_nat (Z.to_nat n_photons) = n_photons) by (apply Z2Nat.id; unfold n_photons; lia).
  assert (Es1 : legal_err s1 (Some e)) by (destruct SE; eexists; eapply hs_in; [exact H1|left; reflexivity|exact H1|left; reflexivity]).
  destruct (C76_call_can_return T N s1 src len d (fs_energies f) db (Some e) (threads_of atoi (input :: rest) omp) omp x (optic_of f) (fs_nums f) junk (leaks_of atoi (input :: rest)) (Z.to_nat n_photons) dist streams jobs (progs (leaks_of atoi (input :: rest)))) as (r0 & Hr0);
    [apply H1|exact Es1|apply H1|exact Sw|destruct (fs_energies f); [congruence|cbn; lia]|exact HU|exact Am|exact Hd|exact Kt|].
  rewrite Hn in Hr0. destruct r0 as [[[eff|] s2]|]; eexists.
  - eapply program_result; [reflexivity|exact Eb|exact Hr0].
  - eapply program_no_result; [reflexivity|exact Eb|exact Hr0].
  - eapply program_sim_ub; [reflexivity|exact Eb|exact Hr0].
Qed.

(** C134: whatever the HDF5 library does, a run whose input was accepted ends without undefined
    behaviour, touches no other file, and ends in one of two ways.  (What is missing: with a
    library that fails the exit status can be 0 although the output file is not there.) *)
Theorem C134_any_library_partial :
  forall e input rest omp_max progs w s ts ec f x junk dist streams jobs before r,
  ready_to_run e input rest omp_max progs w s ts ec f x junk dist streams jobs -> run e (input :: rest) omp_max progs w s r ->
  exists x' (w' : hw T) (s' : st T), r = Some (x', w', s') /\
    (forall g, g <> out_name (input :: rest) -> h_disk w' g = h_disk w g) /\
    (x' = (0%Z, None) \/ exists o t c m, x' = (1%Z, Some m) /\ slot_holds s' e (Some o) /\ error_object s' o t c m) /\
    (fst x' = 1%Z -> ~ h5_works w) /\
    (h_disk w' (out_name (input :: rest)) = None \/
     (exists res q, simulated x f junk (leaks_of atoi (input :: rest)) dist streams jobs before res /\ SpecSim.holds q res /\
        h_disk w' (out_name (input :: rest)) = Some (result_file q (file_input f (re_open res)))) \/
     (fst x' = 1%Z /\ same_library w w')).
Proof.
  intros e input rest omp progs w s ts ec f x junk dist streams jobs before r Rd P.
  destruct (run_outcome _ _ _ _ _ _ _ _ _ _ _ _ _ _ _ before r Rd P) as (x' & w' & s' & res & q & E & Sim & Hh & Og & Cs).
  exists x', w', s'. split; [exact E|]. split; [exact Og|]. destruct Cs as [(-> & _ & Dk & _)|(Nw & X & Dk)].
  - split; [left; reflexivity|]. split; [cbn; discriminate|]. right. left. eauto.
  - split; [exact X|]. split; [auto|]. destruct Dk as [Dk|Dk]; auto.
Qed.
End Any.

Local Open Scope R_scope.

(** ** Complete input files, over the real numbers *)
Definition optic_file fit (c : SpecInput.input R) (h : shape R) : optic R :=
  mkOptic (shape_profile fit (i_type c) h) (i_ncap c) (i_sig c) (i_dens c) (List.map fst (i_elems c)) (fractions c).
Definition nums_file (c : SpecInput.input R) : source_nums R := mkSource (i_d c) (i_x c) (i_y c) (i_sx c) (i_sy c) (i_hx c) (i_hy c) (i_pol c).
(** What the output file has to say about optic and source. *)
Definition about_file fit (c : SpecInput.input R) (h : shape R) (open : R) : SpecH5.input R :=
  let a := shape_profile fit (i_type c) h in
  SpecH5.mkInput 999 (p_z a) (p_cap a) (p_ext a) (i_sig c) (i_ncap c) open (List.map fst (i_elems c)) (fractions c) (i_dens c) (i_d c).

(** [progs] are the programs of the threads of a simulation of 30000 photons in the optic of
    the input file, with the numbers [streams] the random number generators give. *)
Definition simulates fit atoi c h n input rest omp_max (progs : bool -> list (list (instr R))) (x : xraylib R) junk dist streams jobs : Prop :=
  let args := input :: rest in
  attempts_made x (optic_file fit c h) (nums_file c) (energies c n) junk (leaks_of atoi args) (Z.to_nat n_photons) dist streams jobs /\
  Z.of_nat (List.length dist) = team_size (threads_of atoi args omp_max) omp_max /\
  threads_run (optic_file fit c h) (leaks_of atoi args) (List.length (energies c n)) 0 jobs dist None = Ret (progs (leaks_of atoi args), None).

Definition acceptable_file fit (c : SpecInput.input R) (h : shape R) (n : nat) ts : Prop :=
  complete_file c h ts /\ (0 <= i_type c <= 2)%Z /\ 0 < i_step c /\ i_first c <= i_last c /\ energy_count c n /\ acceptable fit c h n.

Lemma fractions_sum c : Rsum (fractions c) = Rsum (List.map snd (i_elems c)) / 100.
Proof. unfold fractions. rewrite <- (map_map snd (fun w => w / 100)), Rsum_div. reflexivity. Qed.

Lemma ready_file fit open_file atoi tabs e input rest omp_max progs w s c h ts n x junk dist streams jobs :
  at_start tabs s e -> h5_explains w -> h5_ids w -> file_open w (out_name (input :: rest)) = false -> open_file input = Some ts ->
  acceptable_file fit c h n ts -> Rsum (List.map snd (i_elems c)) <= 100 ->
  simulates fit atoi c h n input rest omp_max progs x junk dist streams jobs ->
  ready_to_run fit open_file atoi tabs e input rest omp_max progs w s ts (if Req_EM_T (Rsum (List.map snd (i_elems c))) 100 then None else Some POLYCAP_ERROR_INVALID_ARGUMENT)
    (the_source fit c h n (fractions c)) x junk dist streams jobs /\
  (forall pff, source_from_file fit pff None ts = FDone (if Req_EM_T (Rsum (List.map snd (i_elems c))) 100 then None else Some POLYCAP_ERROR_INVALID_ARGUMENT) (Some (the_source fit c h n (fractions c)))).
Proof.
  intros A HX HI HF Ho (Cf & Ht & Ps & Le & Ec & Ac) Sm (Am & Hd & Kt).
  assert (Rd : forall pff, source_from_file fit pff None ts = FDone (if Req_EM_T (Rsum (List.map snd (i_elems c))) 100 then None else Some POLYCAP_ERROR_INVALID_ARGUMENT) (Some (the_source fit c h n (fractions c)))).
  { intros pff. rewrite (read_acceptable fit pff c h ts n Cf Ht Ps Le Ec Ac). pose proof (fractions_sum c) as Fs. destruct (Req_EM_T _ 100) as [E|E].
    - destruct (norm_weights_one (fractions c)) as [N1 N2]; [rewrite Fs, E; field|]. rewrite N1, N2. reflexivity.
    - assert (S1 : Rsum (fractions c) < 1) by (rewrite Fs; lra). destruct (norm_weights_R (fractions c)) as (N1 & N2 & _).
      assert (N3 : snd (norm_weights (fractions c)) = false).
      { destruct (snd (norm_weights (fractions c))); [|reflexivity]. exfalso. destruct (proj1 N1 eq_refl) as [K|[K _]]; lra. }
      rewrite N3, N2 by lra. reflexivity. }
  split; [|exact Rd]. unfold ready_to_run. repeat (split; [assumption|]).
  destruct Ac as (_ & _ & _ & A4 & _). destruct (count_Z c n Ps Le Ec) as [_ Pn].
  assert (Ln : List.length (energies c n) = n) by (unfold energies; rewrite map_length, seq_length; reflexivity).
  split; [|split; [|split; [|split; [|split]]]]; auto.
  - pose proof (shape_sized fit (i_type c) h) as Sz. unfold sized, well_sized in *. cbn [optic_of o_prof the_source fs_prof o_wi o_iz fs_wi fs_iz]. split; [unfold fractions; rewrite !map_length; reflexivity|exact Sz].
  - cbn [the_source fs_energies]. intros E. rewrite E in Ln. cbn in Ln. lia.
  - cbn [the_source fs_energies]. eapply Forall_impl; [|exact A4]. cbn. intros y Hy. rnum. split; apply Rltb_false; lra.
Qed.

Lemma exits_all (x : xraylib R) o src en junk lc dist streams jobs before res :
  simulation x o src en junk lc (Z.to_nat n_photons) dist streams jobs before res -> re_exit res = 30000%Z.
Proof. intros Sim. rewrite (proj1 (C41_every_photon_recorded _ _ _ _ _ _ _ _ _ _ _ _ Sim)). apply Z2Nat.id. unfold n_photons. lia. Qed.

(** C131: the input file is a complete one with acceptable values, the percentages add up to
    100, the HDF5 library works: the program ends with status 0 and says nothing on stderr; the
    output file holds the result of a simulation of 30000 photons in the optic of the input
    file and the values of the input file; no other file is touched, no file is left open, and
    of the memory only the error variable (NULL) and the tables of the HDF5 writer are left. *)
Theorem C131_successful_run :
  forall fit names_at disk open_file atoi v tabs e input rest omp_max progs w s c h ts n x junk dist streams jobs before r,
  at_start tabs s e -> h5_works w -> h5_explains w -> h5_ids w -> file_open w (out_name (input :: rest)) = false -> open_file input = Some ts ->
  acceptable_file fit c h n ts -> Rsum (List.map snd (i_elems c)) = 100 ->
  simulates fit atoi c h n input rest omp_max progs x junk dist streams jobs ->
  program fit names_at disk open_file atoi v (Some tabs) e (input :: rest) omp_max progs w s r ->
  exists w' s' res q, r = Some ((0%Z, None), w', s') /\
    simulation x (optic_file fit c h) (nums_file c) (energies c n) junk (leaks_of atoi (input :: rest)) (Z.to_nat n_photons) dist streams jobs before res /\
    re_exit res = 30000%Z /\
    SpecSim.holds q res /\
    h_disk w' (out_name (input :: rest)) = Some (result_file q (about_file fit c h (re_open res))) /\
    (forall g, g <> out_name (input :: rest) -> h_disk w' g = h_disk w g) /\ h_open w' = h_open w /\
    slot_holds s' e NULL /\ exists pm pe, mem s pm = None /\ mem s pe = None /\ same_memory_except [e; tabs; pm; pe] s s'.
Proof.
  intros fit names_at disk open_file atoi v tabs e input rest omp progs w s c h ts n x junk dist streams jobs before r A Hw HX HI HF Ho Af Sm Si P.
  destruct (ready_file fit open_file atoi tabs e input rest omp progs w s c h ts n x junk dist streams jobs A HX HI HF Ho Af ltac:(lra) Si) as (Rd & _).
  rewrite Sm in Rd. destruct (Req_EM_T 100 100) as [_|K]; [|congruence].
  destruct (run_outcome _ _ _ _ _ _ _ _ _ _ _ _ _ _ _ _ _ _ _ _ _ _ before r Rd P) as (x' & w' & s' & res & q & E & Sim & Hh & Og & Cs).
  destruct Cs as [(-> & Op & Dk & pm & pe & X & (Se & ->) & Fr & Sme)|(Nw & _)]; [|contradiction].
  exists w', s', res, q. split; [exact E|]. split; [exact Sim|]. split; [exact (exits_all _ _ _ _ _ _ _ _ _ _ _ Sim)|]. split; [exact Hh|]. split; [exact Dk|]. split; [exact Og|]. split; [exact Op|]. split; [exact Se|].
  exists pm, pe. split; [apply Fr; left; reflexivity|]. split; [apply Fr; right; left; reflexivity|exact Sme].
Qed.

(** C133: "when an error was reported the program fails and prints it".  False: percentages that
    do not reach 100 are reported as an error, yet the run goes on with them as they are and
    ends with status 0, says nothing on stderr, and leaves an output file like any other. *)
Theorem C133_unnoticed_error_refuted :
  forall fit names_at disk open_file atoi v tabs e input rest omp_max progs w s c h ts n x junk dist streams jobs before r,
  at_start tabs s e -> h5_works w -> h5_explains w -> h5_ids w -> file_open w (out_name (input :: rest)) = false -> open_file input = Some ts ->
  acceptable_file fit c h n ts -> Rsum (List.map snd (i_elems c)) < 100 ->
  simulates fit atoi c h n input rest omp_max progs x junk dist streams jobs ->
  program fit names_at disk open_file atoi v (Some tabs) e (input :: rest) omp_max progs w s r ->
  exists w' s' res q o t m, r = Some ((0%Z, None), w', s') /\
    h_disk w' (out_name (input :: rest)) = Some (result_file q (about_file fit c h (re_open res))) /\
    simulation x (optic_file fit c h) (nums_file c) (energies c n) junk (leaks_of atoi (input :: rest)) (Z.to_nat n_photons) dist streams jobs before res /\
    slot_holds s' e (Some o) /\ error_object s' o t POLYCAP_ERROR_INVALID_ARGUMENT m.
Proof.
  intros fit names_at disk open_file atoi v tabs e input rest omp progs w s c h ts n x junk dist streams jobs before r A Hw HX HI HF Ho Af Sm Si P.
  destruct (ready_file fit open_file atoi tabs e input rest omp progs w s c h ts n x junk dist streams jobs A HX HI HF Ho Af ltac:(lra) Si) as (Rd & _).
  destruct (Req_EM_T _ 100) as [K|_]; [lra|].
  destruct (run_outcome _ _ _ _ _ _ _ _ _ _ _ _ _ _ _ _ _ _ _ _ _ _ before r Rd P) as (x' & w' & s' & res & q & E & Sim & Hh & Og & Cs).
  destruct Cs as [(-> & Op & Dk & pm & pe & X & (o & t & m & Se & Eo & _) & Fr & Sme)|(Nw & _)]; [|contradiction].
  exists w', s', res, q, o, t, m. auto 7.
Qed.

(** C132, over the reals: a complete file with a value that is not acceptable. *)
Theorem C132_unacceptable_value :
  forall fit names_at disk open_file atoi v tabs e input rest omp_max progs (w : hw R) s c h ts n r,
  at_start tabs s e -> open_file input = Some ts ->
  complete_file c h ts -> (0 <= i_type c <= 2)%Z -> 0 < i_step c -> i_first c <= i_last c -> energy_count c n -> ~ acceptable fit c h n ->
  program fit names_at disk open_file atoi v (Some tabs) e (input :: rest) omp_max progs w s r ->
  exists m s' o t, r = Some ((1%Z, Some m), w, s') /\ slot_holds s' e (Some o) /\ error_object s' o t POLYCAP_ERROR_INVALID_ARGUMENT m.
Proof.
  intros fit names_at disk open_file atoi v tabs e input rest omp progs w s c h ts n r A Ho Cf Ht Ps Le Ec NA P.
  apply (C132_refused_input fit names_at disk open_file atoi v tabs e input rest omp progs w s POLYCAP_ERROR_INVALID_ARGUMENT r A); [|exact P].
  right. exists ts. split; [exact Ho|]. intros pff. apply (read_unacceptable fit pff c h ts n); assumption.
Qed.

(** ** C135: a photon on the axis *)

(** In a mono-capillary that gets narrower all the way, a photon that starts on the axis at any
    height before the exit and flies along the axis gets through, with every weight 1, never
    reflected, without leaks and without an error, whatever the glass, the roughness and the
    leak setting. *)
Theorem C135_axial_photon :
  forall (o : optic R) (x : xraylib R) junk fuel lc ph z en,
  o_ncap o = 1%Z -> narrowing (o_prof o) -> usable o en ->
  0 <= z < nth (p_nmax (o_prof o)) (p_z (o_prof o)) 0 ->
  ph_start ph = mkV 0 0 z -> ph_sdir ph = mkV 0 0 1 ->
  exists ph', launch x o junk (S fuel) ph (Some en) false lc None = RM.Ret (1%Z, ph', Some (List.map (fun _ => Some 1) en), None) /\
    ph_exit ph' = mkV 0 0 z /\ ph_edir ph' = mkV 0 0 1 /\ ph_irefl ph' = 0%Z /\ ph_ext ph' = [] /\ ph_int ph' = [].
Proof. intros o x junk fuel lc ph z en One Nar Us Hz E1 E2. apply (axis_launched o One Nar); assumption. Qed.

(** Every conical shape with a smaller exit bore has such a profile. *)
Theorem C135_conical_profiles :
  forall fit h, good_args (h_len h) (h_rext_up h) (h_rext_down h) (h_rint_up h) (h_rint_down h) (h_foc_up h) (h_foc_down h) ->
  h_rint_down h < h_rint_up h -> narrowing (shape_profile fit POLYCAP_PROFILE_CONICAL h).
Proof.
  intros fit h G L. unfold good_args in G. destruct h as [len e1 e2 c1 c2 f1 f2]. cbn [h_len h_rext_up h_rext_down h_rint_up h_rint_down h_foc_up h_foc_down] in *.
  unfold narrowing, shape_profile. cbn [p_z p_cap p_ext p_nmax h_len h_rext_up h_rext_down h_rint_up h_rint_down h_foc_up h_foc_down].
  assert (N1 : forall (g : nat -> R) i, (i <= 999)%nat -> nth i (List.map g (seq 0 1000)) 0 = g i).
  { intros g i Hi. rewrite (nth_indep _ 0 (g 0%nat)) by (rewrite map_length, seq_length; lia). rewrite map_nth, seq_nth by lia. reflexivity. }
  assert (Ln : forall g : nat -> R, List.length (List.map g (seq 0 1000)) = 1000%nat) by (intros g; rewrite map_length, seq_length; reflexivity).
  rewrite !Ln. remember (seq 0 1000) as sq eqn:Esq. clear Esq.
  split; [reflexivity|]. split; [reflexivity|]. split; [reflexivity|]. split; [lia|].
  assert (St : 0 < len / 999) by lra.
  assert (Fr : forall i, (i <= 999)%nat -> 0 <= INR i <= 999).
  { intros i Hi. split; [apply pos_INR|]. apply le_INR in Hi. replace (INR 999) with 999 in Hi by (rewrite INR_IZR_INZ; reflexivity). exact Hi. }
  assert (Lin : forall a b i, len * (INR i / 999) = len / 999 * INR i -> (a - b) / len * (len / 999 * INR i) + b = b * (1 - INR i / 999) + a * (INR i / 999)) by (intros a b i _; field; lra).
  split; [rewrite N1 by lia; cbn; ring|].
  split; [intros i Hi; rewrite !N1, S_INR by lia; nra|].
  split; [|split].
  - intros i Hi. rewrite !N1, !Lin, S_INR by (lia || field). pose proof (Fr i ltac:(lia)). nra.
  - intros i Hi. rewrite N1, Lin by (lia || field). pose proof (Fr i Hi). nra.
  - intros i Hi. rewrite N1 by lia. unfold pe. cbn [Z.eqb POLYCAP_PROFILE_CONICAL]. unfold prof_lin. rnum.
    replace (pz len i) with (len / 999 * INR i) by (rewrite INR_IZR_INZ; reflexivity). rewrite Lin by field. pose proof (Fr i Hi). nra.
Qed.

(** ** The hypotheses are met *)
(** An input file with a conical capillary, a source on its axis that emits along the axis, one
    energy (10 keV) and one element, [pct] percent of silicon. *)
Definition taper_input (pct : R) : SpecInput.input R := SpecInput.mkInput (1/2) 1 1 1 0 0 0 0 0 [(14%Z, pct)] 2 10 10 1 1 0 1.
Definition taper_shape : shape R := mkShape 10 1 1 (1/2) (1/4) 1 1.
Definition taper_file (pct : R) : list (token R) :=
  [dt (1/2); dt 1; dt 1; dt 1; dt 0; dt 0; dt 0; dt 0; dt 0; it 1; it 14; dt pct; dt 2;
   dt 10; dt 10; dt 1; it 1; it 0; dt 10; dt 1; dt 1; dt (1/2); dt (1/4); dt 1; dt 1; it 1].
Lemma taper_good : good_args 10 1 1 (1/2) (1/4) 1 1.
Proof. unfold good_args. lra. Qed.
Lemma taper_narrowing fit pct : narrowing (o_prof (optic_file fit (taper_input pct) taper_shape)).
Proof. apply (C135_conical_profiles fit taper_shape); [exact taper_good|cbn; lra]. Qed.
Lemma taper_valid fit : profile_validate (shape_profile fit 0 taper_shape) 1 = Some 1%Z.
Proof.
  apply validate_mono; [apply shape_sized|change 0 with (IZR 0); apply n_shells_char; lia|].
  intros i Hi. unfold cap_at, ext_at, shape_profile, taper_shape in *. cbn [p_cap p_ext p_nmax h_len h_rext_up h_rext_down h_rint_up h_rint_down h_foc_up h_foc_down] in *.
  assert (N1 : forall (g : nat -> R), nth i (List.map g (seq 0 1000)) 0 = g i).
  { intros g. rewrite (nth_indep _ 0 (g 0%nat)) by (rewrite map_length, seq_length; lia). rewrite map_nth, seq_nth by lia. reflexivity. }
  rewrite !N1. unfold pe. cbn [Z.eqb POLYCAP_PROFILE_CONICAL]. rewrite straight_lin. pose proof (pos_INR i). lra.
Qed.
Lemma taper_heads fit : hd 0 (p_cap (shape_profile fit 0 taper_shape)) = 1/2 /\ hd 0 (p_ext (shape_profile fit 0 taper_shape)) = 1.
Proof.
  unfold shape_profile. cbn [p_cap p_ext]. change (seq 0 1000) with (0%nat :: seq 1 999). generalize (seq 1 999). intros l. cbn [List.map hd].
  unfold pe. cbn [Z.eqb POLYCAP_PROFILE_CONICAL taper_shape h_len h_rext_up h_rext_down h_rint_up h_rint_down]. split; [cbn [INR]; lra|apply straight_lin].
Qed.
Lemma taper_acceptable fit pct : acceptable_file fit (taper_input pct) taper_shape 1 (taper_file pct).
Proof.
  split; [|cbn [taper_input i_type i_step i_first i_last]; repeat (split; [lra || lia|])].
  { exists []. unfold lists. exists (taper_file pct). split; [rewrite app_nil_r; reflexivity|]. unfold taper_file. cbn. repeat constructor. }
  split; [unfold energy_count; cbn [i_last i_first i_step taper_input INR]; lra|].
  destruct (taper_heads fit) as (H1 & H2). unfold acceptable. cbn [i_d i_x i_y i_ncap i_elems i_dens i_type taper_input List.length fst]. cbv zeta. rewrite H1, H2, (taper_valid fit).
  repeat match goal with |- _ /\ _ => split end; try lra; try lia; try apply straight_open; auto.
  - unfold energies. cbn. constructor; [lra|constructor].
  - repeat constructor; cbn; lia.
  - exact taper_good.
Qed.
Definition main_memory : st R :=
  mkSt (fun l => if Nat.eqb l 0 then Some [Vundef] else if Nat.eqb l 1 then Some [Vptr NULL; Vint 0; Vint 0; Vptr NULL; Vint 0; Vint 0] else None) 2%nat (fun _ => true) 0%nat.
Lemma main_memory_ok : at_start 1%nat main_memory 0%nat.
Proof.
  split; [|split; [|split]].
  - intros l H. cbn in *. destruct (Nat.eqb_spec l 0); [lia|]. destruct (Nat.eqb_spec l 1); [lia|reflexivity].
  - intros k. reflexivity.
  - exists Vundef. reflexivity.
  - reflexivity.
Qed.
Definition the_library : hw R := h5_library (fun _ => true).
Lemma the_library_ok f : h5_works the_library /\ h5_explains the_library /\ h5_ids the_library /\ file_open the_library f = false.
Proof. repeat split; try (intros k; reflexivity || discriminate); try constructor; cbn; lia. Qed.

Lemma taper_simulates fit atoi pct junk input : 0 <= pct <= 100 -> exists progs dist streams jobs,
  simulates fit atoi (taper_input pct) taper_shape 1 input [] 1 progs oneR junk dist streams jobs.
Proof.
  intros Hp. set (o := optic_file fit (taper_input pct) taper_shape). set (lc := leaks_of atoi [input]).
  assert (E1 : energies (taper_input pct) 1 = [10]) by (unfold energies; cbn [seq List.map taper_input i_first i_step INR]; f_equal; lra).
  assert (Use : usable o [10]).
  { unfold usable, o, optic_file, fractions, taper_input. cbn [o_dens o_iz o_wi i_dens i_elems List.map fst snd combine]. split; [lra|]. split; [discriminate|].
    split; [constructor; [cbn [fst snd]; split; [lra|lia]|constructor]|]. split; [discriminate|]. repeat constructor; lra. }
  assert (Hn : (1 <= Z.to_nat n_photons)%nat) by (unfold n_photons; lia).
  destruct (axis_attempts_any o oneR [10] eq_refl (taper_narrowing fit pct) Use junk lc (Z.to_nat n_photons) [seq 0 (Z.to_nat n_photons)]) as (streams & jobs & Am); [exact Hn|cbn [List.concat]; rewrite app_nil_r; apply Permutation_refl|].
  destruct (C61_every_schedule_completes oneR o axisR [10] junk lc (Z.to_nat n_photons) [seq 0 (Z.to_nat n_photons)] streams jobs 0 (fun _ _ => Rle_0_1) Am) as (progs & Kt & _).
  exists (fun _ => progs), [seq 0 (Z.to_nat n_photons)], streams, jobs. unfold simulates. rewrite E1. split; [exact Am|]. split; [reflexivity|exact Kt].
Qed.

(** There is a run of the program that meets all hypotheses of C131_successful_run. *)
Example C131_met : forall fit names_at disk atoi (junk : vec3 R) (before : R), let open_file := fun f => if String.eqb f "in.inp" then Some (taper_file 100) else None in
  exists progs dist streams jobs w' s' res q,
  simulates fit atoi (taper_input 100) taper_shape 1 "in.inp" [] 1 progs oneR junk dist streams jobs /\
  program fit names_at disk open_file atoi v_old (Some 1%nat) 0%nat ["in.inp"%string] 1 progs the_library main_memory (Some ((0%Z, None), w', s')) /\
  SpecSim.holds q res /\ h_disk w' "polycap_out.h5"%string = Some (result_file q (about_file fit (taper_input 100) taper_shape (re_open res))).
Proof.
  intros fit names_at disk atoi junk before open_file. destruct (taper_simulates fit atoi 100 junk "in.inp"%string ltac:(lra)) as (progs & dist & streams & jobs & Si).
  destruct (the_library_ok (out_name ["in.inp"%string])) as (L1 & L2 & L3 & L4).
  assert (Sm : Rsum (List.map snd (i_elems (taper_input 100))) = 100) by (cbn; lra).
  destruct (ready_file fit open_file atoi 1%nat 0%nat "in.inp" [] 1 progs the_library main_memory _ _ _ _ oneR junk dist streams jobs main_memory_ok L2 L3 L4 eq_refl (taper_acceptable fit 100) ltac:(lra) Si) as (Rd & _).
  destruct (C131_can_end fit names_at disk open_file atoi v_old 1%nat 0%nat "in.inp" [] 1 progs the_library main_memory _ _ _ _ _ _ _ _ Rd) as (r & P).
  destruct (C131_successful_run fit names_at disk open_file atoi v_old 1%nat 0%nat "in.inp" [] 1 progs the_library main_memory _ _ _ _ oneR junk dist streams jobs before r
    main_memory_ok L1 L2 L3 L4 eq_refl (taper_acceptable fit 100) Sm Si P) as (w' & s' & res & q & -> & _ & _ & Hh & Dk & _).
  exists progs, dist, streams, jobs, w', s', res, q. auto.
Qed.
(** ... and one of C133_unnoticed_error_refuted: 40 percent of silicon and nothing else. *)
Example C133_met : forall fit names_at disk atoi (junk : vec3 R) (before : R), let open_file := fun f => if String.eqb f "in.inp" then Some (taper_file 40) else None in
  exists progs w' s' o t m c, program fit names_at disk open_file atoi v_old (Some 1%nat) 0%nat ["in.inp"%string] 1 progs the_library main_memory (Some ((0%Z, None), w', s')) /\
  h_disk w' "polycap_out.h5"%string = Some c /\
  slot_holds s' 0%nat (Some o) /\ error_object s' o t POLYCAP_ERROR_INVALID_ARGUMENT m.
Proof.
  intros fit names_at disk atoi junk before open_file. destruct (taper_simulates fit atoi 40 junk "in.inp"%string ltac:(lra)) as (progs & dist & streams & jobs & Si).
  destruct (the_library_ok (out_name ["in.inp"%string])) as (L1 & L2 & L3 & L4).
  assert (Sm : Rsum (List.map snd (i_elems (taper_input 40))) < 100) by (cbn; lra).
  destruct (ready_file fit open_file atoi 1%nat 0%nat "in.inp" [] 1 progs the_library main_memory _ _ _ _ oneR junk dist streams jobs main_memory_ok L2 L3 L4 eq_refl (taper_acceptable fit 40) ltac:(lra) Si) as (Rd & _).
  destruct (C131_can_end fit names_at disk open_file atoi v_old 1%nat 0%nat "in.inp" [] 1 progs the_library main_memory _ _ _ _ _ _ _ _ Rd) as (r & P).
  destruct (C133_unnoticed_error_refuted fit names_at disk open_file atoi v_old 1%nat 0%nat "in.inp" [] 1 progs the_library main_memory _ _ _ _ oneR junk dist streams jobs before r
    main_memory_ok L1 L2 L3 L4 eq_refl (taper_acceptable fit 40) Sm Si P) as (w' & s' & res & q & o & t & m & -> & Dk & _ & Se & Eo).
  exists progs, w', s', o, t, m. eexists. split; [exact P|]. split; [exact Dk|]. auto.
Qed.
Example C132_met : refused_input (fun l => hd (0, 0, 0) (List.map (fun p : R * R => (fst p, snd p, 0)) l)) (fun f => if String.eqb f "in.inp" then Some [wordtok] else None) "other.inp" POLYCAP_ERROR_IO /\
  refused_input (fun l => hd (0, 0, 0) (List.map (fun p : R * R => (fst p, snd p, 0)) l)) (fun f => if String.eqb f "in.inp" then Some [wordtok] else None) "in.inp" POLYCAP_ERROR_IO.
Proof.
  split; [left; split; reflexivity|]. right. exists [wordtok]. split; [reflexivity|]. intros pff.
  apply (read_garbage _ pff [] wordtok []); [constructor|]. left. split; [cbn; lia|reflexivity].
Qed.
Example C135_met fit pct : 0 <= pct <= 100 -> let o := optic_file fit (taper_input pct) taper_shape in o_ncap o = 1%Z /\ narrowing (o_prof o) /\ usable o [10].
Proof.
  intros Hp o. split; [reflexivity|]. split; [apply taper_narrowing|].
  unfold usable, o, optic_file, fractions, taper_input. cbn [o_dens o_iz o_wi i_dens i_elems List.map fst snd combine]. split; [lra|]. split; [discriminate|].
  split; [constructor; [cbn [fst snd]; split; [lra|lia]|constructor]|]. split; [discriminate|]. repeat constructor; lra.
Qed.

Print Assumptions C131_no_arguments.
Print Assumptions C131_threads.
Print Assumptions C131_can_end.
Print Assumptions C131_successful_run.
Print Assumptions C132_refused_input.
Print Assumptions C132_unacceptable_value.
Print Assumptions C133_unnoticed_error_refuted.
Print Assumptions C134_any_library_partial.
Print Assumptions C135_axial_photon.
Print Assumptions C135_conical_profiles.
