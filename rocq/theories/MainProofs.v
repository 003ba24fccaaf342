(** * Proofs about the command line program (MainModel.v) *)
From Coq Require Import ZArith List Bool Lia String Permutation.
From Verif Require Import Num Mem SpecHeap HeapLib ErrorModel ProfileModel ProfileProofs Geometry SpecPhoton RM ConsModel CapilModel TraceModel LaunchModel SourceModel DescProofs SrcProofs SepLib
  SpecResult ResultModel ResultProofs PropResult RunModel SpecRun PropRun SpecSim SimModel PropSched PropSim FlightRep FlightHeap FlightLaunch2 FlightProp PyModel SpecPy PyResult PyResProofs PyResInv SpecPyObj
  PyObjHeap PyObjCons PyObjProofs FromFile LineModel ProfFile FileSrc FileSrcProofs H5Lib H5Model SpecH5 H5Proofs PropH5 PropFileSrc MainModel.
Import ListNotations.
Local Notation ret := Mem.ret.
Local Notation bind := Mem.bind.
Local Notation code_of := FileSrcProofs.code_of.
Local Notation without := FlightProp.without.

Section Run.
Context {T : Type} {N : Num T}.
Local Notation blocks := (list (loc * @block T)).
Variable fit : list (T * T) -> T * T * T.
Variable names_at : list (token T) -> list Z * list Z * list Z * list (token T).
Variable disk : list Z -> option (list (token T)).
Variable open_file : string -> option (list (token T)).
Variable atoi : string -> Z.
Variable v : h5version.
Variable tabs : loc.
Implicit Types (s : st T) (w : hw T).

(** At the start: memory in order, the error variable and the (still empty) tables of the HDF5
    writer in place. *)
Definition at_start s (e : loc) : Prop := wf s /\ memory_available s /\ (exists x, mem s e = Some [x]) /\ tables_fresh tabs s.

Definition nums_of (f : file_source T) : list T := [so_d (fs_nums f); so_x (fs_nums f); so_y (fs_nums f); so_sigx (fs_nums f); so_sigy (fs_nums f); so_shx (fs_nums f); so_shy (fs_nums f); so_pol (fs_nums f)].
Definition optic_of (f : file_source T) : optic T := mkOptic (fs_prof f) (fs_ncap f) (fs_sig f) (fs_dens f) (fs_iz f) (fs_wi f).

Lemma begin_ok e args s : wf s -> memory_available s -> (exists x, mem s e = Some [x]) ->
  wp (bind (store (Some e) 0 (Vptr NULL)) (fun _ => alloc [Vstr (out_name args)]))
     (fun fn s' => exists lf, fn = Some lf /\ hs (without [e] s) [(e, [Vptr NULL]); (lf, [Vstr (out_name args)])] s') s.
Proof.
  intros W A (x & Ex). assert (H : hs (without [e] s) ([(e, [x])] : blocks) s).
  { apply (hs_intro s [(e, [x])]); auto; [repeat constructor; tauto|]. intros l b [E|[]]. injection E as <- <-. exact Ex. }
  apply wp_bind. eapply hs_store; [exact H|cbn; lia|]. cbn [Mem.set_nth]. clear H. intros s1 H.
  eapply hs_alloc; [exact H|]. clear H. intros lf s2 H. exists lf. split; [reflexivity|].
  eapply hs_perm; [|exact H]. perm.
Qed.
Lemma bind_assoc {A B C} (m : M T A) (k : A -> M T B) (k' : B -> M T C) s : bind m (fun a => bind (k a) k') s = bind (bind m k) k' s.
Proof. unfold bind, Mem.bind. destruct (m s) as [[a s']|]; reflexivity. Qed.

Lemma begin_outcome e args input ts ec f s : wf s -> memory_available s -> (exists x, mem s e = Some [x]) -> open_file input = Some ts ->
  (forall pff, source_from_file fit pff None ts = FDone ec (Some f)) ->
  exists src len lr lg bg d liz lwi lp lz lc lx lf b EB s1,
    begin_run fit names_at disk open_file e args input s = Ok ((Some src, Some lf), s1) /\ ec = code_of b /\ slot e b EB /\
    hs (without [e] s) (EB ++ srcb src len lr lg d (nums_of f) (fs_energies f) bg ++ descb d liz lwi lp lz lc lx (fs_open f) (optic_of f) ++ [(lf, [Vstr (out_name args)])]) s1.
Proof.
  intros W A Ex Ho Hr. unfold begin_run. rewrite (bind_assoc (store (Some e) 0 (Vptr NULL)) (fun _ => alloc [Vstr (out_name args)])).
  pose proof (begin_ok e args s W A Ex) as B. unfold wp in B. set (m0 := bind (store (Some e) 0 (Vptr NULL)) (fun _ => alloc [Vstr (out_name args)])) in *.
  destruct (m0 s) as [[fn s0]|] eqn:E0; [|contradiction]. destruct B as (lf & -> & H).
  pose proof (source_new_from_file_ok true fit names_at disk (without [e] s) e [(lf, [Vstr (out_name args)])] ts s0 H) as K. rewrite Hr in K. specialize (K eq_refl). unfold wp in K.
  unfold bind at 1, Mem.bind at 1. rewrite E0, Ho. unfold bind, Mem.bind. fold (@Mem.bind T).
  destruct (source_new_from_file fit names_at disk (Some (Some ts)) (Some e) s0) as [[r s1]|]; [|contradiction].
  destruct K as (src & len & lr & lg & bg & d & liz & lwi & lp & lz & lc & lx & b & EB & -> & -> & SE & H1).
  exists src, len, lr, lg, bg, d, liz, lwi, lp, lz, lc, lx, lf, b, EB, s1. auto.
Qed.

(** ** Frames of the pieces *)
Notation LS src len lr lg d liz lwi lp lz lc lx := [src; len; lr; lg; d; liz; lwi; lp; lz; lc; lx].

(** What the file must say about the optic and the source: with the open area of the simulation. *)
Definition file_input (f : file_source T) (open : T) : SpecH5.input T :=
  SpecH5.mkInput (p_nmax (fs_prof f)) (p_z (fs_prof f)) (p_cap (fs_prof f)) (p_ext (fs_prof f)) (fs_sig f) (fs_ncap f) open (fs_iz f) (fs_wi f) (fs_dens f) (so_d (fs_nums f)).

Definition objects s f open src len lr lg d liz lwi lp lz lc lx : Prop :=
  source_object s src len lr lg d (nums_of f) (fs_energies f) /\
  description_object s d liz lwi lp lz lc lx (fs_sig f) (fs_ncap f) open (fs_iz f) (fs_wi f) (fs_dens f)
    (Z.of_nat (p_nmax (fs_prof f))) (p_z (fs_prof f)) (p_cap (fs_prof f)) (p_ext (fs_prof f)).

Lemma objects_at F EB R s f src len lr lg bg d liz lwi lp lz lc lx :
  hs F (EB ++ srcb src len lr lg d (nums_of f) (fs_energies f) bg ++ descb d liz lwi lp lz lc lx (fs_open f) (optic_of f) ++ R) s ->
  objects s f (fs_open f) src len lr lg d liz lwi lp lz lc lx /\ NoDup (map fst EB ++ LS src len lr lg d liz lwi lp lz lc lx ++ map fst R).
Proof.
  intros H. assert (ND := hs_distinct _ _ _ H). rewrite !map_app in ND. unfold srcb, descb in ND. cbn [map fst app] in ND. split; [|exact ND].
  assert (In0 : forall l x, In (l, x) (srcb src len lr lg d (nums_of f) (fs_energies f) bg ++ descb d liz lwi lp lz lc lx (fs_open f) (optic_of f)) -> mem s l = Some x).
  { intros l x I. eapply hs_in; [exact H|]. rewrite app_assoc in H. rewrite !in_app_iff in *. tauto. }
  destruct (nodup_app_inv _ _ ND) as (_ & ND2 & _). split.
  - unfold source_object, dbl_array. repeat split; try (apply In0; unfold srcb; cbn; auto 12). exists bg. apply In0. unfold srcb. cbn. auto 12.
  - unfold description_object, dbl_array, int_array. repeat (split; [apply In0; unfold srcb, descb, optic_of, zlen; cbn; auto 14|]).
    change (NoDup ([src; len; lr; lg] ++ [d; liz; lwi; lp; lz; lc; lx] ++ map fst R)) in ND2.
    apply nodup_app_inv in ND2. destruct ND2 as (_ & ND2 & _). apply nodup_app_inv in ND2. apply ND2.
Qed.
Lemma objects_frame s s' f open src len lr lg d liz lwi lp lz lc lx :
  objects s f open src len lr lg d liz lwi lp lz lc lx -> (forall l, In l (LS src len lr lg d liz lwi lp lz lc lx) -> mem s' l = mem s l) ->
  objects s' f open src len lr lg d liz lwi lp lz lc lx.
Proof.
  intros [(S1 & S2 & S3 & S4) D] X. unfold objects, source_object, description_object, dbl_array, int_array in *.
  rewrite !X by (cbn; auto 14). tauto.
Qed.
Lemma objects_open s s' f open open' src len lr lg d liz lwi lp lz lc lx db :
  objects s f open src len lr lg d liz lwi lp lz lc lx -> NoDup (LS src len lr lg d liz lwi lp lz lc lx) ->
  (forall l, In l (LS src len lr lg d liz lwi lp lz lc lx) -> l <> d -> mem s' l = mem s l) ->
  mem s d = Some db -> mem s' d = Some (Mem.set_nth db 2 (Vdbl open')) ->
  objects s' f open' src len lr lg d liz lwi lp lz lc lx.
Proof.
  intros [(S1 & S2 & S3 & S4) D] ND X E1 E2. assert (X' : src <> d /\ len <> d /\ lr <> d /\ lg <> d /\ liz <> d /\ lwi <> d /\ lp <> d /\ lz <> d /\ lc <> d /\ lx <> d).
  { rewrite !NoDup_cons_iff in ND. cbn [In] in ND. intuition congruence. }
  destruct D as (D1 & D2). rewrite E1 in D1. injection D1 as ->. cbn [Mem.set_nth] in E2.
  unfold objects, source_object, description_object, dbl_array, int_array in *. rewrite E2.
  rewrite !X by (cbn; try tauto; auto 14). tauto.
Qed.

Lemma objects_input s f open src len lr lg d liz lwi lp lz lc lx : objects s f open src len lr lg d liz lwi lp lz lc lx -> sized (optic_of f) -> source_input s src (file_input f open).
Proof.
  intros (S & D) (Z1 & Z2 & Z3 & Z4). cbn in Z1, Z2, Z3, Z4. exists d, lr, lg, len, liz, lwi, lp, lz, lc, lx. eexists. eexists. split; [exact S|]. split; [exact D|]. cbn. lia.
Qed.

(** ** The end of a run *)
Lemma frees_ok s lf b eff im pen peff srcp p1 p2 p3 q f open src len lr lg d liz lwi lp lz lc lx :
  mem s lf = Some b -> result_object s eff im pen peff srcp p1 p2 p3 q -> NoDup (result_blocks eff im pen peff p1 p2 p3) ->
  objects s f open src len lr lg d liz lwi lp lz lc lx -> NoDup (LS src len lr lg d liz lwi lp lz lc lx) ->
  ~ In lf (LS src len lr lg d liz lwi lp lz lc lx) ->
  (forall l, In l (result_blocks eff im pen peff p1 p2 p3) -> l <> lf /\ ~ In l (LS src len lr lg d liz lwi lp lz lc lx)) ->
  wp (bind (free (Some lf)) (fun _ => bind (efficiencies_free (Some eff)) (fun _ => bind (source_free (Some src)) (fun _ => ret (0%Z, @None string)))))
     (fun x s' => x = (0%Z, None) /\ (forall l, In l (lf :: result_blocks eff im pen peff p1 p2 p3 ++ LS src len lr lg d liz lwi lp lz lc lx) -> mem s' l = None) /\
        same_memory_except (lf :: result_blocks eff im pen peff p1 p2 p3 ++ LS src len lr lg d liz lwi lp lz lc lx) s s') s.
Proof.
  intros Hlf Ro NDr Ob NDl Nlf Dis. set (RB := result_blocks eff im pen peff p1 p2 p3) in *.
  apply wp_bind. eapply wp_free; [exact Hlf|]. set (s1 := mkSt _ _ _ _).
  assert (X1 : forall l, l <> lf -> mem s1 l = mem s l) by (intros l Nl; unfold s1; cbn [mem]; apply upd_other; exact Nl).
  assert (X0 : mem s1 lf = None) by (unfold s1; cbn [mem]; apply upd_same). clearbody s1.
  apply wp_bind. eapply wp_mono; [apply (C66_released s1 eff im pen peff srcp p1 p2 p3 q); [|exact NDr]|].
  { eapply (ResultProofs.obj_keep s eff im pen peff srcp p1 p2 p3 q Ro). intros l I. apply X1. apply (Dis l I). }
  fold RB. intros _ s2 (Fr2 & X2). apply wp_bind. destruct Ob as (O1 & O2).
  assert (Ob2 : objects s2 f open src len lr lg d liz lwi lp lz lc lx).
  { apply (objects_frame s); [split; assumption|]. intros l I. rewrite X2 by (intros J; exact (proj2 (Dis l J) I)). apply X1. intros ->. exact (Nlf I). }
  destruct Ob2 as (O1' & O2'). eapply source_free_spec; [|exact O1'|exact O2'|exact NDl|]; [reflexivity|].
  intros s3 _ _ _ Fr3 X3. apply wp_ret. split; [reflexivity|]. split.
  - intros l I. destruct (in_dec Nat.eq_dec l (LS src len lr lg d liz lwi lp lz lc lx)) as [J|J]; [apply Fr3; exact J|]. rewrite X3 by exact J.
    destruct (in_dec Nat.eq_dec l RB) as [K|K]; [apply Fr2; exact K|]. rewrite X2 by exact K. cbn [In] in I. rewrite in_app_iff in I. destruct I as [<-|[I|I]]; [exact X0|contradiction|contradiction].
  - intros l I. cbn [In] in I. rewrite in_app_iff in I. rewrite X3 by tauto. rewrite X2 by tauto. apply X1. intros ->. tauto.
Qed.
Lemma fail_ok e o t c m w s : slot_holds s e (Some o) -> error_object s o t c m -> fail_run e w s = Ok (((1%Z, Some m), w), s).
Proof.
  intros S0 (E1 & E2 & _). unfold fail_run, lift, load_ptr, load_str, load, bind, Mem.bind. cbn [Mem.load]. unfold slot_holds in S0. unfold Mem.load. rewrite S0. cbn [nth_error]. unfold Mem.ret.
  rewrite E1. cbn [nth_error]. rewrite E2. reflexivity.
Qed.
Lemma wp_at {A} (m : M T A) Q s s' : m s = m s' -> wp m Q s' -> wp m Q s.
Proof. unfold wp. intros ->. auto. Qed.
Lemma ends_wpW (m : W T (Z * option string)) Q w s : wpW m Q w s -> exists x w' s', ends m w s = Some (x, w', s') /\ Q x w' s'.
Proof. unfold wpW, wp, ends. destruct (m w s) as [[[x w'] s']|]; [cbn; eauto|contradiction]. Qed.

Definition simulated (x : xraylib T) (f : file_source T) junk lc dist streams jobs before res : Prop :=
  simulation x (optic_of f) (fs_nums f) (fs_energies f) junk lc (Z.to_nat n_photons) dist streams jobs before res.

(** The state of the error variable and the blocks of the error. *)
Definition error_state (ec : option Z) (e : loc) (X : list loc) s : Prop :=
  match ec with
  | None => slot_holds s e NULL /\ X = []
  | Some c => exists o t m, slot_holds s e (Some o) /\ error_object s o t c m /\ X = [o; t]
  end.

Lemma run_ok e input rest omp_max progs w s ts ec f (x : xraylib T) junk dist streams jobs before r :
  at_start s e -> h5_explains w -> h5_ids w -> file_open w (out_name (input :: rest)) = false ->
  open_file input = Some ts -> (forall pff, source_from_file fit pff None ts = FDone ec (Some f)) ->
  sized (optic_of f) -> fs_energies f <> [] -> Forall (fun e => nltb e (nofZ 1) = false /\ nltb (nofZ 100) e = false) (fs_energies f) ->
  attempts_made x (optic_of f) (fs_nums f) (fs_energies f) junk (leaks_of atoi (input :: rest)) (Z.to_nat n_photons) dist streams jobs ->
  Z.of_nat (List.length dist) = team_size (threads_of atoi (input :: rest) omp_max) omp_max ->
  threads_run (optic_of f) (leaks_of atoi (input :: rest)) (List.length (fs_energies f)) 0 jobs dist None = Ret (progs (leaks_of atoi (input :: rest)), None) ->
  program fit names_at disk open_file atoi v (Some tabs) e (input :: rest) omp_max progs w s r ->
  exists x' w' s' res q, r = Some (x', w', s') /\
    simulated x f junk (leaks_of atoi (input :: rest)) dist streams jobs before res /\ SpecSim.holds q res /\
    (forall g, g <> out_name (input :: rest) -> h_disk w' g = h_disk w g) /\
    ((x' = (0%Z, None) /\ h_open w' = h_open w /\ h_disk w' (out_name (input :: rest)) = Some (result_file q (file_input f (re_open res))) /\
      exists pm pe X, error_state ec e X s' /\ all_free s (pm :: pe :: X) /\ same_memory_except (e :: tabs :: pm :: pe :: X) s s')
     \/
     (~ h5_works w /\
      (x' = (0%Z, None) \/ exists o t c m, x' = (1%Z, Some m) /\ slot_holds s' e (Some o) /\ error_object s' o t c m) /\
      (h_disk w' (out_name (input :: rest)) = None \/ (fst x' = 1%Z /\ same_library w w')))).
Proof.
  intros (W & A & Ex & Tf) HX HI HF Ho Hr Sz Hne HU Am Hd Kt Prog. remember (input :: rest) as args eqn:Eargs.
  destruct (begin_outcome e args input ts ec f s W A Ex Ho Hr) as (src & len & lr & lg & bg & d & liz & lwi & lp & lz & lc & lx & lf & b & EB & s1 & Eb & Eec & SE & H1).
  destruct (objects_at _ EB [(lf, [Vstr (out_name args)])] _ _ _ _ _ _ _ _ _ _ _ _ _ _ H1) as (Ob1 & ND1). cbn [map fst] in ND1.
  set (L := LS src len lr lg d liz lwi lp lz lc lx) in *.
  destruct (nodup_app_inv _ _ ND1) as (NDe & ND2 & De). destruct (nodup_app_inv _ _ ND2) as (NDl & _ & Dl).
  assert (Nlf : ~ In lf L) by (intros J; apply (Dl _ J); left; reflexivity).
  assert (Ie : In e (map fst EB)) by (destruct SE; left; reflexivity).
  assert (W1 : wf s1) by apply H1. assert (A1 : memory_available s1) by apply H1.
  assert (Keys : forall l, In l (map fst (EB ++ srcb src len lr lg d (nums_of f) (fs_energies f) bg ++ descb d liz lwi lp lz lc lx (fs_open f) (optic_of f) ++ [(lf, [Vstr (out_name args)])])) <-> In l (map fst EB) \/ In l L \/ l = lf).
  { intros l. rewrite !map_app, !in_app_iff. unfold srcb, descb, L. cbn [map fst In]. intuition auto. }
  assert (Fs : forall l, In l (map fst EB) \/ In l L \/ l = lf -> l <> e -> mem s l = None).
  { intros l I Nl. assert (E := proj2 (proj2 (proj2 (proj2 (proj2 H1)))) l (proj2 (Keys l) I)). rewrite FlightProp.without_nin in E; [exact E|]. intros [->|[]]. congruence. }
  assert (X1 : forall l, ~ In l (map fst EB) -> ~ In l L -> l <> lf -> mem s1 l = mem s l).
  { intros l N1 N2 N3. pose proof (proj1 (proj2 (proj2 (proj2 (proj2 H1)))) l) as K. rewrite K by (rewrite Keys; tauto). apply FlightProp.without_nin. intros [->|[]]. contradiction. }
  assert (Live1 : forall l, In l (map fst EB) \/ In l L \/ l = lf -> mem s1 l <> None).
  { intros l I. apply Keys in I. destruct (in_map_fst_ex _ _ I) as [y Iy]. rewrite (hs_in _ _ _ _ _ H1 Iy). discriminate. }
  assert (Elf : mem s1 lf = Some [Vstr (out_name args)]) by (eapply hs_in; [exact H1|rewrite !in_app_iff; right; right; right; left; reflexivity]).
  assert (Es1 : exists p, slot_holds s1 e p) by (destruct SE; eexists; eapply hs_in; [exact H1|left; reflexivity|exact H1|left; reflexivity]).
  assert (Tne : ~ In tabs (map fst EB) /\ ~ In tabs L /\ tabs <> lf).
  { assert (T0 : tabs <> e) by (intros E0; destruct Ex as (y & Ey); unfold tables_fresh in Tf; rewrite E0, Ey in Tf; discriminate).
    repeat split; intros I; assert (K : mem s tabs = None) by (apply Fs; tauto); unfold tables_fresh in Tf; congruence. }
  destruct Tne as (T1 & T2 & T3).
  assert (Sw : exists db, source_with_description s1 src len d (fs_energies f) db /\ mem s1 d = Some db).
  { destruct Ob1 as (O1 & O2). pose proof O2 as (O2' & _). eexists. split; [|exact O2'].
    split; [exists lr, lg, (nums_of f); split; [exact O1|reflexivity]|]. split; [exact O2'|]. split; [cbn; lia|].
    unfold L in NDl. rewrite !NoDup_cons_iff in NDl. cbn [In] in NDl. intuition congruence. }
  destruct Sw as (db & Sw & Edb).
  assert (Hn : Z.of_nat (Z.to_nat n_photons) = n_photons) by (apply Z2Nat.id; unfold n_photons; lia).
  assert (Hcall : forall r0, sim_call (Some src) NULL (threads_of atoi args omp_max) n_photons omp_max (Some e) (progs (leaks_of atoi args)) s1 r0 -> _) by
    (rewrite <- Hn; intros r0 Hr0; refine (C76_returned_object T N s1 src len d (fs_energies f) db (Some e) (threads_of atoi args omp_max) omp_max x (optic_of f) (fs_nums f) junk (leaks_of atoi args) (Z.to_nat n_photons) dist streams jobs _ before r0 W1 Es1 A1 Sw _ HU Am Hd Kt Hr0); destruct (fs_energies f); [congruence|cbn; lia]).
  destruct Prog as [E|i0 r0 E Bu|i0 r0 fn s1' E Bo|i0 r0 src' fn s1' E Bo C|i0 r0 src' fn s1' s2 E Bo C|i0 r0 src' fn s1' eff' s2' E Bo C];
    [congruence| | | | |]; rewrite Eargs in E; injection E as <- <-; try (rewrite Eb in Bu; discriminate); rewrite Eb in Bo; try discriminate Bo.
  - injection Bo as <- <- <-. destruct (Hcall _ C) as (? & ? & ? & ? & ? & ? & ? & ? & ? & ? & ? & _). discriminate.
  - injection Bo as <- <- <-. destruct (Hcall _ C) as (? & ? & ? & ? & ? & ? & ? & ? & ? & ? & ? & _). discriminate.
  - injection Bo as <- <- <-.
    destruct (Hcall _ C) as (eff & im & pen & peff & p1 & p2 & p3 & q & res & s2 & Er & Sim & Ro & Hh & NDr & Fr & Ed & Sm & W2 & A2). injection Er as -> ->. clear Hcall C.
    set (RB := result_blocks eff im pen peff p1 p2 p3) in *.
    assert (RBn : forall l, In l RB -> ~ In l (map fst EB) /\ ~ In l L /\ l <> lf /\ l <> tabs).
    { intros l I. assert (F0 := Fr l I). repeat split; try (intros J; apply (Live1 l); tauto).
      intros ->. rewrite X1 in F0 by tauto. unfold tables_fresh in Tf. congruence. }
    assert (dL : In d L) by (unfold L; cbn; tauto).
    assert (Tf2 : tables_fresh tabs s2).
    { unfold tables_fresh in *. rewrite Sm; [rewrite X1 by assumption; exact Tf|]. intros [->|I]; [exact (T2 dL)|]. apply (RBn _ I). reflexivity. }
    destruct (C97_first_call v s2 tabs W2 A2 Tf2) as (s3 & pm & pe & W3 & Tr3 & Sm3 & Fpm & Fpe & A3 & Ewr).
    assert (Live2 : forall l, In l (map fst EB) \/ In l L \/ l = lf -> mem s2 l <> None).
    { intros l I. destruct (Nat.eq_dec l d) as [->|Nd]; [rewrite Ed; discriminate|]. rewrite Sm; [apply Live1; exact I|]. intros [K|K]; [congruence|]. pose proof (RBn l K). tauto. }
    assert (RBlive : forall l, In l RB -> mem s2 l <> None) by (intros l I; eapply result_live; [exact Ro|exact I]).
    assert (S32 : forall l, In l (map fst EB) \/ In l L \/ l = lf \/ In l RB -> mem s3 l = mem s2 l).
    { intros l I. assert (Lv : mem s2 l <> None) by (destruct I as [I|[I|[I|I]]]; [apply Live2|apply Live2|apply Live2|apply RBlive]; tauto).
      apply Sm3. intros [K|[K|[K|[]]]]; subst l; try congruence. destruct I as [I|[I|[I|I]]]; [tauto|tauto|tauto|]. pose proof (RBn _ I). tauto. }
    assert (S31 : forall l, In l (map fst EB) \/ In l L \/ l = lf -> l <> d -> mem s3 l = mem s1 l).
    { intros l I Nd. rewrite S32 by tauto. apply Sm. intros [K|K]; [congruence|]. pose proof (RBn l K). tauto. }
    assert (dne : forall l, In l (map fst EB) \/ l = lf -> l <> d).
    { intros l [I| ->] ->; [apply (De _ I); apply in_or_app; auto|exact (Nlf dL)]. }
    assert (Ob3 : objects s3 f (re_open res) src len lr lg d liz lwi lp lz lc lx).
    { eapply objects_open; [exact Ob1|exact NDl| |exact Edb|]; [intros l I Nd; apply S31; auto|]. rewrite S32 by tauto. exact Ed. }
    assert (Ro3 : result_object s3 eff im pen peff (Some src) p1 p2 p3 q) by (eapply (ResultProofs.obj_keep s2 eff im pen peff _ p1 p2 p3 q Ro); intros l I; apply S32; tauto).
    assert (Elf3 : mem s3 lf = Some [Vstr (out_name args)]) by (rewrite S31; [exact Elf|tauto|apply dne; tauto]).
    assert (Es3 : error_state ec e (tl (map fst EB)) s3 /\ legal_err s3 (Some e)).
    { assert (Z1 : forall l y, In (l, y) EB -> mem s3 l = Some y).
      { intros l y I. assert (J : In l (map fst EB)) by (apply in_map_iff; exists (l, y); auto). rewrite S31; [|tauto|apply dne; tauto]. eapply hs_in; [exact H1|apply in_or_app; auto]. }
      rewrite Eec. destruct SE as [|o t m]; cbn [FileSrcProofs.code_of error_state map fst tl].
      - split; [split; [apply Z1; left; reflexivity|reflexivity]|]. exists NULL. apply Z1. left. reflexivity.
      - assert (Se : slot_holds s3 e (Some o)) by (apply Z1; left; reflexivity). split; [|exists (Some o); exact Se]. exists o, t, m. split; [exact Se|]. split; [|reflexivity].
        split; [apply Z1; right; left; reflexivity|]. split; [apply Z1; right; right; left; reflexivity|].
        cbn [map fst] in NDe. rewrite !NoDup_cons_iff in NDe. cbn [In] in NDe. intuition congruence. }
    destruct Es3 as (Es3 & Le3).
    assert (Hw := C96_write_hdf5 v w s3 tabs eff im src (Some e) (out_name args) pen peff p1 p2 p3 q (file_input f (re_open res)) W3 Le3 Tr3 HX HI HF (or_intror (or_introl A3)) (or_introl A3) Ro3 (objects_input _ _ _ _ _ _ _ _ _ _ _ _ _ _ Ob3 Sz)).
    assert (Dis : forall l, In l RB -> l <> lf /\ ~ In l L) by (intros l I; pose proof (RBn l I); tauto).
    assert (Fin : forall s4, (forall l y, mem s3 l = Some y -> l <> e -> mem s4 l = Some y) -> wp (bind (free (Some lf)) (fun _ => bind (efficiencies_free (Some eff)) (fun _ => bind (source_free (Some src)) (fun _ => ret (0%Z, @None string)))))
       (fun x s' => x = (0%Z, None) /\ (forall l, In l (lf :: RB ++ L) -> mem s' l = None) /\ same_memory_except (lf :: RB ++ L) s4 s') s4).
    { intros s4 K. assert (K' : forall l, In l L \/ l = lf \/ In l RB -> mem s4 l = mem s3 l).
      { intros l I. destruct (mem s3 l) as [y|] eqn:Ey; [apply K; [exact Ey|]|].
        - intros ->. destruct I as [I|[I|I]]; [apply (De _ Ie), in_or_app; auto|apply (De _ Ie), in_or_app; subst; cbn; auto|]. pose proof (RBn _ I). tauto.
        - exfalso. rewrite S32 in Ey by tauto. destruct I as [I|[I|I]]; [apply (Live2 l)|apply (Live2 l)|apply (RBlive l)]; tauto. }
      apply (frees_ok s4 lf [Vstr (out_name args)] eff im pen peff (Some src) p1 p2 p3 q f (re_open res)); auto.
      - rewrite K' by tauto. exact Elf3.
      - eapply (ResultProofs.obj_keep s3 eff im pen peff _ p1 p2 p3 q Ro3). intros l I. apply K'. tauto.
      - eapply objects_frame; [exact Ob3|]. intros l I. apply K'. tauto. }
    assert (Main : wpW (end_run v (Some tabs) e (Some lf) (Some src) (Some eff)) (fun x' w' s' =>
      (forall g, g <> out_name args -> h_disk w' g = h_disk w g) /\
      ((x' = (0%Z, None) /\ h_open w' = h_open w /\ h_disk w' (out_name args) = Some (result_file q (file_input f (re_open res))) /\
        exists pm pe X, error_state ec e X s' /\ all_free s (pm :: pe :: X) /\ same_memory_except (e :: tabs :: pm :: pe :: X) s s')
       \/ (~ h5_works w /\ (x' = (0%Z, None) \/ exists o t c m, x' = (1%Z, Some m) /\ slot_holds s' e (Some o) /\ error_object s' o t c m) /\
           (h_disk w' (out_name args) = None \/ (fst x' = 1%Z /\ same_library w w'))))) w s2).
    { unfold end_run. apply wpW_bind. apply wpW_lift. unfold name_at. apply wp_bind. eapply wp_load_str; [rewrite <- (S32 lf) by tauto; exact Elf3|reflexivity|]. apply wp_ret.
      apply wpW_bind. unfold wpW at 1. apply (wp_at _ _ s2 s3 (Ewr _ _ _ _)). eapply wp_mono; [exact Hw|]. clear Hw. intros [ok w'] s4 (Oth & Cs). cbn [fst snd] in *.
      assert (Og : forall g, g <> out_name args -> h_disk w' g = h_disk w g) by (intros g Hg; apply Oth; exact Hg).
      destruct Cs as [(-> & Sm4 & Hop & Hdk)|(Nw & (c & Hc & Fk & Fe) & Cl)].
      - apply wpW_lift. eapply wp_mono; [apply (Fin s4)|]; [intros l y Ey _; rewrite Sm4; exact Ey|].
        intros x' s' (-> & Fr' & Sm'). split; [exact Og|]. left. split; [reflexivity|]. split; [exact Hop|]. split; [exact Hdk|].
        exists pm, pe, (tl (map fst EB)).
        assert (Eb' : forall l, In l (map fst EB) -> mem s' l = mem s3 l).
        { intros l I. rewrite Sm', Sm4; [reflexivity|]. cbn [In]. rewrite in_app_iff. intros [<-|[J|J]]; [|pose proof (RBn _ J); tauto|].
          - apply (De _ I), in_or_app. cbn. auto.
          - apply (De _ I), in_or_app. auto. }
        split; [|split].
        + revert Es3 Eb'. rewrite Eec. destruct SE as [|o t m]; cbn [FileSrcProofs.code_of error_state map fst tl]; intros Es3 Eb'.
          * destruct Es3 as (Z1 & Z2). split; [|reflexivity]. unfold slot_holds in *. rewrite Eb' by (left; reflexivity). exact Z1.
          * destruct Es3 as (o' & t' & m' & Z1 & (Z2 & Z3 & Z4) & Z5). injection Z5 as <- <-. exists o, t, m'. unfold slot_holds, error_object in *. rewrite !Eb' by (cbn; auto). auto.
        + assert (P0 : forall l, mem s2 l = None -> mem s l = None).
          { intros l E0. assert (Nl : ~ (In l (map fst EB) \/ In l L \/ l = lf)) by (intros I; exact (Live2 l I E0)).
            rewrite <- X1 by tauto. destruct (in_dec Nat.eq_dec l RB) as [J|J]; [apply Fr; exact J|]. rewrite <- Sm; [exact E0|]. intros [<-|K]; [tauto|contradiction]. }
          intros l [<-|[<-|I]]; [apply P0; exact Fpm|apply P0; exact Fpe|]. apply Fs.
          * left. destruct SE; cbn [map fst tl In] in *; tauto.
          * intros ->. clear - SE NDe I. destruct SE; cbn [map fst tl In] in *; [tauto|]. rewrite !NoDup_cons_iff in NDe. cbn [In] in NDe. tauto.
        + intros l I. cbn [In] in I.
          assert (Nb : ~ In l (map fst EB)) by (intros J; destruct SE; cbn [map fst tl In] in *; intuition congruence).
          destruct (in_dec Nat.eq_dec l (lf :: RB ++ L)) as [J|J].
          * rewrite (Fr' l J). cbn [In] in J. rewrite in_app_iff in J. destruct J as [<-|[J|J]]; symmetry.
            -- apply Fs; [tauto|]. intros ->. tauto.
            -- pose proof (RBn l J). rewrite <- X1 by tauto. apply Fr. exact J.
            -- apply Fs; [tauto|]. intros ->. tauto.
          * rewrite Sm' by exact J. rewrite Sm4. cbn [In] in J. rewrite in_app_iff in J. rewrite Sm3 by (cbn [In]; intuition congruence). rewrite Sm by (intros [<-|K]; tauto).
            apply X1; [exact Nb|tauto|intros ->; tauto].
      - assert (Fk' : forall l y, mem s3 l = Some y -> l <> e -> mem s4 l = Some y) by (intros l y Ey Nl; apply Fk; [exact Ey|tauto|congruence]).
        assert (Nw' : ~ h5_works w) by (intros K; apply Nw; auto).
        destruct ok.
        + apply wpW_lift. eapply wp_mono; [apply (Fin s4 Fk')|]. intros x' s' (-> & _). split; [exact Og|]. right. split; [exact Nw'|]. split; [left; reflexivity|].
          destruct Cl as [(Hd0 & _)|(K & _)]; [left; exact Hd0|discriminate].
        + destruct (Fe e eq_refl) as (Fe1 & Fe2).
          assert (Ob : exists o t c m, slot_holds s4 e (Some o) /\ error_object s4 o t c m).
          { unfold error_state in Es3. destruct ec as [c1|].
            - destruct Es3 as (o & t & m & Z1 & (Z2 & Z3 & Z4) & Z5). exists o, t, c1, m. split; [apply Fe2; exact Z1|].
              assert (o <> e /\ t <> e) by (destruct SE; cbn [map fst tl] in Z5; [discriminate|]; injection Z5 as <- <-; cbn [map fst] in NDe; rewrite !NoDup_cons_iff in NDe; cbn [In] in NDe; intuition congruence).
              split; [apply Fk'; tauto|]. split; [apply Fk'; tauto|exact Z4].
            - destruct Es3 as (Z1 & _). destruct (Fe1 Z1) as (o & t & m & Z2 & Z3 & _). exists o, t, c, m. auto. }
          destruct Ob as (o & t & c1 & m & Z1 & Z2). unfold wpW, wp. rewrite (fail_ok e o t c1 m w' s4 Z1 Z2). cbn [fst snd].
          split; [exact Og|]. right. split; [exact Nw'|]. split; [right; exists o, t, c1, m; auto|].
          destruct Cl as [(Hd0 & _)|(_ & K)]; [left; exact Hd0|right; auto]. }
    destruct (ends_wpW _ _ _ _ Main) as (x' & w' & s' & Ee & Hq). rewrite Ee. exists x', w', s', res, q. split; [reflexivity|]. split; [exact Sim|]. split; [exact Hh|]. exact Hq.
Qed.
End Run.
