(** * Property theorems: sources from input files, in memory (C127 - C130)

    [source_new_from_file fit names_at disk file err] is polycap_source_new_from_file; [file] is
    [None] for a NULL name, [Some None] for a file that cannot be opened, [Some (Some ts)] for a
    file with the tokens [ts].  The result is the pointer returned and the number of files
    opened and not closed.  Vocabulary: SpecInput.v, SpecHeap.v. *)
From Coq Require Import ZArith List Bool Lia Reals Lra String Permutation.
From Verif Require Import Num Mem SpecHeap HeapLib ErrorModel ProfileModel ProfileProofs Geometry ConsModel CapilModel DescProofs SrcProofs ConsReal ProfileReal SepLib
  FlightRep FlightHeap FlightLaunch2 FlightProp PyModel PyResProofs PyResInv SpecPyObj PyObjHeap PyObjCons PyObjProofs SourceModel FromFile FromFileProofs LineModel ProfFile
  SpecInput FileSrc FileSrcProofs FileSrcRead.
Import ListNotations.
Local Notation ret := Mem.ret.
Local Notation bind := Mem.bind.

Section Any.
Context {T : Type} {N : Num T}.
Local Notation blocks := (list (loc * @block T)).
Variable fit : list (T * T) -> T * T * T.
Variable names_at : list (token T) -> list Z * list Z * list Z * list (token T).
Variable disk : list Z -> option (list (token T)).
Implicit Types (s : st T).

Lemma slot_hs s le : wf s -> memory_available s -> slot_holds s le NULL -> hs (without [le] s) ([(le, [Vptr NULL])] : blocks) s.
Proof.
  intros W A H. apply (hs_intro s [(le, [Vptr NULL])]); auto.
  - repeat constructor. tauto.
  - intros l b [E|[]]. injection E as <- <-. exact H.
Qed.
Lemma hs_new s le (L : blocks) s' l b : hs (without [le] s) L s' -> In (l, b) L -> l <> le -> mem s l = None.
Proof.
  intros H I Ne. assert (E := proj2 (proj2 (proj2 (proj2 (proj2 H)))) l (in_map fst _ _ I)).
  rewrite without_nin in E; [exact E|]. intros [->|[]]. congruence.
Qed.
Lemma hs_rest s le (L : blocks) s' : hs (without [le] s) L s' -> In le (map fst L) -> same_memory_except (map fst L) s s'.
Proof.
  intros (_ & _ & _ & _ & H & _) I l Hl. rewrite H by exact Hl. apply without_nin. intros [->|[]]. contradiction.
Qed.
Lemma reported_hs s le c m o t s' : slot_holds s le NULL ->
  hs (without [le] s) [(le, [Vptr (Some o)]); (o, [Vint c; Vptr (Some t)]); (t, [Vstr m])] s' -> error_reported (Some le) c m s s'.
Proof.
  intros Sl H. split.
  2:{ intros e E. unfold slot_holds in *. rewrite Sl in E. discriminate. }
  intros _. pose proof (hs_distinct _ _ _ H) as ND. cbn in ND. inversion ND as [|? ? N1 ND1]; subst. inversion ND1 as [|? ? N2 _]; subst.
  exists o, t. split; [eapply hs_in; [exact H|left; reflexivity]|]. split.
  { split; [eapply hs_in; [exact H|right; left; reflexivity]|]. split; [eapply hs_in; [exact H|right; right; left; reflexivity]|]. intros ->. apply N2. left. reflexivity. }
  split; [eapply hs_new; [exact H|right; left; reflexivity|]; intros ->; apply N1; cbn; auto|].
  split; [eapply hs_new; [exact H|right; right; left; reflexivity|]; intros ->; apply N1; cbn; auto|].
  apply (hs_rest s le _ s' H). left. reflexivity.
Qed.
Lemma refused_reported s le c r s' : slot_holds s le NULL -> refused (without [le] s) le [] c r s' ->
  fst r = NULL /\ (c = POLYCAP_ERROR_IO -> snd r = 1) /\ exists m, error_reported (Some le) c m s s'.
Proof. intros Sl (o & t & m & E1 & _ & E2 & H). split; [exact E1|]. split; [exact E2|]. exists m. eapply reported_hs; eauto. Qed.

Lemma any_done ts e r s le : wf s -> memory_available s -> slot_holds s le NULL ->
  (forall pff, source_from_file fit pff None ts = FDone e r) ->
  wp (source_new_from_file fit names_at disk (Some (Some ts)) (Some le)) (outcome (fun _ _ _ _ _ => False) (without [le] s) le [] e r) s.
Proof.
  intros W A Sl E. pose proof (source_new_from_file_ok true fit names_at disk (without [le] s) le [] ts s (slot_hs s le W A Sl)) as H.
  rewrite E in H. exact (H eq_refl).
Qed.

(** C130: whatever is in the file: what reading it gives ([source_from_file], the subject of
    C23, C55 and C90; [pff], the profiles of other files, is not consulted) is what happens in
    memory.  Either NULL and exactly one error, with everything else as it was, or a source made
    of new blocks; in both cases undefined behaviour only where C55 has it. *)
Definition file_object s s' (f : file_source T) (src len lr lg d liz lwi lp lz lc lx : loc) : Prop :=
  source_object s' src len lr lg d [so_d (fs_nums f); so_x (fs_nums f); so_y (fs_nums f); so_sigx (fs_nums f); so_sigy (fs_nums f); so_shx (fs_nums f); so_shy (fs_nums f); so_pol (fs_nums f)] (fs_energies f) /\
  description_object s' d liz lwi lp lz lc lx (fs_sig f) (fs_ncap f) (fs_open f) (fs_iz f) (fs_wi f) (fs_dens f)
    (Z.of_nat (p_nmax (fs_prof f))) (p_z (fs_prof f)) (p_cap (fs_prof f)) (p_ext (fs_prof f)) /\
  NoDup [src; len; lr; lg; d; liz; lwi; lp; lz; lc; lx] /\ all_free s [src; len; lr; lg; d; liz; lwi; lp; lz; lc; lx].

Lemma made_object s le b EB f src len lr lg bg d liz lwi lp lz lc lx s' : slot_holds s le NULL -> slot le b EB ->
  hs (without [le] s) (EB ++ srcb src len lr lg d [so_d (fs_nums f); so_x (fs_nums f); so_y (fs_nums f); so_sigx (fs_nums f); so_sigy (fs_nums f); so_shx (fs_nums f); so_shy (fs_nums f); so_pol (fs_nums f)] (fs_energies f) bg ++
          descb d liz lwi lp lz lc lx (fs_open f) (mkOptic (fs_prof f) (fs_ncap f) (fs_sig f) (fs_dens f) (fs_iz f) (fs_wi f)) ++ []) s' ->
  file_object s s' f src len lr lg d liz lwi lp lz lc lx /\ same_memory_except (map fst EB ++ [src; len; lr; lg; d; liz; lwi; lp; lz; lc; lx]) s s'.
Proof.
  intros Sl SE H. rewrite app_nil_r in H. unfold srcb, descb in H. cbn [o_rough o_ncap o_iz o_wi o_dens o_prof app] in H.
  match type of H with hs _ (EB ++ ?L) _ => set (L0 := L) in H; assert (EL : L0 = L) by reflexivity end.
  assert (ND := hs_distinct _ _ _ H). rewrite map_app in ND. destruct (nodup_app_inv _ _ ND) as (_ & ND2 & Dj).
  assert (EM : map fst L0 = [src; len; lr; lg; d; liz; lwi; lp; lz; lc; lx]) by reflexivity.
  assert (Ile : In le (map fst EB)) by (destruct SE; cbn; auto).
  assert (In0 : forall l x, In (l, x) L0 -> mem s' l = Some x) by (intros l x I; eapply hs_in; [exact H|apply in_or_app; right; exact I]).
  split; [|rewrite <- EM, <- map_app; apply (hs_rest s le _ s' H); rewrite map_app; apply in_or_app; left; exact Ile].
  rewrite EM in ND2. split; [|split; [|split; [exact ND2|]]].
  - unfold source_object, dbl_array. repeat split; try (apply In0; rewrite EL; cbn; auto 12). exists bg. apply In0. rewrite EL. cbn. auto 12.
  - unfold description_object, dbl_array, int_array. repeat (split; [apply In0; rewrite EL; unfold zlen; cbn; auto 14|]).
    clear -ND2. do 4 (apply NoDup_cons_iff in ND2; destruct ND2 as [_ ND2]). exact ND2.
  - intros l I. rewrite <- EM in I. destruct (in_map_fst_ex _ _ I) as [x Ix]. eapply hs_new; [exact H|apply in_or_app; right; exact Ix|].
    intros ->. exact (Dj _ Ile I).
Qed.

Theorem C130_any_file :
  forall ts e r s le, wf s -> memory_available s -> slot_holds s le NULL ->
    (forall pff, source_from_file fit pff None ts = FDone e r) ->
    wp (source_new_from_file fit names_at disk (Some (Some ts)) (Some le))
       (fun res s' => match r with
          | None => fst res = NULL /\ exists c m, e = Some c /\ error_reported (Some le) c m s s'
          | Some f => exists src len lr lg d liz lwi lp lz lc lx, res = (Some src, 0) /\
              file_object s s' f src len lr lg d liz lwi lp lz lc lx /\
              match e with
              | None => same_memory_except [src; len; lr; lg; d; liz; lwi; lp; lz; lc; lx] s s'
              | Some c => exists o t m, slot_holds s' le (Some o) /\ error_object s' o t c m /\
                  same_memory_except [le; o; t; src; len; lr; lg; d; liz; lwi; lp; lz; lc; lx] s s'
              end
          end) s.
Proof.
  intros ts e r s le W A Sl E. eapply wp_mono; [apply (any_done ts e r s le W A Sl E)|]. intros res s' H. destruct r as [f|].
  - destruct H as (src & len & lr & lg & bg & d & liz & lwi & lp & lz & lc & lx & b & EB & -> & -> & SE & H).
    exists src, len, lr, lg, d, liz, lwi, lp, lz, lc, lx. split; [reflexivity|]. destruct (made_object _ _ _ _ _ _ _ _ _ _ _ _ _ _ _ _ _ _ Sl SE H) as [FO X].
    split; [exact FO|]. inversion SE; subst; cbn [code_of map fst app] in *.
    + intros l I. destruct (Nat.eq_dec l le) as [->|Nl]; [|apply X; cbn [In] in *; intuition congruence].
      rewrite Sl. eapply hs_in; [exact H|left; reflexivity].
    + exists o, t, m. split; [eapply hs_in; [exact H|left; reflexivity]|]. split; [|exact X].
      split; [eapply hs_in; [exact H|right; left; reflexivity]|]. split; [eapply hs_in; [exact H|right; right; left; reflexivity]|].
      apply hs_distinct in H. cbn [map fst app] in H. apply NoDup_cons_iff in H. destruct H as [_ H]. apply NoDup_cons_iff in H. destruct H as [H _]. intros ->. apply H. left. reflexivity.
  - destruct e as [c|]; [|contradiction]. apply refused_reported in H; [|exact Sl]. rename H into R. destruct R as (E1 & _ & m & E2). split; [exact E1|]. eauto.
Qed.
Theorem C130_undefined_only_there :
  forall ts s le, wf s -> memory_available s -> slot_holds s le NULL ->
    (forall pff, source_from_file fit pff None ts = FUB) ->
    source_new_from_file fit names_at disk (Some (Some ts)) (Some le) s = UB.
Proof.
  intros ts s le W A Sl E. pose proof (source_new_from_file_ok false fit names_at disk (without [le] s) le [] ts s (slot_hs s le W A Sl)) as H.
  rewrite E in H. exact (H eq_refl).
Qed.

(** A source from a file is given back completely by polycap_source_free. *)
Theorem C130_freed :
  forall ts e f s le, wf s -> memory_available s -> slot_holds s le NULL ->
    (forall pff, source_from_file fit pff None ts = FDone e (Some f)) ->
    wp (bind (source_new_from_file fit names_at disk (Some (Some ts)) (Some le)) (fun r => bind (source_free (fst r)) (fun _ => clear_error (Some le))))
       (fun _ s' => same_memory s s') s.
Proof.
  intros ts e f s le W A Sl E. apply wp_bind. eapply wp_mono; [apply (any_done ts e (Some f) s le W A Sl E)|]. intros res s' H.
  destruct H as (src & len & lr & lg & bg & d & liz & lwi & lp & lz & lc & lx & b & EB & -> & -> & SE & H). cbn [fst]. rewrite app_nil_r in H.
  match type of H with hs ?F0 (EB ++ ?S0 ++ ?D0) ?s0 => pose proof (hs_perm F0 (EB ++ S0 ++ D0) (S0 ++ D0 ++ EB) s0 ltac:(perm) H) as H1 end.
  apply wp_bind. eapply hs_source_free; [|exact H1|]; [reflexivity|]. clear H H1. intros s1 H1.
  eapply hs_clear; [exact SE|rewrite app_nil_r; exact H1|]. clear H1. intros s2 H2 l.
  destruct (Nat.eq_dec l le) as [->|Nl]; [rewrite (hs_in _ _ _ _ _ H2 (or_introl eq_refl)); symmetry; exact Sl|].
  destruct H2 as (_ & _ & _ & _ & H2 & _). rewrite H2 by (cbn; intuition congruence). apply without_nin. cbn. intuition congruence.
Qed.

(** C128, any numbers: refusals before anything is read.  NULL, exactly one error of the right
    kind, everything else as it was, nothing left open. *)
Theorem C128_null_name :
  forall s le, wf s -> memory_available s -> slot_holds s le NULL ->
    wp (source_new_from_file fit names_at disk None (Some le))
       (fun r s' => r = (NULL, 0) /\ exists m, error_reported (Some le) POLYCAP_ERROR_INVALID_ARGUMENT m s s') s.
Proof.
  intros s le W A Sl. unfold source_new_from_file. apply wp_bind. apply (hs_first_report (without [le] s) true le _ _ [] _ s (slot_hs s le W A Sl)).
  intros o t s' H. apply wp_ret. split; [reflexivity|]. eexists. eapply reported_hs; [exact Sl|exact H].
Qed.
Theorem C128_unopened_file :
  forall s le, wf s -> memory_available s -> slot_holds s le NULL ->
    wp (source_new_from_file fit names_at disk (Some None) (Some le))
       (fun r s' => r = (NULL, 0) /\ exists m, error_reported (Some le) POLYCAP_ERROR_IO m s s') s.
Proof.
  intros s le W A Sl. pose proof (slot_hs s le W A Sl) as H. set (F := without [le] s) in *. set (s0 := s) in *. assert (Sl' : slot_holds s0 le NULL) by exact Sl. clearbody s0.
  unfold source_new_from_file. apply wp_bind. eapply hs_alloc; [exact H|]. clear H. intros d s1 H.
  apply wp_bind. eapply hs_alloc; [exact H|]. clear H. intros src s2 H. unfold src_zero, desc_zero in H. cbn [repeat app] in H.
  apply wp_bind. eapply hs_store; [exact H|cbn; lia|]. cbn [set_nth]. clear H. intros s3 H.
  unfold rng_new. apply wp_bind. apply wp_bind. eapply hs_alloc; [exact H|]. clear H. intros lr s4 H. apply wp_bind. eapply hs_malloc; [exact H|]. clear H. intros lg s5 H.
  pull lr H. apply wp_bind. eapply hs_store; [exact H|cbn; lia|]. cbn [set_nth]. clear H. intros s6 H.
  pull lg H. apply wp_bind. eapply hs_store; [exact H|cbn; lia|]. cbn [set_nth]. clear H. intros s7 H. apply wp_ret.
  pull src H. apply wp_bind. eapply hs_store; [exact H|cbn; lia|]. cbn [set_nth]. clear H. intros s8 H.
  pull le H. apply wp_bind.
  match goal with |- wp (set_error _ _ (Some ?msg)) _ _ => change (set_error (Some le) POLYCAP_ERROR_IO (Some msg)) with (report_fn false (Some le) POLYCAP_ERROR_IO msg : M T unit) end.
  eapply hs_first_report; [exact H|]. clear H. intros o t s9 H. apply wp_bind.
  match type of H with context [(t, [Vstr ?msg])] => match type of H with context [(lg, ?bg)] =>
  eapply (hs_source_drop F src d lr lg bg [(#0); (#0); (#0); (#0); (#0); (#0); (#0); (#0)]%num 0%Z NULL (#0)%num 0%Z (#0)%num 0%Z NULL NULL (#0)%num NULL [] [] [] []
     ((le, [Vptr (Some o)]) :: (o, [Vint POLYCAP_ERROR_IO; Vptr (Some t)]) :: (t, [Vstr msg]) :: [])); [reflexivity|constructor|constructor|constructor|constructor| |] end end.
  - unfold srcblk, dblk. cbn [List.map app]. eapply hs_perm; [|exact H]. perm.
  - clear H. intros s10 H. apply wp_ret. split; [reflexivity|]. eexists. eapply reported_hs; [exact Sl'|exact H].
Qed.
(** A token that is no number among the first nine, or no whole number in the tenth place: the
    error is reported, but the file stays open (C129). *)
Lemma garbage_file :
  forall nums t rest s le, wf s -> memory_available s -> slot_holds s le NULL ->
    Forall (fun t : token T => as_dbl t <> None) nums -> (List.length nums < 9 /\ as_dbl t = None) \/ (List.length nums = 9 /\ as_int t = None) ->
    wp (source_new_from_file fit names_at disk (Some (Some (nums ++ t :: rest))) (Some le))
       (fun r s' => r = (NULL, 1) /\ exists m, error_reported (Some le) POLYCAP_ERROR_IO m s s') s.
Proof.
  intros nums t rest s le W A Sl FA G. eapply wp_mono; [apply (any_done (nums ++ t :: rest) (Some POLYCAP_ERROR_IO) None s le W A Sl); intros pff; apply read_garbage; auto|].
  intros r s' R. cbn [outcome] in R. apply refused_reported in R; [|exact Sl]. destruct R as (E1 & E2 & m & E3). destruct r as [p k]. cbn [fst snd] in *.
  rewrite E1, (E2 eq_refl). eauto.
Qed.
Theorem C128_not_a_number :
  forall nums t rest s le, wf s -> memory_available s -> slot_holds s le NULL ->
    Forall (fun t : token T => as_dbl t <> None) nums -> (List.length nums < 9 /\ as_dbl t = None) \/ (List.length nums = 9 /\ as_int t = None) ->
    wp (source_new_from_file fit names_at disk (Some (Some (nums ++ t :: rest))) (Some le))
       (fun r s' => fst r = NULL /\ exists m, error_reported (Some le) POLYCAP_ERROR_IO m s s') s.
Proof. intros. eapply wp_mono; [apply garbage_file; auto|]. cbn. intros r s' [-> E]. auto. Qed.

(** C129: a file that was opened is closed again.  True when a source is handed out ... *)
Theorem C129_closed_on_success_partial :
  forall ts e f s le, wf s -> memory_available s -> slot_holds s le NULL ->
    (forall pff, source_from_file fit pff None ts = FDone e (Some f)) ->
    wp (source_new_from_file fit names_at disk (Some (Some ts)) (Some le)) (fun r _ => snd r = 0) s.
Proof.
  intros ts e f s le W A Sl E. eapply wp_mono; [apply (any_done ts e (Some f) s le W A Sl E)|].
  intros r s' (src & len & lr & lg & bg & d & liz & lwi & lp & lz & lc & lx & b & EB & -> & _). reflexivity.
Qed.
(** ... but false when a number cannot be read: the file stays open. *)
Theorem C129_left_open_refuted :
  forall nums t rest s le, wf s -> memory_available s -> slot_holds s le NULL ->
    Forall (fun t : token T => as_dbl t <> None) nums -> (List.length nums < 9 /\ as_dbl t = None) \/ (List.length nums = 9 /\ as_int t = None) ->
    wp (source_new_from_file fit names_at disk (Some (Some (nums ++ t :: rest))) (Some le)) (fun r _ => r = (NULL, 1)) s.
Proof. intros. eapply wp_mono; [apply garbage_file; auto|]. cbn. tauto. Qed.

End Any.

Local Open Scope R_scope.

(** ** Complete files, over the real numbers *)
(** The profile of shape [h] polycap_profile_new makes. *)
Definition shape_profile fit (type : Z) (h : shape R) : profile R :=
  mkProfile 999 (List.map (fun i => h_len h / 999 * INR i) (seq 0 1000))
    (List.map (fun i => (h_rint_down h - h_rint_up h) / h_len h * (h_len h / 999 * INR i) + h_rint_up h) (seq 0 1000))
    (List.map (pe fit type (h_len h) (h_rext_up h) (h_rext_down h) (h_foc_up h) (h_foc_down h)) (seq 0 1000)).
(** [n] energies fit between the first and the last. *)
Definition energy_count (c : input R) (n : nat) : Prop := INR n <= (i_last c - i_first c) / i_step c + 1 < INR n + 1.
Definition energies (c : input R) (n : nat) : list R := List.map (fun i => i_first c + INR i * i_step c) (seq 0 n).
(** What polycap_source_new_from_file asks for. *)
Definition acceptable fit (c : input R) (h : shape R) (n : nat) : Prop :=
  0 <= i_d c /\ 0 <= i_x c /\ 0 <= i_y c /\ Forall (fun x => 1 <= x <= 100) (energies c n) /\
  (1 <= i_ncap c)%Z /\ (1 <= List.length (i_elems c))%nat /\ Forall (fun e => 1 <= fst e <= 94)%Z (i_elems c) /\ 0 <= i_dens c /\
  good_args (h_len h) (h_rext_up h) (h_rext_down h) (h_rint_up h) (h_rint_down h) (h_foc_up h) (h_foc_down h) /\
  let a := shape_profile fit (i_type c) h in
  0 <= open_area_num (i_ncap c) (hd 0 (p_cap a)) (hd 0 (p_ext a)) <= 1 /\ profile_validate a (i_ncap c) = Some 1%Z.
Definition fractions (c : input R) : list R := List.map (fun e => snd e / 100) (i_elems c).

Lemma count_Z c n : 0 < i_step c -> i_first c <= i_last c -> energy_count c n -> ntoZ ((i_last c - i_first c) / i_step c + #1)%num = Some (Z.of_nat n) /\ (1 <= n)%nat.
Proof.
  intros Ps Le (C1 & C2). assert (0 <= (i_last c - i_first c) / i_step c) by (apply Rmult_le_pos; [lra|left; apply Rinv_0_lt_compat; lra]).
  split.
  - destruct (ntoZ ((i_last c - i_first c) / i_step c + #1)%num) as [m|] eqn:E.
    + revert E. rnum. unfold R_trunc. destruct (Rle_dec 0 ((i_last c - i_first c) / i_step c + 1)) as [L|L]; [|lra].
      intros K. inversion K as [K']. rewrite K'. f_equal. apply eq_sym, Zle_antisym.
      * apply Zlt_succ_le, lt_IZR. unfold Z.succ. rewrite plus_IZR, <- INR_IZR_INZ. pose proof (Int_part_bounds ((i_last c - i_first c) / i_step c + 1)). rewrite K' in *. lra.
      * apply Zlt_succ_le, lt_IZR. unfold Z.succ. rewrite plus_IZR, <- INR_IZR_INZ. pose proof (Int_part_bounds ((i_last c - i_first c) / i_step c + 1)). rewrite K' in *. lra.
    + exfalso. revert E. rnum. unfold R_trunc. destruct (Rle_dec _ _); discriminate.
  - destruct n as [|n]; [cbn in C2; lra|lia].
Qed.
Lemma energies_file c n : file_energies (i_first c) (i_step c) n = energies c n.
Proof. unfold file_energies, energies. apply map_ext. intros i. rewrite INR_IZR_INZ. reflexivity. Qed.
Lemma shape_value fit type h : good_args (h_len h) (h_rext_up h) (h_rext_down h) (h_rint_up h) (h_rint_down h) (h_foc_up h) (h_foc_down h) ->
  profile_value fit type (h_len h) (h_rext_up h) (h_rext_down h) (h_rint_up h) (h_rint_down h) (h_foc_up h) (h_foc_down h) = Some (shape_profile fit type h).
Proof.
  intros G. unfold profile_value. rewrite (proj2 (arg_error_good _ _ _ _ _ _ _) G). unfold shape_profile, npts.
  assert (EZ : forall i, pz (h_len h) i = h_len h / 999 * INR i) by (intros i; rewrite INR_IZR_INZ; reflexivity).
  f_equal. f_equal; apply map_ext; intros i; [apply EZ|]. unfold pc. rewrite EZ. reflexivity.
Qed.

Lemma finish_hd (f0 : file_source R) : p_cap (fs_prof f0) <> [] -> p_ext (fs_prof f0) <> [] ->
  finish None f0 =
    let nw := norm_weights (fs_wi f0) in
    let e := if snd nw then None else Some POLYCAP_ERROR_INVALID_ARGUMENT in
    let f := mkFS (fs_nums f0) (fs_energies f0) (fs_sig f0) (fs_ncap f0) (open_area_num (fs_ncap f0) (hd 0 (p_cap (fs_prof f0))) (hd 0 (p_ext (fs_prof f0))))
                  (fs_iz f0) (fst nw) (fs_dens f0) (fs_prof f0) in
    if file_checks f then FDone (Some POLYCAP_ERROR_INVALID_ARGUMENT) None
    else match profile_validate (fs_prof f0) (fs_ncap f0) with
         | None => FUB
         | Some v => if Z.eqb v 1 then FDone e (Some f) else FDone (Some POLYCAP_ERROR_INVALID_ARGUMENT) None
         end.
Proof.
  intros H1 H2. unfold finish. destruct (p_cap (fs_prof f0)) as [|c0 cs]; [congruence|]. destruct (p_ext (fs_prof f0)) as [|e0 es]; [congruence|].
  cbv zeta. cbn [hd]. destruct (snd (norm_weights (fs_wi f0))); reflexivity.
Qed.
Lemma file_checks_ok (f : file_source R) :
  0 <= so_d (fs_nums f) -> 0 <= so_x (fs_nums f) -> 0 <= so_y (fs_nums f) ->
  (1 <= List.length (fs_energies f))%nat -> Forall (fun x => 1 <= x <= 100) (fs_energies f) ->
  (1 <= fs_ncap f)%Z -> 0 <= fs_open f <= 1 ->
  (1 <= List.length (fs_iz f))%nat -> Forall (fun z => 1 <= z <= 94)%Z (fs_iz f) -> 0 <= fs_dens f -> file_checks f = false.
Proof.
  intros H1 H2 H3 H4 H5 H6 H7 H8 H9 H10. unfold file_checks. rewrite !orb_false_iff. rnum. repeat split.
  1-3,7,8,11: apply Rltb_false; lra.
  - apply Nat.leb_gt. lia.
  - apply not_true_iff_false. intros K. apply existsb_exists in K. destruct K as (x & Ix & K). rewrite Forall_forall in H5. specialize (H5 x Ix).
    rewrite !Rltb_false in K by lra. discriminate.
  - apply Z.ltb_ge. lia.
  - apply Nat.ltb_ge. lia.
  - apply not_true_iff_false. intros K. apply existsb_exists in K. destruct K as (x & Ix & K). rewrite Forall_forall in H9. specialize (H9 x Ix).
    apply orb_true_iff in K. rewrite !Z.ltb_lt in K. lia.
Qed.

Lemma seq_ne {A} (g : nat -> A) : List.map g (seq 0 1000) <> [].
Proof. change (seq 0 1000) with (0 :: seq 1 999)%nat. generalize (seq 1 999). discriminate. Qed.
Lemma shape_sized fit type h : well_sized (shape_profile fit type h).
Proof. unfold well_sized, shape_profile. cbn [p_z p_cap p_ext p_nmax]. rewrite !map_length, !seq_length. repeat split. Qed.

(** What reading a complete file gives. *)
Definition the_source fit (c : input R) (h : shape R) (n : nat) (ws : list R) : file_source R :=
  let a := shape_profile fit (i_type c) h in
  mkFS (mkSource (i_d c) (i_x c) (i_y c) (i_sx c) (i_sy c) (i_hx c) (i_hy c) (i_pol c)) (energies c n)
    (i_sig c) (i_ncap c) (open_area_num (i_ncap c) (hd 0 (p_cap a)) (hd 0 (p_ext a))) (List.map fst (i_elems c)) ws (i_dens c) a.
Lemma read_acceptable fit pff c h ts n :
  complete_file c h ts -> (0 <= i_type c <= 2)%Z -> 0 < i_step c -> i_first c <= i_last c -> energy_count c n -> acceptable fit c h n ->
  source_from_file fit pff None ts =
    FDone (if snd (norm_weights (fractions c)) then None else Some POLYCAP_ERROR_INVALID_ARGUMENT) (Some (the_source fit c h n (fst (norm_weights (fractions c))))).
Proof.
  intros Cf Ht Ps Le Ec (A1 & A2 & A3 & A4 & A5 & A6 & A7 & A8 & A9 & A10 & A11). destruct (count_Z c n Ps Le Ec) as [En Pn].
  rewrite (read_complete fit pff c h ts (Z.of_nat n) Cf Ht En ltac:(lia)), (shape_value fit _ h A9).
  rewrite finish_hd by (apply seq_ne). unfold read_source. rewrite Nat2Z.id, energies_file. cbn [fs_wi fs_prof fs_nums fs_energies fs_sig fs_ncap fs_iz fs_dens].
  change (List.map (fun e : Z * R => (snd e / #100)%num) (i_elems c)) with (fractions c). cbv zeta.
  change (mkFS _ _ _ _ _ _ _ _ _) with (the_source fit c h n (fst (norm_weights (fractions c)))).
  rewrite file_checks_ok, A11; [reflexivity|..]; cbn [the_source fs_nums fs_energies fs_ncap fs_open fs_iz fs_dens so_d so_x so_y]; auto.
  - unfold energies. rewrite map_length, seq_length. exact Pn.
  - rewrite map_length. exact A6.
  - apply Forall_map. exact A7.
Qed.
Lemma read_unacceptable fit pff c h ts n :
  complete_file c h ts -> (0 <= i_type c <= 2)%Z -> 0 < i_step c -> i_first c <= i_last c -> energy_count c n -> ~ acceptable fit c h n ->
  source_from_file fit pff None ts = FDone (Some POLYCAP_ERROR_INVALID_ARGUMENT) None.
Proof.
  intros Cf Ht Ps Le Ec NA. destruct (count_Z c n Ps Le Ec) as [En Pn].
  rewrite (read_complete fit pff c h ts (Z.of_nat n) Cf Ht En ltac:(lia)).
  destruct (profile_value fit (i_type c) (h_len h) (h_rext_up h) (h_rext_down h) (h_rint_up h) (h_rint_down h) (h_foc_up h) (h_foc_down h)) as [a|] eqn:PV; [|reflexivity].
  assert (G : good_args (h_len h) (h_rext_up h) (h_rext_down h) (h_rint_up h) (h_rint_down h) (h_foc_up h) (h_foc_down h)).
  { apply arg_error_good. unfold profile_value in PV. destruct (arg_error _ _ _ _ _ _ _); [discriminate|reflexivity]. }
  rewrite (shape_value fit _ h G) in PV. injection PV as <-.
  rewrite finish_hd by (apply seq_ne). unfold read_source. rewrite Nat2Z.id, energies_file. cbn [fs_wi fs_prof fs_nums fs_energies fs_sig fs_ncap fs_iz fs_dens].
  change (List.map (fun e : Z * R => (snd e / #100)%num) (i_elems c)) with (fractions c). cbv zeta.
  change (mkFS _ _ _ _ _ _ _ _ _) with (the_source fit c h n (fst (norm_weights (fractions c)))).
  destruct (file_checks _) eqn:FC; [reflexivity|]. destruct (validate_some (shape_profile fit (i_type c) h) (i_ncap c)) as [v Ev]; [apply shape_sized|].
  rewrite Ev. destruct (Z.eqb_spec v 1) as [->|]; [|reflexivity]. exfalso. apply NA.
  apply file_checks_R in FC. cbn [the_source fs_nums fs_energies fs_ncap fs_open fs_iz fs_dens so_d so_x so_y] in FC.
  destruct FC as (B1 & B2 & B3 & B4 & B5 & B6 & B7 & B8 & B9 & B10). rewrite map_length in B8. apply Forall_map in B9.
  unfold acceptable. cbv zeta. tauto.
Qed.

(** C127: a complete file whose percentages add up to 100 and whose values are acceptable gives
    the source it describes, in new blocks, and nothing else: the nine numbers of the beginning
    in their places, the energies from the first on in equal steps up to the last, percentages
    as fractions, the profile of polycap_profile_new, the open area of the entrance. *)
Theorem C127_complete_file :
  forall fit names_at disk c h ts n s le,
    wf s -> memory_available s -> slot_holds s le NULL ->
    complete_file c h ts -> (0 <= i_type c <= 2)%Z -> 0 < i_step c -> i_first c <= i_last c -> energy_count c n ->
    acceptable fit c h n -> Rsum (List.map snd (i_elems c)) = 100 ->
    wp (source_new_from_file fit names_at disk (Some (Some ts)) (Some le))
       (fun r s' => exists src len lr lg d liz lwi lp lz lc lx, r = (Some src, 0%nat) /\
          source_object s' src len lr lg d [i_d c; i_x c; i_y c; i_sx c; i_sy c; i_hx c; i_hy c; i_pol c] (energies c n) /\
          (let a := shape_profile fit (i_type c) h in
           description_object s' d liz lwi lp lz lc lx (i_sig c) (i_ncap c) (open_area_num (i_ncap c) (hd 0 (p_cap a)) (hd 0 (p_ext a)))
             (List.map fst (i_elems c)) (fractions c) (i_dens c) 999 (p_z a) (p_cap a) (p_ext a)) /\
          NoDup [src; len; lr; lg; d; liz; lwi; lp; lz; lc; lx] /\ all_free s [src; len; lr; lg; d; liz; lwi; lp; lz; lc; lx] /\
          same_memory_except [src; len; lr; lg; d; liz; lwi; lp; lz; lc; lx] s s') s.
Proof.
  intros fit names_at disk c h ts n s le W A Sl Cf Ht Ps Le Ec Ac Sm.
  assert (S1 : Rsum (fractions c) = 1).
  { unfold fractions. rewrite <- (map_map snd (fun w => w / 100)), Rsum_div, Sm. field. }
  destruct (norm_weights_one _ S1) as [N1 N2].
  eapply wp_mono; [apply (C130_any_file fit names_at disk ts None (Some (the_source fit c h n (fractions c))) s le W A Sl)|].
  - intros pff. rewrite (read_acceptable fit pff c h ts n Cf Ht Ps Le Ec Ac), N1, N2. reflexivity.
  - intros r s' (src & len & lr & lg & d & liz & lwi & lp & lz & lc & lx & E & (F1 & F2 & F3 & F4) & X).
    exists src, len, lr, lg, d, liz, lwi, lp, lz, lc, lx. split; [exact E|]. split; [exact F1|]. split; [exact F2|]. split; [exact F3|]. split; [exact F4|exact X].
Qed.

(** C128, over the reals: a complete file with a value that is not acceptable. *)
Theorem C128_unacceptable_value :
  forall fit names_at disk c h ts n s le,
    wf s -> memory_available s -> slot_holds s le NULL ->
    complete_file c h ts -> (0 <= i_type c <= 2)%Z -> 0 < i_step c -> i_first c <= i_last c -> energy_count c n ->
    ~ acceptable fit c h n ->
    wp (source_new_from_file fit names_at disk (Some (Some ts)) (Some le))
       (fun r s' => fst r = NULL /\ exists m, error_reported (Some le) POLYCAP_ERROR_INVALID_ARGUMENT m s s') s.
Proof.
  intros fit names_at disk c h ts n s le W A Sl Cf Ht Ps Le Ec NA.
  eapply wp_mono; [apply (C130_any_file fit names_at disk ts (Some POLYCAP_ERROR_INVALID_ARGUMENT) None s le W A Sl)|].
  - intros pff. apply (read_unacceptable fit pff c h ts n); assumption.
  - cbn. intros r s' (E1 & c0 & m & E2 & E3). injection E2 as <-. eauto.
Qed.
(** But percentages that do not add up to 100 are only reported: the source is handed out all
    the same, together with the error. *)
Theorem C128_bad_percentages_refuted :
  forall fit names_at disk c h ts n s le,
    wf s -> memory_available s -> slot_holds s le NULL ->
    complete_file c h ts -> (0 <= i_type c <= 2)%Z -> 0 < i_step c -> i_first c <= i_last c -> energy_count c n ->
    acceptable fit c h n -> Rsum (List.map snd (i_elems c)) < 100 ->
    wp (source_new_from_file fit names_at disk (Some (Some ts)) (Some le))
       (fun r s' => exists src o t m, r = (Some src, 0%nat) /\ mem s src = None /\ mem s' src <> None /\
          slot_holds s' le (Some o) /\ error_object s' o t POLYCAP_ERROR_INVALID_ARGUMENT m) s.
Proof.
  intros fit names_at disk c h ts n s le W A Sl Cf Ht Ps Le Ec Ac Sm.
  assert (S1 : Rsum (fractions c) < 1).
  { unfold fractions. rewrite <- (map_map snd (fun w => w / 100)), Rsum_div. lra. }
  destruct (norm_weights_R (fractions c)) as (N1 & N2 & _).
  assert (N3 : snd (norm_weights (fractions c)) = false).
  { destruct (snd (norm_weights (fractions c))); [|reflexivity]. exfalso. destruct (proj1 N1 eq_refl) as [K|[K _]]; lra. }
  eapply wp_mono; [apply (C130_any_file fit names_at disk ts (Some POLYCAP_ERROR_INVALID_ARGUMENT) (Some (the_source fit c h n (fractions c))) s le W A Sl)|].
  - intros pff. rewrite (read_acceptable fit pff c h ts n Cf Ht Ps Le Ec Ac), N3, N2 by lra. reflexivity.
  - intros r s' (src & len & lr & lg & d & liz & lwi & lp & lz & lc & lx & E & (F1 & F2 & F3 & F4) & o & t & m & X1 & X2 & X3).
    exists src, o, t, m. split; [exact E|]. split; [apply F4; left; reflexivity|]. split; [|auto].
    destruct F1 as (F1 & _). rewrite F1. discriminate.
Qed.

(** ** The hypotheses are met *)
Definition demo_input (pct : R) : input R := mkInput (1/2) 10 1 1 (-1) (-1) 0 0 0 [(8%Z, pct)] 2 10 10 1 1 0 1.
Definition demo_shape : shape R := mkShape 10 1 1 (1/2) (1/2) 1 1.
Example demo_complete pct : complete_file (demo_input pct) demo_shape (demo_file (1/2) 10 1 1 0 pct 2 8).
Proof. exists []. unfold lists. exists (demo_file (1/2) 10 1 1 0 pct 2 8). split; [rewrite app_nil_r; reflexivity|]. unfold demo_file. cbn. repeat constructor. Qed.
Lemma demo_profile fit : shape_profile fit 0 demo_shape = straight fit.
Proof.
  assert (EZ : forall i, 10 / 999 * INR i = pz 10 i) by (intros i; rewrite INR_IZR_INZ; reflexivity).
  unfold shape_profile, straight, demo_shape, npts. cbn [h_len h_rext_up h_rext_down h_rint_up h_rint_down h_foc_up h_foc_down].
  generalize (seq 0 1000). intros l. f_equal; apply map_ext; intros i; [apply EZ|]. rewrite EZ. reflexivity.
Qed.
Example demo_count pct : energy_count (demo_input pct) 1.
Proof. unfold energy_count. cbn [i_last i_first i_step demo_input INR]. lra. Qed.
Example demo_acceptable fit pct : acceptable fit (demo_input pct) demo_shape 1.
Proof.
  unfold acceptable. cbn [i_d i_x i_y i_ncap i_elems i_dens i_type demo_input List.length fst]. rewrite demo_profile.
  destruct (straight_heads fit) as (cs & es & E1 & E2). cbv zeta. rewrite E1, E2, (straight_valid fit). cbn [hd].
  repeat match goal with |- _ /\ _ => split end; try lra; try lia; try apply straight_open; auto.
  - unfold energies. cbn. constructor; [lra|constructor].
  - repeat constructor; cbn; lia.
  - unfold good_args, demo_shape; cbn [h_len h_rext_up h_rext_down h_rint_up h_rint_down h_foc_up h_foc_down]; lra.
Qed.
Example demo_sum : Rsum (List.map snd (i_elems (demo_input 100))) = 100 /\ Rsum (List.map snd (i_elems (demo_input 40))) < 100.
Proof. cbn. lra. Qed.
Example demo_unacceptable fit : ~ acceptable fit (mkInput (1/2) 10 1 1 (-1) (-1) 0 0 0 [(95%Z, 100)] 2 10 10 1 1 0 1) demo_shape 1.
Proof. intros (_ & _ & _ & _ & _ & _ & H & _). apply Forall_inv in H. cbn in H. lia. Qed.
Example demo_reads fit pff : exists f, source_from_file fit pff None (demo_file (1/2) 10 1 1 0 100 2 8) = FDone None (Some f).
Proof.
  eexists. rewrite (read_acceptable fit pff (demo_input 100) demo_shape _ 1 (demo_complete 100)); cbn [demo_input i_type i_step i_first i_last]; try lra; try lia.
  - rewrite (proj1 (norm_weights_one (fractions (demo_input 100)) ltac:(cbn; lra))). reflexivity.
  - apply demo_count.
  - apply demo_acceptable.
Qed.
Definition numtok : token R := mkTok (Some 1) (Some 1%Z).
Definition wordtok : token R := mkTok None None.
Example demo_garbage : Forall (fun t : token R => as_dbl t <> None) [numtok; numtok] /\ (2 < 9 /\ as_dbl wordtok = None)%nat.
Proof. repeat constructor; discriminate. Qed.
Definition slot_only : st R := mkSt (fun l => if Nat.eqb l 0 then Some [Vptr NULL] else None) 1%nat (fun _ => true) 0%nat.
Example slot_only_ok : wf slot_only /\ memory_available slot_only /\ slot_holds slot_only 0%nat NULL.
Proof.
  split; [|split; [|reflexivity]].
  - intros l H. cbn in *. destruct (Nat.eqb_spec l 0); [lia|reflexivity].
  - intros n. reflexivity.
Qed.
Print Assumptions C127_complete_file.
Print Assumptions C128_unacceptable_value.
Print Assumptions C130_any_file.
