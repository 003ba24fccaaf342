(** * The beginning of the program looks at the supply of memory only when it allocates *)
From Coq Require Import ZArith List Bool Lia String.
From Verif Require Import Num Mem SpecHeap HeapLib ErrorModel ProfileModel Geometry ConsModel SourceModel FromFile LineModel ProfFile FileSrc OomFile H5Lib H5Model MainModel.
Import ListNotations.
Local Notation ret := Mem.ret.
Local Notation bind := Mem.bind.

Section Oks.
Context {T : Type} {N : Num T}.
Local Notation token := (token T).

Ltac okone := first
  [ apply oks_ret | apply oks_ub | eapply okn_oks, okn_alloc | eapply okn_oks, okn_free | eapply okn_oks, okn_load_int | eapply okn_oks, okn_load_ptr | eapply okn_oks, okn_load_dbl
  | eapply okn_oks, okn_store | apply oks_set_error | apply oks_profile_free | apply oks_description_free | apply oks_source_free | eapply okn_oks, okn_rng_new | eapply okn_oks, okn_fscan_from
  | eapply okn_oks, okn_scan_elems | apply oks_free_if | assumption ].
Ltac okall := repeat match goal with
  | |- oks (bind _ _) => apply oks_bind; [|intros ?]
  | |- oks (malloc _) => unfold malloc
  | |- oks (match ?x with _ => _ end) => destruct x
  | |- oks (if ?x then _ else _) => destruct x
  | |- oks (let '(_, _) := ?x in _) => destruct x
  | |- oks _ => okone
  end.

Lemma oks_literal err c m : oks (set_error_literal (T := T) err c m).
Proof. unfold set_error_literal, error_new, strdup, error_free. okall. Qed.
Lemma oks_clear err : oks (clear_error (T := T) err).
Proof. unfold clear_error, error_free. okall. Qed.
Lemma oks_load_str p i : oks (load_str (T := T) p i).
Proof. unfold load_str. apply oks_bind; [eapply okn_oks, okn_load|]. intros [| | | |]; first [apply oks_ret|apply oks_ub]. Qed.
Lemma oks_for_n (f : nat -> M T unit) : (forall i, oks (f i)) -> forall n i, oks (for_n n i f).
Proof. intros H. induction n as [|n IH]; intros i; cbn [for_n]; [apply oks_ret|]. apply oks_bind; [apply H|intros _; apply IH]. Qed.
Lemma oks_fill z cap ext l a b g n i : oks (ProfileModel.fill_body (T := T) z cap ext l a b g n i).
Proof. unfold ProfileModel.fill_body. okall. Qed.
Lemma oks_fill2 z cap l a b n i : oks (fill_body2 (T := T) z cap l a b n i).
Proof. unfold fill_body2. okall. Qed.
Lemma oks_fill3 z ext g n i : oks (fill_body3 (T := T) z ext g n i).
Proof. unfold fill_body3. okall. Qed.
Lemma oks_sum n : forall i wi x, oks (sum_loop (T := T) n i wi x).
Proof. induction n as [|n IH]; intros; cbn [sum_loop]; okall. apply IH. Qed.
Lemma oks_percent n : forall i wi x err, oks (percent_loop (T := T) n i wi x err).
Proof. induction n as [|n IH]; intros; cbn [percent_loop]; okall; first [apply oks_literal|apply IH]. Qed.
Lemma oks_reads n : forall i p, oks (read_dbls (T := T) n i p).
Proof. induction n as [|n IH]; intros; cbn [read_dbls]; okall. apply IH. Qed.
Lemma oks_iz n : forall i p, oks (iz_loop94 (T := T) n i p).
Proof. induction n as [|n IH]; intros; cbn [iz_loop94]; okall. apply IH. Qed.
Lemma oks_en n : forall i p, oks (energy_loop (T := T) n i p).
Proof. induction n as [|n IH]; intros; cbn [energy_loop]; okall. apply IH. Qed.
Lemma oks_check n wi err : oks (check_weight (T := T) n wi err).
Proof. unfold check_weight. apply oks_bind; [apply oks_sum|intros ?]. apply oks_bind; [destruct (nltb _ _); [apply oks_percent|apply oks_ret]|intros ?]. okall; apply oks_literal. Qed.
Lemma oks_validate p n err : oks (validate_heap (T := T) p n err).
Proof. unfold validate_heap. okall; first [apply oks_literal|apply oks_reads]. Qed.
Lemma oks_refuse c src err m (k : M T (ptr * nat)) : oks k -> oks (refuse c src err m k).
Proof. intros H. unfold refuse, invalid. okall. apply oks_literal. Qed.
Lemma oks_checks d src err ts : oks (source_checks (T := T) d src err ts).
Proof.
  unfold source_checks, fscan. repeat first [apply oks_refuse|apply oks_check|apply oks_validate|apply oks_en|apply oks_iz|apply oks_clear|okone
    |match goal with |- oks (bind _ _) => apply oks_bind; [|intros ?] | |- oks (if ?x then _ else _) => destruct x end].
Qed.
Lemma oks_profile fit type l a b c d f g err : oks (profile_new (T := T) fit type l a b c d f g err).
Proof.
  unfold profile_new, reject_if, profile_alloc, profile_fill, mem_error, invalid.
  repeat first [apply oks_literal|apply oks_for_n; intros ?|apply oks_fill|apply oks_fill2|apply oks_fill3|okone
    |match goal with |- oks (bind _ _) => apply oks_bind; [|intros ?] | |- oks (malloc _) => unfold malloc | |- oks (if ?x then _ else _) => destruct x | |- oks (match ?x with _ => _ end) => destruct x end].
Qed.
Lemma oks_cells targets : forall ts, oks (fscan_cells (T := T) targets ts).
Proof. induction targets as [|t r IH]; intros ts; cbn [fscan_cells]; okall; apply IH. Qed.
Lemma oks_rows k : forall i row ts, oks (scan_rows (T := T) k i row ts).
Proof. induction k as [|k IH]; intros; cbn [scan_rows]; [apply oks_ret|]. apply oks_bind; [apply oks_cells|intros ?; apply IH]. Qed.
Lemma oks_next name p n m row f err (k : M T (ptr * nat)) : oks k -> oks (next_file name p n m row f err k).
Proof.
  intros H. unfold next_file. destruct f as [ts|]; [|okall]. destruct (scan_count (Some m) ts) as [[x|] u]; [|okall]. destruct (Z.eqb n x); [|okall].
  apply oks_bind; [apply oks_rows|intros ?; exact H].
Qed.
Lemma oks_pff f1 f2 f3 err : oks (profile_new_from_file (T := T) f1 f2 f3 err).
Proof.
  unfold profile_new_from_file, file_alloc, mem_error.
  repeat first [apply oks_literal|apply oks_next|apply oks_rows|okone
    |match goal with |- oks (bind _ _) => apply oks_bind; [|intros ?] | |- oks (malloc _) => unfold malloc | |- oks (if ?x then _ else _) => destruct x | |- oks (match ?x with _ => _ end) => destruct x end].
Qed.
Lemma oks_realloc p n : oks (LineModel.realloc (T := T) p n).
Proof.
  intros s o a s' E. unfold LineModel.realloc in *. destruct p as [l|]; [|exact (okn_oks 1 _ (okn_alloc _) s o a s' E)].
  destruct (mem s l) as [b|] eqn:M; [|discriminate]. destruct (orc s (cnt s)) eqn:O; inversion E; subst; cbn [cnt orc mem nxt]; (split; [lia|]); (split; [reflexivity|]);
    intros Q; unfold swap; cbn [orc cnt mem nxt]; rewrite M, (Q (cnt s)) by lia; rewrite O; reflexivity.
Qed.
Lemma oks_loop stream : forall p j size, oks (read_loop (T := T) stream p j size).
Proof. induction stream as [|c r IH]; intros; cbn [read_loop]; okall; first [apply oks_realloc|apply IH]. Qed.
Lemma oks_line f err : oks (read_input_line (T := T) f err).
Proof. unfold read_input_line, mem_error. destruct f; okall; first [apply oks_literal|apply oks_loop|apply oks_realloc|idtac]. Qed.
Lemma oks_named disk p : oks (named_file (T := T) disk p).
Proof.
  intros s o a s' E. unfold named_file in *. destruct p as [l|].
  - destruct (mem s l) as [b|] eqn:M; [|discriminate]. destruct (read_bytes b) eqn:R; [|discriminate]. inversion E; subst. split; [lia|]. split; [reflexivity|].
    intros _. unfold swap. cbn [mem]. rewrite M, R. reflexivity.
  - inversion E; subst. split; [lia|]. split; [reflexivity|]. intros _. reflexivity.
Qed.
Lemma oks_src_profile fit names_at disk type d src err ts : oks (source_profile (T := T) fit names_at disk type d src err ts).
Proof.
  unfold source_profile. destruct (_ || _)%bool.
  - destruct (read_dbl_vars 7 ts) as [[vs u]|]; [|apply oks_ub].
    repeat match goal with |- oks (match ?x with _ => _ end) => destruct x end; try apply oks_ub.
    apply oks_bind; [apply oks_profile|intros ?]. okall. apply oks_checks.
  - destruct (names_at ts) as [[[l1 l2] l3] u].
    repeat first [apply oks_line|apply oks_named|apply oks_pff|apply oks_checks|okone
      |match goal with |- oks (bind _ _) => apply oks_bind; [|intros ?] | |- oks (match ?x with _ => _ end) => destruct x end].
Qed.
Lemma oks_tables fit names_at disk d src err ts : oks (source_tables (T := T) fit names_at disk d src err ts).
Proof.
  unfold source_tables, fscan, mem_error.
  repeat first [apply oks_src_profile|apply oks_for_n; intros ?|okone
    |match goal with |- oks (bind _ _) => apply oks_bind; [|intros ?] | |- oks (malloc _) => unfold malloc | |- oks (if ?x then _ else _) => destruct x | |- oks (match ?x with _ => _ end) => destruct x end].
Qed.
Lemma oks_checked targets src err m ts (k : list token -> M T (ptr * nat)) : (forall ts, oks (k ts)) -> oks (FileSrc.checked targets src err m ts k).
Proof. intros H. unfold FileSrc.checked, fscan. apply oks_bind; [eapply okn_oks, okn_fscan_from|intros r]. destruct (Z.eqb _ _); [okall|apply H]. Qed.
Lemma oks_file fit names_at disk file err : oks (source_new_from_file (T := T) fit names_at disk file err).
Proof.
  unfold source_new_from_file, invalid, mem_error.
  repeat first [apply oks_literal|apply oks_tables|apply oks_checked; intros ?|okone
    |match goal with |- oks (bind _ _) => apply oks_bind; [|intros ?] | |- oks (match ?x with _ => _ end) => destruct x end].
Qed.
Lemma oks_begin fit names_at disk open_file e args input : oks (begin_run (T := T) fit names_at disk open_file e args input).
Proof.
  unfold begin_run. apply oks_bind; [okone|intros _]. apply oks_bind; [okone|intros fn]. apply oks_bind; [apply oks_file|intros r; apply oks_ret].
Qed.
End Oks.
