(** * The constructors leave the allocator as it is *)
From Coq Require Import ZArith List Bool Lia String Permutation.
From Verif Require Import Num Mem SpecHeap HeapLib ErrorModel ErrorProofs ProfileModel ProfileProofs Geometry ConsModel CapilModel SepLib PyModel PyResProofs PyResInv.
Import ListNotations.
Local Notation ret := Mem.ret.
Local Notation bind := Mem.bind.

Section Keep.
Context {T : Type} {N : Num T}.
Implicit Types (err : eslot).

Lemma keeps_set_error err c m : keeps (@set_error T err c m).
Proof. unfold set_error, error_new, strdup, error_free. keep. Qed.
Lemma keeps_reject_if b err m (k : M T ptr) : keeps k -> keeps (reject_if b err m k).
Proof. intros K. unfold reject_if. destruct b; [|exact K]. apply keeps_bind; [apply keeps_set_error_literal|intros _; apply keeps_ret]. Qed.
Lemma keeps_reject_if' b err m (k : M T ptr) : keeps k -> keeps (reject_if' b err m k).
Proof. intros K. unfold reject_if'. destruct b; [|exact K]. apply keeps_bind; [apply keeps_set_error|intros _; apply keeps_ret]. Qed.
Lemma keeps_clear_error err : keeps (@clear_error T err).
Proof. unfold clear_error, error_free. keep. Qed.
Lemma keeps_invalid err m : keeps (@invalid T err m).
Proof. apply keeps_set_error_literal. Qed.
Lemma keeps_mem_error' err m : keeps (@ProfileModel.mem_error T err m).
Proof. apply keeps_set_error. Qed.
Lemma keeps_sum_loop wi : forall n i a, keeps (@sum_loop T N n i wi a).
Proof. induction n as [|n IH]; intros i a; cbn [sum_loop]; keep; apply IH. Qed.
Lemma keeps_percent_loop wi err : forall n i a, keeps (@percent_loop T N n i wi a err).
Proof.
  induction n as [|n IH]; intros i a; cbn [percent_loop]; [keep|].
  apply keeps_bind; [keep|intros x]. apply keeps_bind; [keep|intros _]. apply keeps_bind; [keep|intros y].
  destruct (nltb y _); [|apply IH]. apply keeps_bind; [apply keeps_set_error_literal|intros _; keep].
Qed.
Lemma keeps_iz_loop iz : forall n i, keeps (@iz_loop T n i iz).
Proof. induction n as [|n IH]; intros i; cbn [iz_loop]; keep; apply IH. Qed.
Lemma keeps_energy_loop p : forall n i, keeps (@energy_loop T N n i p).
Proof. induction n as [|n IH]; intros i; cbn [energy_loop]; keep; apply IH. Qed.
Lemma keeps_read_dbls p : forall n i, keeps (@read_dbls T n i p).
Proof. induction n as [|n IH]; intros i; cbn [read_dbls]; [keep|]. apply keeps_bind; [keep|intros x]. apply keeps_bind; [apply IH|intros r; keep]. Qed.
Lemma keeps_check_weight n wi err : keeps (@check_weight T N n wi err).
Proof.
  unfold check_weight. apply keeps_bind; [apply keeps_sum_loop|intros x]. apply keeps_bind; [destruct (nltb _ _); [apply keeps_percent_loop|keep]|intros [y|]; [|keep]].
  destruct (neqb _ _); [keep|apply keeps_set_error_literal].
Qed.
Lemma keeps_validate_heap p n err : keeps (@validate_heap T N p n err).
Proof.
  unfold validate_heap. destruct p; [|apply keeps_bind; [apply keeps_set_error_literal|intros; keep]].
  do 4 (apply keeps_bind; [keep|intros ?]). do 3 (apply keeps_bind; [apply keeps_read_dbls|intros ?]).
  destruct (profile_validate _ _); [|keep]. apply keeps_bind; [|intros; keep]. destruct (Z.eqb _ _); [apply keeps_set_error_literal|keep].
Qed.
Ltac step :=
  repeat first [apply keeps_mem_error' | apply keeps_set_error | apply keeps_set_error_literal | apply keeps_clear_error | apply keeps_invalid | apply keeps_validate_heap
    | apply keeps_sum_loop | apply keeps_percent_loop | apply keeps_read_dbls | apply keeps_check_weight | apply keeps_iz_loop | apply keeps_energy_loop | apply keeps_reject_if | apply keeps_reject_if' | progress keep].
Lemma keeps_profile_new fit type len a b c d e f err : keeps (@profile_new T N fit type len a b c d e f err).
Proof.
  unfold profile_new. repeat (apply keeps_reject_if). unfold profile_alloc, profile_fill. generalize npts. intros n.
  unfold fill_body, fill_body2, fill_body3. cbv zeta. step.
Qed.
Lemma keeps_from_arrays n a b c err : keeps (@profile_new_from_arrays T n a b c err).
Proof. unfold profile_new_from_arrays. step. Qed.
Lemma keeps_description_new p sig n k iz wi dens err : keeps (@description_new T N p sig n k iz wi dens err).
Proof. unfold description_new, description_profile, copy_elem, copy_point. step. Qed.
Lemma keeps_profile_free p : keeps (@profile_free T p).
Proof. unfold profile_free, free_if. step. Qed.
Lemma keeps_description_free p : keeps (@description_free T p).
Proof. unfold description_free, free_if. destruct p; [|keep]. apply keeps_bind; [keep|intros q]. apply keeps_bind; [apply keeps_profile_free|intros _]. step. Qed.
Lemma keeps_source_free p : keeps (@source_free T p).
Proof. unfold source_free, free_if, rng_free. destruct p; [|keep]. apply keeps_bind; [keep|intros q]. apply keeps_bind; [apply keeps_description_free|intros _]. step. Qed.
Lemma keeps_source_new d a b c e f g h i n k err : keeps (@source_new T N d a b c e f g h i n k err).
Proof.
  unfold source_new, rng_new. repeat first [apply keeps_description_new | apply keeps_source_free | apply keeps_reject_if | apply keeps_bind; [|intros ?] | progress step].
  - apply keeps_description_free.
  - unfold rng_free. keep.
  - unfold free_if. keep.
Qed.
End Keep.
