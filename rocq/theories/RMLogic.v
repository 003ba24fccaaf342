(** * Partial-correctness reasoning for the RM monad *)
From Coq Require Import ZArith List Bool Lia.
From Verif Require Import RM.
Import ListNotations.

(** Every returning run of [m] yields a value satisfying [Q]. *)
Definition post {A} (m : RM A) (Q : A -> Prop) : Prop := forall e a e', m e = Ret (a, e') -> Q a.

Lemma post_ret {A} (a : A) (Q : A -> Prop) : Q a -> post (ret a) Q.
Proof. intros H e b e' K. unfold ret in K. injection K as <- <-. exact H. Qed.
Lemma post_bind {A B} (m : RM A) (f : A -> RM B) (P : A -> Prop) (Q : B -> Prop) :
  post m P -> (forall a, P a -> post (f a) Q) -> post (bind m f) Q.
Proof.
  intros Hm Hf e b e' K. unfold bind in K. destruct (m e) as [[a e1]| |] eqn:E; try discriminate.
  exact (Hf a (Hm _ _ _ E) _ _ _ K).
Qed.
Lemma post_any {A} (m : RM A) : post m (fun _ => True).
Proof. intros ? ? ? ?. exact I. Qed.
Lemma post_seq {A B} (m : RM A) (f : A -> RM B) (Q : B -> Prop) : (forall a, post (f a) Q) -> post (bind m f) Q.
Proof. intros H. eapply post_bind; [apply post_any|]. intros a _. apply H. Qed.
Lemma post_ub {A} (Q : A -> Prop) : post ub Q.
Proof. intros ? ? ? K. discriminate K. Qed.
Lemma post_nofuel {A} (Q : A -> Prop) : post nofuel Q.
Proof. intros ? ? ? K. discriminate K. Qed.
Lemma post_imp {A} (m : RM A) (P Q : A -> Prop) : post m P -> (forall a, P a -> Q a) -> post m Q.
Proof. intros H I e a e' K. apply I. exact (H _ _ _ K). Qed.
Lemma post_and {A} (m : RM A) (P Q : A -> Prop) : post m P -> post m Q -> post m (fun a => P a /\ Q a).
Proof. intros H I e a e' K. split; [exact (H _ _ _ K)|exact (I _ _ _ K)]. Qed.
Lemma post_rd {A} (l : list A) i : post (rd l i) (fun a => nth_error l i = Some a).
Proof. unfold rd. intros e a e' K. destruct (nth_error l i); [|discriminate]. injection K as <- <-. reflexivity. Qed.
Lemma post_rd_in {A} (l : list A) i : post (rd l i) (fun a => In a l).
Proof. eapply post_imp; [apply post_rd|]. intros a. apply nth_error_In. Qed.
Lemma post_deref {A} (p : option A) : post (deref p) (fun a => p = Some a).
Proof. unfold deref. destruct p; [now apply post_ret|apply post_ub]. Qed.
Lemma post_quiet {A} (m : RM A) Q : post m Q -> post (quiet m) Q.
Proof. intros H e a e' K. unfold quiet in K. destruct (m None) as [[b e1]| |] eqn:E; try discriminate. injection K as <- <-. exact (H _ _ _ E). Qed.
Lemma post_use {A} (m : RM A) Q e a e' : post m Q -> m e = Ret (a, e') -> Q a.
Proof. intros H K. exact (H _ _ _ K). Qed.

(** ** Total correctness: no undefined behaviour, the step budget suffices, and the
    result satisfies the postcondition. *)
Definition safe {A} (m : RM A) (Q : A -> Prop) : Prop :=
  forall e, match m e with Ret (a, _) => Q a | Ub => False | Fuel => False end.
Lemma safe_ret {A} (a : A) (Q : A -> Prop) : Q a -> safe (ret a) Q.
Proof. intros H e. exact H. Qed.
Lemma safe_bind {A B} (m : RM A) (f : A -> RM B) (P : A -> Prop) (Q : B -> Prop) :
  safe m P -> (forall a, P a -> safe (f a) Q) -> safe (bind m f) Q.
Proof.
  intros Hm Hf e. unfold bind. specialize (Hm e). destruct (m e) as [[a e1]| |]; auto. apply (Hf a Hm e1).
Qed.
Lemma safe_seq {A B} (m : RM A) (f : A -> RM B) (Q : B -> Prop) : safe m (fun _ => True) -> (forall a, safe (f a) Q) -> safe (bind m f) Q.
Proof. intros Hm H. eapply safe_bind; [exact Hm|]. intros a _. apply H. Qed.
Lemma safe_imp {A} (m : RM A) (P Q : A -> Prop) : safe m P -> (forall a, P a -> Q a) -> safe m Q.
Proof. intros H I e. specialize (H e). destruct (m e) as [[a e1]| |]; auto. Qed.
Lemma safe_post {A} (m : RM A) (P Q : A -> Prop) : safe m P -> post m Q -> safe m (fun a => P a /\ Q a).
Proof. intros H K e. specialize (H e). destruct (m e) as [[a e1]| |] eqn:E; auto. split; [exact H|]. exact (K _ _ _ E). Qed.
Lemma safe_report c : safe (report c) (fun _ => True).
Proof. intros e. exact I. Qed.
Lemma safe_rd {A} (l : list A) i : i < length l -> safe (rd l i) (fun a => nth_error l i = Some a).
Proof.
  intros H e. unfold rd. destruct (nth_error l i) eqn:E; [reflexivity|]. apply nth_error_None in E. lia.
Qed.
Lemma safe_rdZ {A} (l : list A) i : (0 <= i < Z.of_nat (length l))%Z -> safe (rdZ l i) (fun a => nth_error l (Z.to_nat i) = Some a).
Proof.
  intros H. unfold rdZ. destruct (Z.ltb_spec i 0); [lia|]. apply safe_rd. lia.
Qed.
Lemma safe_quiet {A} (m : RM A) Q : safe m Q -> safe (quiet m) Q.
Proof. intros H e. unfold quiet. specialize (H None). destruct (m None) as [[b e1]| |]; auto. Qed.
Lemma safe_not_ub {A} (m : RM A) Q e : safe m Q -> m e <> Ub.
Proof. intros H K. specialize (H e). rewrite K in H. exact H. Qed.
Lemma safe_returns {A} (m : RM A) Q e : safe m Q -> exists a e', m e = Ret (a, e') /\ Q a.
Proof. intros H. specialize (H e). destruct (m e) as [[a e1]| |]; [eauto|contradiction|contradiction]. Qed.
