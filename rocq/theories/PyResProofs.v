(** * Proofs about the Python result object (PyResult) *)
From Coq Require Import ZArith List Bool Lia String Permutation.
From Verif Require Import Num Mem SpecHeap SpecPhoton ErrorModel ProfileModel ProfileProofs Geometry ConsModel HeapLib
  ResultModel SpecResult ResultProofs ResultExit ResultLeak ResultLeakGet ResultMore PropResult SepLib PyModel SpecPy PyResult.
Import ListNotations.

(** ** Programs keep addresses from [nxt] on unused and the oracle as it is *)
Section Keeps.
Context {T : Type} {N : Num T}.
Definition keeps {A} (m : M T A) : Prop := forall s a s', wf s -> m s = Ok (a, s') -> wf s' /\ orc s' = orc s.
Lemma keeps_ret A (a : A) : keeps (ret a).
Proof. intros s b s' W E. injection E as _ <-. auto. Qed.
Lemma keeps_ub A : keeps (@ub T A).
Proof. intros s b s' W E. discriminate. Qed.
Lemma keeps_bind A B (m : M T A) (k : A -> M T B) : keeps m -> (forall a, keeps (k a)) -> keeps (bind m k).
Proof.
  intros H K s b s' W E. unfold bind in E. destruct (m s) as [[a s1]|] eqn:Em; [|discriminate].
  destruct (H _ _ _ W Em) as [W1 O1]. destruct (K a _ _ _ W1 E) as [W2 O2]. split; [auto|congruence].
Qed.
Lemma keeps_alloc b : keeps (@alloc T b).
Proof.
  intros s p s' W E. unfold alloc in E. destruct (orc s (cnt s)); injection E as _ <-; (split; [|reflexivity]); [|exact W].
  intros l Hl. cbn [mem nxt] in *. rewrite upd_other by lia. apply W. lia.
Qed.
Lemma keeps_free p : keeps (@free T p).
Proof.
  intros s a s' W E. unfold free in E. destruct p as [l|]; [|injection E as _ <-; auto].
  destruct (mem s l); [|discriminate]. injection E as _ <-. split; [|reflexivity]. intros x Hx. cbn [mem nxt] in *. unfold upd. destruct (Nat.eqb x l); auto.
Qed.
Lemma keeps_load p i : keeps (@load T p i).
Proof.
  intros s a s' W E. unfold load in E. destruct p as [l|]; [|discriminate]. destruct (mem s l) as [b|]; [|discriminate].
  destruct (nth_error b i); [|discriminate]. injection E as _ <-. auto.
Qed.
Lemma keeps_store p i v : keeps (@store T p i v).
Proof.
  intros s a s' W E. unfold store in E. destruct p as [l|]; [|discriminate]. destruct (mem s l) as [b|] eqn:Eb; [|discriminate].
  destruct (Nat.ltb i _); [|discriminate]. injection E as _ <-. split; [|reflexivity].
  intros x Hx. cbn [mem nxt] in *. rewrite upd_other; [apply W; auto|]. intros ->. rewrite W in Eb by auto. discriminate.
Qed.
Lemma keeps_memcpy p q n : keeps (@memcpy T p q n).
Proof.
  intros s a s' W E. unfold memcpy in E. destruct p as [l|]; [|discriminate]. destruct q as [q|]; [|discriminate].
  destruct (mem s l) as [b|] eqn:Eb; [|discriminate]. destruct (mem s q) as [c|]; [|discriminate].
  destruct (_ && _); [|discriminate]. injection E as _ <-. split; [|reflexivity].
  intros x Hx. cbn [mem nxt] in *. rewrite upd_other; [apply W; auto|]. intros ->. rewrite W in Eb by auto. discriminate.
Qed.
Lemma keeps_for_n body : (forall i, keeps (body i)) -> forall n from, keeps (@for_n T n from body).
Proof. intros H. induction n as [|n IH]; intros from; cbn [for_n]; [apply keeps_ret|]. apply keeps_bind; auto. Qed.
Lemma keeps_for_ok body : (forall i, keeps (body i)) -> forall n from, keeps (@for_ok T n from body).
Proof.
  intros H. induction n as [|n IH]; intros from; cbn [for_ok]; [apply keeps_ret|]. apply keeps_bind; auto. intros [|]; [auto|apply keeps_ret].
Qed.
End Keeps.

Ltac keep :=
  repeat first
    [ apply keeps_bind; [|intros ?] | apply keeps_ret | apply keeps_ub | apply keeps_alloc | apply keeps_free | apply keeps_load
    | apply keeps_store | apply keeps_memcpy | apply keeps_for_n; intros ? | apply keeps_for_ok; intros ?
    | match goal with
      | |- keeps (match ?x with _ => _ end) => destruct x
      | |- keeps (if ?x then _ else _) => destruct x
      | |- keeps (load_int _ _) => unfold load_int | |- keeps (load_dbl _ _) => unfold load_dbl
      | |- keeps (load_ptr _ _) => unfold load_ptr | |- keeps (load_str _ _) => unfold load_str
      | |- keeps (malloc _) => unfold malloc
      end ].

Section K2.
Context {T : Type} {N : Num T}.
Lemma keeps_set_error_literal err c m : keeps (@set_error_literal T err c m).
Proof. unfold set_error_literal, error_new, strdup, error_free. keep. Qed.
Lemma keeps_mem_error err m : keeps (@mem_error T err m).
Proof. unfold mem_error, set_error, error_new, strdup, error_free. keep. Qed.
Lemma keeps_refuse b err m k : keeps k -> keeps (@refuse T b err m k).
Proof. intros K. unfold refuse. destruct b; [|exact K]. apply keeps_bind; [apply keeps_set_error_literal|intros _; apply keeps_ret]. Qed.
Lemma keeps_alloc_out out i n err m k : (forall p, keeps (k p)) -> keeps (@alloc_out T out i n err m k).
Proof.
  intros K. unfold alloc_out, malloc. apply keeps_bind; [apply keeps_alloc|]. intros p. apply keeps_bind; [apply keeps_store|]. intros _.
  destruct p; [apply K|]. apply keeps_bind; [apply keeps_mem_error|intros _; apply keeps_ret].
Qed.
Lemma keeps_store_vec p i v : keeps (@store_vec T p i v).
Proof. unfold store_vec. keep. Qed.
Lemma keeps_copy_weights a b i n : keeps (@copy_weights T a b i n).
Proof. unfold copy_weights. keep. Qed.
Ltac keep2 := repeat first [apply keeps_mem_error | apply keeps_set_error_literal | apply keeps_refuse | apply keeps_alloc_out; intros ? | apply keeps_store_vec | apply keeps_copy_weights | keep].
Lemma keeps_start e a b c d f g err : keeps (@get_start_data T N e a b c d f g err).
Proof. unfold get_start_data, start_body. keep2. Qed.
Lemma keeps_exit e a b c d f g h i err : keeps (@get_exit_data T N e a b c d f g h i err).
Proof. unfold get_exit_data, exit_body. keep2. Qed.
Lemma keeps_leak n1 n2 n3 n4 n5 ie e a b err : keeps (@get_leak_data T N n1 n2 n3 n4 n5 ie e a b err).
Proof. unfold get_leak_data, leak_body, leak_fill. keep2. Qed.
Lemma keeps_data e a b c err : keeps (@get_data T e a b c err).
Proof. unfold get_data. keep2. Qed.
Lemma keeps_images_free p : keeps (@images_free T p).
Proof.
  unfold images_free. destruct p; [|apply keeps_ret]. apply keeps_bind; [|intros _; keep].
  induction image_fields as [|f fs IH]; cbn [free_fields]; [keep|]. unfold free_if. keep; exact IH.
Qed.
Lemma keeps_eff_free p : keeps (@efficiencies_free T p).
Proof.
  assert (H : forall A (m : M T A) (k : M T unit), keeps m -> keeps k -> keeps (bind m (fun _ => k))) by (intros; apply keeps_bind; auto).
  unfold efficiencies_free, free_if. destruct p; [|keep].
  apply keeps_bind; [keep|intros p]. apply H; [keep|]. apply keeps_bind; [keep|intros p2]. apply H; [keep|]. apply keeps_bind; [keep|intros p3].
  apply H; [destruct p3; [apply keeps_images_free|apply keeps_ret]|keep].
Qed.

Lemma wp_keeps {A} (m : M T A) (Q : A -> st T -> Prop) s : keeps m -> wf s -> wp m Q s ->
  wp m (fun a s' => wf s' /\ orc s' = orc s /\ Q a s') s.
Proof.
  intros K W H. unfold wp in *. destruct (m s) as [[a s']|] eqn:E; [|auto]. destruct (K _ _ _ W E). auto.
Qed.
End K2.
