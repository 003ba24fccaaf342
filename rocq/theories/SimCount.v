(** * How many allocations a successful preparation makes *)
From Coq Require Import ZArith List Bool Lia String.
From Verif Require Import Num Mem SpecHeap ErrorModel ErrorProofs ProfileModel ProfileProofs ConsModel ResultModel H5Model SrcProofs SimModel.
Import ListNotations.

Section Count.
Context {T : Type} {N : Num T}.
Implicit Types (s : st T).

Definition uses (k : nat) s s' : Prop := cnt s' = cnt s + k /\ orc s' = orc s /\ forall i, cnt s <= i < cnt s + k -> orc s i = true.
Lemma uses_0 s : uses 0 s s.
Proof. repeat split; auto; lia. Qed.
Lemma uses_trans a b s s1 s2 : uses a s s1 -> uses b s1 s2 -> uses (a + b) s s2.
Proof.
  intros (A1 & A2 & A3) (B1 & B2 & B3). repeat split; [lia|congruence|]. intros i Hi. destruct (Nat.lt_ge_cases i (cnt s + a)) as [X|X]; [apply A3; lia|].
  rewrite <- A2. apply B3. lia.
Qed.
Lemma alloc_uses b l s s1 : alloc b s = Ok (Some l, s1) -> uses 1 s s1.
Proof.
  unfold alloc. destruct (orc s (cnt s)) eqn:E; [|discriminate]. intros H. injection H as <- <-. repeat split; cbn; [lia|]. intros i Hi. replace i with (cnt s) by lia. exact E.
Qed.
Lemma store_uses p i v u s s1 : store p i v s = Ok (u, s1) -> uses 0 s s1.
Proof. intros H. apply store_orc in H. destruct H. repeat split; auto; lia. Qed.
Lemma for_n_uses n body : forall from u s s1, (forall i u s s1, body i s = Ok (u, s1) -> uses 0 s s1) -> for_n n from body s = Ok (u, s1) -> uses 0 s s1.
Proof.
  induction n as [|n IH]; intros from u s s1 Hb K; cbn in K.
  - injection K as <- <-. apply uses_0.
  - unfold bind in K. destruct (body from s) as [[u1 s2]|] eqn:E; [|discriminate]. apply (uses_trans 0 0 s s2); eauto.
Qed.
Lemma bind_inv {A B} (m : M T A) (k : A -> M T B) s r : bind m k s = Ok r -> exists a s1, m s = Ok (a, s1) /\ k a s1 = Ok r.
Proof. unfold bind. destruct (m s) as [[a s1]|]; [|discriminate]. eauto. Qed.
Lemma alloc_or_leak_uses {A} c n err msg (k : ptr -> M T (option A)) a s s' : (forall p a s s', k p s = Ok (Some a, s') -> uses c s s') ->
  alloc_or_leak n err msg k s = Ok (Some a, s') -> uses (S c) s s'.
Proof.
  intros Hk K. unfold alloc_or_leak in K. apply bind_inv in K. destruct K as (p & s1 & K1 & K2). destruct p as [l|].
  - apply (uses_trans 1 c s s1); [eapply alloc_uses; exact K1|eauto].
  - apply bind_inv in K2. destruct K2 as (? & ? & _ & K2). discriminate.
Qed.
Lemma alloc_field_uses {A} c obj i n eff sum err (k : ptr -> M T (option A)) a s s' : (forall p a s s', k p s = Ok (Some a, s') -> uses c s s') ->
  alloc_field obj i n eff sum err k s = Ok (Some a, s') -> uses (S c) s s'.
Proof.
  intros Hk K. unfold alloc_field in K. apply bind_inv in K. destruct K as (p & s1 & K1 & K2). apply bind_inv in K2. destruct K2 as (u & s2 & K2 & K3).
  destruct p as [l|].
  - apply (uses_trans 1 c s s1); [eapply alloc_uses; exact K1|]. apply (uses_trans 0 c s1 s2); [eapply store_uses; eauto|eauto].
  - repeat (apply bind_inv in K3; destruct K3 as (? & ? & _ & K3)). discriminate.
Qed.
Lemma alloc_fields_uses {A} c obj eff sum err (k : M T (option A)) fs : (forall a s s', k s = Ok (Some a, s') -> uses c s s') ->
  forall a s s', alloc_fields obj fs eff sum err k s = Ok (Some a, s') -> uses (List.length fs + c) s s'.
Proof.
  intros Hk. induction fs as [|[i n] fs IH]; intros a s s' K; cbn [alloc_fields] in K; [cbn; eauto|].
  cbn [List.length Nat.add]. eapply alloc_field_uses; [|exact K]. eauto.
Qed.
Lemma load_int_uses p i z s s1 : load_int p i s = Ok (z, s1) -> s1 = s.
Proof.
  unfold load_int, bind, load, ret, ub. destruct p; [|discriminate]. destruct (mem s l); [|discriminate]. destruct (nth_error b i); [|discriminate].
  destruct v; try discriminate. intros H. injection H. auto.
Qed.
Lemma load_ptr_uses p i z s s1 : load_ptr p i s = Ok (z, s1) -> s1 = s.
Proof.
  unfold load_ptr, bind, load, ret, ub. destruct p; [|discriminate]. destruct (mem s l); [|discriminate]. destruct (nth_error b i); [|discriminate].
  destruct v; try discriminate. intros H. injection H. auto.
Qed.
Lemma load_dbl_uses p i z s s1 : load_dbl p i s = Ok (z, s1) -> s1 = s.
Proof.
  unfold load_dbl, bind, load, ret, ub. destruct p; [|discriminate]. destruct (mem s l); [|discriminate]. destruct (nth_error b i); [|discriminate].
  destruct v; try discriminate. intros H. injection H. auto.
Qed.
Lemma energy_loop_same n p : forall from b s s1, energy_loop n from p s = Ok (b, s1) -> s1 = s.
Proof.
  induction n as [|n IH]; intros from b s s1 K; cbn in K; [injection K; auto|].
  apply bind_inv in K. destruct K as (x & s2 & K1 & K2). apply load_dbl_uses in K1. subst s2.
  destruct (_ || _)%bool; [injection K2; auto|eauto].
Qed.
Lemma refuse_inv {A} b err msg (k : M T (option A)) a s s' : refuse_sim b err msg k s = Ok (Some a, s') -> b = false /\ k s = Ok (Some a, s').
Proof.
  unfold refuse_sim. destruct b; [|auto]. intros K. apply bind_inv in K. destruct K as (? & ? & _ & K). discriminate.
Qed.

Lemma prepare_uses source monitor mt n omp err v s s' : prepare source monitor mt n omp err s = Ok (Some v, s') -> uses 26 s s'.
Proof.
  unfold prepare. intros K.
  apply refuse_inv in K. destruct K as [_ K]. apply refuse_inv in K. destruct K as [_ K].
  apply bind_inv in K. destruct K as (d & s1 & K1 & K). apply load_ptr_uses in K1. subst s1.
  apply refuse_inv in K. destruct K as [_ K].
  apply bind_inv in K. destruct K as (ne & s1 & K1 & K). apply load_int_uses in K1. subst s1.
  apply refuse_inv in K. destruct K as [_ K].
  apply bind_inv in K. destruct K as (ep & s1 & K1 & K). apply load_ptr_uses in K1. subst s1.
  apply refuse_inv in K. destruct K as [_ K].
  apply bind_inv in K. destruct K as (b & s1 & K1 & K). apply energy_loop_same in K1. subst s1.
  apply refuse_inv in K. destruct K as [_ K]. apply refuse_inv in K. destruct K as [_ K]. cbv zeta in K.
  eapply alloc_or_leak_uses with (c := 25); [|exact K]. clear K s s' v. intros p1 v s s' K.
  apply bind_inv in K. destruct K as (u & s1 & K1 & K). apply (uses_trans 0 25 s s1); [eapply for_n_uses; [|exact K1]; intros ? ? ? ? Kb; eapply store_uses; exact Kb|]. clear K1 s.
  eapply alloc_or_leak_uses with (c := 24); [|exact K]. clear K s' v. intros p2 v s s' K.
  eapply alloc_or_leak_uses with (c := 23); [|exact K]. clear K s s' v. intros p3 v s s' K.
  eapply alloc_or_leak_uses with (c := 22); [|exact K]. clear K s s' v. intros p4 v s s' K.
  apply bind_inv in K. destruct K as (u1 & s2 & K1 & K). apply (uses_trans 0 22 s s2).
  { eapply for_n_uses; [|exact K1]. intros i u2 t t' Kb. apply bind_inv in Kb. destruct Kb as (? & t1 & Kb1 & Kb). apply bind_inv in Kb. destruct Kb as (? & t2 & Kb2 & Kb).
    apply (uses_trans 0 0 t t1); [eapply store_uses; eauto|]. apply (uses_trans 0 0 t1 t2); eapply store_uses; eauto. }
  clear K1 s. unfold prepare_result in K. apply bind_inv in K. destruct K as (pe & s3 & K1 & K). destruct pe as [le|].
  2:{ repeat (apply bind_inv in K; destruct K as (? & ? & _ & K)). discriminate. }
  apply (uses_trans 1 21 s2 s3); [eapply alloc_uses; exact K1|]. clear K1 s1 s2.
  eapply alloc_field_uses with (c := 20); [|exact K]. clear K s3 s' v. intros q1 v s s' K.
  eapply alloc_field_uses with (c := 19); [|exact K]. clear K s s' v. intros q2 v s s' K.
  apply bind_inv in K. destruct K as (pi & s1 & K1 & K). apply bind_inv in K. destruct K as (? & s2 & K2 & K). destruct pi as [li|].
  2:{ repeat (apply bind_inv in K; destruct K as (? & ? & _ & K)). discriminate. }
  apply (uses_trans 1 18 s s1); [eapply alloc_uses; exact K1|]. apply (uses_trans 0 18 s1 s2); [eapply store_uses; exact K2|].
  apply (alloc_fields_uses 0) in K; [exact K|]. intros a t t' Kt. apply bind_inv in Kt. destruct Kt as (? & t1 & Kt1 & Kt). injection Kt as _ <-.
  eapply store_uses; exact Kt1.
Qed.

End Count.
