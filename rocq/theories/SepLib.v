(** * Reasoning about a state as a frame plus a list of owned blocks *)
From Coq Require Import ZArith List Bool Lia Permutation.
From Verif Require Import Mem SpecHeap.
Import ListNotations.

Section Sep.
Context {T : Type}.
Implicit Types (s : st T) (F : loc -> option (@block T)) (L : list (loc * @block T)).

(** The live blocks of [s] are those of [F] and, disjointly, those of [L]; memory never runs out. *)
Definition hs F L s : Prop :=
  wf s /\ memory_available s /\ NoDup (map fst L) /\
  (forall l b, In (l, b) L -> mem s l = Some b) /\
  (forall l, ~ In l (map fst L) -> mem s l = F l) /\
  (forall l, In l (map fst L) -> F l = None).

Lemma hs_perm F L L' s : Permutation L L' -> hs F L s -> hs F L' s.
Proof.
  intros P (W & A & ND & H1 & H2 & H3). pose proof (Permutation_map fst P) as Pm.
  split; [auto|]. split; [auto|]. split; [eapply Permutation_NoDup; eauto|]. split; [|split].
  - intros l b I. apply H1. eapply Permutation_in; [symmetry; exact P|exact I].
  - intros l I. apply H2. intros K. apply I. eapply Permutation_in; eauto.
  - intros l I. apply H3. eapply Permutation_in; [symmetry; exact Pm|exact I].
Qed.

Lemma hs_in F L s l b : hs F L s -> In (l, b) L -> mem s l = Some b.
Proof. intros H. apply H. Qed.

(** The frame [F] extended by [L]. *)
Fixpoint under F L : loc -> option (@block T) :=
  match L with [] => F | (l, b) :: L => upd (under F L) l (Some b) end.
Lemma under_nin F L l : ~ In l (map fst L) -> under F L l = F l.
Proof. induction L as [|[a b] L IH]; cbn; intros H; auto. rewrite upd_other by (intros ->; apply H; auto). apply IH. tauto. Qed.
Lemma under_in F L l b : NoDup (map fst L) -> In (l, b) L -> under F L l = Some b.
Proof.
  induction L as [|[a c] L IH]; cbn; intros ND I; [contradiction|]. inversion ND; subst. destruct I as [E|I].
  - injection E as -> ->. apply upd_same.
  - rewrite upd_other; [apply IH; auto|]. intros ->. apply H1. apply in_map_iff. exists (a, b). auto.
Qed.
Lemma in_map_fst_ex {A B} (L : list (A * B)) l : In l (map fst L) -> exists b, In (l, b) L.
Proof. intros I. apply in_map_iff in I. destruct I as ([x y] & <- & I). eauto. Qed.

Lemma nodup_app_inv {A} (l1 l2 : list A) : NoDup (l1 ++ l2) -> NoDup l1 /\ NoDup l2 /\ (forall x, In x l1 -> ~ In x l2).
Proof.
  induction l1 as [|a l1 IH]; cbn; intros ND; [repeat split; auto; constructor|]. inversion ND; subst.
  destruct (IH H2) as (A1 & A2 & A3). repeat split; auto.
  - constructor; auto. intros K. apply H1. apply in_or_app. auto.
  - intros x [<-|I]; auto. intros K. apply H1. apply in_or_app. auto.
Qed.

(** Framing. *)
Lemma hs_frame F L1 L2 s : hs F (L1 ++ L2) s -> hs (under F L2) L1 s.
Proof.
  intros (W & A & ND & H1 & H2 & H3). rewrite map_app in *. destruct (nodup_app_inv _ _ ND) as (N1 & N2 & D).
  split; [auto|]. split; [auto|]. split; [auto|]. split; [|split].
  - intros l b I. apply H1. apply in_or_app. auto.
  - intros l I. destruct (in_dec Nat.eq_dec l (map fst L2)) as [I2|I2].
    + destruct (in_map_fst_ex _ _ I2) as [b Ib]. rewrite (under_in F L2 l b N2 Ib). apply H1. apply in_or_app. auto.
    + rewrite under_nin by auto. apply H2. intros K. apply in_app_or in K. tauto.
  - intros l I. rewrite under_nin by (apply D; auto). apply H3. apply in_or_app. auto.
Qed.
Lemma hs_unframe F L1 L2 s : NoDup (map fst L2) -> (forall l, In l (map fst L2) -> F l = None) ->
  hs (under F L2) L1 s -> hs F (L1 ++ L2) s.
Proof.
  intros N2 F2 (W & A & ND & H1 & H2 & H3).
  assert (D : forall l, In l (map fst L1) -> ~ In l (map fst L2)).
  { intros l I1 I2. destruct (in_map_fst_ex _ _ I2) as [b Ib]. pose proof (H3 l I1) as E. rewrite (under_in F L2 l b N2 Ib) in E. discriminate. }
  split; [auto|]. split; [auto|]. split; [|split; [|split]].
  - rewrite map_app. clear -ND N2 D. induction (map fst L1) as [|a l IH]; cbn; auto. inversion ND; subst. constructor.
    + intros K. apply in_app_or in K. destruct K as [K|K]; [contradiction|]. apply (D a); cbn; auto.
    + apply IH; auto. intros x I. apply D. cbn. auto.
  - intros l b I. apply in_app_or in I. destruct I as [I|I]; [auto|].
    rewrite H2; [apply under_in; auto|]. intros K. apply (D l K). apply in_map_iff. exists (l, b). auto.
  - intros l I. rewrite map_app in I. assert (~ In l (map fst L1) /\ ~ In l (map fst L2)) as [I1 I2] by (split; intros K; apply I; apply in_or_app; auto).
    rewrite H2 by auto. apply under_nin; auto.
  - intros l I. rewrite map_app in I. apply in_app_or in I. destruct I as [I|I]; [|auto].
    rewrite <- (under_nin F L2 l) by (apply D; auto). auto.
Qed.

(** A call whose specification is about part of the blocks. *)
Lemma hs_call {A} (m : M T A) F L1 L2 s (P : A -> list (loc * @block T) -> Prop) (Q : A -> st T -> Prop) :
  hs F (L1 ++ L2) s ->
  (forall F', hs F' L1 s -> wp m (fun a s' => exists L', P a L' /\ hs F' L' s') s) ->
  (forall a L' s', P a L' -> hs F (L' ++ L2) s' -> Q a s') ->
  wp m Q s.
Proof.
  intros H C K. pose proof (hs_frame _ _ _ _ H) as H'. eapply wp_mono; [apply C; exact H'|].
  intros a s' (L' & Pa & H2). apply (K a L'); auto. apply hs_unframe; auto.
  - destruct H as (_ & _ & ND & _). rewrite map_app in ND. apply (nodup_app_inv _ _ ND).
  - intros l I. destruct H as (_ & _ & _ & _ & _ & H3). apply H3. rewrite map_app. apply in_or_app. auto.
Qed.

(** Basic steps. *)
Lemma hs_alloc F L b (Q : ptr -> st T -> Prop) s : hs F L s ->
  (forall l s', hs F ((l, b) :: L) s' -> Q (Some l) s') -> wp (alloc b) Q s.
Proof.
  intros (W & A & ND & H1 & H2 & H3) HQ. apply wp_alloc; intros O; [|rewrite A in O; discriminate].
  assert (Fr : ~ In (nxt s) (map fst L)).
  { intros K. destruct (in_map_fst_ex _ _ K) as [c Ic]. pose proof (H1 _ _ Ic) as E. rewrite (W (nxt s)) in E by lia. discriminate. }
  apply HQ. split; [|split; [|split; [|split; [|split]]]]; cbn [map fst].
  - intros l Hl. cbn [mem nxt] in *. rewrite upd_other by lia. apply W. lia.
  - exact A.
  - constructor; auto.
  - intros l c [E|I].
    + injection E as <- <-. apply upd_same.
    + cbn [mem]. rewrite upd_other; [apply H1; auto|]. intros ->. apply Fr. apply in_map_iff. exists (nxt s, c). auto.
  - intros l I. cbn [mem]. rewrite upd_other by (intros ->; apply I; cbn; auto). apply H2. intros K. apply I. cbn. auto.
  - intros l [<-|I]; [|auto]. rewrite <- H2 by auto. apply W. lia.
Qed.

Lemma hs_store F L l b i v (Q : unit -> st T -> Prop) s : hs F ((l, b) :: L) s -> i < length b ->
  (forall s', hs F ((l, set_nth b i v) :: L) s' -> Q tt s') -> wp (store (Some l) i v) Q s.
Proof.
  intros (W & A & ND & H1 & H2 & H3) Hi HQ. pose proof (H1 l b (or_introl eq_refl)) as E.
  eapply wp_store; [exact E|exact Hi|]. cbn [map fst] in *. inversion ND; subst. apply HQ. split; [|split; [|split; [|split; [|split]]]]; cbn [map fst].
  - intros x Hx. cbn [mem nxt] in *. rewrite upd_other; [apply W; auto|]. intros ->. rewrite W in E by auto. discriminate.
  - exact A.
  - auto.
  - intros x c [Ex|I].
    + injection Ex as <- <-. apply upd_same.
    + cbn [mem]. rewrite upd_other; [apply H1; cbn; auto|]. intros ->. apply H4. apply in_map_iff. exists (l, c). auto.
  - intros x I. cbn [mem]. rewrite upd_other by (intros ->; apply I; cbn; auto). apply H2. auto.
  - auto.
Qed.

Lemma hs_free F L l b (Q : unit -> st T -> Prop) s : hs F ((l, b) :: L) s ->
  (forall s', hs F L s' -> Q tt s') -> wp (free (Some l)) Q s.
Proof.
  intros (W & A & ND & H1 & H2 & H3) HQ. pose proof (H1 l b (or_introl eq_refl)) as E.
  eapply wp_free; [exact E|]. cbn [map fst] in *. inversion ND; subst. apply HQ. split; [|split; [|split; [|split; [|split]]]].
  - intros x Hx. cbn [mem nxt] in *. unfold upd. destruct (Nat.eqb x l); auto.
  - exact A.
  - auto.
  - intros x c I. cbn [mem]. rewrite upd_other; [apply H1; cbn; auto|]. intros ->. apply H4. apply in_map_iff. exists (l, c). auto.
  - intros x I. cbn [mem]. unfold upd. destruct (Nat.eqb_spec x l) as [->|Ne]; [symmetry; apply H3; cbn; auto|]. apply H2. cbn. intros [K|K]; [congruence|auto].
  - intros x I. apply H3. cbn. auto.
Qed.

Lemma hs_load_ptr F L s l b i v (Q : ptr -> st T -> Prop) : hs F L s -> In (l, b) L -> nth_error b i = Some (Vptr v) -> Q v s -> wp (load_ptr (Some l) i) Q s.
Proof. intros H I E HQ. eapply wp_load_ptr; [eapply hs_in; eauto|exact E|exact HQ]. Qed.
Lemma hs_load_int F L s l b i v (Q : Z -> st T -> Prop) : hs F L s -> In (l, b) L -> nth_error b i = Some (Vint v) -> Q v s -> wp (load_int (Some l) i) Q s.
Proof. intros H I E HQ. eapply wp_load_int; [eapply hs_in; eauto|exact E|exact HQ]. Qed.
Lemma hs_load_dbl F L s l b i v (Q : T -> st T -> Prop) : hs F L s -> In (l, b) L -> nth_error b i = Some (Vdbl v) -> Q v s -> wp (load_dbl (Some l) i) Q s.
Proof. intros H I E HQ. eapply wp_load_dbl; [eapply hs_in; eauto|exact E|exact HQ]. Qed.

End Sep.

(** ** A decision procedure for permutations of concatenations *)
Fixpoint rem1 (x : nat) (l : list nat) : option (list nat) :=
  match l with [] => None | y :: l => if Nat.eqb x y then Some l else option_map (cons y) (rem1 x l) end.
Fixpoint permb (l1 l2 : list nat) : bool :=
  match l1 with [] => match l2 with [] => true | _ => false end
  | x :: l1 => match rem1 x l2 with Some l2 => permb l1 l2 | None => false end end.
Lemma rem1_perm x l l' : rem1 x l = Some l' -> Permutation l (x :: l').
Proof.
  revert l'. induction l as [|y l IH]; cbn; intros l' E; [discriminate|]. destruct (Nat.eqb_spec x y) as [->|].
  - injection E as <-. reflexivity.
  - destruct (rem1 x l) as [l1|]; cbn in E; [|discriminate]. injection E as <-.
    rewrite (IH l1 eq_refl). constructor.
Qed.
Lemma permb_ok l1 : forall l2, permb l1 l2 = true -> Permutation l1 l2.
Proof.
  induction l1 as [|x l1 IH]; intros l2; cbn; [destruct l2; [constructor|discriminate]|].
  destruct (rem1 x l2) as [l|] eqn:E; [|discriminate]. intros K. rewrite (rem1_perm _ _ _ E). constructor. auto.
Qed.
Fixpoint ev {A} (env : list (list A)) (ix : list nat) : list A :=
  match ix with [] => [] | i :: ix => nth i env [] ++ ev env ix end.
Lemma ev_app {A} (env : list (list A)) i j : ev env (i ++ j) = ev env i ++ ev env j.
Proof. induction i; cbn; auto. now rewrite IHi, app_assoc. Qed.
Lemma perm_ev {A} (env : list (list A)) i j : permb i j = true -> Permutation (ev env i) (ev env j).
Proof.
  intros H. apply permb_ok in H. induction H; cbn; auto.
  - now apply Permutation_app_head.
  - rewrite !app_assoc. apply Permutation_app_tail. apply Permutation_app_comm.
  - etransitivity; eauto.
Qed.

(** Expressions. *)
Inductive pexp := PNil | PAtom (i : nat) | PApp (a b : pexp).
Fixpoint pden {A} (env : list (list A)) (e : pexp) : list A :=
  match e with PNil => [] | PAtom i => nth i env [] | PApp a b => pden env a ++ pden env b end.
Fixpoint pflat (e : pexp) : list nat :=
  match e with PNil => [] | PAtom i => [i] | PApp a b => pflat a ++ pflat b end.
Lemma pden_flat {A} (env : list (list A)) e : pden env e = ev env (pflat e).
Proof. induction e; cbn; rewrite ?app_nil_r; auto. rewrite ev_app. congruence. Qed.
Lemma pperm {A} (env : list (list A)) e1 e2 : permb (pflat e1) (pflat e2) = true -> Permutation (pden env e1) (pden env e2).
Proof. rewrite !pden_flat. apply perm_ev. Qed.

Ltac p_eq x y :=
  lazymatch x with
  | cons (pair ?a ?b) nil => lazymatch y with cons (pair ?c ?d) nil => constr_eq a c; constr_eq b d | _ => fail end
  | _ => constr_eq x y
  end.
Ltac p_mem x env :=
  lazymatch env with
  | nil => constr:(false)
  | cons ?y ?t => match constr:(Set) with
                  | _ => let _ := match constr:(Set) with _ => p_eq x y end in constr:(true)
                  | _ => p_mem x t end
  end.
Ltac p_index x env :=
  lazymatch env with
  | cons ?y ?t => match constr:(Set) with
                  | _ => let _ := match constr:(Set) with _ => p_eq x y end in constr:(O)
                  | _ => let n := p_index x t in constr:(S n) end
  end.
Ltac p_add x env := let b := p_mem x env in lazymatch b with true => env | false => constr:(cons x env) end.
Ltac p_env t env :=
  lazymatch t with
  | nil => env
  | app ?a ?b => let e := p_env a env in p_env b e
  | cons ?x nil => p_add t env
  | cons ?x ?b => let A := type of x in let e := p_add (@cons A x nil) env in p_env b e
  | _ => p_add t env
  end.
Ltac p_reify t env :=
  lazymatch t with
  | nil => constr:(PNil)
  | app ?a ?b => let x := p_reify a env in let y := p_reify b env in constr:(PApp x y)
  | cons ?x nil => let n := p_index t env in constr:(PAtom n)
  | cons ?x ?b => let A := type of x in let n := p_index (@cons A x nil) env in let y := p_reify b env in constr:(PApp (PAtom n) y)
  | _ => let n := p_index t env in constr:(PAtom n)
  end.
Ltac perm :=
  lazymatch goal with
  | |- @Permutation ?A ?a ?b =>
      let e0 := p_env a constr:(@nil (list A)) in
      let e := p_env b e0 in
      let x := p_reify a e in
      let y := p_reify b e in
      exact (pperm e x y eq_refl)
  end.

Ltac inL := cbn [In app]; repeat rewrite in_app_iff; cbn [In]; tauto.

Example perm_test (A : Type) (a b : A) l m : Permutation (a :: l ++ b :: m) (m ++ (b :: l) ++ [a]).
Proof. perm. Qed.
