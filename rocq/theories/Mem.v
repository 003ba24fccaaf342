(** * A small model of C memory: blocks, malloc that may fail, free, undefined behaviour.

    This is not taken from a file of /repo; it fixes what malloc, calloc, free,
    memcpy and pointer accesses in /repo/src/*.c mean in the model.

    - A block is a list of cells; one cell per C object (an int, a double, a
      pointer, a whole string), so a struct is a block with one cell per field,
      in declaration order (include/polycap-private.h), an array a block with
      one cell per element.  Simplification: sizes are counted in cells, not
      bytes; pointers into the middle of a block do not occur in the modelled
      functions.
    - Every malloc asks an oracle whether it succeeds, so a theorem quantified
      over the state is quantified over every allocation-failure point.
    - Reading or writing outside a block, through NULL or through a freed
      pointer, reading an uninitialised cell where a value is needed, and
      freeing a dead block are the outcome [UB]. *)
From Coq Require Import ZArith List Bool Lia String.
Import ListNotations.

Definition loc := nat.
(** A C pointer value: NULL or the address of a block. *)
Definition ptr := option loc.
Notation NULL := (@None loc) (only parsing).

Inductive res (A : Type) := Ok (a : A) | UB.
Arguments Ok {A} a.
Arguments UB {A}.

Inductive val (T : Type) :=
| Vundef                 (* uninitialised *)
| Vint (z : Z)
| Vdbl (t : T)
| Vptr (p : ptr)
| Vstr (s : string).
Arguments Vundef {T}.
Arguments Vint {T} z.
Arguments Vdbl {T} t.
Arguments Vptr {T} p.
Arguments Vstr {T} s.

Section Mem.
Context {T : Type}.
Local Notation val := (val T).

Definition block := list val.

Record st := mkSt {
  mem : loc -> option block;   (* live blocks *)
  nxt : loc;                   (* next fresh address *)
  orc : nat -> bool;           (* does the n-th allocation succeed? *)
  cnt : nat                    (* allocations attempted so far *)
}.

Definition upd (m : loc -> option block) (l : loc) (b : option block) : loc -> option block :=
  fun l' => if Nat.eqb l' l then b else m l'.

Definition M (A : Type) := st -> res (A * st).

Definition ret {A} (a : A) : M A := fun s => Ok (a, s).
Definition bind {A B} (m : M A) (k : A -> M B) : M B :=
  fun s => match m s with Ok (a, s') => k a s' | UB => UB end.
Definition ub {A} : M A := fun _ => UB.

(** malloc/calloc: [b] is the initial content. *)
Definition alloc (b : block) : M ptr := fun s =>
  if orc s (cnt s)
  then Ok (Some (nxt s), mkSt (upd (mem s) (nxt s) (Some b)) (S (nxt s)) (orc s) (S (cnt s)))
  else Ok (NULL, mkSt (mem s) (nxt s) (orc s) (S (cnt s))).
Definition malloc (n : nat) : M ptr := alloc (repeat Vundef n).

Definition free (p : ptr) : M unit := fun s =>
  match p with
  | None => Ok (tt, s)
  | Some l => match mem s l with
              | Some _ => Ok (tt, mkSt (upd (mem s) l None) (nxt s) (orc s) (cnt s))
              | None => UB
              end
  end.

Definition load (p : ptr) (i : nat) : M val := fun s =>
  match p with
  | None => UB
  | Some l => match mem s l with
              | Some b => match nth_error b i with Some v => Ok (v, s) | None => UB end
              | None => UB
              end
  end.

Definition load_int (p : ptr) (i : nat) : M Z :=
  bind (load p i) (fun v => match v with Vint z => ret z | _ => ub end).
Definition load_dbl (p : ptr) (i : nat) : M T :=
  bind (load p i) (fun v => match v with Vdbl z => ret z | _ => ub end).
Definition load_ptr (p : ptr) (i : nat) : M ptr :=
  bind (load p i) (fun v => match v with Vptr z => ret z | _ => ub end).
Definition load_str (p : ptr) (i : nat) : M string :=
  bind (load p i) (fun v => match v with Vstr z => ret z | _ => ub end).

Fixpoint set_nth {A} (l : list A) (i : nat) (v : A) : list A :=
  match l, i with
  | [], _ => []
  | _ :: t, O => v :: t
  | h :: t, S i => h :: set_nth t i v
  end.

Definition store (p : ptr) (i : nat) (v : val) : M unit := fun s =>
  match p with
  | None => UB
  | Some l => match mem s l with
              | Some b => if Nat.ltb i (List.length b)
                          then Ok (tt, mkSt (upd (mem s) l (Some (set_nth b i v))) (nxt s) (orc s) (cnt s))
                          else UB
              | None => UB
              end
  end.

(** memcpy of [n] cells from the start of [src] to the start of [dst]
    (distinct blocks in all uses). *)
Definition memcpy (dst src : ptr) (n : nat) : M unit := fun s =>
  match dst, src with
  | Some d, Some r =>
      match mem s d, mem s r with
      | Some bd, Some br =>
          if (Nat.leb n (List.length bd)) && (Nat.leb n (List.length br))
          then Ok (tt, mkSt (upd (mem s) d (Some (firstn n br ++ skipn n bd))) (nxt s) (orc s) (cnt s))
          else UB
      | _, _ => UB
      end
  | _, _ => UB
  end.

(** for (i = from; i < from+n; i++) body(i) *)
Fixpoint for_n (n : nat) (from : nat) (body : nat -> M unit) : M unit :=
  match n with
  | O => ret tt
  | S n' => bind (body from) (fun _ => for_n n' (S from) body)
  end.

(** ** Weakest preconditions: "terminates without undefined behaviour and Q". *)
Definition wp {A} (m : M A) (Q : A -> st -> Prop) (s : st) : Prop :=
  match m s with Ok (a, s') => Q a s' | UB => False end.

(** Addresses from [nxt] on are not in use. *)
Definition wf (s : st) : Prop := forall l, nxt s <= l -> mem s l = None.

Definition setmem (s : st) (m : loc -> option block) : st := mkSt m (nxt s) (orc s) (cnt s).

Lemma wp_ret {A} (a : A) (Q : _ -> st -> Prop) s : Q a s -> wp (ret a) Q s.
Proof. exact (fun H => H). Qed.

Lemma wp_bind {A B} (m : M A) (k : A -> M B) (Q : _ -> st -> Prop) s :
  wp m (fun a s' => wp (k a) Q s') s -> wp (bind m k) Q s.
Proof. unfold wp, bind. destruct (m s) as [[a s']|]; auto. Qed.

Lemma wp_bind_inv {A B} (m : M A) (k : A -> M B) (Q : _ -> st -> Prop) s :
  wp (bind m k) Q s -> wp m (fun a s' => wp (k a) Q s') s.
Proof. unfold wp, bind. destruct (m s) as [[a s']|]; auto. Qed.

Lemma wp_mono {A} (m : M A) (Q Q' : A -> st -> Prop) s :
  wp m Q s -> (forall a s', Q a s' -> Q' a s') -> wp m Q' s.
Proof. unfold wp. destruct (m s) as [[a s']|]; auto. Qed.

Lemma wp_alloc b (Q : _ -> st -> Prop) s :
  (orc s (cnt s) = true ->
     Q (Some (nxt s)) (mkSt (upd (mem s) (nxt s) (Some b)) (S (nxt s)) (orc s) (S (cnt s)))) ->
  (orc s (cnt s) = false -> Q NULL (mkSt (mem s) (nxt s) (orc s) (S (cnt s)))) ->
  wp (alloc b) Q s.
Proof. unfold wp, alloc. destruct (orc s (cnt s)); auto. Qed.

Lemma wp_free l b (Q : _ -> st -> Prop) s :
  mem s l = Some b ->
  Q tt (mkSt (upd (mem s) l None) (nxt s) (orc s) (cnt s)) ->
  wp (free (Some l)) Q s.
Proof. unfold wp, free. intros ->. auto. Qed.

Lemma wp_free_null (Q : _ -> st -> Prop) s : Q tt s -> wp (free NULL) Q s.
Proof. exact (fun H => H). Qed.

Lemma wp_load l b i v (Q : _ -> st -> Prop) s :
  mem s l = Some b -> nth_error b i = Some v -> Q v s -> wp (load (Some l) i) Q s.
Proof. unfold wp, load. intros -> ->. auto. Qed.

Lemma wp_load_int l b i v (Q : _ -> st -> Prop) s :
  mem s l = Some b -> nth_error b i = Some (Vint v) -> Q v s -> wp (load_int (Some l) i) Q s.
Proof. unfold wp, load_int, load, bind. intros -> ->. auto. Qed.
Lemma wp_load_dbl l b i v (Q : _ -> st -> Prop) s :
  mem s l = Some b -> nth_error b i = Some (Vdbl v) -> Q v s -> wp (load_dbl (Some l) i) Q s.
Proof. unfold wp, load_dbl, load, bind. intros -> ->. auto. Qed.
Lemma wp_load_ptr l b i v (Q : _ -> st -> Prop) s :
  mem s l = Some b -> nth_error b i = Some (Vptr v) -> Q v s -> wp (load_ptr (Some l) i) Q s.
Proof. unfold wp, load_ptr, load, bind. intros -> ->. auto. Qed.
Lemma wp_load_str l b i v (Q : _ -> st -> Prop) s :
  mem s l = Some b -> nth_error b i = Some (Vstr v) -> Q v s -> wp (load_str (Some l) i) Q s.
Proof. unfold wp, load_str, load, bind. intros -> ->. auto. Qed.

Lemma wp_store l b i v (Q : _ -> st -> Prop) s :
  mem s l = Some b -> i < List.length b ->
  Q tt (mkSt (upd (mem s) l (Some (set_nth b i v))) (nxt s) (orc s) (cnt s)) ->
  wp (store (Some l) i v) Q s.
Proof.
  unfold wp, store. intros -> H. apply Nat.ltb_lt in H. rewrite H. auto.
Qed.

Lemma wp_memcpy d r bd br n (Q : _ -> st -> Prop) s :
  mem s d = Some bd -> mem s r = Some br -> n <= List.length bd -> n <= List.length br ->
  Q tt (mkSt (upd (mem s) d (Some (firstn n br ++ skipn n bd))) (nxt s) (orc s) (cnt s)) ->
  wp (memcpy (Some d) (Some r) n) Q s.
Proof.
  unfold wp, memcpy. intros -> -> H1 H2.
  apply Nat.leb_le in H1; apply Nat.leb_le in H2. rewrite H1, H2. auto.
Qed.

(** Loop rule: an invariant indexed by the counter. *)
Lemma wp_for_n (I : nat -> st -> Prop) body n : forall from (Q : unit -> st -> Prop) s,
  I from s ->
  (forall i s, from <= i < from + n -> I i s -> wp (body i) (fun _ s' => I (S i) s') s) ->
  (forall s, I (from + n) s -> Q tt s) ->
  wp (for_n n from body) Q s.
Proof.
  induction n as [|n IH]; intros from Q s HI Hb HQ.
  - apply wp_ret. apply HQ. now rewrite Nat.add_0_r.
  - cbn [for_n]. apply wp_bind. eapply wp_mono.
    + apply Hb; [lia|exact HI].
    + intros [] s' HI'. apply IH; auto.
      * intros i s'' Hi. apply Hb. lia.
      * intros s'' H''. apply HQ. now rewrite Nat.add_succ_r.
Qed.

Lemma upd_same m l b : upd m l b l = b.
Proof. unfold upd. now rewrite Nat.eqb_refl. Qed.
Lemma upd_other m l b l' : l' <> l -> upd m l b l' = m l'.
Proof. unfold upd. intros H. apply Nat.eqb_neq in H. now rewrite H. Qed.

Lemma length_set_nth {A} (l : list A) i v : List.length (set_nth l i v) = List.length l.
Proof. revert i; induction l; intros [|i]; simpl; auto. Qed.
Lemma nth_error_set_nth_same {A} (l : list A) i v :
  i < List.length l -> nth_error (set_nth l i v) i = Some v.
Proof. revert i; induction l; intros [|i]; simpl; intros; try lia; auto. apply IHl; lia. Qed.
Lemma nth_error_set_nth_other {A} (l : list A) i j v :
  i <> j -> nth_error (set_nth l i v) j = nth_error l j.
Proof.
  revert i j; induction l; intros [|i] [|j] H; simpl; auto; try congruence.
Qed.
Lemma set_nth_app {A} (l1 l2 : list A) x v :
  set_nth (l1 ++ x :: l2) (List.length l1) v = l1 ++ v :: l2.
Proof. induction l1; simpl; congruence. Qed.

End Mem.

Arguments st T : clear implicits.
Arguments M T A : clear implicits.

Declare Scope mem_scope.
Delimit Scope mem_scope with mem.
Notation "x <- m ;; k" := (bind m (fun x => k))
  (at level 61, m at next level, right associativity) : mem_scope.
Notation "m ;;; k" := (bind m (fun _ => k))
  (at level 61, right associativity) : mem_scope.

(** Reduce lookups in a chain of updates; addresses are compared by [lia]. *)
Ltac upd_simpl :=
  repeat first [ rewrite upd_same | rewrite upd_other by lia ].

(** Symbolic execution of [wp] goals. *)
Ltac wsimp := cbn [mem nxt orc cnt fst snd].
Ltac wlook := wsimp; upd_simpl; first [eassumption | reflexivity].
Ltac wstep :=
  wsimp;
  lazymatch goal with
  | |- wp (bind _ _) _ _ => apply wp_bind
  | |- wp (ret _) _ _ => apply wp_ret
  | |- wp (match ?p with Some _ => _ | None => _ end) _ _ => destruct p
  | |- wp (free None) _ _ => apply wp_free_null
  | |- wp (free (Some _)) _ _ => eapply wp_free; [wlook | wsimp]
  | |- wp (load_ptr (Some _) _) _ _ => eapply wp_load_ptr; [wlook | reflexivity | wsimp]
  | |- wp (load_int (Some _) _) _ _ => eapply wp_load_int; [wlook | reflexivity | wsimp]
  | |- wp (load_dbl (Some _) _) _ _ => eapply wp_load_dbl; [wlook | reflexivity | wsimp]
  | |- wp (load_str (Some _) _) _ _ => eapply wp_load_str; [wlook | reflexivity | wsimp]
  | |- wp (store (Some _) _ _) _ _ =>
      eapply wp_store; [wlook | cbn; lia | wsimp; cbn [set_nth]]
  | |- wp (alloc _) _ _ =>
      let H := fresh "Horc" in apply wp_alloc; intros H; wsimp; cbn [orc cnt] in H
  | |- wp (malloc _) _ _ => unfold malloc; cbn [repeat]
  end.
