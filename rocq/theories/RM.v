(** * Outcomes of the ray-tracing functions

    The functions of src/polycap-capil.c and polycap_photon_launch are modelled
    functionally: photon, optic and arrays are values, a call returns the new photon.
    Allocation is assumed to succeed there (the constructors, where it matters, are
    modelled on an explicit heap in Mem.v and ConsModel.v).

    - [Ret a]: the call returns;
    - [Ub]: it performs an out-of-bounds read, dereferences NULL or converts an
      unrepresentable double to int;
    - [Fuel]: the model's step budget ran out (a longer budget may return). *)
From Coq Require Import ZArith List Bool.
Import ListNotations.

Inductive out (A : Type) := Ret (a : A) | Ub | Fuel.
Arguments Ret {A}. Arguments Ub {A}. Arguments Fuel {A}.

(** The caller's error slot: [None] if no error was reported, else the code of the
    first report (src/polycap-error.c:125-153: a later report only prints a warning). *)
Definition slot := option Z.
Definition RM (A : Type) := slot -> out (A * slot).

Definition ret {A} (a : A) : RM A := fun e => Ret (a, e).
Definition bind {A B} (m : RM A) (f : A -> RM B) : RM B := fun e =>
  match m e with Ret (a, e') => f a e' | Ub => Ub | Fuel => Fuel end.
Definition ub {A} : RM A := fun _ => Ub.
Definition nofuel {A} : RM A := fun _ => Fuel.

(** polycap_set_error / polycap_set_error_literal on the caller's slot. *)
Definition report (code : Z) : RM unit := fun e => Ret (tt, match e with None => Some code | Some c => Some c end).
(** A call with error = NULL: reports are dropped. *)
Definition quiet {A} (m : RM A) : RM A := fun e =>
  match m None with Ret (a, _) => Ret (a, e) | Ub => Ub | Fuel => Fuel end.

(** Array read. *)
Definition rd {A} (l : list A) (i : nat) : RM A :=
  match nth_error l i with Some a => ret a | None => ub end.
Definition rdZ {A} (l : list A) (i : Z) : RM A :=
  if Z.ltb i 0 then ub else rd l (Z.to_nat i).
(** An array pointer that may be NULL. *)
Definition deref {A} (p : option A) : RM A := match p with Some a => ret a | None => ub end.

Declare Scope rm_scope.
Delimit Scope rm_scope with rm.
Notation "x <- m ;; k" := (bind m (fun x => k)) (at level 61, m at next level, right associativity) : rm_scope.
Notation "' p <- m ;; k" := (bind m (fun x => match x with p => k end)) (at level 61, p pattern, m at next level, right associativity) : rm_scope.
Notation "m ;;; k" := (bind m (fun _ => k)) (at level 61, right associativity) : rm_scope.

Definition E_MEM : Z := 0.     (* POLYCAP_ERROR_MEMORY *)
Definition E_ARG : Z := 1.     (* POLYCAP_ERROR_INVALID_ARGUMENT *)
Definition E_IO : Z := 2.      (* POLYCAP_ERROR_IO *)
