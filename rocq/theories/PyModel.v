(** * Model of parts of python/polycap.pyx (heap level)

    A Python call returns a value or raises an exception.  A numpy array of doubles is a block
    (of its own or of another array), a step and a size.  C variables of a method (cdef ...)
    live at addresses passed in.  Reference counting is left out. *)
From Coq Require Import ZArith List Bool Lia String.
From Verif Require Import Num Mem ErrorModel ProfileModel.
Import ListNotations.
Local Open Scope mem_scope.

Inductive pyclass := MemoryError | ValueError | IOError | TypeError | NotImplementedError | RuntimeError.
Inductive pyres (A : Type) := Value (a : A) | Raised (c : pyclass) (m : string).
Arguments Value {A} a.  Arguments Raised {A} c m.

Section Py.
Context {T : Type} {N : Num T}.
Local Notation M := (M T).

(** polycap_error_map: lines 88-96; .get(code, RuntimeError): line 102. *)
Definition polycap_error_map (c : Z) : pyclass :=
  if Z.eqb c POLYCAP_ERROR_MEMORY then MemoryError
  else if Z.eqb c POLYCAP_ERROR_INVALID_ARGUMENT then ValueError
  else if Z.eqb c POLYCAP_ERROR_IO then IOError
  else if Z.eqb c POLYCAP_ERROR_OPENMP then IOError
  else if Z.eqb c POLYCAP_ERROR_TYPE then TypeError
  else if Z.eqb c POLYCAP_ERROR_UNSUPPORTED then NotImplementedError
  else if Z.eqb c POLYCAP_ERROR_RUNTIME then RuntimeError
  else RuntimeError.

(** polycap_set_exception: lines 99-104.  [k] is the rest of the method, run if nothing is raised. *)
Definition set_exception {A} (error : ptr) (k : M (pyres A)) : M (pyres A) :=
  match error with
  | None => k
  | Some _ =>
      c <- load_int error E_CODE ;;
      p <- load_ptr error E_MSG ;;
      m <- load_str p 0 ;;
      error_free error ;;;
      ret (Raised (polycap_error_map c) m)
  end.

(** memcpy of a number of bytes: a double has eight; of a double copied in part nothing can be
    said. *)
Definition memcpy_bytes (dst src : ptr) (bytes : nat) : M unit :=
  memcpy dst src (bytes / 8) ;;;
  if Nat.eqb (bytes mod 8) 0 then ret tt
  else load src (bytes / 8) ;;; store dst (bytes / 8) Vundef.

(** Profile.get_ext, get_cap, get_z: lines 204-256; [fld] is the field of the profile, [ln], [lo],
    [le] are the variables nid, ext/cap/z and error. *)
Definition py_profile_get (fld : nat) (profile ln lo le : ptr) : M (pyres ptr) :=
  store ln 0 (Vint 0) ;;; store lo 0 (Vptr NULL) ;;; store le 0 (Vptr NULL) ;;;
  profile_get fld profile ln lo ;;;
  e <- load_ptr le 0 ;;
  set_exception e (
  n <- load_int ln 0 ;;
  rv <- malloc (Z.to_nat (n + 1)) ;;
  match rv with
  | None => ret (Raised MemoryError "")
  | Some _ =>
      q <- load_ptr lo 0 ;;
      memcpy_bytes rv q (8 * Z.to_nat n + 1) ;;;
      free q ;;;
      ret (Value rv)
  end).
Definition py_get_ext := py_profile_get 3.
Definition py_get_cap := py_profile_get 2.
Definition py_get_z := py_profile_get 1.

(** A one-dimensional numpy array of doubles: element k is cell [nd_step * k] of the block. *)
Record ndarray := mkNd { nd_data : loc; nd_step : nat; nd_size : nat }.

(** Profile.new_from_arrays: lines 177-202.  np.asarray(x, dtype=np.double) and np.atleast_1d
    hand back an array of doubles as it is, whatever its step. *)
Definition py_new_from_arrays (ext cap z : ndarray) (le : ptr) : M (pyres ptr) :=
  store le 0 (Vptr NULL) ;;;
  if negb (Nat.eqb (nd_size ext) (nd_size z)) || negb (Nat.eqb (nd_size ext) (nd_size cap))
  then ret (Raised ValueError "arrays must be of identical size.")
  else
    profile <- profile_new_from_arrays (Z.of_nat (nd_size z) - 1) (Some (nd_data ext)) (Some (nd_data cap)) (Some (nd_data z)) le ;;
    e <- load_ptr le 0 ;;
    set_exception e (ret (Value profile)).

End Py.
