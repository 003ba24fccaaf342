(** * Model of src/polycap-rng.c: where a random generator gets its seed from

    Lines 31-37 (polycap_rng_new_with_seed), 51-71 (polycap_rng_new, the branch that is not
    _WIN32), 75-80 (polycap_rng_free) and the class Rng of python/polycap.pyx:262-279.

    Simplifications: a generator of the library behind (gsl or easyRNG) is one block that
    holds the number it was seeded with, which determines all its output; unsigned long and
    time_t have 64 bits, least significant byte first; gettimeofday succeeds.  What the function
    asks the operating system is the [machine]. *)
From Coq Require Import ZArith List Bool Lia.
From Verif Require Import Num Mem ConsModel.
Import ListNotations.
Local Open Scope mem_scope.

Section Rng.
Context {T : Type}.
Local Notation M := (M T).

(** fopen("/dev/urandom"): [None] if it fails, else the bytes fread then delivers (lines 58-61);
    gettimeofday (lines 66-67). *)
Record machine := mkMachine { urandom : option (list Z); tv_sec : Z; tv_usec : Z }.

Definition u64 (z : Z) : Z := (z mod 2 ^ 64)%Z.

(** The 8 bytes of an unsigned long, least significant first. *)
Fixpoint little_endian (bs : list Z) : Z := match bs with [] => 0 | b :: r => b + 256 * little_endian r end%Z.

(** src/polycap-rng.c:31-37.  Neither allocation is checked. *)
Definition rng_new_with_seed (seed : Z) : M ptr :=
  r <- alloc [Vptr NULL] ;;
  g <- malloc 1 ;;
  store r 0 (Vptr g) ;;;
  store g 0 (Vint (u64 seed)) ;;;
  ret r.

(** An object of [bytes] uninitialised bytes of which fread has filled the first ones: reading it
    as a number is defined if all are filled. *)
Definition seed_read (bs : list Z) : M Z := if Nat.leb 8 (List.length bs) then ret (little_endian (firstn 8 bs)) else ub.

(** a % b of two C numbers of type long. *)
Definition long_rem (a b : Z) : M Z := if Z.eqb b 0 then ub else ret (Z.rem a b).

(** src/polycap-rng.c:51-71; the second component counts the files opened and not closed. *)
Definition rng_new_from (w : machine) : M (ptr * nat) :=
  match urandom w with
  | Some bs =>
      seed <- seed_read bs ;;
      r <- rng_new_with_seed seed ;; ret (r, 0)
  | None =>
      seed <- long_rem (tv_sec w) (tv_usec w) ;;
      r <- rng_new_with_seed seed ;; ret (r, 0)
  end.

(** What a Python caller can pass as seed (python/polycap.pyx:264-274): nothing, an int, or
    something that is not a number. *)
Inductive py_seed := SeedNone | SeedInt (z : Z) | SeedOther.
Inductive py_rng := RngObject (r : ptr) | RngOverflowError | RngTypeError.

(** Rng.__cinit__; the conversion to unsigned long raises for what is not one. *)
Definition py_rng_new (w : machine) (seed : py_seed) : M py_rng :=
  match seed with
  | SeedNone => r <- rng_new_from w ;; ret (RngObject (fst r))
  | SeedInt z => if (0 <=? z)%Z && (z <? 2 ^ 64)%Z then r <- rng_new_with_seed z ;; ret (RngObject r) else ret RngOverflowError
  | SeedOther => ret RngTypeError
  end.

(** Rng.__dealloc__: python/polycap.pyx:276-279. *)
Definition py_rng_dealloc (o : py_rng) : M unit :=
  match o with RngObject (Some r) => rng_free (Some r) | _ => ret tt end.

End Rng.
