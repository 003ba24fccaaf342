(** * Model of src/polycap-aux.c, byte by byte: polycap_strdup and polycap_strndup

    Here one cell of a block (Mem.v) is one byte, an integer; a string is the bytes
    before the first 0.  polycap_strdup and polycap_strndup are compiled in one of two
    ways ([own]): with the loops of polycap-aux.c, or as a call of the C library's
    strdup or strndup.  Simplification: pointers into the middle of a block do not
    occur; _strdup (Windows) is the same function as strdup. *)
From Coq Require Import ZArith List Bool Lia.
From Verif Require Import Mem.
Import ListNotations.
Local Notation ret := Mem.ret.
Local Notation bind := Mem.bind.

Local Open Scope mem_scope.

Section Str.
Context {T : Type}.
Local Notation M := (@Mem.M T).

(** A size_t value: arithmetic modulo 2^64. *)
Definition size_t (z : Z) : Z := (z mod 2 ^ 64)%Z.

(** The C library's strlen: bytes are read until the first 0.  [fuel] is the size of the
    block: reading behind it is undefined. *)
Fixpoint scan (fuel i : nat) (p : ptr) : M nat :=
  match fuel with
  | O => ub
  | S f => z <- load_int p i ;; if (z =? 0)%Z then ret i else scan f (S i) p
  end.
Definition block_size (p : ptr) : M nat := fun s =>
  match p with
  | None => UB
  | Some l => match mem s l with Some b => Ok (List.length b, s) | None => UB end
  end.
Definition c_strlen (p : ptr) : M nat := n <- block_size p ;; scan n 0 p.

(** The C library's strnlen: at most [n] bytes are read. *)
Fixpoint scan_at_most (n i : nat) (p : ptr) : M nat :=
  match n with
  | O => ret i
  | S k => z <- load_int p i ;; if (z =? 0)%Z then ret i else scan_at_most k (S i) p
  end.

(** The C library's strcpy: bytes are copied up to and including the first 0. *)
Fixpoint copy_bytes (fuel i : nat) (d p : ptr) : M unit :=
  match fuel with
  | O => ub
  | S f => z <- load_int p i ;; store d i (Vint z) ;;; if (z =? 0)%Z then ret tt else copy_bytes f (S i) d p
  end.
Definition c_strcpy (d p : ptr) : M unit := n <- block_size p ;; copy_bytes n 0 d p.

(** The C library's strncpy: exactly [n] bytes are written, zeros behind the end. *)
Fixpoint c_strncpy (n i : nat) (d p : ptr) : M unit :=
  match n with
  | O => ret tt
  | S k => z <- load_int p i ;; store d i (Vint z) ;;;
           if (z =? 0)%Z then for_n k (S i) (fun j => store d j (Vint 0)) else c_strncpy k (S i) d p
  end.

(** polycap_strdup: src/polycap-aux.c:20-30; the loops are lines 26-28. *)
Definition polycap_strdup (own : bool) (str : ptr) : M ptr :=
  n <- c_strlen str ;;
  dup <- malloc (Z.to_nat (size_t (Z.of_nat n + 1))) ;;
  match dup with
  | None => ret NULL
  | Some _ => (if own then c_strcpy dup str else memcpy dup str (S n)) ;;; ret dup
  end.

(** polycap_strndup: src/polycap-aux.c:32-43; the loops are lines 34-39.  The C library's
    strndup looks at the string before it asks for memory. *)
Definition polycap_strndup (own : bool) (str : ptr) (len : Z) : M ptr :=
  if own then
    dup <- malloc (Z.to_nat (size_t (len + 1))) ;;
    match dup with
    | None => ret NULL
    | Some _ => c_strncpy (Z.to_nat len) 0 dup str ;;; store dup (Z.to_nat len) (Vint 0) ;;; ret dup
    end
  else
    n <- scan_at_most (Z.to_nat len) 0 str ;;
    dup <- malloc (Z.to_nat (size_t (Z.of_nat n + 1))) ;;
    match dup with
    | None => ret NULL
    | Some _ => memcpy dup str n ;;; store dup n (Vint 0) ;;; ret dup
    end.
End Str.
