(** * Vocabulary: what a profile data file says

    Independent of the model's functions.  A file is a list of tokens; a token says what it
    is as a floating point number and what it is as a whole number. *)
From Coq Require Import ZArith List Bool Lia.
From Verif Require Import Mem SpecHeap FromFile.
Import ListNotations.

Section SpecFiles.
Context {T : Type}.
Local Notation token := (token T).

(** The leading tokens that are floating point numbers. *)
Fixpoint numbers (ts : list token) : list T :=
  match ts with
  | [] => []
  | t :: r => match as_dbl t with Some v => v :: numbers r | None => [] end
  end.

(** The file starts with the whole number [n]. *)
Definition announces (n : Z) (ts : list token) : Prop := exists t r, ts = t :: r /\ as_int t = Some n.
(** The file starts with a whole number other than [n]. *)
Definition disagrees (n : Z) (ts : list token) : Prop := exists m, announces m ts /\ m <> n.

(** The table after that first number (the whole file if it does not start with one). *)
Definition table (ts : list token) : list token :=
  match ts with
  | [] => []
  | t :: r => match as_int t with Some _ => r | None => ts end
  end.

(** The number in row [i], column [j] of a table with [w] columns, if the numbers go that far. *)
Definition entry (w j : nat) (ts : list token) (i : nat) : option T := nth_error (numbers ts) (i * w + j).

(** A memory cell holding the first of these values that exists; indeterminate if there is none. *)
Fixpoint first_of (l : list (option T)) : val T :=
  match l with
  | [] => Vundef
  | Some v :: _ => Vdbl v
  | None :: r => first_of r
  end.

End SpecFiles.

Section Tables.
Context {T : Type}.
(** The file announces [n] intervals and lists exactly these rows. *)
Definition lists2 (n : Z) (ts : list (token T)) (rows : list (T * T)) : Prop :=
  announces n ts /\ List.length rows = Z.to_nat (n + 1) /\ numbers (table ts) = flat_map (fun r => [fst r; snd r]) rows.
Definition lists3 (n : Z) (ts : list (token T)) (rows : list (T * T * T)) : Prop :=
  announces n ts /\ List.length rows = Z.to_nat (n + 1) /\ numbers (table ts) = flat_map (fun r => [fst (fst r); snd (fst r); snd r]) rows.
End Tables.
