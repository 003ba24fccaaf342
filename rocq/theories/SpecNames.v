(** * Vocabulary: input files that name the files of their profile *)
From Coq Require Import ZArith List.
From Verif Require Import FromFile SpecInput.
Import ListNotations.

(** A file name, one number per byte: no end of string, no end of line. *)
Definition file_name (l : list Z) : Prop := Forall (fun c => c <> 0 /\ c <> 10)%Z l.

Section SpecNames.
Context {T : Type}.
(** A complete file whose kind of profile is none of 0, 1, 2: after that come three names (as
    [names_at] reads them) and the number of capillaries. *)
Definition complete_with_names (names_at : list (token T) -> list Z * list Z * list Z * list (token T)) (c : input T) (l1 l2 l3 : list Z) (ts : list (token T)) : Prop :=
  ~ (0 <= i_type c <= 2)%Z /\
  exists at_names after rest, lists (first_part c) ts at_names /\ names_at at_names = (l1, l2, l3, after) /\ lists [Whole (i_ncap c)] after rest.
End SpecNames.
