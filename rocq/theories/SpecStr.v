(** * Specification: strings of bytes in memory *)
From Coq Require Import ZArith List.
From Verif Require Import Mem SpecHeap.
Import ListNotations.

Section Spec.
Context {T : Type}.
Implicit Types (s : st T).

(** At [l] are the bytes [w], none of them 0, and then a 0. *)
Definition c_string s (l : loc) (w : list Z) : Prop :=
  Forall (fun z => z <> 0%Z) w /\ exists rest, mem s l = Some (map Vint w ++ Vint 0 :: rest).

(** Of the string at [l], at most [n] bytes of which may be read, these are the bytes
    [w]: either a 0 follows, or they are [n], and anything, even the end of the block,
    may follow. *)
Definition c_string_upto s (l : loc) (n : Z) (w : list Z) : Prop :=
  Forall (fun z => z <> 0%Z) w /\
  exists rest, mem s l = Some (map Vint w ++ rest) /\
    (Z.of_nat (List.length w) = n \/
     (Z.of_nat (List.length w) < n)%Z /\ exists r, rest = Vint 0 :: r).

(** [r] is a copy of [w] in a new block; nothing else changed.  If there was no memory
    for it, [r] is NULL and nothing changed at all. *)
Definition copied (w : list Z) (r : ptr) s s' : Prop :=
  (r = NULL /\ orc s (cnt s) = false /\ same_memory s s') \/
  (exists d, r = Some d /\ orc s (cnt s) = true /\ mem s d = None /\ c_string s' d w /\ same_memory_except [d] s s').

(** The block holds the string and its final 0, and not a byte more. *)
Definition no_longer_than (w : list Z) (r : ptr) s : Prop :=
  forall d, r = Some d -> mem s d = Some (map Vint w ++ [Vint 0]).
End Spec.
