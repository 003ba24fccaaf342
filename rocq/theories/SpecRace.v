(** * Vocabulary: data races between the threads of a simulation *)
From Coq Require Import List.
From Verif Require Import Num RunModel.
Import ListNotations.

Section Race.
Context {T : Type} {N : Num T}.

(** Shared memory, divided into separately allocated or separately indexed places. *)
Inductive place :=
| PCounter (c : counter) (tid : nat)   (* iexit_temp[tid], ... *)
| PImage (f : field) (j : nat)         (* element j of an array of the images *)
| PReflections                         (* sum_irefl *)
| PWeightSums                          (* sum_weights *)
| PLeakTotals                          (* i_extleak, i_intleak *)
| PLeakArrays.                         (* the leak arrays and leak_counter, intleak_counter *)

Definition writes (a : action T) : list place :=
  match a with
  | AIncr c t => [PCounter c t]
  | AStore f j _ => [PImage f j]
  | ARefl _ => [PReflections]
  | ASum _ None => [PWeightSums]
  | ASum _ (Some _) => [PWeightSums; PLeakTotals]
  | ASingle => [PLeakArrays]
  | ACopy _ _ => [PLeakArrays]
  end.
(** ... and places that are only read. *)
Definition reads (a : action T) : list place := match a with ASingle => [PLeakTotals] | _ => [] end.

(** Inside "omp critical" (all of them unnamed, hence one lock). *)
Definition critical (a : action T) : Prop :=
  match a with ARefl _ | ASum _ _ | ACopy _ _ => True | _ => False end.
(** Inside "omp single": one thread executes it, the others wait. *)
Definition single (a : action T) : Prop := match a with ASingle => True | _ => False end.

(** Two actions of different threads race if they touch the same place, one of them
    writes it, and nothing keeps them apart. *)
Definition race (a b : action T) : Prop :=
  (exists p, In p (writes a) /\ In p (writes b ++ reads b) \/ In p (writes b) /\ In p (writes a ++ reads a)) /\
  ~ (critical a /\ critical b) /\ ~ (single a /\ single b).

End Race.
