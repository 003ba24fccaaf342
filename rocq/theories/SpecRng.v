(** * What the theorems about random generators mean, in terms of memory only. *)
From Coq Require Import ZArith List Bool.
From Verif Require Import Mem SpecHeap.
Import ListNotations.

Section Spec.
Context {T : Type}.

(** [r] is a polycap_rng whose generator [g] was seeded with [seed]. *)
Definition generator (s : st T) (r g : loc) (seed : Z) : Prop :=
  mem s r = Some [Vptr (Some g)] /\ mem s g = Some [Vint seed] /\ r <> g.

(** Between [s] and [s'] a generator with this seed was created: two blocks that did not exist
    before; nothing else changed. *)
Definition generator_created (seed : Z) (r : ptr) (s s' : st T) : Prop :=
  exists l g, r = Some l /\ generator s' l g seed /\ mem s l = None /\ mem s g = None /\ same_memory_except [l; g] s s'.

(** The number whose i-th byte (from the least significant one) is the i-th of [bs], i < 8. *)
Definition number_of_bytes (bs : list Z) : Z := fold_right Z.add 0%Z (map (fun i => nth i bs 0 * 2 ^ (8 * Z.of_nat i))%Z (seq 0 8)).

(** Eight bytes, or more. *)
Definition eight_bytes (bs : list Z) : Prop := 8 <= List.length bs /\ forall b, In b bs -> (0 <= b < 256)%Z.

End Spec.
