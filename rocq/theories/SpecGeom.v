(** * Independent geometric vocabulary over the reals *)
From Coq Require Import ZArith List Reals.
Import ListNotations.
Local Open Scope R_scope.

(** Vertices of the regular hexagon with centre 0 and circumradius [rad], one vertex on
    the positive x axis. *)
Definition hex_vertex (rad : R) (k : nat) : R * R :=
  (rad * cos (INR k * PI / 3), rad * sin (INR k * PI / 3)).

(** The closed hexagon: the convex hull of the six vertices. *)
Definition in_hexagon (rad : R) (x y : R) : Prop :=
  exists w : nat -> R,
    (forall k, (k < 6)%nat -> 0 <= w k) /\
    w 0%nat + w 1%nat + w 2%nat + w 3%nat + w 4%nat + w 5%nat = 1 /\
    x = w 0%nat * fst (hex_vertex rad 0) + w 1%nat * fst (hex_vertex rad 1) + w 2%nat * fst (hex_vertex rad 2)
      + w 3%nat * fst (hex_vertex rad 3) + w 4%nat * fst (hex_vertex rad 4) + w 5%nat * fst (hex_vertex rad 5) /\
    y = w 0%nat * snd (hex_vertex rad 0) + w 1%nat * snd (hex_vertex rad 1) + w 2%nat * snd (hex_vertex rad 2)
      + w 3%nat * snd (hex_vertex rad 3) + w 4%nat * snd (hex_vertex rad 4) + w 5%nat * snd (hex_vertex rad 5).

(** Euclidean length and distance in the plane. *)
Definition len2 (x y : R) : R := sqrt (x * x + y * y).
Definition dist2 (x y x' y' : R) : R := len2 (x - x') (y - y').

(** Shell number of cell (q,r) of the hexagonal stacking (axial coordinates):
    0 for the central capillary, k for the k-th hexagonal ring. *)
Definition shell (q r : Z) : Z := Z.max (Z.abs q) (Z.max (Z.abs r) (Z.abs (q + r))).

(** Axis of capillary (q,r) of a stacking with [n] shells filling a hexagon of
    circumradius [rad]: the lattice spanned by two vectors of length rad/(n+1) at an
    angle of 60 degrees. *)
Definition pitch (rad n : R) : R := rad / (n + 1).
Definition cap_axis (rad n : R) (q r : Z) : R * R :=
  (pitch rad n * (IZR q + IZR r * cos (PI / 3)), pitch rad n * (IZR r * sin (PI / 3))).

(** Area of that hexagon. *)
Definition hexagon_area (rad : R) : R := 3 * sqrt 3 / 2 * (rad * rad).

(** Number of capillaries in a full stacking of [k] shells. *)
Definition stack_size (k : Z) : Z := (3 * k * k + 3 * k + 1)%Z.
