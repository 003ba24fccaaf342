(** * Vocabulary: the path of a ray bouncing in a capillary (plain geometry) *)
From Coq Require Import Reals ZArith List.
From Verif Require Import Geometry SpecGeom SpecRay.
Import ListNotations.
Local Open Scope R_scope.

(** A capillary: axis point and radius at successive heights. *)
Definition capillary : Type := list (vec3 R * R).
Definition segment_of (c : capillary) (j : nat) (a0 : vec3 R) (r0 : R) (a1 : vec3 R) (r1 : R) : Prop :=
  nth_error c j = Some (a0, r0) /\ nth_error c (S j) = Some (a1, r1).

(** Capillary (q,r) of the stacking with [n] shells in an optic with profile [p]. *)
Definition capillary_of (p : profile R) (n : R) (q r : Z) : capillary :=
  map (fun '(z, c, e) => (mkV (fst (cap_axis e n q r)) (snd (cap_axis e n q r)) z, c))
      (combine (combine (p_z p) (p_cap p)) (p_ext p)).

Definition distance (a b : vec3 R) : R := sqrt ((vx a - vx b) ^ 2 + (vy a - vy b) ^ 2 + (vz a - vz b) ^ 2).
Definition along (d : vec3 R) : vec3 R :=
  let l := sqrt (dot d d) in mkV (vx d / l) (vy d / l) (vz d / l).

(** A travelling ray: where it is, where it goes, how often it bounced, how far it came. *)
Record ray := mkRay { r_pos : vec3 R; r_dir : vec3 R; r_bounces : Z; r_travel : R }.

(** [p] is a point where the ray [s] meets the wall of segment j, downstream. *)
Definition meets (c : capillary) (s : ray) (p : vec3 R) : Prop :=
  exists j a0 r0 a1 r1, segment_of c j a0 r0 a1 r1 /\ on_wall a0 a1 r0 r1 p /\
    on_line (r_pos s) (r_dir s) p /\ vz (r_pos s) < vz p.

(** One specular reflection on the wall. *)
Definition bounce (c : capillary) (s s' : ray) : Prop :=
  meets c s (r_pos s') /\
  (exists n, unit n /\ mirrored n (r_dir s) (r_dir s')) /\ unit (r_dir s') /\
  r_bounces s' = (r_bounces s + 1)%Z /\ r_travel s' = r_travel s + distance (r_pos s') (r_pos s).

Inductive bounces (c : capillary) : nat -> ray -> ray -> Prop :=
| bounces_O s : bounces c O s s
| bounces_S n s s' s'' : bounces c n s s' -> bounce c s' s'' -> bounces c (S n) s s''.

(** The ray runs downstream and is neither parallel to the wall of a segment nor
    orthogonal to its axis; the segments have positive radii. *)
Definition regular (c : capillary) (d : vec3 R) : Prop :=
  0 < vz d /\
  forall j a0 r0 a1 r1, segment_of c j a0 r0 a1 r1 ->
    0 < r0 /\ 0 < r1 /\ ~ parallel_to_wall a0 a1 r0 r1 d /\
    dot d (mkV (vx a1 - vx a0) (vy a1 - vy a0) (vz a1 - vz a0)) <> 0.

(** [p] is in the open part of the capillary: at the entrance, or in segment j. *)
Definition in_channel (c : capillary) (p : vec3 R) : Prop :=
  (vz p <= 0 /\ exists a r, nth_error c 0 = Some (a, r) /\ dist2 (vx p) (vy p) (vx a) (vy a) <= r) \/
  (exists j a0 r0 a1 r1, segment_of c j a0 r0 a1 r1 /\
     dist2 (vx p) (vy p) (seg_axis_x a0 a1 (vz p)) (seg_axis_y a0 a1 (vz p)) <= seg_radius a0 a1 r0 r1 (vz p)).
