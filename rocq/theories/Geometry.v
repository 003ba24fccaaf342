(** * Model of the plane-geometry helpers:
    polycap_photon_within_pc_boundary, polycap_norm, polycap_scalar
    (src/polycap-photon.c), polycap_profile_validate (src/polycap-profile.c) and
    the selection of a capillary in polycap_photon_launch. *)
From Coq Require Import ZArith List Bool.
From Verif Require Import Num.
Import ListNotations.
Local Open Scope num_scope.

(** polycap_vector3, include/polycap-photon.h. *)
Record vec3 (T : Type) := mkV { vx : T; vy : T; vz : T }.
Arguments mkV {T} _ _ _.
Arguments vx {T} _.
Arguments vy {T} _.
Arguments vz {T} _.

(** A profile as seen by the numeric code: nmax and the three arrays
    (struct _polycap_profile, src/polycap-private.h:88-94). *)
Record profile (T : Type) := mkProfile { p_nmax : nat; p_z : list T; p_cap : list T; p_ext : list T }.
Arguments mkProfile {T} _ _ _ _.
Arguments p_nmax {T} _.
Arguments p_z {T} _.
Arguments p_cap {T} _.
Arguments p_ext {T} _.

Section Geometry.
Context {T : Type} {N : Num T}.

(** 0.5 literal *)
Definition nhalf : T := ndec 1 2.

(** polycap_photon_within_pc_boundary: src/polycap-photon.c:139-169.
    The error report accompanying -1 (line 147) is a separate output of the
    callers that need it. *)
Definition within_pc_boundary (radius : T) (c : vec3 T) : Z :=
  if radius <=? #0 then (-1)%Z
  else
    let d := nsqrt ((radius * radius) - ((radius / #2) * (radius / #2))) in
    let dp1 := nabs (#0 * vx c + #1 * vy c) in
    let dp2 := nabs (ncospi6 * vx c + nhalf * vy c) in
    let dp3 := nabs (ncospi6 * vx c + (- nhalf) * vy c) in
    if (dp1 >? d) || (dp2 >? d) || (dp3 >? d) then 0%Z else 1%Z.

(** polycap_norm: src/polycap-photon.c:365-376. *)
Definition vnorm (v : vec3 T) : vec3 T :=
  let s := nsqrt (vx v * vx v + vy v * vy v + vz v * vz v) in
  mkV (vx v / s) (vy v / s) (vz v / s).

(** polycap_scalar: src/polycap-photon.c:379-386. *)
Definition vscalar (a b : vec3 T) : T := vx a * vx b + vy a * vy b + vz a * vz b.

(** n_shells = round(sqrt(12. * n_cap - 3.)/6.-0.5): src/polycap-profile.c:337,
    src/polycap-photon.c:483, src/polycap-source.c:76, src/polycap-description.c:214. *)
Definition n_shells (n_cap : Z) : T :=
  nround (nsqrt (#12 * nofZ n_cap - #3) / #6 - nhalf).

(** Hexagon unit z = ext/(2.*COSPI_6*(n_shells+1)) and the axis of capillary (q,r):
    src/polycap-profile.c:357-359, src/polycap-photon.c:540, 623-625. *)
Definition hex_unit (ext nsh : T) : T := ext / (#2 * ncospi6 * (nsh + #1)).
Definition axis_y (r z : T) : T := r * (#3 / #2) * z.
Definition axis_x (q r z : T) : T := (#2 * q + r) * ncospi6 * z.

(** (q_dir[j], r_dir[j]): src/polycap-profile.c:346-347. *)
Definition ring_dirs : list (Z * Z) := [(1,0); (1,-1); (0,-1); (-1,0); (-1,1); (0,1)]%Z.

(** Cells visited by the inner k loop for direction d: src/polycap-profile.c:351-353. *)
Fixpoint ring_side (n : nat) (d : Z * Z) (q r : T) : list (T * T) * (T * T) :=
  match n with
  | O => ([], (q, r))
  | S n =>
      let q := q + nofZ (fst d) in
      let r := r + nofZ (snd d) in
      let '(l, e) := ring_side n d q r in
      ((q, r) :: l, e)
  end.

(** The outer j loop: src/polycap-profile.c:348-353. *)
Fixpoint ring_walk (dirs : list (Z * Z)) (n : nat) (q r : T) : list (T * T) :=
  match dirs with
  | [] => []
  | d :: ds =>
      let '(l, (q', r')) := ring_side n d q r in
      l ++ ring_walk ds n q' r'
  end.

(** Number of iterations of [for(k = 0; k < n_shells; k++)] for an integral
    non-negative n_shells. *)
Definition shells_nat (nsh : T) : nat := match ntoZ nsh with Some z => Z.to_nat z | None => O end.

Definition ring_cells (nsh : T) : list (T * T) :=
  ring_walk ring_dirs (shells_nat nsh) (- #1 * nsh) nsh.

(** The point tested for cell (q,r) at one z index: src/polycap-profile.c:357-363. *)
Definition outer_point (ext cap z nsh : T) (qr : T * T) : vec3 T :=
  let u := hex_unit ext nsh in
  let y := axis_y (snd qr) u in
  let x := axis_x (fst qr) (snd qr) u in
  let angle := natandiv y x in
  mkV (x + ncos angle * cap) (y + nsin angle * cap) z.

(** First result different from 1 over a list, else 1: the early returns of the
    nested loops, src/polycap-profile.c:350-377. *)
Fixpoint first_bad {A} (f : A -> Z) (l : list A) : Z :=
  match l with
  | [] => 1%Z
  | a :: l => if Z.eqb (f a) 1 then first_bad f l else f a
  end.

(** One profile point: (ext, cap, z). *)
Fixpoint points (ext cap z : list T) : list (T * T * T) :=
  match ext, cap, z with
  | e :: ext, c :: cap, z0 :: z => (e, c, z0) :: points ext cap z
  | _, _, _ => []
  end.

(** polycap_profile_validate: src/polycap-profile.c:321-423 (full_check = 1 is a
    constant, so the branch 379-419 is dead code and omitted).
    [None] is undefined behaviour: an array shorter than nmax+1.
    The loops over i run over the nmax+1 points. *)
Definition profile_validate (p : profile T) (n_cap : Z) : option Z :=
  let m := S (p_nmax p) in
  if (Nat.leb m (length (p_ext p))) && (Nat.leb m (length (p_cap p))) && (Nat.leb m (length (p_z p)))
  then
    let pts := points (firstn m (p_ext p)) (firstn m (p_cap p)) (firstn m (p_z p)) in
    let nsh := n_shells n_cap in
    if nsh =? #0 then
      Some (first_bad (fun '(e, c, _) => if c >=? e then 0%Z else 1%Z) pts)
    else
      Some (first_bad
        (fun qr => first_bad (fun '(e, c, z) => within_pc_boundary e (outer_point e c z nsh qr)) pts)
        (ring_cells nsh))
  else None.

(** Fractional hexagon coordinates of a point and their rounding to a cell:
    src/polycap-photon.c:540-552. *)
Definition hex_frac (x y z : T) : T * T :=
  ((x / (#2 * ncospi6) - y / #3) / z, y * (#2 / #3) / z).

Definition hex_round (qr : T * T) : T * T :=
  let (q, r) := qr in
  let s := - #1 * q - r in
  if (nabs (q - nround q) >? nabs (r - nround r)) && (nabs (q - nround q) >? nabs (s - nround s))
  then (- #1 * nround r - nround s, nround r)
  else if nabs (r - nround r) >? nabs (s - nround s)
  then (nround q, - #1 * nround q - nround s)
  else (nround q, nround r).

(** The capillary selected for an entrance point: src/polycap-photon.c:540-552. *)
Definition select_capillary (ext nsh x y : T) : T * T :=
  hex_round (hex_frac x y (hex_unit ext nsh)).

End Geometry.
