(** * Vocabulary: a ray, a conical segment of a capillary wall, a mirror (plain geometry) *)
From Coq Require Import Reals ZArith Ranalysis1.
From Verif Require Import Geometry.
Local Open Scope R_scope.

(** Linear interpolation between the values v0 at z0 and v1 at z1. *)
Definition lin (z0 z1 v0 v1 z : R) : R := v0 + (v1 - v0) * ((z - z0) / (z1 - z0)).

(** [p] lies on the line through [p0] with direction [d]. *)
Definition on_line (p0 d p : vec3 R) : Prop :=
  exists t, vx p = vx p0 + t * vx d /\ vy p = vy p0 + t * vy d /\ vz p = vz p0 + t * vz d.

(** A segment of a capillary: axis from c0 to c1 (at heights z0 < z1), radius r0 and r1
    there.  Radius and axis at height z are interpolated linearly. *)
Definition seg_radius (c0 c1 : vec3 R) (r0 r1 z : R) : R := lin (vz c0) (vz c1) r0 r1 z.
Definition seg_axis_x (c0 c1 : vec3 R) (z : R) : R := lin (vz c0) (vz c1) (vx c0) (vx c1) z.
Definition seg_axis_y (c0 c1 : vec3 R) (z : R) : R := lin (vz c0) (vz c1) (vy c0) (vy c1) z.

(** [p] is on the wall of the segment: between both ends, and at the interpolated radius
    from the axis point at the same height. *)
Definition on_wall (c0 c1 : vec3 R) (r0 r1 : R) (p : vec3 R) : Prop :=
  vz c0 <= vz p <= vz c1 /\
  sqrt ((vx p - seg_axis_x c0 c1 (vz p)) ^ 2 + (vy p - seg_axis_y c0 c1 (vz p)) ^ 2)
    = seg_radius c0 c1 r0 r1 (vz p).

(** A ray is parallel to some generator of the (cone through the) wall. *)
Definition parallel_to_wall (c0 c1 : vec3 R) (r0 r1 : R) (d : vec3 R) : Prop :=
  let h := vz c1 - vz c0 in
  (vx d / vz d - (vx c1 - vx c0) / h) ^ 2 + (vy d / vz d - (vy c1 - vy c0) / h) ^ 2 = ((r1 - r0) / h) ^ 2.

Definition dot (a b : vec3 R) : R := vx a * vx b + vy a * vy b + vz a * vz b.
Definition unit (a : vec3 R) : Prop := dot a a = 1.
(** [d'] is the mirror image of [d] in the plane orthogonal to the unit vector [n]:
    the component along n changes sign, the part orthogonal to n does not change. *)
Definition mirrored (n d d' : vec3 R) : Prop :=
  dot d' n = - dot d n /\
  (forall t, dot t n = 0 -> dot d' t = dot d t).

(** The wall of a segment as a surface: the points where [wall_gap] vanishes (squared
    distance to the axis point at the same height, minus the squared radius). *)
Definition wall_gap (c0 c1 : vec3 R) (r0 r1 : R) (p : vec3 R) : R :=
  (vx p - seg_axis_x c0 c1 (vz p)) ^ 2 + (vy p - seg_axis_y c0 c1 (vz p)) ^ 2 - (seg_radius c0 c1 r0 r1 (vz p)) ^ 2.
(** [t] is tangent to that surface at [p]: along t the gap has derivative 0. *)
Definition tangent_at (c0 c1 : vec3 R) (r0 r1 : R) (p t : vec3 R) : Prop :=
  derivable_pt_lim (fun s => wall_gap c0 c1 r0 r1 (mkV (vx p + s * vx t) (vy p + s * vy t) (vz p + s * vz t))) 0 0.
(** [n] is orthogonal to the wall at [p]. *)
Definition normal_at (c0 c1 : vec3 R) (r0 r1 : R) (p n : vec3 R) : Prop :=
  forall t, tangent_at c0 c1 r0 r1 p t -> dot n t = 0.

(** ** Optics of a reflection *)

(** Complex numbers as pairs (real, imaginary). *)
Definition Cmul (x y : R * R) : R * R := (fst x * fst y - snd x * snd y, fst x * snd y + snd x * fst y).
Definition Cadd (x y : R * R) : R * R := (fst x + fst y, snd x + snd y).
Definition Csub (x y : R * R) : R * R := (fst x - fst y, snd x - snd y).
Definition Cnorm2 (x : R * R) : R := fst x * fst x + snd x * snd x.
Definition CR (r : R) : R * R := (r, 0).

(** Refractive index n = 1 - delta + i beta of glass of density [rho] (g/cm^3) at energy
    [e] (keV): delta = (hc/e)^2 N_A r_0 rho f / (2 pi), beta = hc mu / (4 pi e), with
    hc = 1.23984193e-7 keV cm, N_A = 6.022098e23, r_0 = 2.8179403227e-13 cm. *)
Definition hc : R := 123984193 / 1000000000000000.
Definition N_A : R := 602209800 * 1000000000000000.
Definition r_0 : R := 28179403227 / 10000000000 * (1 / 10000000000000).
Definition refractive_index (e rho f mu : R) : R * R :=
  (1 - (hc / e) * (hc / e) * ((N_A * r_0 * rho) / (2 * PI)) * f, hc / (4 * PI) * (mu / e)).

(** [c] is the cosine of the refraction angle for an incidence angle with cosine [ct]:
    Snell's law n^2 c^2 = n^2 - sin^2, principal root. *)
Definition refraction_cos (n : R * R) (ct : R) (c : R * R) : Prop :=
  0 <= fst c /\ 0 <= snd c /\ Cmul (Cmul n n) (Cmul c c) = Csub (Cmul n n) (CR (1 - ct * ct)).
(** Fresnel reflectivities: [rs] = |(ct - n c)/(ct + n c)|^2, [rp] = |(c - n ct)/(c + n ct)|^2. *)
Definition fresnel_s (n : R * R) (ct : R) (c : R * R) (rs : R) : Prop :=
  rs * Cnorm2 (Cadd (CR ct) (Cmul n c)) = Cnorm2 (Csub (CR ct) (Cmul n c)).
Definition fresnel_p (n : R * R) (ct : R) (c : R * R) (rp : R) : Prop :=
  rp * Cnorm2 (Cadd c (Cmul n (CR ct))) = Cnorm2 (Csub c (Cmul n (CR ct))).
