(** * Vocabulary: where the light of a photon goes (plain optics, no code)

    Light that meets the wall of a capillary is split: a fraction is reflected, the rest enters
    the glass, is attenuated there, and comes out somewhere: at the side of the optic, at its
    exit, or in another channel, where the same happens again. *)
From Coq Require Import Reals ZArith List.
From Verif Require Import Geometry SpecGeom SpecRay SpecPath SpecPhoton.
Import ListNotations.
Local Open Scope R_scope.

(** The point reached from [a] after a distance [d] in (unit) direction [u]; the point of the
    line at height [z]. *)
Definition ahead (a u : vec3 R) (d : R) : vec3 R := mkV (vx a + d * vx u) (vy a + d * vy u) (vz a + d * vz u).
Definition at_height (z : R) (a u : vec3 R) : vec3 R := ahead a u ((z - vz a) / vz u).

(** Intensities: one number per energy.  [r] is reflected, [g] enters the glass. *)
Definition splits (w r g : list R) : Prop :=
  exists rho, length rho = length w /\ Forall (fun k => 0 <= k <= 1) rho /\
    r = map (fun kv => fst kv * snd kv) (combine rho w) /\
    g = map (fun kv => (1 - fst kv) * snd kv) (combine rho w).
(** Beer-Lambert, [mu] the attenuation coefficients. *)
Definition attenuated (mu : list R) (d : R) (w : list R) : list R :=
  map (fun mv => snd mv * exp (- (d * fst mv))) (combine mu w).
(** Light is followed as long as one energy has at least 1/10000. *)
Definition significant (w : list R) : Prop := Exists (fun v => 1 / 10000 <= v) w.

(** The record of a leak: place, direction, number of reflections, intensities. *)
Definition records (l : leak_data R) (a u : vec3 R) (k : Z) (w : list R) : Prop :=
  lk_coords l = a /\ lk_dir l = u /\ lk_nrefl l = k /\ lk_weights l = w.

Section Light.
Variables (p : profile R) (n : R) (mu : list R) (leak_calc : bool).

(** Exit plane: height and outer radius there. *)
Definition exit_plane (zm em : R) : Prop := nth_error (p_z p) (p_nmax p) = Some zm /\ nth_error (p_ext p) (p_nmax p) = Some em.

(** Outer radius at height [z]: interpolated in the last segment that starts at or below z. *)
Definition outline_at (z e : R) : Prop :=
  exists j z0 z1 e0 e1, (j < p_nmax p)%nat /\ nth_error (p_z p) j = Some z0 /\ nth_error (p_z p) (S j) = Some z1 /\
    nth_error (p_ext p) j = Some e0 /\ nth_error (p_ext p) (S j) = Some e1 /\
    (j = O \/ z0 <= z) /\ (forall k zk, (j < k < p_nmax p)%nat -> nth_error (p_z p) k = Some zk -> z < zk) /\
    e = lin z0 z1 e0 e1 z.
(** Outside of the optic: the outline is a circle for a mono-capillary, else a hexagon. *)
Definition outside (a : vec3 R) : Prop :=
  exists e, outline_at (vz a) e /\ (if Req_EM_T n 0 then e <= len2 (vx a) (vy a) else 0 < e /\ ~ in_hexagon e (vx a) (vy a)).

(** Where a path through the glass, from [a] in direction [u], of length [d], ends. *)
Inductive glass_end := IntoChannel (q r : Z) | AtExit | AtSide.
Definition glass (a u : vec3 R) (d : R) (g : glass_end) : Prop :=
  0 <= d /\
  match g with
  | IntoChannel q r => let c := capillary_of p n q r in in_channel c (ahead a u d) \/ ~ regular c u
  | AtExit =>
      (exists zm em, exit_plane zm em /\ in_hexagon em (vx (at_height zm a u)) (vy (at_height zm a u))) \/
      (n = 0 /\ let c := capillary_of p n 0 0 in in_channel c (ahead a u d) \/ ~ regular c u)
  | AtSide =>
      (exists zm em, exit_plane zm em /\ ~ in_hexagon em (vx (at_height zm a u)) (vy (at_height zm a u))) \/
      outside (ahead a u d)
  end.

(** [shines c s w xs ys s' w']: light [w] travelling as [s] in capillary [c] becomes, after
    some reflections, light [w'] travelling as [s'], and meanwhile causes the leaks [xs]
    through the side and [ys] through the exit.
    [fades c s w xs ys]: it becomes insignificant at the wall.
    [spills a u k t g xs ys]: light [g] that entered the glass at [a] in direction [u], after
    [k] reflections and a path of length [t], causes the leaks [xs] and [ys].
    Degenerate rays (parallel to a wall, not going downstream) are left open. *)
Inductive shines : capillary -> ray -> list R -> list (leak_data R) -> list (leak_data R) -> ray -> list R -> Prop :=
| shines_straight c s w : shines c s w [] [] s w
| shines_bounce c s w xs ys s1 w1 s2 w2 g xs' ys' :
    shines c s w xs ys s1 w1 -> bounce c s1 s2 -> splits w1 w2 g -> significant w2 ->
    spills (r_pos s2) (r_dir s1) (r_bounces s1) (r_travel s2) g xs' ys' ->
    shines c s w (xs ++ xs') (ys ++ ys') s2 w2
| shines_degenerate c s w xs ys s1 w1 xs' ys' s2 w2 :
    shines c s w xs ys s1 w1 -> ~ regular c (r_dir s1) -> shines c s w xs' ys' s2 w2
with fades : capillary -> ray -> list R -> list (leak_data R) -> list (leak_data R) -> Prop :=
| fades_at_wall c s w xs ys s1 w1 a w2 g xs' ys' :
    shines c s w xs ys s1 w1 -> meets c s1 a -> splits w1 w2 g -> ~ significant w2 ->
    spills a (r_dir s1) (r_bounces s1) (r_travel s1 + distance a (r_pos s1)) g xs' ys' ->
    fades c s w (xs ++ xs') (ys ++ ys')
| fades_degenerate c s w xs ys s1 w1 xs' ys' :
    shines c s w xs ys s1 w1 -> ~ regular c (r_dir s1) -> fades c s w xs' ys'
with spills : vec3 R -> vec3 R -> Z -> R -> list R -> list (leak_data R) -> list (leak_data R) -> Prop :=
| spills_not_asked a u k t g : leak_calc = false -> spills a u k t g [] []
| spills_dark a u k t g d e : glass a u d e -> ~ significant (attenuated mu d g) -> spills a u k t g [] []
| spills_side a u k t g d l :
    glass a u d AtSide -> significant (attenuated mu d g) -> records l (ahead a u d) u k (attenuated mu d g) ->
    spills a u k t g [l] []
| spills_exit a u k t g d l :
    glass a u d AtExit -> significant (attenuated mu d g) -> records l (ahead a u d) u k (attenuated mu d g) ->
    spills a u k t g [] [l]
(* the channel is entered beyond the exit plane *)
| spills_beyond a u k t g d q r zm em :
    glass a u d (IntoChannel q r) -> significant (attenuated mu d g) -> exit_plane zm em -> zm <= vz (ahead a u d) ->
    spills a u k t g [] []
| spills_absorbed a u k t g d q r xs ys :
    glass a u d (IntoChannel q r) -> significant (attenuated mu d g) ->
    fades (capillary_of p n q r) (mkRay (ahead a u d) u k (t + d)) (attenuated mu d g) xs ys ->
    spills a u k t g xs ys
(* the light leaves the optic through another channel, travelling as [s]; what the leak
   records is the direction and the number of reflections it had before the glass *)
| spills_through_side a u k t g d q r xs ys s w zm em l :
    glass a u d (IntoChannel q r) -> significant (attenuated mu d g) ->
    shines (capillary_of p n q r) (mkRay (ahead a u d) u k (t + d)) (attenuated mu d g) xs ys s w ->
    exit_plane zm em -> ~ in_hexagon em (vx (at_height zm (r_pos s) (r_dir s))) (vy (at_height zm (r_pos s) (r_dir s))) ->
    records l (at_height zm (r_pos s) (r_dir s)) u k w ->
    spills a u k t g (xs ++ [l]) ys
| spills_through_exit a u k t g d q r xs ys s w zm em l :
    glass a u d (IntoChannel q r) -> significant (attenuated mu d g) ->
    shines (capillary_of p n q r) (mkRay (ahead a u d) u k (t + d)) (attenuated mu d g) xs ys s w ->
    exit_plane zm em -> in_hexagon em (vx (at_height zm (r_pos s) (r_dir s))) (vy (at_height zm (r_pos s) (r_dir s))) ->
    records l (at_height zm (r_pos s) (r_dir s)) u k w ->
    spills a u k t g xs (ys ++ [l])
.

(** Light that starts in the glass, beyond the entrance: no threshold is applied. *)
Inductive emerges : vec3 R -> vec3 R -> R -> list R -> list (leak_data R) -> list (leak_data R) -> Prop :=
| emerges_side a u t w d l : glass a u d AtSide -> records l (ahead a u d) u 0 (attenuated mu d w) -> emerges a u t w [l] []
| emerges_exit a u t w d l : glass a u d AtExit -> records l (ahead a u d) u 0 (attenuated mu d w) -> emerges a u t w [] [l]
| emerges_absorbed a u t w d q r xs ys :
    glass a u d (IntoChannel q r) ->
    fades (capillary_of p n q r) (mkRay (ahead a u d) u 0 (t + d)) (attenuated mu d w) xs ys -> emerges a u t w xs ys
| emerges_through_side a u t w d q r xs ys s w' zm em l :
    glass a u d (IntoChannel q r) ->
    shines (capillary_of p n q r) (mkRay (ahead a u d) u 0 (t + d)) (attenuated mu d w) xs ys s w' ->
    exit_plane zm em -> ~ in_hexagon em (vx (at_height zm (r_pos s) (r_dir s))) (vy (at_height zm (r_pos s) (r_dir s))) ->
    records l (at_height zm (r_pos s) (r_dir s)) (r_dir s) (r_bounces s) w' ->
    emerges a u t w (xs ++ [l]) ys
| emerges_through_exit a u t w d q r xs ys s w' zm em l :
    glass a u d (IntoChannel q r) ->
    shines (capillary_of p n q r) (mkRay (ahead a u d) u 0 (t + d)) (attenuated mu d w) xs ys s w' ->
    exit_plane zm em -> in_hexagon em (vx (at_height zm (r_pos s) (r_dir s))) (vy (at_height zm (r_pos s) (r_dir s))) ->
    records l (at_height zm (r_pos s) (r_dir s)) (r_dir s) (r_bounces s) w' ->
    emerges a u t w xs (ys ++ [l]).

End Light.
