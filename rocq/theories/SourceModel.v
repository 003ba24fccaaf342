(** * Model of polycap_source_get_photon (src/polycap-source.c:23-144) *)
From Coq Require Import ZArith List Bool Lia String.
From Verif Require Import Num Mem ErrorModel ProfileModel Geometry ConsModel.
Import ListNotations.
Local Open Scope num_scope.

(** The numbers of struct _polycap_source, src/polycap-private.h:108-122. *)
Record source_nums (T : Type) := mkSource {
  so_d : T; so_x : T; so_y : T; so_sigx : T; so_sigy : T; so_shx : T; so_shy : T; so_pol : T }.
Arguments mkSource {T}. Arguments so_d {T}. Arguments so_x {T}. Arguments so_y {T}. Arguments so_sigx {T}.
Arguments so_sigy {T}. Arguments so_shx {T}. Arguments so_shy {T}. Arguments so_pol {T}.

(** What the new photon is given. *)
Record drawn (T : Type) := mkDrawn {
  dr_src : vec3 T;    (* src_start_coords *)
  dr_start : vec3 T;  (* start_coords *)
  dr_dir : vec3 T;    (* start_direction *)
  dr_elecv : vec3 T   (* start_electric_vector *) }.
Arguments mkDrawn {T}. Arguments dr_src {T}. Arguments dr_start {T}. Arguments dr_dir {T}. Arguments dr_elecv {T}.

Section Source.
Context {T : Type} {N : Num T}.

(** phi: src/polycap-source.c:55-62; [r1], [r2] are the two random numbers. *)
Definition draw_phi (s : source_nums T) (r1 r2 : T) : T :=
  let phi := natan (so_y s / so_x s * ntan (#2 * npi * r1 / #4)) in
  let phi := if (r2 >=? ndec 1 4) && (r2 <? nhalf) then npi - phi else phi in
  let phi := if (r2 >=? nhalf) && (r2 <? ndec 3 4) then npi + phi else phi in
  if r2 >=? ndec 3 4 then - #1 * phi else phi.

(** src_start_coords: src/polycap-source.c:63-71. *)
Definition draw_source_point (s : source_nums T) (r1 r2 r3 : T) : vec3 T :=
  let phi := draw_phi s r1 r2 in
  let max_rad := so_x s * so_y s /
        nsqrt ((so_y s * ncos phi) * (so_y s * ncos phi) + (so_x s * nsin phi) * (so_x s * nsin phi)) in
  mkV (nsqrt r3 * max_rad * ncos phi + so_shx s) (nsqrt r3 * max_rad * nsin phi + so_shy s) (#0).

(** The rejection loop over the polycapillary entrance: src/polycap-source.c:84-91.
    [None]: the random numbers of [rs] are used up and the loop still runs. (The report of
    polycap_photon_within_pc_boundary for a non-positive radius, which ends the loop, is
    not represented.) *)
Fixpoint hex_loop (ext0 : T) (rs : list T) : option (T * T * list T) :=
  match rs with
  | r1 :: r2 :: rs =>
      let x := (#2 * r1 - #1) * ext0 in
      let y := (#2 * r2 - #1) * ext0 in
      if Z.eqb (within_pc_boundary ext0 (mkV x y (#0))) 0 then hex_loop ext0 rs else Some (x, y, rs)
  | _ => None
  end.

(** start_coords.x/.y in the uniform case: src/polycap-source.c:74-92. *)
Definition draw_entrance (n_cap : Z) (cap0 ext0 : T) (rs : list T) : option (T * T * list T) :=
  if n_shells n_cap =? #0 then
    match rs with
    | r1 :: r2 :: rs => Some ((#2 * r1 - #1) * cap0, (#2 * r2 - #1) * cap0, rs)
    | _ => None
    end
  else hex_loop ext0 rs.

(** start_electric_vector: src/polycap-source.c:112-137. *)
Definition draw_elecv (s : source_nums T) (r : T) (dir : vec3 T) : vec3 T :=
  let frac := (#1 + so_pol s) / #2 in
  let e := if nabs r <=? frac then mkV (#1) (#0) (#0) else mkV (#0) (#1) (#0) in
  let cosalpha := vscalar e dir in
  let alpha := nacos cosalpha in
  let c_ae := #1 / nsin alpha in
  let c_be := - #1 * c_ae * cosalpha in
  vnorm (mkV (vx e * c_ae + vx dir * c_be) (vy e * c_ae + vy dir * c_be) (vz e * c_ae + vz dir * c_be)).

(** start_coords, start_direction (normalised): src/polycap-source.c:73-110. *)
Definition draw_ray (s : source_nums T) (n_cap : Z) (cap0 ext0 : T) (src : vec3 T) (rs : list T)
  : option (vec3 T * vec3 T * list T) :=
  if (so_sigx s <? #0) || (so_sigy s <? #0) then
    match draw_entrance n_cap cap0 ext0 rs with
    | None => None
    | Some (x, y, rs) => Some (mkV x y (#0), vnorm (mkV (x - vx src) (y - vy src) (so_d s)), rs)
    end
  else
    match rs with
    | r1 :: r2 :: rs =>
        let dx := so_sigx s * (#1 - #2 * nabs r1) in
        let dy := so_sigy s * (#1 - #2 * nabs r2) in
        let dz := #1 in
        Some (mkV (vx src + dx * so_d s / dz) (vy src + dy * so_d s / dz) (#0), vnorm (mkV dx dy dz), rs)
    | _ => None
    end.

(** All the random choices of polycap_source_get_photon: src/polycap-source.c:53-137.
    [rs]: the numbers the generator is going to deliver; the rest is returned. *)
Definition draw_photon (s : source_nums T) (n_cap : Z) (cap0 ext0 : T) (rs : list T) : option (drawn T * list T) :=
  match rs with
  | r1 :: r2 :: r3 :: rs =>
      let src := draw_source_point s r1 r2 r3 in
      match draw_ray s n_cap cap0 ext0 src rs with
      | Some (start, dir, r :: rs) => Some (mkDrawn src start dir (draw_elecv s r dir), rs)
      | _ => None
      end
  | _ => None
  end.

Local Open Scope mem_scope.

(** polycap_source_get_photon: src/polycap-source.c:23-144, heap level.  [rng]: NULL or the
    numbers to come; [None]: still looping when they are used up.  The result of
    polycap_photon_new is not checked (line 141). *)
Definition source_get_photon (src : ptr) (rng : option (list T)) (err : eslot) : M T (option (ptr * list T)) :=
  match src with
  | None => invalid err "polycap_source_get_photon: source cannot be NULL" ;;; ret (Some (NULL, []))
  | Some _ =>
      d <- load_ptr src S_DESC ;;
      match d with
      | None => invalid err "polycap_source_get_photon: description cannot be NULL" ;;; ret (Some (NULL, []))
      | Some _ =>
          match rng with
          | None => invalid err "polycap_source_get_photon: rng cannot be NULL" ;;; ret (Some (NULL, []))
          | Some rs =>
              f2 <- load_dbl src 2 ;; f3 <- load_dbl src 3 ;; f4 <- load_dbl src 4 ;; f5 <- load_dbl src 5 ;;
              f6 <- load_dbl src 6 ;; f7 <- load_dbl src 7 ;; f8 <- load_dbl src 8 ;; f9 <- load_dbl src 9 ;;
              n_cap <- load_int d D_NCAP ;;
              q <- load_ptr d D_PROF ;;
              lc <- load_ptr q P_CAP ;; le <- load_ptr q P_EXT ;;
              c0 <- load_dbl lc 0 ;; e0 <- load_dbl le 0 ;;
              match draw_photon (mkSource f2 f3 f4 f5 f6 f7 f8 f9) n_cap c0 e0 rs with
              | None => ret None
              | Some (dr, rs') =>
                  p <- photon_new d (dr_start dr) (dr_dir dr) (dr_elecv dr) err ;;
                  store_vec p F_SRC (dr_src dr) ;;;
                  ret (Some (p, rs'))
              end
          end
      end
  end.

End Source.
