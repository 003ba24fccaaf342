(** * Model of polycap_photon_launch (src/polycap-photon.c:390-955) *)
From Coq Require Import ZArith List Bool.
From Verif Require Import Num Geometry SpecPhoton RM CapilModel TraceModel.
Import ListNotations.
Local Open Scope num_scope.
Local Open Scope rm_scope.

Section Launch.
Context {T : Type} {N : Num T}.

(** What the caller finds in *weights: [None] if *weights was not assigned, else the
    array, a cell [None] being uninitialised. *)
Definition weights_out : Type := option (list (option T)).

(** energies, weight, amu and scatf are freed and set to NULL before every return after
    the arrays were made, e.g. src/polycap-photon.c:927-944. *)
Definition release (ph : photon T) : photon T :=
  mkPhoton (ph_start ph) (ph_sdir ph) (ph_selec ph) (ph_exit ph) (ph_edir ph) (ph_eelec ph)
           [] [] None None (ph_irefl ph) (ph_dtravel ph) (ph_ext ph) (ph_int ph).

(** State after lines 437-506: leaks dropped, weights 1, start and exit direction normalised,
    exit coordinates reset.  exit_electric_vector and d_travel are not touched. *)
Definition launch_init (ph : photon T) (en : list T) : photon T :=
  mkPhoton (ph_start ph) (vnorm (ph_sdir ph)) (ph_selec ph) (ph_exit ph) (ph_edir ph) (ph_eelec ph)
           en (List.map (fun _ => #1) en) (ph_amu ph) (ph_scatf ph) 0%Z (ph_dtravel ph) [] [].
Definition launch_reset (ph : photon T) : photon T :=
  set_edir (vnorm (ph_sdir ph)) (set_exit (ph_start ph) ph).

(** cap_x, cap_y for capillary (q,r): lines 622-627, 715-720. *)
Fixpoint launch_axes (o : optic T) (nsh q r : T) (n i : nat) : RM (list (T * T)) :=
  match n with
  | O => ret []
  | S n =>
      ext <- rd (p_ext (o_prof o)) i ;;
      let u := hex_unit ext nsh in
      l <- launch_axes o nsh q r n (S i) ;;
      ret ((axis_x q r u, axis_y r u) :: l)
  end.

(** The exterior radius at the start point: line 512. *)
Definition launch_ext (p : profile T) (zc : T) (id : nat) : RM T :=
  e0 <- rd (p_ext p) id ;; e1 <- rd (p_ext p) (S id) ;; z0 <- rd (p_z p) id ;; z1 <- rd (p_z p) (S id) ;;
  ret ((e0 - e1) / (z0 - z1) * (zc - z0) + e0).

(** A photon that starts inside the glass beyond the entrance, lines 690-877. *)
Definition launch_wall (x : xraylib T) (o : optic T) (junk : vec3 T) (leak_calc : bool) (fuel : nat)
    (ph : photon T) : RM (Z * photon T) :=
  let p := o_prof o in
  let nsh := n_shells (o_ncap o) in
  '((wt, dt, r_c, q_c), ph) <- trace_wall fuel o ph ;;
  if Z.leb wt 0 then ret ((-1)%Z, release ph)
  else
    amu <- deref (ph_amu ph) ;;
    let ph := set_w (List.map (fun wa => fst wa * nexp (- #1 * dt * snd wa)) (List.combine (ph_w ph) amu)) ph in
    let ph := set_exit (vgo (ph_exit ph) (dt / nsqrt (vscalar (ph_edir ph) (ph_edir ph))) (ph_edir ph)) ph in
    let lk ph := mkLeak (ph_exit ph) (ph_edir ph) (ph_eelec ph) (ph_irefl ph) (ph_w ph) in
    let ph := if Z.eqb wt 3 then add_ext [lk ph] ph else ph in
    let ph := if Z.eqb wt 2 then add_int [lk ph] ph else ph in
    zmax <- rd (p_z p) (p_nmax p) ;;
    extmax <- rd (p_ext p) (p_nmax p) ;;
    '(err, ph) <-
      (if Z.eqb wt 1 then
         let ph := set_dtravel (ph_dtravel ph + dt) ph in
         axes <- launch_axes o nsh (nofZ q_c) (nofZ r_c) (S (p_nmax p)) 0 ;;
         ix <- last_le (p_z p) (vz (ph_exit ph)) (S (p_nmax p)) 0 0 ;;
         '(ie, ph) <- trace_many (trace x o junk leak_calc fuel) axes (S (p_nmax p)) 0%Z ix ph ;;
         if (Z.eqb ie (-1) || Z.eqb ie (-3))%bool then ret (true, ph)
         else if (Z.eqb ie 1 || Z.eqb ie (-2))%bool then
           let ph := set_exit (to_exit (ph_exit ph) (ph_edir ph) zmax) ph in
           w <- within_e extmax (ph_exit ph) ;;
           ret (false, if Z.eqb w 0 then add_ext [lk ph] ph else if Z.eqb w 1 then add_int [lk ph] ph else ph)
         else ret (false, ph)
       else ret (false, ph)) ;;
    if (err : bool) then ret ((-1)%Z, release ph)
    else
      (* lines 852-861 *)
      let ph := set_edir (vnorm (ph_sdir ph)) (set_exit (mkV (extmax + #1) (extmax + #1) zmax) ph) in
      ret (1%Z, release ph).

(** polycap_photon_launch.  [en]: the energies ([None] is NULL); [wnull]: weights == NULL;
    [x]: xraylib; [junk]: content of uninitialised locals; [fuel]: step budget. *)
Definition launch (x : xraylib T) (o : optic T) (junk : vec3 T) (fuel : nat) (ph : photon T)
    (en : option (list T)) (wnull leak_calc : bool) : RM (Z * photon T * weights_out) :=
  match en with
  | None => report E_ARG ;;; ret ((-1)%Z, ph, None)
  | Some en =>
      if match en with [] => true | _ => false end
         || List.existsb (fun e => (e <? #1) || (e >? #100)) en || wnull
      then report E_ARG ;;; ret ((-1)%Z, ph, None)
      else
        let p := o_prof o in
        let uninit : weights_out := Some (List.map (fun _ => None) en) in
        let nsh := n_shells (o_ncap o) in
        ph <- photon_scatf x o (launch_init ph en) ;;
        let ph := launch_reset ph in
        let st := ph_start ph in
        zid <- (if vz st >? #0 then last_le (p_z p) (vz st) (p_nmax p) 0 0 else ret O) ;;
        ext <- launch_ext p (vz st) zid ;;
        '(inside, q, r) <-
          (if nsh =? #0 then
             ret (negb (nsqrt (vx st * vx st + vy st * vy st) >? ext), #0, #0)
           else
             let '(q, r) := hex_round (hex_frac (vx st) (vy st) (hex_unit ext nsh)) in
             w <- within_e ext st ;;
             ret (negb (Z.eqb w 0), q, r)) ;;
        if negb inside then report E_ARG ;;; ret ((-2)%Z, release ph, uninit)
        else
          axes <- launch_axes o nsh q r (S (p_nmax p)) 0 ;;
          ix <- last_le (p_z p) (vz st) (S (p_nmax p)) 0 0 ;;
          '(rad, cx, cy) <-
            (if vz st >? #0 then
               rad <- interp (p_z p) (p_cap p) (vz st) zid ;;
               cx <- interp (p_z p) (List.map fst axes) (vz st) zid ;;
               cy <- interp (p_z p) (List.map snd axes) (vz st) zid ;;
               ret (rad, cx, cy)
             else
               rad <- rd (p_cap p) 0 ;; '(cx, cy) <- rd axes 0 ;; ret (rad, cx, cy)) ;;
          let d := nsqrt ((vx st - cx) * (vx st - cx) + (vy st - cy) * (vy st - cy)) in
          if d >? rad then
            if leak_calc && (vz st =? #0) then
              '(_, ph) <- quiet (reflect x (trace x o junk leak_calc fuel) fuel o ph (mkV (#0) (#0) (#1)) junk leak_calc) ;;
              ret (2%Z, release ph, uninit)
            else if leak_calc && (vz st >? #0) then
              '(c, ph) <- launch_wall x o junk leak_calc fuel ph ;;
              ret (c, ph, uninit)
            else ret (2%Z, release ph, uninit)
          else
            '(ie, ph) <- trace_many (trace x o junk leak_calc fuel) axes (S (p_nmax p)) 0%Z ix ph ;;
            let w : weights_out := Some (List.map Some (ph_w ph)) in
            ret (if (Z.eqb ie (-1) || Z.eqb ie (-3))%bool then (-1)%Z
                 else if Z.eqb ie 0 then 0%Z else 1%Z, release ph, w)
  end.

End Launch.
