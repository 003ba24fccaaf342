(** * Model of src/polycap-capil.c, part 1: one wall segment, Fresnel reflectivity *)
From Coq Require Import ZArith List Bool.
From Verif Require Import Num Geometry SpecPhoton RM.
Import ListNotations.
Local Open Scope num_scope.
Local Open Scope rm_scope.

(** What the ray tracer reads of an optic (struct _polycap_description,
    src/polycap-private.h:96-106). *)
Record optic (T : Type) := mkOptic {
  o_prof : profile T; o_ncap : Z; o_rough : T; o_dens : T; o_iz : list Z; o_wi : list T }.
Arguments mkOptic {T}. Arguments o_prof {T}. Arguments o_ncap {T}. Arguments o_rough {T}.
Arguments o_dens {T}. Arguments o_iz {T}. Arguments o_wi {T}.

(** A photon (struct _polycap_photon, src/polycap-private.h:124-145): n_energies is the
    length of [ph_en]; amu and scatf may be NULL. *)
Record photon (T : Type) := mkPhoton {
  ph_start : vec3 T; ph_sdir : vec3 T; ph_selec : vec3 T;
  ph_exit : vec3 T; ph_edir : vec3 T; ph_eelec : vec3 T;
  ph_en : list T; ph_w : list T; ph_amu : option (list T); ph_scatf : option (list T);
  ph_irefl : Z; ph_dtravel : T; ph_ext : list (leak_data T); ph_int : list (leak_data T) }.
Arguments mkPhoton {T}.
Arguments ph_start {T}. Arguments ph_sdir {T}. Arguments ph_selec {T}. Arguments ph_exit {T}.
Arguments ph_edir {T}. Arguments ph_eelec {T}. Arguments ph_en {T}. Arguments ph_w {T}.
Arguments ph_amu {T}. Arguments ph_scatf {T}. Arguments ph_irefl {T}. Arguments ph_dtravel {T}.
Arguments ph_ext {T}. Arguments ph_int {T}.

Section Setters.
Context {T : Type}.
Implicit Types p : photon T.
Definition set_sdir v p := mkPhoton (ph_start p) v (ph_selec p) (ph_exit p) (ph_edir p) (ph_eelec p) (ph_en p) (ph_w p) (ph_amu p) (ph_scatf p) (ph_irefl p) (ph_dtravel p) (ph_ext p) (ph_int p).
Definition set_exit v p := mkPhoton (ph_start p) (ph_sdir p) (ph_selec p) v (ph_edir p) (ph_eelec p) (ph_en p) (ph_w p) (ph_amu p) (ph_scatf p) (ph_irefl p) (ph_dtravel p) (ph_ext p) (ph_int p).
Definition set_edir v p := mkPhoton (ph_start p) (ph_sdir p) (ph_selec p) (ph_exit p) v (ph_eelec p) (ph_en p) (ph_w p) (ph_amu p) (ph_scatf p) (ph_irefl p) (ph_dtravel p) (ph_ext p) (ph_int p).
Definition set_eelec v p := mkPhoton (ph_start p) (ph_sdir p) (ph_selec p) (ph_exit p) (ph_edir p) v (ph_en p) (ph_w p) (ph_amu p) (ph_scatf p) (ph_irefl p) (ph_dtravel p) (ph_ext p) (ph_int p).
Definition set_w w p := mkPhoton (ph_start p) (ph_sdir p) (ph_selec p) (ph_exit p) (ph_edir p) (ph_eelec p) (ph_en p) w (ph_amu p) (ph_scatf p) (ph_irefl p) (ph_dtravel p) (ph_ext p) (ph_int p).
Definition set_irefl n p := mkPhoton (ph_start p) (ph_sdir p) (ph_selec p) (ph_exit p) (ph_edir p) (ph_eelec p) (ph_en p) (ph_w p) (ph_amu p) (ph_scatf p) n (ph_dtravel p) (ph_ext p) (ph_int p).
Definition set_dtravel d p := mkPhoton (ph_start p) (ph_sdir p) (ph_selec p) (ph_exit p) (ph_edir p) (ph_eelec p) (ph_en p) (ph_w p) (ph_amu p) (ph_scatf p) (ph_irefl p) d (ph_ext p) (ph_int p).
Definition add_ext l p := mkPhoton (ph_start p) (ph_sdir p) (ph_selec p) (ph_exit p) (ph_edir p) (ph_eelec p) (ph_en p) (ph_w p) (ph_amu p) (ph_scatf p) (ph_irefl p) (ph_dtravel p) (ph_ext p ++ l) (ph_int p).
Definition add_int l p := mkPhoton (ph_start p) (ph_sdir p) (ph_selec p) (ph_exit p) (ph_edir p) (ph_eelec p) (ph_en p) (ph_w p) (ph_amu p) (ph_scatf p) (ph_irefl p) (ph_dtravel p) (ph_ext p) (ph_int p ++ l).
Definition set_cs amu scatf p := mkPhoton (ph_start p) (ph_sdir p) (ph_selec p) (ph_exit p) (ph_edir p) (ph_eelec p) (ph_en p) (ph_w p) amu scatf (ph_irefl p) (ph_dtravel p) (ph_ext p) (ph_int p).
End Setters.

Section Capil.
Context {T : Type} {N : Num T}.

Definition vsub (a b : vec3 T) : vec3 T := mkV (vx a - vx b) (vy a - vy b) (vz a - vz b).
(** Component-wise [a + k * d]. *)
Definition vgo (a : vec3 T) (k : T) (d : vec3 T) : vec3 T :=
  mkV (vx a + k * vx d) (vy a + k * vy d) (vz a + k * vz d).

(** The literals 1.e-5, 1.e-10 and 1.e-4. *)
Definition c1em5 : T := ndec 1 100000.
Definition c1em10 : T := ndec 1 10000000000.
Definition c1em4 : T := ndec 1 10000.

(** Coefficients of the quadratic equation: src/polycap-capil.c:119-124. *)
Definition seg_a (c0 c1 : vec3 T) (r0 r1 : T) (dir : vec3 T) : T :=
  let cd := vsub c1 c0 in
  (vx dir / vz dir - vx cd / vz cd) * (vx dir / vz dir - vx cd / vz cd)
  + (vy dir / vz dir - vy cd / vz cd) * (vy dir / vz dir - vy cd / vz cd)
  - ((r1 - r0) / (vz c1 - vz c0)) * ((r1 - r0) / (vz c1 - vz c0)).
Definition seg_b (c0 c1 : vec3 T) (r0 r1 : T) (p0 dir : vec3 T) : T :=
  let cd := vsub c1 c0 in
  #2 * (vx p0 - vx c0) * (vx dir / vz dir - vx cd / vz cd)
  + #2 * (vy p0 - vy c0) * (vy dir / vz dir - vy cd / vz cd)
  - #2 * r0 * ((r1 - r0) / (vz c1 - vz c0)).
Definition seg_c (c0 : vec3 T) (r0 : T) (p0 : vec3 T) : T :=
  (vx p0 - vx c0) * (vx p0 - vx c0) + (vy p0 - vy c0) * (vy p0 - vy c0) - r0 * r0.

(** [phot_coord0.z + dist] is outside the segment or not 1e-5 beyond the photon:
    the condition of src/polycap-capil.c:135, 137, 143. *)
Definition seg_bad (z z0 z1 zp : T) : bool := (z <? z0) || (z - zp <? c1em5) || (z >? z1).

(** The z of the interaction, or the early return code: src/polycap-capil.c:125-157. *)
Definition seg_pick (a b c z0p z0 z1 zp : T) : Z + T :=
  let discr := b * b - #4 * a * c in
  if discr <? #0 then inl (-2)%Z
  else if discr =? #0 then inr (z0p + (- #1 * b) / (#2 * a))
  else
    let d1 := (- #1 * b + nsqrt discr) / (#2 * a) in
    let d2 := (- #1 * b - nsqrt discr) / (#2 * a) in
    if seg_bad (z0p + d1) z0 z1 zp then
      if seg_bad (z0p + d2) z0 z1 zp then inl (-3)%Z else inr (z0p + d2)
    else
      if seg_bad (z0p + d2) z0 z1 zp then inr (z0p + d1)
      else if z0p + d2 - zp <? z0p + d1 - zp then inr (z0p + d2) else inr (z0p + d1).

(** The surface normal at interaction point [ic]: src/polycap-capil.c:215-240. *)
Definition seg_normal (c0 c1 : vec3 T) (r0 r1 : T) (p0 dir ic : vec3 T) (d_proj : T) : vec3 T :=
  let cd := vsub c1 c0 in
  let d_cap_coord := nsqrt (vscalar cd cd) in
  let rel := vsub p0 c0 in
  let k := (d_proj + vscalar rel cd / vscalar dir cd) / (vscalar cd cd / vscalar dir cd) in
  let cap := vgo c0 k cd in
  let u := vsub ic cap in
  let d_cap_inter := nsqrt (vscalar u u) in
  let tga := (r0 - r1) / d_cap_coord in
  let gam := natan tga in
  let sga := nsin gam in
  let cga := ncos gam in
  vnorm (mkV (cga * vx u / d_cap_inter + sga * vx cd / d_cap_coord)
             (cga * vy u / d_cap_inter + sga * vy cd / d_cap_coord)
             (cga * vz u / d_cap_inter + sga * vz cd / d_cap_coord)).

(** polycap_capil_segment: src/polycap-capil.c:52-255.  Returns the code, *photon_coord
    and *surface_norm.  The NULL checks of lines 80 and 88 are omitted: every caller
    passes the address of a local variable. *)
Definition segment (c0 c1 : vec3 T) (r0 r1 : T) (p0 p1 dir pc sn : vec3 T)
  : RM (Z * vec3 T * vec3 T) :=
  if (vz c0 <? #0) || (vz c1 <? #0) || (r0 <? #0) || (r1 <? #0) || (vz dir <? #0)
     || negb (vz c0 =? vz p0) || negb (vz c1 =? vz p1) || (vz c1 <=? vz c0)
  then report E_ARG ;;; ret ((-1)%Z, pc, sn)
  else
    let sn := mkV (#0) (#0) (#0) in
    let dir := vnorm dir in
    match seg_pick (seg_a c0 c1 r0 r1 dir) (seg_b c0 c1 r0 r1 p0 dir) (seg_c c0 r0 p0)
                   (vz p0) (vz c0) (vz c1) (vz pc) with
    | inl code => ret (code, pc, sn)
    | inr z =>
        if z >? vz c1 then ret ((-4)%Z, pc, sn)
        else if (z <? vz c0) || (z - vz pc <? c1em5) then ret ((-5)%Z, pc, sn)
        else
          let d_proj := (z - vz p0) / vz dir in
          if d_proj <? c1em10 then ret ((-6)%Z, pc, sn)
          else
            let ic := mkV (vx p0 + d_proj * vx dir) (vy p0 + d_proj * vy dir) z in
            ret (1%Z, ic, seg_normal c0 c1 r0 r1 p0 dir ic d_proj)
    end.

(** ** Complex numbers (C99 double complex), src/polycap-capil.c:26-47

    Simplifications: division is by conjugate over squared modulus (the compiler may
    scale), cabs is the square root of the sum of squares, csqrt the principal root
    (a zero imaginary part counts as +0). *)
Definition cplx : Type := T * T.
Definition cmul (x y : cplx) : cplx :=
  (fst x * fst y - snd x * snd y, fst x * snd y + snd x * fst y).
Definition cscale (x : cplx) (k : T) : cplx := (fst x * k, snd x * k).
Definition cinv (x : cplx) : cplx :=
  let m := fst x * fst x + snd x * snd x in (fst x / m, - snd x / m).
Definition cabs (x : cplx) : T := nsqrt (fst x * fst x + snd x * snd x).
Definition csqrt (x : cplx) : cplx :=
  let m := cabs x in
  let im := nsqrt ((m - fst x) / #2) in
  (nsqrt ((m + fst x) / #2), if snd x <? #0 then - im else im).

(** HC, N_AVOG and R0: include/polycap.h:47-49. *)
Definition c_HC : T := ndec 123984193 1000000000000000.
Definition c_NAVOG : T := #602209800 * #1000000000000000.
Definition c_R0 : T := ndec 28179403227 10000000000 * ndec 1 10000000000000.

(** alfa, beta and n = 1 - alfa + i beta: src/polycap-capil.c:495-497. *)
Definition refl_alfa (e density scatf : T) : T :=
  (c_HC / e) * (c_HC / e) * ((c_NAVOG * c_R0 * density) / (#2 * npi)) * scatf.
Definition refl_beta (e lin_abs : T) : T := c_HC / (#4 * npi) * (lin_abs / e).

(** r_s and r_p, squared moduli: src/polycap-capil.c:499-513.  [ct], [st]: cos and sin
    of theta. *)
Definition refl_root (n : cplx) (st : T) : cplx :=
  let ninv := cinv n in
  let tmp := cscale (cmul ninv ninv) (st * st) in
  csqrt (#1 - fst tmp, - #1 * snd tmp).
Definition refl_s (n : cplx) (ct st : T) : T :=
  let tmp := cmul n (refl_root n st) in
  let r := cabs (cmul (ct - fst tmp, - #1 * snd tmp) (cinv (ct + fst tmp, snd tmp))) in
  r * r.
Definition refl_p (n : cplx) (ct st : T) : T :=
  let q := refl_root n st in
  let tmp := cscale n ct in
  let r := cabs (cmul (fst q - fst tmp, snd q - snd tmp) (cinv (fst q + fst tmp, snd q + snd tmp))) in
  r * r.

(** if(sqrt(..) != 1) polycap_norm(..): src/polycap-capil.c:484-485, 491-492. *)
Definition norm_if (v : vec3 T) : vec3 T :=
  if nsqrt (vx v * vx v + vy v * vy v + vz v * vz v) =? #1 then v else vnorm v.

(** The vector product as written in src/polycap-capil.c:518-520, 523-525. *)
Definition vcross (a b : vec3 T) : vec3 T :=
  mkV (vy a * vz b - vy b * vz a) (vz a * vx b - vz b * vx a) (vx a * vy b - vx b * vy a).

(** s and p directions: src/polycap-capil.c:516-526. *)
Definition s_dir (sn dir : vec3 T) : vec3 T := vnorm (vcross sn dir).
Definition p_dir (sn dir : vec3 T) : vec3 T := vnorm (vcross dir (s_dir sn dir)).

(** The new electric vector: src/polycap-capil.c:534-555. *)
Definition new_elecv (sn dir ev : vec3 T) : vec3 T :=
  let aa := vscalar ev (s_dir sn dir) in
  let fs := aa * aa in
  let fp := #1 - fs in
  let ab := vscalar ev sn in
  let ac := vscalar ev (p_dir sn dir) in
  let comp x := nsqrt ((x * aa * fs) * (x * aa * fs) + (x * ab * fp) * (x * ab * fp)
                       + (x * ac * fp) * (x * ac * fp)) in
  vnorm (mkV (comp (vx ev)) (comp (vy ev)) (comp (vz ev))).

(** polycap_refl_polar: src/polycap-capil.c:444-563.  [dir] is photon->exit_direction,
    [ev] photon->exit_electric_vector.  Returns rtot, the (normalised)
    photon->exit_electric_vector and *electric_vector ([ev0] if not written). *)
Definition refl_polar (e density scatf lin_abs : T) (sn dir ev ev0 : vec3 T)
  : RM (T * vec3 T * vec3 T) :=
  if (e <? #1) || (e >? #100) || (density <=? #0) || (scatf <? #0) || (lin_abs <? #0)
  then report E_ARG ;;; ret (- #1, ev, ev0)
  else
    let sn := norm_if sn in
    let theta := nacos (vscalar sn dir) in
    if theta <? #0 then report E_ARG ;;; ret (- #1, ev, ev0)
    else
      let ev := norm_if ev in
      let n := (#1 - refl_alfa e density scatf, refl_beta e lin_abs) in
      let rs := refl_s n (ncos theta) (nsin theta) in
      let rp := refl_p n (ncos theta) (nsin theta) in
      let aa := vscalar ev (s_dir sn dir) in
      let fs := aa * aa in
      let fp := #1 - fs in
      ret (rs * fs + rp * fp, ev, new_elecv sn dir ev).

End Capil.
