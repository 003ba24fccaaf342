(** * Model of src/polycap-profile.c: constructors, accessors, destructor (heap level) *)
From Coq Require Import ZArith List Bool Lia String.
From Verif Require Import Num Mem ErrorModel.
Import ListNotations.
Local Open Scope mem_scope.

(** struct _polycap_profile, src/polycap-private.h:88-94: field offsets. *)
Notation P_NMAX := 0 (only parsing).
Notation P_Z := 1 (only parsing).
Notation P_CAP := 2 (only parsing).
Notation P_EXT := 3 (only parsing).

(** enum polycap_profile_type, include/polycap-profile.h:43-47. *)
Definition POLYCAP_PROFILE_CONICAL : Z := 0.
Definition POLYCAP_PROFILE_PARABOLOIDAL : Z := 1.
Definition POLYCAP_PROFILE_ELLIPSOIDAL : Z := 2.

(** nmax = 999 (src/polycap-profile.c:69); arrays have nmax+1 entries and the loops
    run over 0..nmax. *)
Definition npts : nat := 1000.

Section Profile.
Context {T : Type} {N : Num T}.
Local Notation M := (M T).

(** The result of polynomialfit (src/polycap-profile.c:24-62), a GSL least-squares
    routine: an arbitrary function of the four points.  Its internal allocations
    are not modelled. *)
Variable polynomialfit : list (T * T) -> T * T * T.

(** Guard of the form  if (c) { polycap_set_error_literal(...); return NULL; }. *)
Definition reject_if (c : bool) (err : eslot) (msg : string) (k : M ptr) : M ptr :=
  if c then (set_error_literal err POLYCAP_ERROR_INVALID_ARGUMENT (Some msg) ;;; ret NULL) else k.

(** length/nmax*i : src/polycap-profile.c:144, 165, 178, 188. *)
Definition prof_z (length : T) (nmax : Z) (i : nat) : T :=
  (length / #nmax * #(Z.of_nat i))%num.

(** (down-up)/length*z + up : src/polycap-profile.c:145, 146, 166, 179, 189. *)
Definition prof_lin (up down length z : T) : T :=
  ((down - up) / length * z + up)%num.

(** coeff[0]+coeff[1]*z+coeff[2]*z*z : src/polycap-profile.c:167. *)
Definition prof_quad (c : T * T * T) (z : T) : T :=
  let '(c0, c1, c2) := c in (c0 + c1 * z + c2 * z * z)%num.

(** the four points of src/polycap-profile.c:151-160. *)
Definition prof_points (length re_up re_down fd_up fd_down : T) : list (T * T) :=
  let x0 := (#0)%num in let y0 := re_up in
  let x3 := length in let y3 := re_down in
  let x1 := (if fd_up <=? length then fd_up / #10 else length / #10)%num in
  let y1 := ((re_up - #0) / (#0 - (- #1 * fd_up)) * (x1 - #0) + re_up)%num in
  let x2 := (if fd_down <=? length then length - fd_down / #10 else length - length / #10)%num in
  let y2 := ((re_down - #0) / (length - (length + fd_down)) * (x2 - length) + re_down)%num in
  [(x0, y0); (x1, y1); (x2, y2); (x3, y3)].

(** Ellipse parameters b, k, a: src/polycap-profile.c:173-176 with
    [near] = rad_ext_downstream (the narrow end), [far] = rad_ext_upstream. *)
Definition ell_b (near far slope length : T) : T :=
  ((- #1 * (near - far) * (near - far) - slope * length * (near - far))
     / (slope * length + #2 * (near - far)))%num.
Definition ell_k (far b : T) : T := (far - b)%num.
Definition ell_a2 (near k b slope length : T) : T :=
  ((b * b * length) / (slope * (near - k)))%num.
(** sqrt(b*b-(b*b*z*z)/(a*a))+k : src/polycap-profile.c:180, 192. *)
Definition ell_ext (a b k z : T) : T :=
  (nsqrt (b * b - (b * b * z * z) / (a * a)) + k)%num.

(** The loop bodies of src/polycap-profile.c:143-147, 164-168, 177-181: write z[i],
    then cap[i] and ext[i] computed from the z[i] just written.  The array
    pointers profile->z etc. are held in variables (they do not change). *)
Definition fill_body (z cap ext : ptr) (length ri_up ri_down : T) (fext : T -> T) (nmax : Z)
    (i : nat) : M unit :=
  store z i (Vdbl (prof_z length nmax i)) ;;;
  zi <- load_dbl z i ;;
  store cap i (Vdbl (prof_lin ri_up ri_down length zi)) ;;;
  zi' <- load_dbl z i ;;
  store ext i (Vdbl (fext zi')).

(** loop of src/polycap-profile.c:187-190 (no ext). *)
Definition fill_body2 (z cap : ptr) (length ri_up ri_down : T) (nmax : Z) (i : nat) : M unit :=
  store z i (Vdbl (prof_z length nmax i)) ;;;
  zi <- load_dbl z i ;;
  store cap i (Vdbl (prof_lin ri_up ri_down length zi)).

(** loop of src/polycap-profile.c:191-193: ext[i] from z[nmax-i]. *)
Definition fill_body3 (z ext : ptr) (fext : T -> T) (nmax : nat) (i : nat) : M unit :=
  zi <- load_dbl z (nmax - i) ;;
  store ext i (Vdbl (fext zi)).

(** the switch of src/polycap-profile.c:141-204.  The default branch frees the
    four blocks. *)
Definition profile_fill (type : Z) (p z cap ext : ptr)
    (length re_up re_down ri_up ri_down fd_up fd_down : T) (err : eslot) : M ptr :=
  if Z.eqb type POLYCAP_PROFILE_CONICAL then
    for_n npts 0 (fill_body z cap ext length ri_up ri_down
                    (fun zi => prof_lin re_up re_down length zi) 999) ;;;
    ret p
  else if Z.eqb type POLYCAP_PROFILE_PARABOLOIDAL then
    let coeff := polynomialfit (prof_points length re_up re_down fd_up fd_down) in
    for_n npts 0 (fill_body z cap ext length ri_up ri_down (prof_quad coeff) 999) ;;;
    ret p
  else if Z.eqb type POLYCAP_PROFILE_ELLIPSOIDAL then
    if nltb re_down re_up then
      let slope := (re_down / fd_down)%num in
      let b := ell_b re_down re_up slope length in
      let k := ell_k re_up b in
      let a := nsqrt (ell_a2 re_down k b slope length) in
      for_n npts 0 (fill_body z cap ext length ri_up ri_down (ell_ext a b k) 999) ;;;
      ret p
    else
      let slope := (re_up / fd_up)%num in
      let b := ell_b re_up re_down slope length in
      let k := ell_k re_down b in
      let a := nsqrt (nabs (ell_a2 re_up k b slope length)) in
      for_n npts 0 (fill_body2 z cap length ri_up ri_down 999) ;;;
      for_n npts 0 (fill_body3 z ext (ell_ext a b k) 999) ;;;
      ret p
  else
    set_error_literal err POLYCAP_ERROR_INVALID_ARGUMENT
      (Some "polycap_profile_new: invalid profile type detected"%string) ;;;
    free ext ;;; free cap ;;; free z ;;; free p ;;;
    ret NULL.

(** src/polycap-profile.c:111-138: allocation with clean-up on failure. *)
Definition mem_error (err : eslot) (msg : string) : M unit :=
  set_error err POLYCAP_ERROR_MEMORY (Some msg).

Definition profile_alloc (err : eslot) (k : ptr -> ptr -> ptr -> ptr -> M ptr) : M ptr :=
  p <- malloc 4 ;;
  match p with
  | None => mem_error err "polycap_profile_new: could not allocate memory for profile" ;;; ret NULL
  | Some _ =>
      store p P_NMAX (Vint 999) ;;;
      z <- malloc npts ;;
      store p P_Z (Vptr z) ;;;
      match z with
      | None => mem_error err "polycap_profile_new: could not allocate memory for profile->z" ;;;
                free p ;;; ret NULL
      | Some _ =>
          cap <- malloc npts ;;
          store p P_CAP (Vptr cap) ;;;
          match cap with
          | None => mem_error err "polycap_profile_new: could not allocate memory for profile->cap" ;;;
                    free z ;;; free p ;;; ret NULL
          | Some _ =>
              ext <- malloc npts ;;
              store p P_EXT (Vptr ext) ;;;
              match ext with
              | None => mem_error err "polycap_profile_new: could not allocate memory for profile->ext" ;;;
                        free cap ;;; free z ;;; free p ;;; ret NULL
              | Some _ => k p z cap ext
              end
          end
      end
  end.

(** polycap_profile_new: src/polycap-profile.c:66-207.
    Simplification: sizes are counted in array elements; the text of an
    out-of-memory message omits the strerror suffix. *)
Definition profile_new (type : Z) (length re_up re_down ri_up ri_down fd_up fd_down : T)
    (err : eslot) : M ptr :=
  reject_if (nleb length (#0)%num) err "polycap_profile_new: length must be greater than 0.0" (
  reject_if (nleb re_up (#0)%num) err "polycap_profile_new: rad_ext_upstream must be greater than 0.0" (
  reject_if (nleb re_down (#0)%num) err "polycap_profile_new: rad_ext_downstream must be greater than 0.0" (
  reject_if (nleb ri_up (#0)%num) err "polycap_profile_new: rad_int_upstream must be greater than 0.0" (
  reject_if (nleb ri_down (#0)%num) err "polycap_profile_new: rad_int_downstream must be greater than 0.0" (
  reject_if (nleb re_up ri_up) err "polycap_profile_new: rad_ext_upstream must be greater than rad_int_upstream" (
  reject_if (nleb re_down ri_down) err "polycap_profile_new: rad_ext_downstream must be greater than rad_int_downstream" (
  reject_if (nleb fd_up (#0)%num) err "polycap_profile_new: focal_dist_upstream must be greater than 0.0" (
  reject_if (nleb fd_down (#0)%num) err "polycap_profile_new: focal_dist_downstream must be greater than 0.0" (
  profile_alloc err (fun p z cap ext =>
    profile_fill type p z cap ext length re_up re_down ri_up ri_down fd_up fd_down err)))))))))).

(** polycap_profile_new_from_arrays: src/polycap-profile.c:426-474.  A failed
    allocation of ext, cap or z is reported but execution continues (lines
    458-468) into the memcpy. *)
Definition reject_if' (c : bool) (err : eslot) (msg : string) (k : M ptr) : M ptr :=
  if c then (set_error err POLYCAP_ERROR_INVALID_ARGUMENT (Some msg) ;;; ret NULL) else k.

Definition is_null (p : ptr) : bool := match p with None => true | Some _ => false end.

Definition profile_new_from_arrays (nid : Z) (ext cap z : ptr) (err : eslot) : M ptr :=
  reject_if' (is_null ext) err "polycap_profile_new_from_array: ext cannot be NULL" (
  reject_if' (is_null cap) err "polycap_profile_new_from_array: cap cannot be NULL" (
  reject_if' (is_null z) err "polycap_profile_new_from_array: z cannot be NULL" (
  reject_if' (Z.leb nid 1) err "polycap_profile_new_from_array: nid must be greater than 1" (
  p <- malloc 4 ;;
  match p with
  | None => mem_error err "polycap_profile_new_from_array: could not allocate memory for profile" ;;;
            ret NULL
  | Some _ =>
      let n := Z.to_nat (nid + 1) in
      store p P_NMAX (Vint nid) ;;;
      pe <- malloc n ;;
      store p P_EXT (Vptr pe) ;;;
      (if is_null pe then mem_error err "polycap_profile_set_profile: could not allocate memory for profile->ext"
       else ret tt) ;;;
      pc <- malloc n ;;
      store p P_CAP (Vptr pc) ;;;
      (if is_null pc then mem_error err "polycap_profile_set_profile: could not allocate memory for profile->cap"
       else ret tt) ;;;
      pz <- malloc n ;;
      store p P_Z (Vptr pz) ;;;
      (if is_null pz then mem_error err "polycap_profile_set_profile: could not allocate memory for profile->z"
       else ret tt) ;;;
      memcpy pe ext n ;;;
      memcpy pc cap n ;;;
      memcpy pz z n ;;;
      ret p
  end)))).

(** polycap_profile_get_ext/get_cap/get_z: src/polycap-profile.c:477-519.  They
    differ only in the field copied ([fld]).  [nidp] and [outp] are the addresses
    of the caller's size_t and double* variables. *)
Definition profile_get (fld : nat) (p nidp outp : ptr) : M bool :=
  match p with
  | None => ret false
  | Some _ =>
      match nidp with
      | None => ret false
      | Some _ =>
          n <- load_int p P_NMAX ;;
          store nidp 0 (Vint n) ;;;
          q <- malloc (Z.to_nat (n + 1)) ;;
          store outp 0 (Vptr q) ;;;
          src <- load_ptr p fld ;;
          memcpy q src (Z.to_nat (n + 1)) ;;;
          ret true
      end
  end.
Definition profile_get_ext := profile_get P_EXT.
Definition profile_get_cap := profile_get P_CAP.
Definition profile_get_z := profile_get P_Z.

(** polycap_profile_free: src/polycap-profile.c:522-533. *)
Definition free_if (p : ptr) : M unit :=
  match p with Some _ => free p | None => ret tt end.

Definition profile_free (p : ptr) : M unit :=
  match p with
  | None => ret tt
  | Some _ =>
      z <- load_ptr p P_Z ;; free_if z ;;;
      c <- load_ptr p P_CAP ;; free_if c ;;;
      e <- load_ptr p P_EXT ;; free_if e ;;;
      free p
  end.

End Profile.
