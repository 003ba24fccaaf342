(** * Model of the result object: getters and destructors of
    src/polycap-transmission-efficiencies.c (heap level)

    Simplifications: counters and loop variables do not overflow (the loops of the getters
    count with an int); the out arguments are re-read in the code after they were written,
    here the value just written is used (the same unless two of them are one variable).
    A polycap_vector3 is three cells, an array of them three cells per element. *)
From Coq Require Import ZArith List Bool Lia String.
From Verif Require Import Num Mem ErrorModel ProfileModel Geometry ConsModel.
Import ListNotations.
Local Open Scope mem_scope.

(** struct _polycap_transmission_efficiencies, src/polycap-private.h:147-154: field offsets. *)
Notation E_NEN := 0 (only parsing).
Notation E_EN := 1 (only parsing).
Notation E_EFF := 2 (only parsing).
Notation E_IMG := 3 (only parsing).
Notation E_SRC := 4 (only parsing).

(** struct _polycap_images, src/polycap-private.h:156-181. *)
Notation I_START := 0 (only parsing).
Notation I_EXIT := 1 (only parsing).
Notation I_SRC := 2 (only parsing).
Notation I_SC := 4 (only parsing).
Notation I_SD := 6 (only parsing).
Notation I_SE := 8 (only parsing).
Notation I_XC := 10 (only parsing).
Notation I_XD := 13 (only parsing).
Notation I_XE := 15 (only parsing).
Notation I_XREFL := 17 (only parsing).
Notation I_XTRAV := 18 (only parsing).
Notation I_XW := 19 (only parsing).
Notation I_NEXT := 20 (only parsing).
Notation I_LC := 21 (only parsing).
Notation I_LD := 24 (only parsing).
Notation I_LW := 26 (only parsing).
Notation I_LREFL := 27 (only parsing).
Notation I_NINT := 28 (only parsing).
Notation I_NC := 29 (only parsing).
Notation I_ND := 32 (only parsing).
Notation I_NE := 34 (only parsing).
Notation I_NW := 36 (only parsing).
Notation I_NREFL := 37 (only parsing).

Section Result.
Context {T : Type} {N : Num T}.
Local Notation M := (M T).

(** if (b) { polycap_set_error_literal(INVALID_ARGUMENT, msg); return false; } *)
Definition refuse (b : bool) (err : eslot) (msg : string) (k : M bool) : M bool :=
  if b then set_error_literal err POLYCAP_ERROR_INVALID_ARGUMENT (Some msg) ;;; ret false else k.

(** *out = malloc(...); if ( *out == NULL) { polycap_set_error(MEMORY, msg); return false; } *)
Definition alloc_out (out : ptr) (i n : nat) (err : eslot) (msg : string) (k : ptr -> M bool) : M bool :=
  p <- malloc n ;;
  store out i (Vptr p) ;;;
  match p with
  | None => mem_error err msg ;;; ret false
  | Some _ => k p
  end.

(** for(i=from; i<from+n; i++) where the body may return false from the function. *)
Fixpoint for_ok (n from : nat) (body : nat -> M bool) : M bool :=
  match n with
  | O => ret true
  | S n => b <- body from ;; if b then for_ok n (S from) body else ret false
  end.

(** A vector whose z is rebuilt from x and y: sqrt(1.-x*x-y*y), e.g.
    src/polycap-transmission-efficiencies.c:834. *)
Definition unit_vec (x y : T) : vec3 T := mkV x y (nsqrt (#1 - x * x - y * y)%num).

(** One iteration of the loop src/polycap-transmission-efficiencies.c:827-843. *)
Definition start_body (im q1 q2 q3 q4 : ptr) (i : nat) : M unit :=
  a <- load_ptr im I_SC ;; x <- load_dbl a i ;;
  a <- load_ptr im (I_SC + 1) ;; y <- load_dbl a i ;;
  store_vec q1 (3 * i) (mkV x y (#0)%num) ;;;
  a <- load_ptr im I_SD ;; x <- load_dbl a i ;;
  a <- load_ptr im (I_SD + 1) ;; y <- load_dbl a i ;;
  store_vec q2 (3 * i) (unit_vec x y) ;;;
  a <- load_ptr im I_SE ;; x <- load_dbl a i ;;
  a <- load_ptr im (I_SE + 1) ;; y <- load_dbl a i ;;
  store_vec q3 (3 * i) (unit_vec x y) ;;;
  a <- load_ptr im I_SRC ;; x <- load_dbl a i ;;
  a <- load_ptr im (I_SRC + 1) ;; y <- load_dbl a i ;;
  store_vec q4 (3 * i) (mkV x y (#0)%num).

(** polycap_transmission_efficiencies_get_start_data:
    src/polycap-transmission-efficiencies.c:782-846. *)
Definition get_start_data (eff n_start n_exit o_coords o_dir o_elecv o_src : ptr) (err : eslot) : M bool :=
  refuse (is_null eff) err "polycap_source_get_start_data: efficiencies cannot be NULL" (
  im <- load_ptr eff E_IMG ;;
  refuse (is_null im) err "polycap_source_get_start_data: source->images cannot be NULL" (
  ns <- load_int im I_START ;;
  store n_start 0 (Vint ns) ;;;
  refuse (Z.eqb ns 0) err "polycap_source_get_start_data: no photon start events in efficiencies" (
  nx <- load_int im I_EXIT ;;
  store n_exit 0 (Vint nx) ;;;
  refuse (Z.eqb nx 0) err "polycap_source_get_start_data: no photon exit events in efficiencies" (
  let n := Z.to_nat nx in
  alloc_out o_coords 0 (3 * n) err "polycap_source_get_start_data: could not allocate memory for start_coords" (fun q1 =>
  alloc_out o_dir 0 (3 * n) err "polycap_source_get_start_data: could not allocate memory for start_direction" (fun q2 =>
  alloc_out o_elecv 0 (3 * n) err "polycap_source_get_start_data: could not allocate memory for start_elecv" (fun q3 =>
  alloc_out o_src 0 (3 * n) err "polycap_source_get_start_data: could not allocate memory for src_start_coords" (fun q4 =>
  for_n n 0 (start_body im q1 q2 q3 q4) ;;;
  ret true)))))))).

(** for(j=0; j<n_energies; j++) dst[j] = src[i*n_energies+j] : e.g.
    src/polycap-transmission-efficiencies.c:921-923. *)
Definition copy_weights (dst src : ptr) (i nen : nat) : M unit :=
  for_n nen 0 (fun j => w <- load_dbl src (i * nen + j) ;; store dst j (Vdbl w)).

(** One iteration of the loop src/polycap-transmission-efficiencies.c:899-924. *)
Definition exit_body (im : ptr) (nen : nat) (q1 q2 q3 q4 q5 q6 : ptr) (err : eslot) (i : nat) : M bool :=
  a <- load_ptr im I_XREFL ;; r <- load_int a i ;; store q4 i (Vint r) ;;;
  a <- load_ptr im I_XTRAV ;; d <- load_dbl a i ;; store q5 i (Vdbl d) ;;;
  a <- load_ptr im I_XC ;; x <- load_dbl a i ;;
  a <- load_ptr im (I_XC + 1) ;; y <- load_dbl a i ;;
  a <- load_ptr im (I_XC + 2) ;; z <- load_dbl a i ;;
  store_vec q1 (3 * i) (mkV x y z) ;;;
  a <- load_ptr im I_XD ;; x <- load_dbl a i ;;
  a <- load_ptr im (I_XD + 1) ;; y <- load_dbl a i ;;
  store_vec q2 (3 * i) (unit_vec x y) ;;;
  a <- load_ptr im I_XE ;; x <- load_dbl a i ;;
  a <- load_ptr im (I_XE + 1) ;; y <- load_dbl a i ;;
  store_vec q3 (3 * i) (unit_vec x y) ;;;
  alloc_out q6 i nen err "polycap_source_get_exit_data: could not allocate memory for (*exit_weights)[i]" (fun w =>
  a <- load_ptr im I_XW ;;
  copy_weights w a i nen ;;;
  ret true).

(** polycap_transmission_efficiencies_get_exit_data:
    src/polycap-transmission-efficiencies.c:848-927. *)
Definition get_exit_data (eff n_exit o_coords o_dir o_elecv o_refl o_trav n_en o_w : ptr) (err : eslot) : M bool :=
  refuse (is_null eff) err "polycap_source_get_exit_data: efficiencies cannot be NULL" (
  im <- load_ptr eff E_IMG ;;
  refuse (is_null im) err "polycap_source_get_exit_data: source->images cannot be NULL" (
  nx <- load_int im I_EXIT ;;
  store n_exit 0 (Vint nx) ;;;
  ne <- load_int eff E_NEN ;;
  store n_en 0 (Vint ne) ;;;
  ns <- load_int im I_START ;;
  refuse (Z.eqb ns 0) err "polycap_source_get_exit_data: no photon start events in efficiencies" (
  let n := Z.to_nat nx in
  let nen := Z.to_nat ne in
  alloc_out o_coords 0 (3 * n) err "polycap_source_get_exit_data: could not allocate memory for exit_coords" (fun q1 =>
  alloc_out o_dir 0 (3 * n) err "polycap_source_get_exit_data: could not allocate memory for exit_direction" (fun q2 =>
  alloc_out o_elecv 0 (3 * n) err "polycap_source_get_exit_data: could not allocate memory for exit_elecv" (fun q3 =>
  alloc_out o_refl 0 n err "polycap_source_get_exit_data: could not allocate memory for n_refl" (fun q4 =>
  alloc_out o_trav 0 n err "polycap_source_get_exit_data: could not allocate memory for d_travel" (fun q5 =>
  alloc_out o_w 0 n err "polycap_source_get_exit_data: could not allocate memory for exit_weights" (fun q6 =>
  for_ok n 0 (exit_body im nen q1 q2 q3 q4 q5 q6 err)))))))))).

(** Filling in one leak object, src/polycap-transmission-efficiencies.c:962-988 (external) or
    1027-1052 (internal): only the internal one fills in the electric vector.
    [ic], [id], [ie], [iw], [ir]: offsets of the arrays in the images struct.  The texts of
    the messages are those of neither function. *)
Definition leak_fill (im : ptr) (nen : nat) (ic id iw ir : nat) (ie : option nat) (err : eslot) (l : ptr) (i : nat) : M bool :=
  a <- load_ptr im ic ;; x <- load_dbl a i ;;
  a <- load_ptr im (ic + 1) ;; y <- load_dbl a i ;;
  a <- load_ptr im (ic + 2) ;; z <- load_dbl a i ;;
  store_vec l 0 (mkV x y z) ;;;
  a <- load_ptr im id ;; x <- load_dbl a i ;;
  a <- load_ptr im (id + 1) ;; y <- load_dbl a i ;;
  store_vec l 3 (unit_vec x y) ;;;
  match ie with
  | None => ret tt
  | Some ie =>
      a <- load_ptr im ie ;; x <- load_dbl a i ;;
      a <- load_ptr im (ie + 1) ;; y <- load_dbl a i ;;
      store_vec l 6 (unit_vec x y)
  end ;;;
  store l L_NEN (Vint (Z.of_nat nen)) ;;;
  a <- load_ptr im ir ;; r <- load_int a i ;;
  store l L_NREFL (Vint r) ;;;
  alloc_out l L_WEIGHT nen err "polycap_source_get_leak_data: could not allocate memory for (*leaks[i])->weight" (fun w =>
  a <- load_ptr im iw ;;
  copy_weights w a i nen ;;;
  ret true).

(** One iteration of the loop src/polycap-transmission-efficiencies.c:956-989 (external) or
    1021-1053 (internal). *)
Definition leak_body (im : ptr) (nen : nat) (ic id iw ir : nat) (ie : option nat) (q : ptr) (err : eslot) (i : nat) : M bool :=
  alloc_out q i 12 err "polycap_source_get_leak_data: could not allocate memory for (*leaks)[i]" (fun l =>
  leak_fill im nen ic id iw ir ie err l i).

(** polycap_transmission_efficiencies_get_extleak_data and _get_intleak_data:
    src/polycap-transmission-efficiencies.c:929-992 and 994-1055. *)
Definition get_leak_data (inn ic id iw ir : nat) (ie : option nat) (eff leaks n_leaks : ptr) (err : eslot) : M bool :=
  refuse (is_null eff) err "polycap_source_get_leak_data: efficiencies cannot be NULL" (
  im <- load_ptr eff E_IMG ;;
  refuse (is_null im) err "polycap_source_get_leak_data: source->images cannot be NULL" (
  nl <- load_int im inn ;;
  store n_leaks 0 (Vint nl) ;;;
  (if Z.eqb nl 0 then store leaks 0 (Vptr NULL) else ret tt) ;;;
  refuse (Z.eqb nl 0) err "polycap_source_get_leak_data: no leak events in efficiencies" (
  ne <- load_int eff E_NEN ;;
  let n := Z.to_nat nl in
  alloc_out leaks 0 n err "polycap_source_get_leak_data: could not allocate memory for leaks" (fun q =>
  for_ok n 0 (leak_body im (Z.to_nat ne) ic id iw ir ie q err))))).
Definition get_extleak_data := get_leak_data I_NEXT I_LC I_LD I_LW I_LREFL None.
Definition get_intleak_data := get_leak_data I_NINT I_NC I_ND I_NW I_NREFL (Some I_NE).

(** polycap_transmission_efficiencies_get_data:
    src/polycap-transmission-efficiencies.c:1147-1167 (the allocations are not checked). *)
Definition get_data (eff n_en o_en o_eff : ptr) (err : eslot) : M bool :=
  refuse (is_null eff) err "polycap_transmission_efficiencies_get_data: efficiencies cannot be NULL" (
  ne <- load_int eff E_NEN ;;
  (if is_null n_en then ret tt else store n_en 0 (Vint ne)) ;;;
  (if is_null o_en then ret tt else
     q <- malloc (Z.to_nat ne) ;; store o_en 0 (Vptr q) ;;;
     src <- load_ptr eff E_EN ;; memcpy q src (Z.to_nat ne)) ;;;
  (if is_null o_eff then ret tt else
     q <- malloc (Z.to_nat ne) ;; store o_eff 0 (Vptr q) ;;;
     src <- load_ptr eff E_EFF ;; memcpy q src (Z.to_nat ne)) ;;;
  ret true).

(** The fields of _polycap_images released by polycap_images_free, in the order of
    src/polycap-transmission-efficiencies.c:1061-1127. *)
Definition image_fields : list nat :=
  [I_SRC; I_SRC + 1; I_SC; I_SC + 1; I_SD; I_SD + 1; I_SE; I_SE + 1;
   I_XC; I_XC + 1; I_XC + 2; I_XD; I_XD + 1; I_XE; I_XE + 1; I_XREFL; I_XTRAV; I_XW;
   I_LC; I_LC + 1; I_LC + 2; I_LD; I_LD + 1; I_LW; I_LREFL;
   I_NC; I_NC + 1; I_NC + 2; I_ND; I_ND + 1; I_NE; I_NE + 1; I_NW; I_NREFL].

Fixpoint free_fields (im : ptr) (fs : list nat) : M unit :=
  match fs with
  | [] => ret tt
  | f :: fs => p <- load_ptr im f ;; free_if p ;;; free_fields im fs
  end.

(** polycap_images_free: src/polycap-transmission-efficiencies.c:1056-1130. *)
Definition images_free (im : ptr) : M unit :=
  match im with
  | None => ret tt
  | Some _ => free_fields im image_fields ;;; free im
  end.

(** polycap_transmission_efficiencies_free: src/polycap-transmission-efficiencies.c:1133-1145. *)
Definition efficiencies_free (eff : ptr) : M unit :=
  match eff with
  | None => ret tt
  | Some _ =>
      p <- load_ptr eff E_EN ;; free_if p ;;;
      p <- load_ptr eff E_EFF ;; free_if p ;;;
      p <- load_ptr eff E_IMG ;; (match p with Some _ => images_free p | None => ret tt end) ;;;
      free eff
  end.

End Result.
