(** * Model of the constructors and destructors of src/polycap-description.c,
    src/polycap-source.c, src/polycap-photon.c (heap level) *)
From Coq Require Import ZArith List Bool Lia String.
From Verif Require Import Num Mem ErrorModel ProfileModel Geometry.
Import ListNotations.
Local Open Scope mem_scope.

(** struct _polycap_description, src/polycap-private.h:96-106: field offsets. *)
Notation D_SIG := 0 (only parsing).
Notation D_NCAP := 1 (only parsing).
Notation D_OPEN := 2 (only parsing).
Notation D_NELEM := 3 (only parsing).
Notation D_IZ := 4 (only parsing).
Notation D_WI := 5 (only parsing).
Notation D_DENS := 6 (only parsing).
Notation D_PROF := 7 (only parsing).

(** struct _polycap_source, src/polycap-private.h:108-122. *)
Notation S_DESC := 0 (only parsing).
Notation S_RNG := 1 (only parsing).
Notation S_NEN := 10 (only parsing).
Notation S_EN := 11 (only parsing).

(** polycap_leak, include/polycap-photon.h:52-59 (a vector is three cells). *)
Notation L_NEN := 9 (only parsing).
Notation L_WEIGHT := 10 (only parsing).
Notation L_NREFL := 11 (only parsing).

(** struct _polycap_photon, src/polycap-private.h:124-145 (a vector is three cells). *)
Notation F_DESC := 0 (only parsing).
Notation F_EXTLEAK := 1 (only parsing).
Notation F_INTLEAK := 2 (only parsing).
Notation F_NEXT := 3 (only parsing).
Notation F_NINT := 4 (only parsing).
Notation F_START := 5 (only parsing).
Notation F_SDIR := 8 (only parsing).
Notation F_SELEC := 11 (only parsing).
Notation F_EXIT := 14 (only parsing).
Notation F_EDIR := 17 (only parsing).
Notation F_EELEC := 20 (only parsing).
Notation F_SRC := 23 (only parsing).
Notation F_NEN := 26 (only parsing).
Notation F_EN := 27 (only parsing).
Notation F_WEIGHT := 28 (only parsing).
Notation F_AMU := 29 (only parsing).
Notation F_SCATF := 30 (only parsing).
Notation F_IREFL := 31 (only parsing).
Notation F_DTRAVEL := 32 (only parsing).

Section Cons.
Context {T : Type} {N : Num T}.
Local Notation M := (M T).

(** ** src/polycap-description.c *)

(** for(i=0; i<nelem; i++) sum += wi[i] : src/polycap-description.c:63-65. *)
Fixpoint sum_loop (n from : nat) (wi : ptr) (sum : T) : M T :=
  match n with
  | O => ret sum
  | S n => x <- load_dbl wi from ;; sum_loop n (S from) wi (sum + x)%num
  end.

(** src/polycap-description.c:69-76; [None] is the early return of line 73. *)
Fixpoint percent_loop (n from : nat) (wi : ptr) (sum : T) (err : eslot) : M (option T) :=
  match n with
  | O => ret (Some sum)
  | S n =>
      x <- load_dbl wi from ;;
      store wi from (Vdbl (x / #100)%num) ;;;
      y <- load_dbl wi from ;;
      if nltb y (#0)%num then
        set_error_literal err POLYCAP_ERROR_INVALID_ARGUMENT
          (Some "polycap_description_check_weight: Polycapillary element weights must be greater than 0.0"%string) ;;;
        ret None
      else percent_loop n (S from) wi (sum + y)%num err
  end.

(** polycap_description_check_weight: src/polycap-description.c:58-85. *)
Definition check_weight (nelem : nat) (wi : ptr) (err : eslot) : M unit :=
  sum <- sum_loop nelem 0 wi (#0)%num ;;
  r <- (if nltb (#1)%num sum then percent_loop nelem 0 wi (#0)%num err else ret (Some sum)) ;;
  match r with
  | None => ret tt
  | Some sum =>
      if neqb sum (#1)%num then ret tt
      else set_error_literal err POLYCAP_ERROR_INVALID_ARGUMENT
             (Some "polycap_description_check_weight: Polycapillary element weights do not sum to 1."%string)
  end.

(** the iz range loop: src/polycap-description.c:120-130; true when all are in range. *)
Fixpoint iz_loop (n from : nat) (iz : ptr) : M bool :=
  match n with
  | O => ret true
  | S n =>
      x <- load_int iz from ;;
      if Z.ltb x 1 || Z.ltb 111 x then ret false else iz_loop n (S from) iz
  end.

(** src/polycap-description.c:157-160. *)
Definition copy_elem (diz dwi iz wi : ptr) (i : nat) : M unit :=
  x <- load_int iz i ;; store diz i (Vint x) ;;;
  y <- load_dbl wi i ;; store dwi i (Vdbl y).

(** src/polycap-description.c:206-210. *)
Definition copy_point (dz dc de z c e : ptr) (i : nat) : M unit :=
  x <- load_dbl z i ;; store dz i (Vdbl x) ;;;
  y <- load_dbl c i ;; store dc i (Vdbl y) ;;;
  w <- load_dbl e i ;; store de i (Vdbl w).

(** Reading the first [n] entries of an array, used to hand a profile to the
    functional model of polycap_profile_validate. *)
Fixpoint read_dbls (n from : nat) (p : ptr) : M (list T) :=
  match n with
  | O => ret []
  | S n => x <- load_dbl p from ;; r <- read_dbls n (S from) p ;; ret (x :: r)
  end.

(** polycap_profile_validate on a profile in memory: src/polycap-profile.c:321-423.
    The error of lines 331-334 and the one of polycap_photon_within_pc_boundary
    (src/polycap-photon.c:147, result -1) are reported. *)
Definition validate_heap (p : ptr) (n_cap : Z) (err : eslot) : M Z :=
  match p with
  | None =>
      set_error_literal err POLYCAP_ERROR_INVALID_ARGUMENT
        (Some "polycap_profile_validate: profile cannot be NULL"%string) ;;; ret (-1)%Z
  | Some _ =>
      nmax <- load_int p P_NMAX ;;
      lz <- load_ptr p P_Z ;; lc <- load_ptr p P_CAP ;; le <- load_ptr p P_EXT ;;
      let n := Z.to_nat (nmax + 1) in
      z <- read_dbls n 0 lz ;; c <- read_dbls n 0 lc ;; e <- read_dbls n 0 le ;;
      match profile_validate (mkProfile (Z.to_nat nmax) z c e) n_cap with
      | None => ub
      | Some r =>
          (if Z.eqb r (-1) then
             set_error_literal err POLYCAP_ERROR_INVALID_ARGUMENT
               (Some "polycap_photon_within_pc_boundary: polycap_radius must be greater than 0"%string)
           else ret tt) ;;;
          ret r
      end
  end.

(** open area: src/polycap-description.c:214-216. *)
Definition open_area_num (n_cap : Z) (cap0 ext0 : T) : T :=
  (let n1 := (n_shells n_cap + nhalf) * #6 in
   let n2 := (n1 * n1 + #3) / #12 in
   (cap0 * cap0 * npi) * n2 / (#3 * nsin (npi / #3) * ext0 * ext0))%num.

Definition invalid (err : eslot) (msg : string) : M unit :=
  set_error_literal err POLYCAP_ERROR_INVALID_ARGUMENT (Some msg).

(** polycap_description_new, second half: src/polycap-description.c:167-231, from the
    allocation of the profile copy on. [d], [diz], [dwi] are the blocks already
    obtained.  The clean-up after a failed validation (lines 221-226) does not
    release the ext array. *)
Definition description_profile (d diz dwi profile : ptr) (n_cap : Z) (err : eslot) : M ptr :=
  q <- alloc [Vint 0; Vptr NULL; Vptr NULL; Vptr NULL] ;;
  store d D_PROF (Vptr q) ;;;
  match q with
  | None => mem_error err "polycap_description_new: could not allocate memory for description->profile" ;;;
      free diz ;;; free dwi ;;; free d ;;; ret NULL
  | Some _ =>
      nmax <- load_int profile P_NMAX ;;
      store q P_NMAX (Vint nmax) ;;;
      let n := Z.to_nat (nmax + 1) in
      qz <- malloc n ;;
      store q P_Z (Vptr qz) ;;;
      match qz with
      | None => mem_error err "polycap_description_new: could not allocate memory for description->profile->z" ;;;
          free diz ;;; free dwi ;;; free q ;;; free d ;;; ret NULL
      | Some _ =>
          qc <- malloc n ;;
          store q P_CAP (Vptr qc) ;;;
          match qc with
          | None => mem_error err "polycap_description_new: could not allocate memory for description->profile->cap" ;;;
              free diz ;;; free dwi ;;; free qz ;;; free q ;;; free d ;;; ret NULL
          | Some _ =>
              qe <- malloc n ;;
              store q P_EXT (Vptr qe) ;;;
              match qe with
              | None => mem_error err "polycap_description_new: could not allocate memory for description->profile->ext" ;;;
                  free diz ;;; free dwi ;;; free qc ;;; free qz ;;; free q ;;; free d ;;; ret NULL
              | Some _ =>
                  z <- load_ptr profile P_Z ;; c <- load_ptr profile P_CAP ;; e <- load_ptr profile P_EXT ;;
                  for_n n 0 (copy_point qz qc qe z c e) ;;;
                  c0 <- load_dbl qc 0 ;; e0 <- load_dbl qe 0 ;;
                  store d D_OPEN (Vdbl (open_area_num n_cap c0 e0)) ;;;
                  v <- validate_heap q n_cap err ;;
                  if negb (Z.eqb v 1) then
                    clear_error err ;;;
                    invalid err "polycap_description_new: description->profile is faulty. Some capillary coordinates are outside of the external radius." ;;;
                    free diz ;;; free dwi ;;; free qc ;;; free qz ;;; free q ;;; free d ;;; ret NULL
                  else ret d
              end
          end
      end
  end.

(** polycap_description_new: src/polycap-description.c:89-231.  The loops reading
    profile->z etc. hold the array pointers in variables.  Line 163: the outcome of
    the weight check is not looked at. *)
Definition description_new (profile : ptr) (sig_rough : T) (n_cap : Z) (nelem : nat) (iz wi : ptr)
    (density : T) (err : eslot) : M ptr :=
  reject_if (nltb sig_rough (#0)%num) err "polycap_description_new: sig_rough must be greater than or equal to zero" (
  reject_if (Z.leb n_cap 1) err "polycap_description_new: n_cap must be greater than 1" (
  reject_if (Nat.ltb nelem 1) err "polycap_description_new: nelem must be 1 or greater" (
  reject_if (is_null iz) err "polycap_description_new: iz cannot be NULL" (
  reject_if (is_null wi) err "polycap_description_new: wi cannot be NULL" (
  reject_if (nleb density (#0)%num) err "polycap_description_new: density must be greater than 0.0" (
  ok <- iz_loop nelem 0 iz ;;
  reject_if (negb ok) err "polycap_description_new: iz[i] must be greater than 0 and smaller than 111" (
  d <- alloc [Vdbl (#0)%num; Vint 0; Vdbl (#0)%num; Vint 0; Vptr NULL; Vptr NULL; Vdbl (#0)%num; Vptr NULL] ;;
  match d with
  | None => mem_error err "polycap_description_new: could not allocate memory for description" ;;; ret NULL
  | Some _ =>
      diz <- malloc nelem ;;
      store d D_IZ (Vptr diz) ;;;
      match diz with
      | None => mem_error err "polycap_description_new: could not allocate memory for description->iz" ;;;
          free d ;;; ret NULL
      | Some _ =>
          dwi <- malloc nelem ;;
          store d D_WI (Vptr dwi) ;;;
          match dwi with
          | None => mem_error err "polycap_description_new: could not allocate memory for description->wi" ;;;
              free diz ;;; free d ;;; ret NULL
          | Some _ =>
              store d D_SIG (Vdbl sig_rough) ;;;
              store d D_NCAP (Vint n_cap) ;;;
              store d D_NELEM (Vint (Z.of_nat nelem)) ;;;
              store d D_DENS (Vdbl density) ;;;
              for_n nelem 0 (copy_elem diz dwi iz wi) ;;;
              check_weight nelem dwi err ;;;
              description_profile d diz dwi profile n_cap err
          end
      end
  end))))))).

(** polycap_description_free: src/polycap-description.c:243-253. *)
Definition description_free (d : ptr) : M unit :=
  match d with
  | None => ret tt
  | Some _ =>
      q <- load_ptr d D_PROF ;; profile_free q ;;;
      iz <- load_ptr d D_IZ ;; free_if iz ;;;
      wi <- load_ptr d D_WI ;; free_if wi ;;;
      free d
  end.

(** ** src/polycap-rng.c *)

(** polycap_rng_new / polycap_rng_new_with_seed: src/polycap-rng.c:32-37 and 51-71:
    the wrapper struct and the generator behind it (one opaque block).  Neither
    allocation is checked; seeding a NULL generator or writing to a NULL struct is
    undefined. *)
Definition rng_new : M ptr :=
  r <- alloc [Vptr NULL] ;;
  g <- malloc 1 ;;
  store r 0 (Vptr g) ;;;
  store g 0 (Vint 0) ;;;
  ret r.

(** polycap_rng_free: src/polycap-rng.c:75-80. *)
Definition rng_free (r : ptr) : M unit :=
  match r with
  | None => ret tt
  | Some _ => g <- load_ptr r 0 ;; free g ;;; free r
  end.

(** ** src/polycap-source.c *)

(** src/polycap-source.c:182-187; true when all energies are in range. *)
Fixpoint energy_loop (n from : nat) (p : ptr) : M bool :=
  match n with
  | O => ret true
  | S n =>
      x <- load_dbl p from ;;
      if nltb x (#1)%num || nltb (#100)%num x then ret false else energy_loop n (S from) p
  end.

(** polycap_source_free: src/polycap-source.c:1090-1105. *)
Definition source_free (p : ptr) : M unit :=
  match p with
  | None => ret tt
  | Some _ =>
      d <- load_ptr p S_DESC ;; description_free d ;;;
      r <- load_ptr p S_RNG ;; rng_free r ;;;
      e <- load_ptr p S_EN ;; free_if e ;;;
      free p
  end.

(** polycap_source_new: src/polycap-source.c:147-225.  Lines 201-204: when the energies
    array cannot be obtained the source block stays allocated. *)
Definition source_new (desc : ptr) (d_source src_x src_y src_sigx src_sigy src_shiftx src_shifty
    hor_pol : T) (n_energies : nat) (energies : ptr) (err : eslot) : M ptr :=
  reject_if (is_null desc) err "polycap_source_new: description cannot be NULL" (
  reject_if (nleb d_source (#0)%num) err "polycap_source_new: d_source must be greater than 0" (
  reject_if (nleb src_x (#0)%num) err "polycap_source_new: src_x must be greater than 0" (
  reject_if (nleb src_y (#0)%num) err "polycap_source_new: src_y must be greater than 0" (
  reject_if (nltb (#1)%num (nabs hor_pol)) err "polycap_source_new: hor_pol must be greater than or equal to -1 and smaller than or equal to 1" (
  reject_if (Nat.leb n_energies 0) err "polycap_source_new: n_energies must be greater than 0" (
  reject_if (is_null energies) err "polycap_source_new: energies cannot be NULL" (
  ok <- energy_loop n_energies 0 energies ;;
  reject_if (negb ok) err "polycap_source_new: energies must be greater than 1 and smaller than 100" (
  prof <- load_ptr desc D_PROF ;; n_cap <- load_int desc D_NCAP ;;
  v <- validate_heap prof n_cap err ;;
  if negb (Z.eqb v 1) then
    clear_error err ;;;
    invalid err "polycap_source_new: description->profile is faulty. Some capillary coordinates are outside of the external radius." ;;;
    ret NULL
  else
  p <- malloc 12 ;;
  match p with
  | None => mem_error err "polycap_source_new: could not allocate memory for source" ;;; ret NULL
  | Some _ =>
      e <- malloc n_energies ;;
      store p S_EN (Vptr e) ;;;
      match e with
      | None => mem_error err "polycap_source_new: could not allocate memory for source->energies" ;;; ret NULL
      | Some _ =>
          store p 2 (Vdbl d_source) ;;;
          store p 3 (Vdbl src_x) ;;;
          store p 4 (Vdbl src_y) ;;;
          store p 5 (Vdbl src_sigx) ;;;
          store p 6 (Vdbl src_sigy) ;;;
          store p 7 (Vdbl src_shiftx) ;;;
          store p 8 (Vdbl src_shifty) ;;;
          store p 9 (Vdbl hor_pol) ;;;
          store p S_NEN (Vint (Z.of_nat n_energies)) ;;;
          memcpy e energies n_energies ;;;
          r <- rng_new ;;
          store p S_RNG (Vptr r) ;;;
          sig <- load_dbl desc D_SIG ;;
          nelem <- load_int desc D_NELEM ;;
          iz <- load_ptr desc D_IZ ;; wi <- load_ptr desc D_WI ;; dens <- load_dbl desc D_DENS ;;
          d <- description_new prof sig n_cap (Z.to_nat nelem) iz wi dens NULL ;;
          store p S_DESC (Vptr d) ;;;
          match d with
          | None =>
              clear_error err ;;;
              invalid err "polycap_source_new: description->profile is faulty. Some capillary coordinates are outside of the external radius." ;;;
              source_free p ;;; ret NULL
          | Some _ => ret p
          end
      end
  end)))))))).

(** ** src/polycap-photon.c: construction and destruction *)

(** three consecutive cells *)
Definition store_vec (p : ptr) (i : nat) (v : vec3 T) : M unit :=
  store p i (Vdbl (vx v)) ;;; store p (S i) (Vdbl (vy v)) ;;; store p (S (S i)) (Vdbl (vz v)).

Definition zero_vec : list (val T) := [Vdbl (#0)%num; Vdbl (#0)%num; Vdbl (#0)%num].

(** a polycap_photon from calloc *)
Definition photon_zero : list (val T) :=
  [Vptr NULL; Vptr NULL; Vptr NULL; Vint 0; Vint 0]
  ++ zero_vec ++ zero_vec ++ zero_vec ++ zero_vec ++ zero_vec ++ zero_vec ++ zero_vec
  ++ [Vint 0; Vptr NULL; Vptr NULL; Vptr NULL; Vptr NULL; Vint 0; Vdbl (#0)%num].

(** polycap_photon_new: src/polycap-photon.c:98-136. *)
Definition photon_new (desc : ptr) (coords dir elecv : vec3 T) (err : eslot) : M ptr :=
  reject_if (is_null desc) err "polycap_photon_new: description cannot be NULL" (
  reject_if (nltb (vz coords) (#0)%num) err "polycap_photon_new: start_coords.z must be greater than 0" (
  reject_if (nltb (vz dir) (#0)%num) err "polycap_photon_new: start_direction.z must be greater than 0" (
  p <- alloc photon_zero ;;
  match p with
  | None => mem_error err "polycap_photon_new: could not allocate memory for photon" ;;; ret NULL
  | Some _ =>
      store p F_DESC (Vptr desc) ;;;
      store_vec p F_START coords ;;;
      store_vec p F_EXIT coords ;;;
      store_vec p F_SDIR dir ;;;
      store_vec p F_EDIR dir ;;;
      store_vec p F_SELEC elecv ;;;
      store_vec p F_EELEC elecv ;;;
      store p F_DTRAVEL (Vdbl (#0)%num) ;;;
      ret p
  end))).

(** polycap_leak_new: src/polycap-photon.c:1015-1036 (the weight allocation is not checked). *)
Definition leak_new (coords dir elecv : vec3 T) (n_refl : Z) (n_energies : nat) (weights : ptr)
    (err : eslot) : M ptr :=
  p <- malloc 12 ;;
  match p with
  | None => mem_error err "polycap_leak_new: could not allocate memory for leak" ;;; ret NULL
  | Some _ =>
      store_vec p 0 coords ;;;
      store_vec p 3 dir ;;;
      store_vec p 6 elecv ;;;
      store p L_NREFL (Vint n_refl) ;;;
      store p L_NEN (Vint (Z.of_nat n_energies)) ;;;
      w <- malloc n_energies ;;
      store p L_WEIGHT (Vptr w) ;;;
      memcpy w weights n_energies ;;;
      ret p
  end.

(** polycap_leak_free: src/polycap-photon.c:1125-1132. *)
Definition leak_free (p : ptr) : M unit :=
  match p with
  | None => ret tt
  | Some _ => w <- load_ptr p L_WEIGHT ;; free_if w ;;; free p
  end.

(** the loops of src/polycap-photon.c:1149-1160 *)
Definition free_leaks (arr : ptr) (n : nat) : M unit :=
  match arr with
  | None => ret tt
  | Some _ => for_n n 0 (fun i => l <- load_ptr arr i ;; leak_free l) ;;; free arr
  end.

(** polycap_photon_free: src/polycap-photon.c:1135-1163. *)
Definition photon_free (p : ptr) : M unit :=
  match p with
  | None => ret tt
  | Some _ =>
      e <- load_ptr p F_EN ;; free_if e ;;;
      w <- load_ptr p F_WEIGHT ;; free_if w ;;;
      a <- load_ptr p F_AMU ;; free_if a ;;;
      f <- load_ptr p F_SCATF ;; free_if f ;;;
      x <- load_ptr p F_EXTLEAK ;; nx <- load_int p F_NEXT ;; free_leaks x (Z.to_nat nx) ;;;
      i <- load_ptr p F_INTLEAK ;; ni <- load_int p F_NINT ;; free_leaks i (Z.to_nat ni) ;;;
      free p
  end.

(** polycap_photon_get_extleak_data / polycap_photon_get_intleak_data:
    src/polycap-photon.c:1039-1079 and 1082-1122; they differ in the two fields
    read.  [leaksp] and [np] are the addresses of the caller's variables. The
    result and the number of allocations left behind on failure follow the code:
    a failed allocation returns false without releasing anything. *)
Fixpoint copy_leaks (n from : nat) (out arr : ptr) (err : eslot) : M bool :=
  match n with
  | O => ret true
  | S n =>
      q <- malloc 12 ;;
      store out from (Vptr q) ;;;
      match q with
      | None => mem_error err "polycap_photon_get_leak_data: could not allocate memory for (*leaks)[i]" ;;; ret false
      | Some _ =>
          src <- load_ptr arr from ;;
          memcpy q src 12 ;;;
          k <- load_int src L_NEN ;;
          w <- malloc (Z.to_nat k) ;;
          store q L_WEIGHT (Vptr w) ;;;
          match w with
          | None => mem_error err "polycap_photon_get_leak_data: could not allocate memory for (*leaks[i])->weight" ;;; ret false
          | Some _ =>
              sw <- load_ptr src L_WEIGHT ;;
              memcpy w sw (Z.to_nat k) ;;;
              copy_leaks n (S from) out arr err
          end
      end
  end.

Definition get_leak_data (farr fn : nat) (photon leaksp np : ptr) (err : eslot) : M bool :=
  match photon with
  | None => invalid err "polycap_photon_get_leak_data: photon cannot be NULL" ;;; ret false
  | Some _ =>
      n <- load_int photon fn ;;
      store np 0 (Vint n) ;;;
      if Z.eqb n 0 then
        store leaksp 0 (Vptr NULL) ;;;
        invalid err "polycap_photon_get_leak_data: no leak events in photon" ;;;
        ret false
      else
        out <- malloc (Z.to_nat n) ;;
        store leaksp 0 (Vptr out) ;;;
        match out with
        | None => mem_error err "polycap_photon_get_leak_data: could not allocate memory for leaks" ;;; ret false
        | Some _ => arr <- load_ptr photon farr ;; copy_leaks (Z.to_nat n) 0 out arr err
        end
  end.
Definition get_extleak_data := get_leak_data F_EXTLEAK F_NEXT.
Definition get_intleak_data := get_leak_data F_INTLEAK F_NINT.

End Cons.
