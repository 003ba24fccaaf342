(** * Model of the class TransmissionEfficiencies of python/polycap.pyx (lines 367-730) and of
      Leak.create (lines 766-786)

    The C fields of the object and the C variables of its methods are one-cell blocks whose
    addresses are in the record [te] (the getters of the library get the address of each of
    them).  Python's own values (tuples, numpy arrays, Leak objects) are values, not blocks: making
    them never fails and takes no block of the model.  A method that contains yield is a generator:
    [next_gen] runs it from one yield to the next. *)
From Coq Require Import ZArith List Bool String.
From Verif Require Import Num Mem ErrorModel ProfileModel Geometry ConsModel ResultModel SpecResult PyModel SpecPy.
Import ListNotations.
Local Open Scope mem_scope.

(** Fields _trans_eff ... _d_travel (lines 368-387), the variable error of the methods and the
    variables n_energies, energies_arr, efficiencies_arr of create (lines 705-708). *)
Record te := mkTe {
  v_eff : loc; v_err : loc;
  v_int : loc; v_nint : loc; v_ext : loc; v_next : loc;
  v_nstart : loc; v_sc : loc; v_sd : loc; v_se : loc; v_ss : loc;
  v_nexit : loc; v_nen : loc; v_xc : loc; v_xd : loc; v_xe : loc; v_xw : loc; v_refl : loc; v_trav : loc;
  v_n : loc; v_en : loc; v_ef : loc }.

Section PyResult.
Context {T : Type} {N : Num T}.
Local Notation M := (M T).

(** vector2tuple (lines 745-746), of element [i] of an array of vectors. *)
Definition load_vec3 (p : ptr) (i : nat) : M (vec3 T) :=
  x <- load_dbl p i ;; y <- load_dbl p (i + 1) ;; z <- load_dbl p (i + 2) ;; ret (mkV x y z).

(** Leak.create: lines 766-786.  The electric vector is copied cell by cell: the library does not
    initialise it in external leaks. *)
Definition leak_create (leak : ptr) : M (pval T) :=
  if is_null leak then ret PNone else
  coords <- load_vec3 leak 0 ;;
  direction <- load_vec3 leak 3 ;;
  e0 <- load leak 6 ;; e1 <- load leak 7 ;; e2 <- load leak 8 ;;
  n <- load_int leak L_NEN ;;
  w <- load_ptr leak L_WEIGHT ;;
  weight <- read_dbls (Z.to_nat n) 0 w ;;
  nr <- load_int leak L_NREFL ;;
  ret (PLeak coords direction [e0; e1; e2] nr weight).

(** Where a property keeps what it hands out. *)
Definition cache (o : te) (a : acc) : loc :=
  match a with
  | extleak_data => v_ext o | intleak_data => v_int o
  | exit_coords => v_xc o | exit_direction => v_xd o | exit_elecv => v_xe o
  | n_refl => v_refl o | exit_weights => v_xw o | d_travel => v_trav o
  | start_coords => v_sc o | start_direction => v_sd o | start_elecv => v_se o | src_start_coords => v_ss o
  end.
Definition count (o : te) (a : acc) : loc :=
  match a with extleak_data => v_next o | intleak_data => v_nint o | _ => v_nexit o end.
Definition is_leaks (a : acc) : bool := match a with extleak_data | intleak_data => true | _ => false end.

(** The call that fills it: lines 480, 499, 518, 536, 554, 572, 591, 616, 634, 652, 670, 688 *)
Definition fetch (o : te) (a : acc) (eff : ptr) : M bool :=
  let exits := get_exit_data eff (Some (v_nexit o)) (Some (v_xc o)) (Some (v_xd o)) (Some (v_xe o)) (Some (v_refl o))
                 (Some (v_trav o)) (Some (v_nen o)) (Some (v_xw o)) (Some (v_err o)) in
  let starts := get_start_data eff (Some (v_nstart o)) (Some (v_nexit o)) (Some (v_sc o)) (Some (v_sd o)) (Some (v_se o))
                  (Some (v_ss o)) (Some (v_err o)) in
  match a with
  | extleak_data => get_extleak_data eff (Some (v_ext o)) (Some (v_next o)) (Some (v_err o))
  | intleak_data => get_intleak_data eff (Some (v_int o)) (Some (v_nint o)) (Some (v_err o))
  | exit_coords | exit_direction | exit_elecv | n_refl | exit_weights | d_travel => exits
  | start_coords | start_direction | start_elecv | src_start_coords => starts
  end.

(** What is yielded in round [i]: lines 485, 504, 523, 541, 559, 577, 599-603, 621, 639, 657, 675, 693 *)
Definition yielded (o : te) (a : acc) (i : nat) : M (pval T) :=
  q <- load_ptr (Some (cache o a)) 0 ;;
  match a with
  | extleak_data | intleak_data => l <- load_ptr q i ;; leak_create l
  | n_refl => z <- load_int q i ;; ret (PInt z)
  | d_travel => x <- load_dbl q i ;; ret (PDbl x)
  | exit_weights =>
      ne <- load_int (Some (v_nen o)) 0 ;;
      w <- load_ptr q i ;;
      xs <- read_dbls (Z.to_nat ne) 0 w ;;
      ret (PArr xs)
  | _ => v <- load_vec3 q (3 * i) ;; ret (PVec v)
  end.

(** A generator: not started, about to do round [i] of [n], or finished. *)
Inductive gen := Fresh | Round (i n : nat) | Finished.

Definition round (o : te) (a : acc) (i n : nat) : M (answer T * gen) :=
  if Nat.ltb i n then v <- yielded o a i ;; ret (Item v, Round (S i) n) else ret (Stop, Finished).

(** Nothing cached yet: leaks look at the number (lines 479, 498), the others at the pointer
    (lines 517, 535, ...). *)
Definition missing (o : te) (a : acc) : M bool :=
  if is_leaks a then n <- load_int (Some (count o a)) 0 ;; ret (Z.eqb n 0)
  else q <- load_ptr (Some (cache o a)) 0 ;; ret (is_null q).
(** if self._n_ext_leaks > 0, lines 483, 502; if self._exit_coords != NULL, lines 521, 539, ...;
    then range(n). *)
Definition start_rounds (o : te) (a : acc) : M (answer T * gen) :=
  n <- load_int (Some (count o a)) 0 ;;
  if is_leaks a then
    if Z.ltb 0 n then round o a 0 (Z.to_nat n) else ret (Stop, Finished)
  else
    q <- load_ptr (Some (cache o a)) 0 ;;
    if is_null q then ret (Stop, Finished) else round o a 0 (Z.to_nat n).

(** next(): lines 471-695. *)
Definition next_gen (o : te) (a : acc) (g : gen) : M (answer T * gen) :=
  match g with
  | Finished => ret (Stop, Finished)
  | Round i n => round o a i n
  | Fresh =>
      eff <- load_ptr (Some (v_eff o)) 0 ;;
      if is_null eff then ret (Stop, Finished)
      else
        store (Some (v_err o)) 0 (Vptr NULL) ;;;
        b <- missing o a ;;
        x <- (if (b : bool) then
                fetch o a eff ;;;
                e <- load_ptr (Some (v_err o)) 0 ;;
                set_exception e (ret (Value tt))
              else ret (Value tt)) ;;
        match x with
        | Raised c _ => ret (Raise c, Finished)
        | Value _ => start_rounds o a
        end
  end.

Fixpoint serve (o : te) (ops : list op) (gs : list (acc * gen)) : M (list (answer T)) :=
  match ops with
  | [] => ret []
  | Iter a :: ops => r <- serve o ops (gs ++ [(a, Fresh)]) ;; ret (Iterator :: r)
  | Next k :: ops =>
      match nth_error gs k with
      | None => r <- serve o ops gs ;; ret (Stop :: r)
      | Some (a, g) =>
          xg <- next_gen o a g ;;
          r <- serve o ops (set_nth gs k (a, snd xg)) ;;
          ret (fst xg :: r)
      end
  end.

(** __cinit__: lines 389-408 (_n_energies is set by the class's allocation: Cython clears it). *)
Definition te_init (o : te) : M unit :=
  store (Some (v_eff o)) 0 (Vptr NULL) ;;;
  store (Some (v_ext o)) 0 (Vptr NULL) ;;; store (Some (v_next o)) 0 (Vint 0) ;;;
  store (Some (v_int o)) 0 (Vptr NULL) ;;; store (Some (v_nint o)) 0 (Vint 0) ;;;
  store (Some (v_nstart o)) 0 (Vint 0) ;;;
  store (Some (v_sc o)) 0 (Vptr NULL) ;;; store (Some (v_sd o)) 0 (Vptr NULL) ;;; store (Some (v_se o)) 0 (Vptr NULL) ;;;
  store (Some (v_nexit o)) 0 (Vint 0) ;;;
  store (Some (v_xc o)) 0 (Vptr NULL) ;;; store (Some (v_xd o)) 0 (Vptr NULL) ;;; store (Some (v_xe o)) 0 (Vptr NULL) ;;;
  store (Some (v_ss o)) 0 (Vptr NULL) ;;; store (Some (v_xw o)) 0 (Vptr NULL) ;;;
  store (Some (v_refl o)) 0 (Vptr NULL) ;;; store (Some (v_trav o)) 0 (Vptr NULL) ;;;
  store (Some (v_nen o)) 0 (Vint 0).

(** TransmissionEfficiencies.create: lines 698-730; the result is the pair handed out by data
    (lines 464-469). *)
Definition te_create (o : te) (trans_eff : ptr) : M (pyres (list T * list T)) :=
  te_init o ;;;
  store (Some (v_eff o)) 0 (Vptr trans_eff) ;;;
  store (Some (v_n o)) 0 (Vint 0) ;;; store (Some (v_en o)) 0 (Vptr NULL) ;;; store (Some (v_ef o)) 0 (Vptr NULL) ;;;
  store (Some (v_err o)) 0 (Vptr NULL) ;;;
  get_data trans_eff (Some (v_n o)) (Some (v_en o)) (Some (v_ef o)) (Some (v_err o)) ;;;
  e <- load_ptr (Some (v_err o)) 0 ;;
  set_exception e (
  n <- load_int (Some (v_n o)) 0 ;;
  q <- load_ptr (Some (v_en o)) 0 ;; en <- read_dbls (Z.to_nat n) 0 q ;; free q ;;;
  q <- load_ptr (Some (v_ef o)) 0 ;; ef <- read_dbls (Z.to_nat n) 0 q ;; free q ;;;
  ret (Value (en, ef))).

(** for i in range(n): polycap_leak_free(leaks[i]); polycap_free(leaks): lines 415-423. *)
Definition free_leak_cache (vl vn : loc) : M unit :=
  n <- load_int (Some vn) 0 ;;
  if Z.ltb 0 n then
    q <- load_ptr (Some vl) 0 ;;
    for_n (Z.to_nat n) 0 (fun i => l <- load_ptr q i ;; leak_free l) ;;;
    free q
  else ret tt.
Definition free_cache (v : loc) : M unit :=
  q <- load_ptr (Some v) 0 ;; if is_null q then ret tt else free q.

(** __dealloc__: lines 410-447. *)
Definition te_dealloc (o : te) : M unit :=
  eff <- load_ptr (Some (v_eff o)) 0 ;;
  (if is_null eff then ret tt else efficiencies_free eff) ;;;
  free_leak_cache (v_ext o) (v_next o) ;;;
  free_leak_cache (v_int o) (v_nint o) ;;;
  free_cache (v_sc o) ;;; free_cache (v_sd o) ;;; free_cache (v_se o) ;;; free_cache (v_ss o) ;;;
  (q <- load_ptr (Some (v_xw o)) 0 ;;
   if is_null q then ret tt
   else
     n <- load_int (Some (v_nexit o)) 0 ;;
     for_n (Z.to_nat n) 0 (fun i => w <- load_ptr q i ;; free w) ;;;
     free q) ;;;
  free_cache (v_xc o) ;;; free_cache (v_xd o) ;;; free_cache (v_xe o) ;;; free_cache (v_refl o) ;;; free_cache (v_trav o).

(** An object from its creation to its end, with everything the user asks for in between. *)
Definition te_session (o : te) (trans_eff : ptr) (ops : list op) : M (pyres (list T * list T * list (answer T))) :=
  d <- te_create o trans_eff ;;
  match d with
  | Raised c m => ret (Raised c m)
  | Value d => xs <- serve o ops [] ;; te_dealloc o ;;; ret (Value (d, xs))
  end.

End PyResult.
