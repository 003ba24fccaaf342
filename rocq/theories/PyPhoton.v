(** * Model of the class Photon of python/polycap.pyx (lines 826-1038)

    As in PyResult.v: the C fields of the object and the C variables of its methods are one-cell
    blocks, Python's own values are values, and methods with yield are generators.  Energies are given
    as a Python list: np.asarray makes an array of them, which Python releases when the method ends
    (an ndarray of the caller's is handled by [py_launch_array] below).  The class checks on the
    shapes of the three vectors are left out: they are three numbers each. *)
From Coq Require Import ZArith List Bool String.
From Verif Require Import Num Mem ErrorModel ProfileModel Geometry ConsModel SpecPhoton RM CapilModel TraceModel LaunchModel FlightMem PyModel SpecPy PyResult SpecPyPhoton.
Import ListNotations.
Local Notation ret := Mem.ret.
Local Notation bind := Mem.bind.
Local Open Scope mem_scope.

(** Fields _photon ... _n_int_leaks (lines 827-831), the variable error of the methods and the
    variable weights of launch (line 927). *)
Record pvars := mkPvars { u_ph : loc; u_ext : loc; u_next : loc; u_int : loc; u_nint : loc; u_err : loc; u_w : loc }.

Section PyPhoton.
Context {T : Type} {N : Num T}.
Local Notation M := (M T).

(** __cinit__: lines 833-891; [description] is description._description. *)
Definition photon_init (u : pvars) (description : ptr) (start dir ev : vec3 T) : M (pyres unit) :=
  store (Some (u_err u)) 0 (Vptr NULL) ;;;
  store (Some (u_ext u)) 0 (Vptr NULL) ;;; store (Some (u_next u)) 0 (Vint 0) ;;;
  store (Some (u_int u)) 0 (Vptr NULL) ;;; store (Some (u_nint u)) 0 (Vint 0) ;;;
  p <- photon_new description start dir ev (Some (u_err u)) ;;
  store (Some (u_ph u)) 0 (Vptr p) ;;;
  e <- load_ptr (Some (u_err u)) 0 ;;
  set_exception e (ret (Value tt)).

(** __cinit__ with ignore=True: lines 856-864. *)
Definition photon_ignored (u : pvars) : M (pyres unit) :=
  store (Some (u_err u)) 0 (Vptr NULL) ;;;
  store (Some (u_ext u)) 0 (Vptr NULL) ;;; store (Some (u_next u)) 0 (Vint 0) ;;;
  store (Some (u_int u)) 0 (Vptr NULL) ;;; store (Some (u_nint u)) 0 (Vint 0) ;;;
  store (Some (u_ph u)) 0 (Vptr NULL) ;;; ret (Value tt).

(** __dealloc__: lines 893-906. *)
Definition photon_dealloc (u : pvars) : M unit :=
  p <- load_ptr (Some (u_ph u)) 0 ;;
  (if is_null p then ret tt else photon_free p) ;;;
  free_leak_cache (u_ext u) (u_next u) ;;;
  free_leak_cache (u_int u) (u_nint u).

(** memcpy of n doubles, whether written or not. *)
Fixpoint read_cells (n from : nat) (p : ptr) : M (list (val T)) :=
  match n with O => ret [] | S n => v <- load p from ;; r <- read_cells n (S from) p ;; ret (v :: r) end.

(** launch from the call on: lines 926-941; [arr] is PyArray_DATA(energies), [n] energies.size.
    Outer None: the call does not come back within the fuel. *)
Definition py_launch_at (u : pvars) (x : xraylib T) (junk : vec3 T) (fuel : nat) (n : nat) (arr : ptr) (leak_calc : bool) (after : M unit) : M (option (answer T)) :=
  store (Some (u_err u)) 0 (Vptr NULL) ;;; store (Some (u_w u)) 0 (Vptr NULL) ;;;
  p <- load_ptr (Some (u_ph u)) 0 ;;
  r <- launchM x junk fuel p n arr (Some (u_w u)) leak_calc (Some (u_err u)) None ;;
  after ;;;
  match r with
  | None => ret None
  | Some (rv, _) =>
      e <- load_ptr (Some (u_err u)) 0 ;;
      z <- set_exception e (ret (Value tt)) ;;
      match z with
      | Raised c _ => ret (Some (Raise c))
      | Value _ =>
          if Z.eqb rv 2 then ret (Some (Item PNone))
          else
            w <- load_ptr (Some (u_w u)) 0 ;;
            cs <- read_cells n 0 w ;;
            free w ;;;
            ret (Some (Item (PCells cs)))
      end
  end.
(** launch, energies a list: lines 908-941.  The array is Python's: it is gone when launch is over
    (nothing after the call reads it). *)
Definition py_launch (u : pvars) (x : xraylib T) (junk : vec3 T) (fuel : nat) (energies : list T) (leak_calc : bool) : M (option (answer T)) :=
  arr <- malloc (List.length energies) ;;
  match arr with
  | None => ret (Some (Raise MemoryError))
  | Some _ => write_dbls arr 0 energies ;;; py_launch_at u x junk fuel (List.length energies) arr leak_calc (free arr)
  end.
(** launch, energies an array of doubles: np.asarray and np.atleast_1d hand it back as it is. *)
Definition py_launch_array (u : pvars) (x : xraylib T) (junk : vec3 T) (fuel : nat) (energies : ndarray) (leak_calc : bool) : M (option (answer T)) :=
  py_launch_at u x junk fuel (nd_size energies) (Some (nd_data energies)) leak_calc (ret tt).

(** exit_coords ... d_travel: lines 985-1038, and the getters src/polycap-photon.c:959-1012 (none of
    them tests for NULL). *)
Definition py_get (u : pvars) (f : field) : M (pval T) :=
  p <- load_ptr (Some (u_ph u)) 0 ;;
  match f with
  | at_start_coords => v <- load_vec3 p F_START ;; ret (PVec v)
  | at_start_direction => v <- load_vec3 p F_SDIR ;; ret (PVec v)
  | at_start_electric_vector => v <- load_vec3 p F_SELEC ;; ret (PVec v)
  | at_exit_coords => v <- load_vec3 p F_EXIT ;; ret (PVec v)
  | at_exit_direction => v <- load_vec3 p F_EDIR ;; ret (PVec v)
  | at_exit_electric_vector => v <- load_vec3 p F_EELEC ;; ret (PVec v)
  | at_i_refl => z <- load_int p F_IREFL ;; ret (PDbl (nofZ z))
  | at_d_travel => x <- load_dbl p F_DTRAVEL ;; ret (PDbl x)
  end.

Definition u_leaks (u : pvars) (k : kind) : loc := match k with External => u_ext u | Internal => u_int u end.
Definition u_count (u : pvars) (k : kind) : loc := match k with External => u_next u | Internal => u_nint u end.
Definition ph_fetch (k : kind) : ptr -> ptr -> ptr -> eslot -> M bool := match k with External => get_extleak_data | Internal => get_intleak_data end.

(** One round of the loops of lines 956-958 and 979-981. *)
Definition ph_round (u : pvars) (k : kind) (i n : nat) : M (answer T * gen) :=
  if Nat.ltb i n then
    q <- load_ptr (Some (u_leaks u k)) 0 ;; l <- load_ptr q i ;; v <- leak_create l ;; ret (Item v, Round (S i) n)
  else ret (Stop, Finished).
(** extleak_data and intleak_data: lines 943-983. *)
Definition ph_next (u : pvars) (k : kind) (g : gen) : M (answer T * gen) :=
  match g with
  | Finished => ret (Stop, Finished)
  | Round i n => ph_round u k i n
  | Fresh =>
      p <- load_ptr (Some (u_ph u)) 0 ;;
      if is_null p then ret (Stop, Finished)
      else
        store (Some (u_err u)) 0 (Vptr NULL) ;;;
        n <- load_int (Some (u_count u k)) 0 ;;
        z <- (if Z.eqb n 0 then
                ph_fetch k p (Some (u_leaks u k)) (Some (u_count u k)) (Some (u_err u)) ;;;
                e <- load_ptr (Some (u_err u)) 0 ;;
                set_exception e (ret (Value tt))
              else ret (Value tt)) ;;
        match z with
        | Raised c _ => ret (Raise c, Finished)
        | Value _ =>
            n <- load_int (Some (u_count u k)) 0 ;;
            if Z.ltb 0 n then ph_round u k 0 (Z.to_nat n) else ret (Stop, Finished)
        end
  end.

Fixpoint ph_serve (u : pvars) (x : xraylib T) (junk : vec3 T) (fuel : nat) (ops : list (pop T)) (gs : list (kind * gen)) : M (option (list (answer T))) :=
  match ops with
  | [] => ret (Some [])
  | op :: ops =>
      ag <- (match op with
             | Launch en lc => a <- py_launch u x junk fuel en lc ;; ret (a, gs)
             | Get f => v <- py_get u f ;; ret (Some (Item v), gs)
             | Leaks k => ret (Some Iterator, gs ++ [(k, Fresh)])
             | NextLeak j =>
                 match nth_error gs j with
                 | None => ret (Some Stop, gs)
                 | Some (k, g) => r <- ph_next u k g ;; ret (Some (fst r), set_nth gs j (k, snd r))
                 end
             end) ;;
      match fst ag with
      | None => ret None
      | Some a => r <- ph_serve u x junk fuel ops (snd ag) ;; ret (match r with Some l => Some (a :: l) | None => None end)
      end
  end.

(** A Photon from its making to its end; if it is refused the object is released at once. *)
Definition photon_session (u : pvars) (x : xraylib T) (junk : vec3 T) (fuel : nat) (description : ptr) (start dir ev : vec3 T) (ops : list (pop T))
    : M (option (list (answer T) + pyclass)) :=
  z <- photon_init u description start dir ev ;;
  match z with
  | Raised c _ => photon_dealloc u ;;; ret (Some (inr c))
  | Value _ =>
      r <- ph_serve u x junk fuel ops [] ;;
      match r with
      | None => ret None
      | Some l => photon_dealloc u ;;; ret (Some (inl l))
      end
  end.

(** The photon does not keep the Description alive (line 886 hands over description._description, no
    field refers to the object): here it is deleted (python/polycap.pyx:359-362) while the photon is
    still in use. *)
Definition orphan_session (u : pvars) (x : xraylib T) (junk : vec3 T) (fuel : nat) (description : ptr) (start dir ev : vec3 T) (energies : list T) (leak_calc : bool)
    : M (option (answer T)) :=
  z <- photon_init u description start dir ev ;;
  match z with
  | Raised c _ => ret (Some (Raise c))
  | Value _ => description_free description ;;; py_launch u x junk fuel energies leak_calc
  end.

End PyPhoton.
