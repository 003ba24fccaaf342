(** * Model of Source.get_photon of python/polycap.pyx (heap level)

    The photon made is a Photon object like any other: see PyPhoton.v. *)
From Coq Require Import ZArith List Bool Lia String.
From Verif Require Import Num Mem ErrorModel ProfileModel Geometry ConsModel CapilModel TraceModel LaunchModel SourceModel PyModel SpecPy SpecPyPhoton PyPhoton.
Import ListNotations.
Local Open Scope mem_scope.

Section PySrcPhoton.
Context {T : Type} {N : Num T}.
Local Notation M := (M T).

(** Source.get_photon: lines 1107-1127.  [rs]: the numbers the generator of the Rng object is going
    to deliver; [None]: still drawing when they are used up.  Photon(None, None, None, None,
    ignore=True) is [photon_ignored]. *)
Definition source_photon (u : pvars) (source : ptr) (rs : list T) : M (option (pyres unit)) :=
  store (Some (u_err u)) 0 (Vptr NULL) ;;;
  r <- source_get_photon source (Some rs) (Some (u_err u)) ;;
  match r with
  | None => ret None
  | Some r =>
      e <- load_ptr (Some (u_err u)) 0 ;;
      z <- set_exception e (photon_ignored u) ;;
      match z with
      | Raised _ _ => ret (Some z)
      | Value _ => store (Some (u_ph u)) 0 (Vptr (fst r)) ;;; ret (Some z)
      end
  end.

(** The photon from its making to its end. *)
Definition source_photon_session (u : pvars) (x : xraylib T) (junk : vec3 T) (fuel : nat) (source : ptr) (rs : list T) (ops : list (pop T))
    : M (option (list (answer T) + pyclass)) :=
  z <- source_photon u source rs ;;
  match z with
  | None => ret None
  | Some (Raised c _) => ret (Some (inr c))
  | Some (Value _) =>
      r <- ph_serve u x junk fuel ops [] ;;
      match r with
      | None => ret None
      | Some l => photon_dealloc u ;;; ret (Some (inl l))
      end
  end.

(** The photon refers to the description of the source (src/polycap-source.c:140) and does not keep
    the Source object alive: here that is deleted (lines 1102-1105) while the photon is in use, as in
    Source(...).get_photon(rng).launch(energies). *)
Definition orphan_source_session (u : pvars) (x : xraylib T) (junk : vec3 T) (fuel : nat) (source : ptr) (rs : list T) (energies : list T) (leak_calc : bool)
    : M (option (answer T)) :=
  z <- source_photon u source rs ;;
  match z with
  | None => ret None
  | Some (Raised c _) => ret (Some (Raise c))
  | Some (Value _) => source_free source ;;; py_launch u x junk fuel energies leak_calc
  end.

End PySrcPhoton.
