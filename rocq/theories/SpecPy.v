(** * Vocabulary: what a Python user sees of a result (values only)

    A TransmissionEfficiencies object has twelve iterable properties.  Each evaluation of one
    gives a new iterator, next() on it an element, the end, or an exception. *)
From Coq Require Import ZArith List Bool.
From Verif Require Import Num Mem Geometry SpecResult PyModel.
Import ListNotations.

Inductive acc :=
| extleak_data | intleak_data
| exit_coords | exit_direction | exit_elecv | n_refl | exit_weights | d_travel
| start_coords | start_direction | start_elecv | src_start_coords.

Section Spec.
Context {T : Type} {N : Num T}.

(** The values handed out: None, vectors (named tuples), integers, numbers, arrays, arrays whose
    cells may be uninitialised, Leak objects.  The electric vector of a leak is a list of three cells,
    which may be uninitialised too. *)
Inductive pval :=
| PNone | PVec (v : vec3 T) | PInt (z : Z) | PDbl (x : T) | PArr (xs : list T) | PCells (cs : list (val T))
| PLeak (coords dir : vec3 T) (elecv : list (val T)) (nrefl : Z) (weight : list T).

Definition vec_cells (v : vec3 T) : list (val T) := [Vdbl (vx v); Vdbl (vy v); Vdbl (vz v)].

(** What iterating over a property of a result [r] gives; no leaks: a ValueError. *)
Definition contents (r : result T) (a : acc) : list pval + pyclass :=
  let leaks l f := match l with [] => inr ValueError | _ :: _ => inl (List.map f l) end in
  match a with
  | extleak_data => leaks (q_ext r) (fun k => PLeak (k_coords k) (completed (k_dir k)) [Vundef; Vundef; Vundef] (k_nrefl k) (k_weights k))
  | intleak_data => leaks (q_int r) (fun k => PLeak (k_coords k) (completed (k_dir k)) (vec_cells (completed (k_elecv k))) (k_nrefl k) (k_weights k))
  | exit_coords => inl (List.map (fun x => PVec (r_exit x)) (q_rows r))
  | exit_direction => inl (List.map (fun x => PVec (completed (r_exit_dir x))) (q_rows r))
  | exit_elecv => inl (List.map (fun x => PVec (completed (r_exit_elecv x))) (q_rows r))
  | n_refl => inl (List.map (fun x => PInt (r_nrefl x)) (q_rows r))
  | exit_weights => inl (List.map (fun x => PArr (r_weights x)) (q_rows r))
  | d_travel => inl (List.map (fun x => PDbl (r_travel x)) (q_rows r))
  | start_coords => inl (List.map (fun x => PVec (flat (r_start x))) (q_rows r))
  | start_direction => inl (List.map (fun x => PVec (completed (r_start_dir x))) (q_rows r))
  | start_elecv => inl (List.map (fun x => PVec (completed (r_start_elecv x))) (q_rows r))
  | src_start_coords => inl (List.map (fun x => PVec (flat (r_src x))) (q_rows r))
  end.

(** What a user does: evaluate a property (the iterators are numbered in the order in which they
    are made) or ask iterator [g] for its next element; and what he gets. *)
Inductive op := Iter (a : acc) | Next (g : nat).
Inductive answer := Iterator | Item (v : pval) | Stop | Raise (c : pyclass).

(** An iterator over fixed contents: the property and the position reached ([None]: exhausted). *)
Definition cursor := (acc * option nat)%type.
Definition advance (r : result T) (c : cursor) : answer * cursor :=
  match c with
  | (a, None) => (Stop, c)
  | (a, Some i) =>
      match contents r a with
      | inr e => (Raise e, (a, None))
      | inl l => match nth_error l i with Some v => (Item v, (a, Some (S i))) | None => (Stop, (a, None)) end
      end
  end.
Fixpoint answers (r : result T) (ops : list op) (cs : list cursor) : list answer :=
  match ops with
  | [] => []
  | Iter a :: ops => Iterator :: answers r ops (cs ++ [(a, Some 0)])
  | Next g :: ops =>
      match nth_error cs g with
      | None => Stop :: answers r ops cs
      | Some c => let (x, c') := advance r c in x :: answers r ops (set_nth cs g c')
      end
  end.

End Spec.
Arguments pval T : clear implicits.
Arguments answer T : clear implicits.
