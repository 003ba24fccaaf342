(** * Vocabulary: what a Python user sees of a photon (values only)

    A Photon is made, launched any number of times, its fields are read and its leaks iterated
    over, in any order.  Tracing itself is the function [launch] of LaunchModel.v. *)
From Coq Require Import ZArith List Bool.
From Verif Require Import Num Mem Geometry SpecPhoton RM CapilModel TraceModel LaunchModel ErrorModel PyModel SpecPy.
Import ListNotations.

Inductive field := at_start_coords | at_start_direction | at_start_electric_vector
                 | at_exit_coords | at_exit_direction | at_exit_electric_vector | at_i_refl | at_d_travel.
Inductive kind := External | Internal.

Section Spec.
Context {T : Type} {N : Num T}.

(** What a user does (energies are a Python list) *)
Inductive pop := Launch (energies : list T) (leak_calc : bool) | Get (f : field) | Leaks (k : kind) | NextLeak (g : nat).

Definition field_value (f : field) (ph : photon T) : pval T :=
  match f with
  | at_start_coords => PVec (ph_start ph) | at_start_direction => PVec (ph_sdir ph) | at_start_electric_vector => PVec (ph_selec ph)
  | at_exit_coords => PVec (ph_exit ph) | at_exit_direction => PVec (ph_edir ph) | at_exit_electric_vector => PVec (ph_eelec ph)
  | at_i_refl => PDbl (nofZ (ph_irefl ph)) | at_d_travel => PDbl (ph_dtravel ph)
  end.
Definition leaks_of (k : kind) (ph : photon T) : list (leak_data T) := match k with External => ph_ext ph | Internal => ph_int ph end.
Definition leak_value (d : leak_data T) : pval T :=
  PLeak (lk_coords d) (lk_dir d) (vec_cells (lk_elecv d)) (lk_nrefl d) (lk_weights d).
(** An array of weights, some of which may never have been written. *)
Definition weights_value (ws : list (option T)) : pval T :=
  PCells (List.map (fun w => match w with Some x => Vdbl x | None => Vundef end) ws).

(** The photon, the leaks of either kind that were handed out first (none: not yet), and the
    iterators: the kind and the position ([None]: exhausted). *)
Record view := mkView { w_ph : photon T; w_ext : list (leak_data T); w_int : list (leak_data T); w_its : list (kind * option nat) }.
Definition shown (k : kind) (w : view) := match k with External => w_ext w | Internal => w_int w end.
Definition show (k : kind) (l : list (leak_data T)) (w : view) : view :=
  match k with External => mkView (w_ph w) l (w_int w) (w_its w) | Internal => mkView (w_ph w) (w_ext w) l (w_its w) end.

Variables (x : xraylib T) (o : optic T) (junk : vec3 T) (fuel : nat).

(** A launch: what comes back, the photon after it, and how many blocks of memory are lost: one for
    each leak the photon had, and one if there are weights which are not handed out. *)
Definition launch_reply (ph : photon T) (en : list T) (lc : bool) : option (answer T * photon T * nat) :=
  match launch x o junk fuel ph (Some en) false lc None with
  | Ret ((c, ph', ws), e) =>
      Some (match e, ws with
            | Some code, Some _ => (Raise (polycap_error_map code), ph', S (List.length (ph_ext ph) + List.length (ph_int ph)))
            | Some code, None => (Raise (polycap_error_map code), ph', 0)
            | None, Some ws => if Z.eqb c 2 then (Item PNone, ph', S (List.length (ph_ext ph) + List.length (ph_int ph)))
                               else (Item (weights_value ws), ph', List.length (ph_ext ph) + List.length (ph_int ph))
            | None, None => (Item PNone, ph', 0)
            end)
  | _ => None
  end.

(** The leaks an iterator goes over: those shown before, else the photon's. *)
Definition seen (k : kind) (w : view) : list (leak_data T) := match shown k w with [] => leaks_of k (w_ph w) | l => l end.

Definition next_reply (g : nat) (w : view) : answer T * view :=
  match nth_error (w_its w) g with
  | None | Some (_, None) => (Stop, w)
  | Some (k, Some i) =>
      let w := match i with O => show k (seen k w) w | S _ => w end in
      let put i := mkView (w_ph w) (w_ext w) (w_int w) (set_nth (w_its w) g (k, i)) in
      match shown k w, nth_error (shown k w) i with
      | [], _ => (Raise ValueError, put None)
      | _, Some d => (Item (leak_value d), put (Some (S i)))
      | _, None => (Stop, put None)
      end
  end.

(** The answers to everything the user does, and the number of blocks lost. *)
Fixpoint replies (ops : list pop) (w : view) : option (list (answer T) * nat) :=
  match ops with
  | [] => Some ([], 0)
  | Launch en lc :: ops =>
      match launch_reply (w_ph w) en lc with
      | None => None
      | Some (a, ph', n) =>
          match replies ops (mkView ph' (w_ext w) (w_int w) (w_its w)) with Some (l, m) => Some (a :: l, n + m) | None => None end
      end
  | Get f :: ops => match replies ops w with Some (l, m) => Some (Item (field_value f (w_ph w)) :: l, m) | None => None end
  | Leaks k :: ops => match replies ops (mkView (w_ph w) (w_ext w) (w_int w) (w_its w ++ [(k, Some 0)])) with Some (l, m) => Some (Iterator :: l, m) | None => None end
  | NextLeak g :: ops => let (a, w) := next_reply g w in match replies ops w with Some (l, m) => Some (a :: l, m) | None => None end
  end.

(** A photon from its making on: refused, or as above. *)
Definition life_replies (start dir ev : vec3 T) (ops : list pop) : option ((list (answer T) + pyclass) * nat) :=
  match photon_fresh start dir ev with
  | None => Some (inr ValueError, 0)
  | Some ph => match replies ops (mkView ph [] [] []) with Some (l, m) => Some (inl l, m) | None => None end
  end.

(** What a user expects of a photon that is not launched again: fields and leaks are those of the
    photon, an iterator hands out the leaks in order, and there is an exception if there are none. *)
Definition only_reads (ops : list pop) : Prop := Forall (fun op => match op with Launch _ _ => False | _ => True end) ops.
Fixpoint reads (ph : photon T) (ops : list pop) (its : list (kind * option nat)) : list (answer T) :=
  match ops with
  | [] => []
  | Launch _ _ :: _ => []
  | Get f :: ops => Item (field_value f ph) :: reads ph ops its
  | Leaks k :: ops => Iterator :: reads ph ops (its ++ [(k, Some 0)])
  | NextLeak g :: ops =>
      match nth_error its g with
      | None | Some (_, None) => Stop :: reads ph ops its
      | Some (k, Some i) =>
          match leaks_of k ph, nth_error (leaks_of k ph) i with
          | [], _ => Raise ValueError :: reads ph ops (set_nth its g (k, None))
          | _, Some d => Item (leak_value d) :: reads ph ops (set_nth its g (k, Some (S i)))
          | _, None => Stop :: reads ph ops (set_nth its g (k, None))
          end
      end
  end.

End Spec.
Arguments pop T : clear implicits.
Arguments view T : clear implicits.
