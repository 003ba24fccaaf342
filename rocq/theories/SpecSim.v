(** * Vocabulary: a result object and the simulation it came from

    A result object in memory (SpecResult.v) against what the threads of the simulation
    recorded (RunModel.result). *)
From Coq Require Import ZArith List Bool.
From Verif Require Import Num Mem SpecHeap Geometry SpecPhoton SpecResult CapilModel RunModel.
Import ListNotations.

Section Spec.
Context {T : Type} {N : Num T}.

(** Row [r] of the object is what was recorded in slot [j] for [ne] energies. *)
Definition row_records (img : field -> nat -> option (entry T)) (ne j : nat) (r : exit_row T) : Prop :=
  img FSrcX j = Some (ED (fst (r_src r))) /\ img FSrcY j = Some (ED (snd (r_src r))) /\
  img FStartX j = Some (ED (fst (r_start r))) /\ img FStartY j = Some (ED (snd (r_start r))) /\
  img FSdirX j = Some (ED (fst (r_start_dir r))) /\ img FSdirY j = Some (ED (snd (r_start_dir r))) /\
  img FSelecX j = Some (ED (fst (r_start_elecv r))) /\ img FSelecY j = Some (ED (snd (r_start_elecv r))) /\
  img FExitX j = Some (ED (vx (r_exit r))) /\ img FExitY j = Some (ED (vy (r_exit r))) /\ img FExitZ j = Some (ED (vz (r_exit r))) /\
  img FEdirX j = Some (ED (fst (r_exit_dir r))) /\ img FEdirY j = Some (ED (snd (r_exit_dir r))) /\
  img FEelecX j = Some (ED (fst (r_exit_elecv r))) /\ img FEelecY j = Some (ED (snd (r_exit_elecv r))) /\
  img FNrefl j = Some (EI (r_nrefl r)) /\ img FDtravel j = Some (ED (r_travel r)) /\
  List.length (r_weights r) = ne /\
  (forall k w, nth_error (r_weights r) k = Some w -> img (FWeight k) j = Some (ED w)).

(** Leak row [k] of the object is the leak [d]; the object has no electric vectors of
    external leaks. *)
Definition ext_records (o : option (leak_data T)) (k : leak_row T) : Prop :=
  exists d, o = Some d /\ k_coords k = lk_coords d /\ k_dir k = (vx (lk_dir d), vy (lk_dir d)) /\
    k_nrefl k = lk_nrefl d /\ k_weights k = lk_weights d.
Definition int_records (o : option (leak_data T)) (k : leak_row T) : Prop :=
  ext_records o k /\ exists d, o = Some d /\ k_elecv k = (vx (lk_elecv d), vy (lk_elecv d)).

(** The object's data [q] is the simulation's result [r]. *)
Definition holds (q : SpecResult.result T) (r : RunModel.result T) : Prop :=
  q_started q = re_start r /\ q_energies q = re_energies r /\ q_effs q = re_eff r /\
  Z.of_nat (List.length (q_rows q)) = re_exit r /\
  (forall j row, nth_error (q_rows q) j = Some row -> row_records (re_img r) (List.length (re_energies r)) j row) /\
  Forall2 ext_records (re_ext r) (q_ext q) /\ Z.of_nat (List.length (q_ext q)) = re_iext r /\
  Forall2 int_records (re_int r) (q_int q) /\ Z.of_nat (List.length (q_int q)) = re_iint r.

(** ** The arguments of polycap_source_get_transmission_efficiencies *)
(** What the function looks at of the source at [src]: its description, its number of
    energies and its energies ([en], if there are any). *)
Definition source_cells (s : st T) (src : loc) (desc : ptr) (ne : Z) (ep : ptr) (en : list T) : Prop :=
  exists sb, mem s src = Some sb /\ nth_error sb 0 = Some (Vptr desc) /\ nth_error sb 10 = Some (Vint ne) /\
    nth_error sb 11 = Some (Vptr ep) /\ (forall l, ep = Some l -> dbl_array s l en) /\ (Z.to_nat ne <= List.length en)%nat.

(** A request the documentation rules out: no source, a progress monitor, a source without
    description or energies, an energy below 1 or above 100, no photons. *)
Definition bad_request (s : st T) (source monitor : ptr) (n_photons : Z) : Prop :=
  source = NULL \/
  exists src desc ne ep en, source = Some src /\ source_cells s src desc ne ep en /\
    (monitor <> NULL \/ desc = NULL \/ (ne < 1)%Z \/ ep = NULL \/
     List.Exists (fun e => nltb e (nofZ 1) = true \/ nltb (nofZ 100) e = true) (firstn (Z.to_nat ne) en) \/ (n_photons < 1)%Z).
(** ... and one that is in order. *)
Definition good_request (s : st T) (source monitor : ptr) (n_photons : Z) : Prop :=
  exists src d ne le en, source = Some src /\ source_cells s src (Some d) ne (Some le) en /\
    monitor = NULL /\ (1 <= ne)%Z /\
    List.Forall (fun e => nltb e (nofZ 1) = false /\ nltb (nofZ 100) e = false) (firstn (Z.to_nat ne) en) /\ (1 <= n_photons)%Z.

(** Blocks that are in use in [s'] but were not in [s] are among [lost], or make up the error
    reported through [err]. *)
Definition left_behind (err : ptr) (lost : list loc) (s s' : st T) : Prop :=
  forall l, mem s l = None -> mem s' l <> None ->
    In l lost \/ exists slot e t c m, err = Some slot /\ slot_holds s' slot (Some e) /\ error_object s' e t c m /\ (l = e \/ l = t).

(** Block [l] was obtained between [s] and [s'] and is still in use, but is not part of the
    error reported through [err]. *)
Definition abandoned (err : ptr) (l : loc) (s s' : st T) : Prop :=
  mem s l = None /\ mem s' l <> None /\
  (forall slot e t c m, err = Some slot -> slot_holds s slot NULL -> slot_holds s' slot (Some e) -> error_object s' e t c m -> l <> e /\ l <> t).

End Spec.
