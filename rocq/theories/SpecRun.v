(** * Vocabulary: what the result of a simulation says about the launched photons *)
From Coq Require Import ZArith List Bool Permutation.
From Verif Require Import Num Geometry SpecPhoton CapilModel RunModel.
Import ListNotations.
Local Open Scope num_scope.

Section Spec.
Context {T : Type} {N : Num T}.

(** All photons launched for the n requested ones, with their final outcome. *)
Definition launched (jobs : nat -> list (attempt T * Z)) (n : nat) : list (attempt T * Z) := flat_map jobs (seq 0 n).
(** How many of them polycap_photon_launch classified as [code]. *)
Definition with_code (code : Z) (l : list (attempt T * Z)) : nat := length (filter (fun x => Z.eqb (at_code (fst x)) code) l).

(** The record of photon [a] in slot [j]. *)
Definition recorded (img : field -> nat -> option (entry T)) (n_energies : nat) (zmax : T) (j : nat) (a : attempt T) : Prop :=
  let p := at_ph a in
  let c := ph_exit p in
  let d := ph_edir p in
  let k := fun f => img f j in
  let ex := vx c + vx d * (zmax - vz c) / vz d in
  let ey := vy c + vy d * (zmax - vz c) / vz d in
  k FSrcX = Some (ED (vx (at_src a))) /\ k FSrcY = Some (ED (vy (at_src a))) /\
  k FStartX = Some (ED (vx (ph_start p))) /\ k FStartY = Some (ED (vy (ph_start p))) /\
  k FSdirX = Some (ED (vx (ph_sdir p))) /\ k FSdirY = Some (ED (vy (ph_sdir p))) /\
  k FExitX = Some (ED ex) /\ k FExitY = Some (ED ey) /\
  k FExitZ = Some (ED (vz c + vz d * (zmax - vz c) / vz d)) /\
  k FEdirX = Some (ED (vx d)) /\ k FEdirY = Some (ED (vy d)) /\
  k FNrefl = Some (EI (ph_irefl p)) /\
  k FDtravel = Some (ED (ph_dtravel p +
     nsqrt ((ex - vx c) * (ex - vx c) + (ey - vy c) * (ey - vy c) + (zmax - vz c) * (zmax - vz c)))) /\
  (exists e, k FSelecX = Some (ED (nround (vx e))) /\ k FSelecY = Some (ED (nround (vy e)))) /\
  (exists e, k FEelecX = Some (ED (nround (vx e))) /\ k FEelecY = Some (ED (nround (vy e)))) /\
  (forall i, (i < n_energies)%nat -> exists v, nth_error (at_w a) i = Some (Some v) /\ k (FWeight i) = Some (ED v)).

(** Two results are the same up to the order of the leak records. *)
Definition same_result (r r' : result T) : Prop :=
  re_start r = re_start r' /\ re_exit r = re_exit r' /\ re_irefl r = re_irefl r' /\
  re_energies r = re_energies r' /\ re_eff r = re_eff r' /\ re_open r = re_open r' /\
  (forall f j, re_img r f j = re_img r' f j) /\
  re_iext r = re_iext r' /\ Permutation (re_ext r) (re_ext r') /\
  re_iint r = re_iint r' /\ Permutation (re_int r) (re_int r').

End Spec.
