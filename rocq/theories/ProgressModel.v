(** * Model of the progress output of polycap_source_get_transmission_efficiencies
      (src/polycap-source.c:741, 886-891) *)
From Coq Require Import ZArith List Bool.
From Verif Require Import Num RM.
Import ListNotations.
Local Open Scope num_scope.
Local Open Scope rm_scope.

Section Progress.
Context {T : Type} {N : Num T}.

(** int arithmetic: j*100 and the division, line 889.  Signed overflow and division by 0
    are undefined. *)
Definition int_max : Z := 2147483647.
Definition percent (j n_photons max_threads : Z) : RM Z :=
  let share := Z.quot n_photons max_threads in
  if (Z.ltb int_max (j * 100) || Z.eqb share 0)%bool then ub else ret (Z.quot (j * 100) share).

(** Lines 886-891 for the iterations [js] of thread 0: the percentages printed.
    [i]: the counter of line 738. *)
Fixpoint progress_run (n_photons max_threads i : Z) (js : list Z) : RM (list Z) :=
  match js with
  | [] => ret []
  | j :: js =>
      if nofZ i / (nofZ n_photons / nofZ max_threads / #10) >=? #1 then
        p <- percent j n_photons max_threads ;;
        ps <- progress_run n_photons max_threads 1 js ;;
        ret (p :: ps)
      else progress_run n_photons max_threads (i + 1) js
  end.
End Progress.
