(** * Python: Source.get_transmission_efficiencies

    The call, the simulation it starts, the result object it hands out and what the user does with that
    until it is deleted.  The simulation is [sim_call] (SimModel.v): how it ends depends on the schedule
    of the threads, so the method is a relation too. *)
From Coq Require Import ZArith List Bool String.
From Verif Require Import Num Mem SpecHeap ErrorModel Geometry RM CapilModel RunModel SimModel PyModel SpecPy PyResult.
Import ListNotations.
Local Notation ret := Mem.ret.
Local Notation bind := Mem.bind.

Section Sim.
Context {T : Type} {N : Num T}.

(** [simulates ... s r]: called in state [s] with threads that execute the programs [progs], the method
    and the life of the object it returns can end as [r] ([None]: undefined behaviour).  [e] is the
    method's variable [error], [u] the variables of the object; [p] the C object of the Source.
    python/polycap.pyx, lines 1144-1155: no progress monitor; polycap_set_exception before create. *)
Definition raise_or_use (e : loc) (u : te) (eff : ptr) (ops : list op) : M T (pyres (list T * list T * list (answer T))) :=
  bind (load_ptr (Some e) 0) (fun err => set_exception err (te_session u eff ops)).
Inductive simulates (e : loc) (u : te) (p : ptr) (max_threads n_photons omp_max : Z) (progs : list (list (instr T))) (ops : list op) (s : st T) :
    option (pyres (list T * list T * list (answer T)) * st T) -> Prop :=
| simulates_no_variable : store (Some e) 0 (Vptr NULL) s = UB -> simulates e u p max_threads n_photons omp_max progs ops s None
| simulates_ub s1 :
    store (Some e) 0 (Vptr NULL) s = Ok (tt, s1) ->
    sim_call p NULL max_threads n_photons omp_max (Some e) progs s1 None ->
    simulates e u p max_threads n_photons omp_max progs ops s None
| simulates_returns s1 eff s2 :
    store (Some e) 0 (Vptr NULL) s = Ok (tt, s1) ->
    sim_call p NULL max_threads n_photons omp_max (Some e) progs s1 (Some (eff, s2)) ->
    simulates e u p max_threads n_photons omp_max progs ops s (match raise_or_use e u eff ops s2 with Ok r => Some r | UB => None end).

End Sim.
