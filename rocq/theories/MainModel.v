(** * Model of the command line program (src/main.c)

    How the simulation ends depends on the schedule of its threads ([sim_call], SimModel.v), so
    the program is a relation between a start and the ways it can end.  [args] are the arguments
    after the name of the program; [open_file] gives the tokens of a file, [atoi] the number an
    argument stands for; [progs lc] are the programs of the threads with the leak calculation on
    or off.  Output on the terminal other than an error message is not modelled. *)
From Coq Require Import ZArith List Bool String.
From Verif Require Import Num Mem SpecHeap ErrorModel ProfileModel ConsModel FromFile ResultModel CapilModel RunModel SimModel H5Lib H5Model FileSrc.
Import ListNotations.
Local Notation ret := Mem.ret.
Local Notation bind := Mem.bind.

Section Main.
Context {T : Type} {N : Num T}.
Variable fit : list (T * T) -> T * T * T.
Variable names_at : list (token T) -> list Z * list Z * list Z * list (token T).
Variable disk : list Z -> option (list (token T)).
Variable open_file : string -> option (list (token T)).
Variable atoi : string -> Z.
Variable v : h5version.
Variable tabs : ptr.

(** src/main.c:44-48: where the result goes *)
Definition out_name (args : list string) : string := nth 1 args "polycap_out.h5"%string.
(** src/main.c:31, 49-54: the number of threads; [omp_max] is omp_get_max_threads() *)
Definition threads_of (args : list string) (omp_max : Z) : Z :=
  match nth_error args 2 with
  | None => (-1)%Z
  | Some a => if (Z.ltb (atoi a) 1 || Z.ltb omp_max (atoi a))%bool then omp_max else atoi a
  end.
(** src/main.c:34, 55-58 *)
Definition leaks_of (args : list string) : bool :=
  match nth_error args 3 with None => false | Some a => Z.eqb (atoi a) 1 end.
(** src/main.c:32 *)
Definition n_photons : Z := 30000.

(** src/main.c:35, 44-48, 61: the error variable, the copy of the file name, the source.
    [e] is the variable [error]. *)
Definition begin_run (e : loc) (args : list string) (input : string) : M T (ptr * ptr) :=
  bind (store (Some e) 0 (Vptr NULL)) (fun _ =>
  bind (alloc [Vstr (out_name args)]) (fun fn =>
  bind (source_new_from_file fit names_at disk (Some (open_file input)) (Some e)) (fun r => ret (fst r, fn)))).

(** fprintf(stderr, "%s\n", error->message); return 1: src/main.c:62-65, 70-73, 76-79 *)
Definition fail_run (e : loc) : W T (Z * option string) :=
  lift (bind (load_ptr (Some e) 0) (fun err => bind (load_ptr err 1) (fun m => bind (load_str m 0) (fun t => ret (1%Z, Some t))))).

(** the file name as a string; NULL when it could not be copied *)
Definition name_at (fn : ptr) : M T (option string) :=
  match fn with None => ret None | Some _ => bind (load_str fn 0) (fun t => ret (Some t)) end.

(** src/main.c:76-86 *)
Definition end_run (e : loc) (fn src eff : ptr) : W T (Z * option string) :=
  bindW (lift (name_at fn)) (fun f =>
  bindW (write_hdf5 v tabs eff f (Some e)) (fun ok =>
  if ok then lift (bind (free fn) (fun _ => bind (efficiencies_free eff) (fun _ => bind (source_free src) (fun _ => ret (0%Z, None)))))
  else fail_run e)).

(** What a run ends with: exit status, what was printed on stderr, the state of the HDF5 library
    and of memory; [None] is undefined behaviour. *)
Definition ends (m : W T (Z * option string)) (w : hw T) (s : st T) : option (Z * option string * hw T * st T) :=
  match m w s with Ok ((x, w'), s') => Some (x, w', s') | UB => None end.

(** src/main.c:27-87: main *)
Inductive program (e : loc) (args : list string) (omp_max : Z) (progs : bool -> list (list (instr T))) (w : hw T) (s : st T) :
    option (Z * option string * hw T * st T) -> Prop :=
| program_usage : args = [] -> program e args omp_max progs w s (Some (0%Z, None, w, s))
| program_begin_ub input rest : args = input :: rest ->
    begin_run e args input s = UB -> program e args omp_max progs w s None
| program_no_source input rest fn s1 : args = input :: rest ->
    begin_run e args input s = Ok ((NULL, fn), s1) -> program e args omp_max progs w s (ends (fail_run e) w s1)
| program_sim_ub input rest src fn s1 : args = input :: rest ->
    begin_run e args input s = Ok ((Some src, fn), s1) ->
    sim_call (Some src) NULL (threads_of args omp_max) n_photons omp_max (Some e) (progs (leaks_of args)) s1 None ->
    program e args omp_max progs w s None
| program_no_result input rest src fn s1 s2 : args = input :: rest ->
    begin_run e args input s = Ok ((Some src, fn), s1) ->
    sim_call (Some src) NULL (threads_of args omp_max) n_photons omp_max (Some e) (progs (leaks_of args)) s1 (Some (NULL, s2)) ->
    program e args omp_max progs w s (ends (fail_run e) w s2)
| program_result input rest src fn s1 eff s2 : args = input :: rest ->
    begin_run e args input s = Ok ((Some src, fn), s1) ->
    sim_call (Some src) NULL (threads_of args omp_max) n_photons omp_max (Some e) (progs (leaks_of args)) s1 (Some (Some eff, s2)) ->
    program e args omp_max progs w s (ends (end_run e fn (Some src) (Some eff)) w s2).
End Main.
