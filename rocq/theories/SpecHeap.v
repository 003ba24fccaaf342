(** * Vocabulary for statements about memory and error reports.
    Independent of the model's functions: only about heaps. *)
From Coq Require Import ZArith List Bool Lia String.
From Verif Require Import Mem.
Import ListNotations.

Section Spec.
Context {T : Type}.

(** Memory never runs out. *)
Definition memory_available (s : st T) : Prop := forall n, orc s n = true.

(** Same memory, cell by cell and block by block: in particular nothing allocated
    has survived and nothing older has been released. *)
Definition same_memory (s s' : st T) : Prop := forall l, mem s' l = mem s l.

(** The memory of [s'] differs from that of [s] at most in the blocks [L]. *)
Definition same_memory_except (L : list loc) (s s' : st T) : Prop :=
  forall l, ~ In l L -> mem s' l = mem s l.

(** [err] is a [polycap_error *] variable holding [p]. *)
Definition slot_holds (s : st T) (err : loc) (p : ptr) : Prop :=
  mem s err = Some [Vptr p].

(** At address [e] there is an error object with code [c] and message [m],
    whose text lives in block [t]. *)
Definition error_object (s : st T) (e t : loc) (c : Z) (m : string) : Prop :=
  mem s e = Some [Vint c; Vptr (Some t)] /\ mem s t = Some [Vstr m] /\ e <> t.

End Spec.

Section Spec2.
Context {T : Type}.

(** [err] is a legal error argument: NULL or the address of an error variable. *)
Definition legal_err (s : st T) (err : ptr) : Prop :=
  match err with None => True | Some l => exists p, slot_holds s l p end.

(** Between [s] and [s'] exactly one error (code [c], text [m]) was reported
    through [err]: no slot: nothing changed; empty slot: it now holds a new error
    object with that code and text; occupied slot: nothing changed.  Nothing else
    in memory is different. *)
Definition error_reported (err : ptr) (c : Z) (m : string) (s s' : st T) : Prop :=
  match err with
  | None => same_memory s s'
  | Some l =>
      (slot_holds s l NULL ->
         exists e t, slot_holds s' l (Some e) /\ error_object s' e t c m /\
                     mem s e = None /\ mem s t = None /\
                     same_memory_except [l; e; t] s s') /\
      (forall e, slot_holds s l (Some e) -> same_memory s s')
  end.

(** [l] is an array holding exactly the doubles [xs]. *)
Definition dbl_array (s : st T) (l : loc) (xs : list T) : Prop :=
  mem s l = Some (List.map Vdbl xs).
Definition int_array (s : st T) (l : loc) (xs : list Z) : Prop :=
  mem s l = Some (List.map Vint xs).

(** [p] is a profile object with field nmax = [n] and the three given arrays,
    living in the blocks [lz], [lc], [le]; all four blocks are distinct. *)
Definition profile_object (s : st T) (p lz lc le : loc) (n : Z) (zs caps exts : list T) : Prop :=
  mem s p = Some [Vint n; Vptr (Some lz); Vptr (Some lc); Vptr (Some le)] /\
  dbl_array s lz zs /\ dbl_array s lc caps /\ dbl_array s le exts /\
  NoDup [p; lz; lc; le].

(** [d] is a description object with the given contents, spread over seven distinct
    blocks (the last four form its own profile object). *)
Definition description_object (s : st T) (d liz lwi lp lz lc le : loc)
    (sig : T) (n_cap : Z) (open : T) (izs : list Z) (wis : list T) (dens : T)
    (n : Z) (zs caps exts : list T) : Prop :=
  mem s d = Some [Vdbl sig; Vint n_cap; Vdbl open; Vint (Z.of_nat (List.length izs));
                  Vptr (Some liz); Vptr (Some lwi); Vdbl dens; Vptr (Some lp)] /\
  int_array s liz izs /\ dbl_array s lwi wis /\
  mem s lp = Some [Vint n; Vptr (Some lz); Vptr (Some lc); Vptr (Some le)] /\
  dbl_array s lz zs /\ dbl_array s lc caps /\ dbl_array s le exts /\
  NoDup [d; liz; lwi; lp; lz; lc; le].

(** [p] is a source object holding the eight numbers [nums] (distance, sizes, divergences,
    shifts, polarisation; in the order of the arguments of polycap_source_new) and
    the energies [ens]; it refers to the description at [d], its energies are at [len],
    its random generator at [lr]/[lg]. *)
Definition source_object (s : st T) (p len lr lg d : loc) (nums ens : list T) : Prop :=
  mem s p = Some (Vptr (Some d) :: Vptr (Some lr) :: List.map Vdbl nums ++
                  [Vint (Z.of_nat (List.length ens)); Vptr (Some len)]) /\
  dbl_array s len ens /\ mem s lr = Some [Vptr (Some lg)] /\ (exists b, mem s lg = Some b).

(** [L] was not in use in [s]. *)
Definition all_free (s : st T) (L : list loc) : Prop := forall l, In l L -> mem s l = None.

End Spec2.
