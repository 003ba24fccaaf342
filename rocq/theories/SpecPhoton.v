(** * Vocabulary: photon and leak objects in memory (only about heaps) *)
From Coq Require Import ZArith List Bool Lia.
From Verif Require Import Num Mem SpecHeap Geometry.
Import ListNotations.

Section Spec.
Context {T : Type}.

Definition vcells (v : vec3 T) : list (val T) := [Vdbl (vx v); Vdbl (vy v); Vdbl (vz v)].

(** What a leak object says. *)
Record leak_data := mkLeak {
  lk_coords : vec3 T; lk_dir : vec3 T; lk_elecv : vec3 T; lk_nrefl : Z; lk_weights : list T }.

(** [l] is a leak object with content [d], its weights in block [w]. *)
Definition leak_object (s : st T) (l w : loc) (d : leak_data) : Prop :=
  mem s l = Some (vcells (lk_coords d) ++ vcells (lk_dir d) ++ vcells (lk_elecv d) ++
                  [Vint (Z.of_nat (List.length (lk_weights d))); Vptr (Some w); Vint (lk_nrefl d)]) /\
  dbl_array s w (lk_weights d).

(** [arr] is an array of pointers to leak objects with contents [ds]; [ls] lists, for
    each, its block and the block of its weights. *)
Definition leak_array (s : st T) (arr : loc) (ls : list (loc * loc)) (ds : list leak_data) : Prop :=
  mem s arr = Some (List.map (fun lw => Vptr (Some (fst lw))) ls) /\
  Forall2 (fun lw d => leak_object s (fst lw) (snd lw) d) ls ds.

(** All blocks of a leak array. *)
Definition leak_blocks (ls : list (loc * loc)) : list loc := List.concat (List.map (fun lw => [fst lw; snd lw]) ls).

(** The block of a photon object (src/polycap-private.h:124-145). *)
Definition photon_block (desc ext int : ptr) (next nint : Z)
    (start sdir selec exit edir eelec src : vec3 T) (nen : Z) (en weight amu scatf : ptr)
    (irefl : Z) (dtravel : T) : block :=
  [Vptr desc; Vptr ext; Vptr int; Vint next; Vint nint]
  ++ vcells start ++ vcells sdir ++ vcells selec ++ vcells exit ++ vcells edir ++ vcells eelec ++ vcells src
  ++ [Vint nen; Vptr en; Vptr weight; Vptr amu; Vptr scatf; Vint irefl; Vdbl dtravel].

(** A possibly absent array of leaks: NULL with count 0, or a leak array. *)
Definition opt_leaks (s : st T) (p : ptr) (n : Z) (ls : list (loc * loc)) (ds : list leak_data) : Prop :=
  n = Z.of_nat (List.length ls) /\
  match p with None => ls = [] /\ ds = [] | Some a => leak_array s a ls ds end.
(** A possibly absent plain array. *)
Definition opt_block (s : st T) (p : ptr) : Prop :=
  match p with None => True | Some l => mem s l <> None end.
Definition plocs (p : ptr) : list loc := match p with None => [] | Some l => [l] end.

End Spec.
Arguments leak_data T : clear implicits.
