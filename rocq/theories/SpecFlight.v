(** * Vocabulary: a photon and an optic in memory around polycap_photon_launch (only about heaps) *)
From Coq Require Import ZArith List Bool Lia String.
From Verif Require Import Num Mem SpecHeap Geometry SpecPhoton CapilModel.
Import ListNotations.

Section Spec.
Context {T : Type}.

(** Where the leaks of a photon live: the two arrays (NULL when there are none) and, for each
    leak, its block and the block of its weights. *)
Record leak_places := mkPlaces { lx : ptr; lxs : list (loc * loc); li : ptr; lis : list (loc * loc) }.
Definition places_blocks (L : leak_places) : list loc := plocs (lx L) ++ leak_blocks (lxs L) ++ plocs (li L) ++ leak_blocks (lis L).
(** The blocks of the leak objects alone. *)
Definition leak_objects (L : leak_places) : list loc := List.map fst (lxs L) ++ List.map fst (lis L).

(** [p] is a photon object with the fields and leaks of [ph]: it refers to the description at
    [d], its source starting point is [src], its number of energies [n], and it has no arrays
    of energies, weights and cross sections. *)
Definition photon_at (s : st T) (p d : loc) (src : vec3 T) (n : Z) (L : leak_places) (ph : photon T) : Prop :=
  mem s p = Some (photon_block (Some d) (lx L) (li L) (Z.of_nat (List.length (ph_ext ph))) (Z.of_nat (List.length (ph_int ph)))
                    (ph_start ph) (ph_sdir ph) (ph_selec ph) (ph_exit ph) (ph_edir ph) (ph_eelec ph) src
                    n NULL NULL NULL NULL (ph_irefl ph) (ph_dtravel ph)) /\
  opt_leaks s (lx L) (Z.of_nat (List.length (ph_ext ph))) (lxs L) (ph_ext ph) /\
  opt_leaks s (li L) (Z.of_nat (List.length (ph_int ph))) (lis L) (ph_int ph) /\
  (lx L = NULL <-> ph_ext ph = []) /\ (li L = NULL <-> ph_int ph = []) /\
  NoDup (p :: places_blocks L) /\
  ph_en ph = [] /\ ph_w ph = [] /\ ph_amu ph = None /\ ph_scatf ph = None.

(** [d] is a description object of the optic [o], in the seven blocks [D]. *)
Definition optic_at (s : st T) (d : loc) (D : list loc) (o : optic T) : Prop :=
  exists liz lwi lp lz lc le open,
    D = [d; liz; lwi; lp; lz; lc; le] /\
    description_object s d liz lwi lp lz lc le (o_rough o) (o_ncap o) open (o_iz o) (o_wi o) (o_dens o)
      (Z.of_nat (p_nmax (o_prof o))) (p_z (o_prof o)) (p_cap (o_prof o)) (p_ext (o_prof o)) /\
    List.length (o_wi o) = List.length (o_iz o) /\ List.length (p_z (o_prof o)) = S (p_nmax (o_prof o)) /\
    List.length (p_cap (o_prof o)) = S (p_nmax (o_prof o)) /\ List.length (p_ext (o_prof o)) = S (p_nmax (o_prof o)).

(** [w] is an array of weights; [None]: a cell that was never written. *)
Definition weights_at (s : st T) (w : loc) (ws : list (option T)) : Prop :=
  mem s w = Some (List.map (fun o => match o with Some x => Vdbl x | None => Vundef end) ws).

(** The caller's error variable (if there is one) says [e]: nothing, or an error with that code;
    [E] are the blocks of the variable and the error. *)
Definition error_at (s : st T) (err : ptr) (e : option Z) (E : list loc) : Prop :=
  match err with
  | None => E = []
  | Some l => match e with
              | None => E = [l] /\ slot_holds s l NULL
              | Some c => exists x t m, E = [l; x; t] /\ slot_holds s l (Some x) /\ error_object s x t c m
              end
  end.

End Spec.
