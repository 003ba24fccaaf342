(** * Vocabulary: what an input file of polycap_source_new_from_file says

    Independent of the model's reader.  A file is a list of tokens; a token says what it
    is as a floating point number and what it is as a whole number. *)
From Coq Require Import ZArith List Bool.
From Verif Require Import FromFile.
Import ListNotations.

Section SpecInput.
Context {T : Type}.
Local Notation token := (token T).

(** The values of an input file. *)
Record input := mkInput {
  i_sig : T;                                        (* roughness *)
  i_d : T; i_x : T; i_y : T; i_sx : T; i_sy : T; i_hx : T; i_hy : T; i_pol : T;   (* source *)
  i_elems : list (Z * T);                           (* atomic numbers and percentages *)
  i_dens : T; i_first : T; i_last : T; i_step : T;  (* density; energies *)
  i_unused : Z; i_type : Z;                         (* number of photons (not used); kind of profile *)
  i_ncap : Z }.
(** length, outer radii, capillary radii, focal distances (upstream and downstream each) *)
Record shape := mkShape { h_len : T; h_rext_up : T; h_rext_down : T; h_rint_up : T; h_rint_down : T; h_foc_up : T; h_foc_down : T }.

Inductive item := Number (v : T) | Whole (z : Z).
Definition says (i : item) (t : token) : Prop := match i with Number v => as_dbl t = Some v | Whole z => as_int t = Some z end.

(** The file up to the kind of profile, ... *)
Definition first_part (c : input) : list item :=
  [Number (i_sig c); Number (i_d c); Number (i_x c); Number (i_y c); Number (i_sx c); Number (i_sy c); Number (i_hx c); Number (i_hy c); Number (i_pol c);
   Whole (Z.of_nat (List.length (i_elems c)))] ++
  flat_map (fun e => [Whole (fst e); Number (snd e)]) (i_elems c) ++
  [Number (i_dens c); Number (i_first c); Number (i_last c); Number (i_step c); Whole (i_unused c); Whole (i_type c)].
(** ... the profile ... *)
Definition shape_part (h : shape) : list item :=
  [Number (h_len h); Number (h_rext_up h); Number (h_rext_down h); Number (h_rint_up h); Number (h_rint_down h); Number (h_foc_up h); Number (h_foc_down h)].

(** The file lists these items first, then goes on with [rest]. *)
Definition lists (is : list item) (ts rest : list token) : Prop := exists toks, ts = toks ++ rest /\ Forall2 says is toks.

(** A complete file with a profile given by its shape. *)
Definition complete_file (c : input) (h : shape) (ts : list token) : Prop :=
  exists rest, lists (first_part c ++ shape_part h ++ [Whole (i_ncap c)]) ts rest.
End SpecInput.
Arguments input : clear implicits. Arguments shape : clear implicits.
