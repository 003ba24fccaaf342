(** * Vocabulary: what the HDF5 file must contain and which error code a library failure becomes
    (independent of the code of the writer; uses the library state of H5Lib). *)
From Coq Require Import ZArith List Bool Lia String.
From Verif Require Import Num Mem SpecHeap Geometry SpecPhoton SpecResult ErrorModel H5Lib.
Import ListNotations.

Section Spec.
Context {T : Type} {N : Num T}.

(** ** The file *)

(** What the source holds that goes into the file: the profile (arrays z, cap, ext and the field
    nmax), the glass (roughness, number of capillaries, open area, elements, density) and the
    distance between source and optic. *)
Record input := mkInput {
  in_nmax : nat; in_z : list T; in_cap : list T; in_ext : list T;
  in_sig : T; in_ncap : Z; in_open : T; in_iz : list Z; in_wi : list T; in_dens : T; in_dist : T }.

(** A table of [List.length fs] rows: first all values of the first component, then all of the
    second, ... (C order of an array of that many rows). *)
Definition by_component {A} (fs : list (A -> T)) (l : list A) : list T := List.concat (List.map (fun f => List.map f l) fs).

Definition ds (p : path) (dims : list nat) (data : list T) (unit : string) : dataset T := mkDS p dims (Some data) (Some unit).

(** Average weight per started photon at each energy. *)
Definition weight_total (ks : list (leak_row T)) (ne : nat) (started : Z) : list T :=
  List.map (fun j => (List.fold_left nadd (List.map (fun k => List.nth j (k_weights k) (#0)%num) ks) (#0)%num / nofZ started)%num) (seq 0 ne).

Local Open Scope string_scope.
Definition leak_sets (group : string) (elecv : bool) (ks : list (leak_row T)) (ne : nat) (started : Z) : list (dataset T) :=
  let n := List.length ks in
  [ds [group; "Coordinates"] [3; n] (by_component [fun k => vx (k_coords k); fun k => vy (k_coords k); fun k => vz (k_coords k)] ks) "[cm,cm,cm]";
   ds [group; "Direction"] [2; n] (by_component [fun k => fst (k_dir k); fun k => snd (k_dir k)] ks) "[cm,cm]"] ++
  (if elecv then [ds [group; "Electric_Vector"] [2; n] (by_component [fun k => fst (k_elecv k); fun k => snd (k_elecv k)] ks) "[cm,cm]"] else []) ++
  [ds [group; "Weights"] [n; ne] (List.concat (List.map k_weights ks)) "[keV,a.u.]";
   ds [group; "Weight_Total"] [ne] (weight_total ks ne started) "a.u.";
   ds [group; "N_Reflections"] [n] (List.map (fun k => nofZ (k_nrefl k)) ks) "a.u."].

Definition exit_sets (r : result T) : list (dataset T) :=
  let l := q_rows r in let n := List.length l in let ne := List.length (q_energies r) in
  [ds ["Energies"] [ne] (q_energies r) "keV";
   ds ["Transmission_Efficiencies"] [ne] (q_effs r) "a.u.";
   ds ["PC_Start"; "Coordinates"] [2; n] (by_component [fun x => fst (r_start x); fun x => snd (r_start x)] l) "[cm,cm]";
   ds ["PC_Start"; "Direction"] [2; n] (by_component [fun x => fst (r_start_dir x); fun x => snd (r_start_dir x)] l) "[cm,cm]";
   ds ["PC_Start"; "Electric_Vector"] [2; n] (by_component [fun x => fst (r_start_elecv x); fun x => snd (r_start_elecv x)] l) "[cm,cm]";
   ds ["PC_Exit"; "Coordinates"] [3; n] (by_component [fun x => vx (r_exit x); fun x => vy (r_exit x); fun x => vz (r_exit x)] l) "[cm,cm,cm]";
   ds ["PC_Exit"; "N_Reflections"] [n] (List.map (fun x => nofZ (r_nrefl x)) l) "a.u.";
   ds ["PC_Exit"; "Direction"] [2; n] (by_component [fun x => fst (r_exit_dir x); fun x => snd (r_exit_dir x)] l) "[cm,cm]";
   ds ["Source_Start_Coordinates"] [2; n] (by_component [fun x => fst (r_src x); fun x => snd (r_src x)] l) "[cm,cm]";
   ds ["PC_Exit"; "Electric_Vector"] [2; n] (by_component [fun x => fst (r_exit_elecv x); fun x => snd (r_exit_elecv x)] l) "[cm,cm]";
   ds ["PC_Exit"; "Weights"] [n; ne] (List.concat (List.map r_weights l)) "[keV,a.u.]";
   ds ["PC_Exit"; "D_Travel"] [n] (List.map r_travel l) "[cm]"].

(** Only the first nmax of the nmax+1 points of the profile are stored. *)
Definition input_sets (i : input) : list (dataset T) :=
  let n := in_nmax i in
  [ds ["Input"; "PC_Shape"] [2; n] (firstn n (in_z i) ++ firstn n (in_ext i)) "[cm,cm]";
   ds ["Input"; "Cap_Shape"] [2; n] (firstn n (in_z i) ++ firstn n (in_cap i)) "[cm,cm]";
   ds ["Input"; "N_Capillaries"] [1] [nofZ (in_ncap i)] "a.u.";
   ds ["Input"; "Surface_Roughness"] [1] [in_sig i] "Angstrom";
   ds ["Input"; "Open_Area"] [1] [in_open i] "a.u.";
   ds ["Input"; "PC_Composition"] [2; List.length (in_iz i)] (List.map nofZ (in_iz i) ++ in_wi i) "[Z,w%]";
   ds ["Input"; "PC_Density"] [1] [in_dens i] "g/cm3";
   ds ["Input"; "Src_PC_Dist"] [1] [in_dist i] "cm"].

Definition some_of {A B} (l : list A) (x : list B) : list B := match l with [] => [] | _ => x end.

(** The whole file. *)
Definition result_file (r : result T) (i : input) : content T :=
  let ne := List.length (q_energies r) in
  mkContent ([["PC_Start"]; ["PC_Exit"]] ++ some_of (q_ext r) [["ExternalLeaks"]] ++ some_of (q_int r) [["InternalLeaks"]] ++ [["Input"]])
    (exit_sets r ++
     some_of (q_ext r) (leak_sets "ExternalLeaks" false (q_ext r) ne (q_started r)) ++
     some_of (q_int r) (leak_sets "InternalLeaks" true (q_int r) ne (q_started r)) ++
     input_sets i).
Local Close Scope string_scope.

(** The source in memory at [src], its description at [d], the profile at [lp]. *)
Definition source_input (s : st T) (src : loc) (i : input) : Prop :=
  exists d lr lg len liz lwi lp lz lc le rest ens,
    source_object s src len lr lg d (in_dist i :: rest) ens /\
    description_object s d liz lwi lp lz lc le (in_sig i) (in_ncap i) (in_open i) (in_iz i) (in_wi i) (in_dens i)
      (Z.of_nat (in_nmax i)) (in_z i) (in_cap i) (in_ext i) /\
    List.length (in_wi i) = List.length (in_iz i) /\
    in_nmax i <= List.length (in_z i) /\ in_nmax i <= List.length (in_cap i) /\ in_nmax i <= List.length (in_ext i).

(** ** The library *)
Definition h5_works (w : hw T) : Prop := forall n, h_orc w n = true.
(** A failing call says why. *)
Definition h5_explains (w : hw T) : Prop := forall n, h_errs w n <> [].
(** Handles are numbers handed out in ascending order. *)
Definition h5_ids (w : hw T) : Prop := Forall (fun x => (0 <= fst x < h_next w)%Z) (h_open w) /\ (0 <= h_next w)%Z.

(** ** Error codes *)
Definition h5_io : list Z :=
  [H5E_SEEKERROR; H5E_READERROR; H5E_WRITEERROR; H5E_CLOSEERROR; H5E_OVERFLOW; H5E_FCNTL; H5E_FILEEXISTS; H5E_FILEOPEN;
   H5E_CANTCREATE; H5E_CANTOPENFILE; H5E_CANTCLOSEFILE; H5E_NOTHDF5; H5E_TRUNCATED; H5E_MOUNT; H5E_NOFILTER; H5E_CALLBACK;
   H5E_CANAPPLY; H5E_SETLOCAL; H5E_NOENCODER].
Definition h5_invalid (old : bool) : list Z :=
  [H5E_BADFILE; H5E_BADGROUP; H5E_BADSELECT; H5E_UNINITIALIZED; H5E_NOTFOUND; H5E_CANTINSERT; H5E_BADRANGE; H5E_BADVALUE;
   H5E_EXISTS; H5E_ALREADYEXISTS; H5E_CANTDELETE; H5E_CANTOPENOBJ; H5E_CANTMOVE; if old then H5E_BADATOM else H5E_BADID].
Definition h5_type : list Z := [H5E_BADTYPE; H5E_CANTCONVERT].
Definition isin (x : Z) (l : list Z) : bool := List.existsb (Z.eqb x) l.

(** By minor class alone. *)
Definition h5_minor_code (old : bool) (min : Z) : Z :=
  if isin min h5_io then POLYCAP_ERROR_IO
  else if isin min (h5_invalid old) then POLYCAP_ERROR_INVALID_ARGUMENT
  else if isin min h5_type then POLYCAP_ERROR_TYPE
  else if Z.eqb min H5E_UNSUPPORTED then POLYCAP_ERROR_UNSUPPORTED
  else POLYCAP_ERROR_RUNTIME.

(** Some pairs (major, minor) are special.  [recent]: HDF5 1.12.0 or later, [old]: 1.13.0 or earlier. *)
Definition h5_code (recent old : bool) (maj min : Z) : Z :=
  let is a b := Z.eqb maj a && Z.eqb min b in
  if is H5E_CACHE H5E_BADVALUE || is H5E_RESOURCE H5E_CANTINIT || is H5E_INTERNAL H5E_SYSERRSTR then POLYCAP_ERROR_IO
  else if is H5E_DATATYPE H5E_CANTINIT || is H5E_ARGS H5E_CANTINIT then POLYCAP_ERROR_TYPE
  else if is H5E_DATASET H5E_CANTINIT || is H5E_ARGS H5E_BADTYPE || is H5E_REFERENCE H5E_CANTINIT
          || (recent && is H5E_DATASET H5E_CANTCREATE) || (if old then is H5E_SYM H5E_CANTINIT else is H5E_SYM H5E_CANTCREATE)
       then POLYCAP_ERROR_INVALID_ARGUMENT
  else h5_minor_code old min.

(** The outermost and the innermost entry of an error stack. *)
Definition outermost (st : list h5err) : option h5err := List.last (List.map Some st) None.
Definition innermost (st : list h5err) : option h5err := List.hd None (List.map Some st).

End Spec.
Arguments input T : clear implicits.
