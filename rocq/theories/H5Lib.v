(** * The HDF5 library as seen by src/polycap-transmission-efficiencies.c

    The HDF5 library itself is not in /repo.  It is modelled as a second state [hw] next to the
    memory: what is open, what the open files contain, what is on disk, the error stack.  Every
    library call asks an oracle whether it succeeds; with invalid arguments (a handle that is
    not open, a group that does not exist, a name already taken, a file that is still open) it
    fails whatever the oracle says.  A failing call leaves an error stack, also taken from an
    oracle.  So a theorem quantified over [hw] is quantified over every way the library can fail.

    Simplifications: a path "/A/B" is the list ["A";"B"]; H5P_DEFAULT, H5S_ALL and the element
    type (always a double) are left out; counters do not overflow; the data are part of the file
    on disk once H5Fclose succeeds and nothing of that file is open any more. *)
From Coq Require Import ZArith List Bool Lia String.
From Verif Require Import Num Mem.
Import ListNotations.
Local Open Scope mem_scope.

(** ** Ids of the HDF5 error classes (run-time values of the library): only that they are
    different matters. *)
Definition H5E_SEEKERROR : Z := 1.       Definition H5E_READERROR : Z := 2.
Definition H5E_WRITEERROR : Z := 3.      Definition H5E_CLOSEERROR : Z := 4.
Definition H5E_OVERFLOW : Z := 5.        Definition H5E_FCNTL : Z := 6.
Definition H5E_FILEEXISTS : Z := 7.      Definition H5E_FILEOPEN : Z := 8.
Definition H5E_CANTCREATE : Z := 9.      Definition H5E_CANTOPENFILE : Z := 10.
Definition H5E_CANTCLOSEFILE : Z := 11.  Definition H5E_NOTHDF5 : Z := 12.
Definition H5E_BADFILE : Z := 13.        Definition H5E_TRUNCATED : Z := 14.
Definition H5E_MOUNT : Z := 15.          Definition H5E_NOFILTER : Z := 16.
Definition H5E_CALLBACK : Z := 17.       Definition H5E_CANAPPLY : Z := 18.
Definition H5E_SETLOCAL : Z := 19.       Definition H5E_NOENCODER : Z := 20.
Definition H5E_BADGROUP : Z := 21.       Definition H5E_BADSELECT : Z := 22.
Definition H5E_UNINITIALIZED : Z := 23.  Definition H5E_UNSUPPORTED : Z := 24.
Definition H5E_NOTFOUND : Z := 25.       Definition H5E_CANTINSERT : Z := 26.
Definition H5E_BADTYPE : Z := 27.        Definition H5E_BADRANGE : Z := 28.
Definition H5E_BADVALUE : Z := 29.       Definition H5E_EXISTS : Z := 30.
Definition H5E_ALREADYEXISTS : Z := 31.  Definition H5E_CANTCONVERT : Z := 32.
Definition H5E_CANTDELETE : Z := 33.     Definition H5E_CANTOPENOBJ : Z := 34.
Definition H5E_CANTMOVE : Z := 35.       Definition H5E_BADATOM : Z := 36.
Definition H5E_BADID : Z := 37.          Definition H5E_CANTINIT : Z := 38.
Definition H5E_SYSERRSTR : Z := 39.
Definition H5E_CACHE : Z := 101.         Definition H5E_RESOURCE : Z := 102.
Definition H5E_INTERNAL : Z := 103.      Definition H5E_DATATYPE : Z := 104.
Definition H5E_DATASET : Z := 105.       Definition H5E_ARGS : Z := 106.
Definition H5E_REFERENCE : Z := 107.     Definition H5E_SYM : Z := 108.

(** One entry of the HDF5 error stack: H5E_error2_t (fields read by walk_cb, lines 173-182). *)
Record h5err := mkH5err { he_maj : Z; he_min : Z; he_desc : option string }.

Definition path := list string.
Definition path_eqb (p q : path) : bool := if list_eq_dec String.string_dec p q then true else false.

Section H5.
Context {T : Type} {N : Num T}.
Local Notation M := (M T).

(** A dataset: name, dimensions, elements (None: created, not written), attribute "Units". *)
Record dataset := mkDS { ds_path : path; ds_dims : list nat; ds_data : option (list T); ds_unit : option string }.
Record content := mkContent { c_groups : list path; c_dsets : list dataset }.

(** What a handle stands for; [f] is the file it belongs to. *)
Inductive hobj :=
| HFile (f : string) | HGroup (f : string) | HDset (f : string) (p : path) | HAttr (f : string) (p : path)
| HSpace (dims : list nat) | HScalar | HType.

Record hw := mkHw {
  h_orc : nat -> bool;               (* does the n-th call succeed? *)
  h_errs : nat -> list h5err;        (* its error stack if not, innermost entry first *)
  h_cnt : nat;                       (* calls made so far *)
  h_next : Z;                        (* next handle *)
  h_open : list (Z * hobj);          (* open handles *)
  h_lib : string -> content;         (* contents of open files *)
  h_disk : string -> option content; (* complete files on disk *)
  h_stack : list h5err }.            (* current error stack *)

Definition W (A : Type) := hw -> M (A * hw).
Definition retW {A} (a : A) : W A := fun w => ret (a, w).
Definition bindW {A B} (m : W A) (k : A -> W B) : W B := fun w => bind (m w) (fun aw => k (fst aw) (snd aw)).
Definition lift {A} (m : M A) : W A := fun w => bind m (fun a => ret (a, w)).

(** ** The library *)

(** A call: it clears the error stack, or fails with -1 and leaves one. *)
Definition h5call (f : hw -> option (Z * hw)) : W Z := fun w =>
  let n := h_cnt w in
  let w1 := mkHw (h_orc w) (h_errs w) (S n) (h_next w) (h_open w) (h_lib w) (h_disk w) (h_errs w n) in
  match (if h_orc w n then f w1 else None) with
  | Some (x, w2) => ret (x, mkHw (h_orc w2) (h_errs w2) (h_cnt w2) (h_next w2) (h_open w2) (h_lib w2) (h_disk w2) [])
  | None => ret ((-1)%Z, w1)
  end.

Fixpoint assoc (i : Z) (L : list (Z * hobj)) : option hobj :=
  match L with [] => None | (j, o) :: L => if Z.eqb j i then Some o else assoc i L end.
Definition lookup (w : hw) (i : Z) : option hobj := assoc i (h_open w).
Definition open_id (w : hw) (o : hobj) : Z * hw :=
  (h_next w, mkHw (h_orc w) (h_errs w) (h_cnt w) (h_next w + 1) ((h_next w, o) :: h_open w) (h_lib w) (h_disk w) (h_stack w)).
Definition set_open (w : hw) (L : list (Z * hobj)) : hw :=
  mkHw (h_orc w) (h_errs w) (h_cnt w) (h_next w) L (h_lib w) (h_disk w) (h_stack w).
Definition set_lib (w : hw) (f : string) (c : content) : hw :=
  mkHw (h_orc w) (h_errs w) (h_cnt w) (h_next w) (h_open w) (fun g => if String.eqb g f then c else h_lib w g) (h_disk w) (h_stack w).
Definition set_disk (w : hw) (f : string) (c : option content) : hw :=
  mkHw (h_orc w) (h_errs w) (h_cnt w) (h_next w) (h_open w) (h_lib w) (fun g => if String.eqb g f then c else h_disk w g) (h_stack w).
Definition without (L : list (Z * hobj)) (i : Z) : list (Z * hobj) := List.filter (fun x => negb (Z.eqb (fst x) i)) L.

(** Does the handle keep file [f] open? *)
Definition keeps (f : string) (o : hobj) : bool :=
  match o with HFile g | HGroup g | HDset g _ | HAttr g _ => String.eqb g f | _ => false end.
Definition file_open (w : hw) (f : string) : bool := List.existsb (fun x => keeps f (snd x)) (h_open w).

Definition has_group (c : content) (p : path) : bool :=
  match p with [] => true | _ => List.existsb (path_eqb p) (c_groups c) end.
Definition has_name (c : content) (p : path) : bool :=
  has_group c p || List.existsb (fun d => path_eqb p (ds_path d)) (c_dsets c).
Definition can_create (c : content) (p : path) : bool := has_group c (List.removelast p) && negb (has_name c p).
Definition on_dset (c : content) (p : path) (g : dataset -> dataset) : content :=
  mkContent (c_groups c) (List.map (fun d => if path_eqb p (ds_path d) then g d else d) (c_dsets c)).

(** H5Fcreate with H5F_ACC_TRUNC: refused while anything of the file is open. *)
Definition H5Fcreate (f : string) : W Z := h5call (fun w =>
  if file_open w f then None
  else Some (open_id (set_disk (set_lib w f (mkContent [] [])) f None) (HFile f))).
Definition H5Gcreate2 (file : Z) (p : path) : W Z := h5call (fun w =>
  match lookup w file with
  | Some (HFile f) => let c := h_lib w f in
      if can_create c p then Some (open_id (set_lib w f (mkContent (c_groups c ++ [p]) (c_dsets c))) (HGroup f)) else None
  | _ => None end).
Definition H5Screate_simple (dims : list nat) : W Z := h5call (fun w => Some (open_id w (HSpace dims))).
Definition H5Screate_scalar : W Z := h5call (fun w => Some (open_id w HScalar)).
Definition H5Tcopy : W Z := h5call (fun w => Some (open_id w HType)).
Definition H5Dcreate (file : Z) (p : path) (space : Z) : W Z := h5call (fun w =>
  match lookup w file, lookup w space with
  | Some (HFile f), Some (HSpace dims) => let c := h_lib w f in
      if can_create c p
      then Some (open_id (set_lib w f (mkContent (c_groups c) (c_dsets c ++ [mkDS p dims None None]))) (HDset f p)) else None
  | _, _ => None end).
Definition H5Tset_size (ty : Z) (n : nat) : W Z := h5call (fun w =>
  match lookup w ty with Some HType => if Nat.eqb n 0 then None else Some (0%Z, w) | _ => None end).
Definition H5Acreate (dset ty space : Z) : W Z := h5call (fun w =>
  match lookup w dset, lookup w ty, lookup w space with
  | Some (HDset f p), Some HType, Some HScalar => Some (open_id w (HAttr f p)) | _, _, _ => None end).
Definition H5Awrite (attr ty : Z) (u : string) : W Z := h5call (fun w =>
  match lookup w attr, lookup w ty with
  | Some (HAttr f p), Some HType =>
      Some (0%Z, set_lib w f (on_dset (h_lib w f) p (fun d => mkDS (ds_path d) (ds_dims d) (ds_data d) (Some u))))
  | _, _ => None end).

(** H5Dwrite reads as many doubles from the buffer as the dataset has elements. *)
Definition dims_size (dims : list nat) : nat := List.fold_right Nat.mul 1 dims.
Fixpoint read_buf (n : nat) (p : ptr) (off : nat) : M (list T) :=
  match n with
  | O => ret []
  | S n => x <- load_dbl p off ;; xs <- read_buf n p (S off) ;; ret (x :: xs)
  end.
Definition dset_dims (c : content) (p : path) : nat :=
  match List.find (fun d => path_eqb p (ds_path d)) (c_dsets c) with Some d => dims_size (ds_dims d) | None => 0 end.
Definition H5Dwrite (dset : Z) (p : ptr) (off : nat) : W Z := fun w =>
  match lookup w dset with
  | Some (HDset f q) =>
      (xs <- read_buf (dset_dims (h_lib w f) q) p off ;;
       h5call (fun w => Some (0%Z, set_lib w f (on_dset (h_lib w f) q (fun d => mkDS (ds_path d) (ds_dims d) (Some xs) (ds_unit d))))) w)
  | _ => h5call (fun _ => None) w
  end.

(** The closing functions: each accepts its own kind of handle. *)
Definition h5close (ok : hobj -> bool) (i : Z) : W Z := h5call (fun w =>
  match lookup w i with
  | Some o => if ok o then Some (0%Z, set_open w (without (h_open w) i)) else None
  | None => None end).
Definition H5Sclose := h5close (fun o => match o with HSpace _ | HScalar => true | _ => false end).
Definition H5Tclose := h5close (fun o => match o with HType => true | _ => false end).
Definition H5Aclose := h5close (fun o => match o with HAttr _ _ => true | _ => false end).
Definition H5Dclose := h5close (fun o => match o with HDset _ _ => true | _ => false end).
Definition H5Gclose := h5close (fun o => match o with HGroup _ => true | _ => false end).
Definition H5Fclose (i : Z) : W Z := h5call (fun w =>
  match lookup w i with
  | Some (HFile f) =>
      let w1 := set_open w (without (h_open w) i) in
      Some (0%Z, if file_open w1 f then w1 else set_disk w1 f (Some (h_lib w1 f)))
  | _ => None end).

(** H5Ewalk: walk_cb (lines 173-182) keeps the entry it sees last: the outermost one for
    H5E_WALK_UPWARD, the innermost one for H5E_WALK_DOWNWARD.  The stack stays as it is. *)
Definition H5Ewalk (up : bool) : W (bool * option h5err) := fun w =>
  let w1 := mkHw (h_orc w) (h_errs w) (S (h_cnt w)) (h_next w) (h_open w) (h_lib w) (h_disk w) (h_stack w) in
  if h_orc w (h_cnt w)
  then ret ((true, if up then List.last (List.map Some (h_stack w)) None else List.hd None (List.map Some (h_stack w))), w1)
  else ret ((false, None), w1).

End H5.
Arguments dataset T : clear implicits.
Arguments content T : clear implicits.
Arguments hw T : clear implicits.
Arguments W T A : clear implicits.
