(** * Model of the HDF5 writer: src/polycap-transmission-efficiencies.c:23-780 (heap level)

    Simplifications: values of the result object are read once where the code reads them again
    and again (nothing writes to it in between). *)
From Coq Require Import ZArith List Bool Lia String.
From Verif Require Import Num Mem ErrorModel ProfileModel ConsModel ResultModel H5Lib.
Import ListNotations.
Local Open Scope mem_scope.

Section H5.
Context {T : Type} {N : Num T}.
Local Notation M := (M T).
Local Notation W := (W T).

(** ** The tables: static variables, lines 52-57, as one block
    [_minor_table; its len; its cap; _exact_table; its len; its cap]. *)
Notation TB_MIN := 0 (only parsing).
Notation TB_EX := 3 (only parsing).

(** realloc: a new block with the old contents, the old one is released; NULL: nothing happens. *)
Definition realloc (p : ptr) (n : nat) : M ptr := fun s =>
  match p with
  | None => malloc n s
  | Some l =>
      match mem s l with
      | None => UB
      | Some b => bind (alloc (firstn n (b ++ repeat Vundef n)))
                    (fun q => match q with Some _ => bind (free p) (fun _ => ret q) | None => ret NULL end) s
      end
  end.

(** append_minor_table_entry, append_exact_table_entry: lines 59-80.  [k] is the offset of the
    table in the block of static variables, [cells] the entry. *)
Definition append_entry (tabs : ptr) (k : nat) (cells : list Z) : M unit :=
  let sz := List.length cells in
  len <- load_int tabs (k + 1) ;;
  cap <- load_int tabs (k + 2) ;;
  (if Z.eqb len cap then
     store tabs (k + 2) (Vint (cap * 2)) ;;;
     p <- load_ptr tabs k ;;
     q <- realloc p (sz * Z.to_nat (cap * 2)) ;;
     store tabs k (Vptr q)
   else ret tt) ;;;
  p <- load_ptr tabs k ;;
  for_n sz 0 (fun i => store p (sz * Z.to_nat len + i) (Vint (List.nth i cells 0%Z))) ;;;
  store tabs (k + 1) (Vint (len + 1)).
Fixpoint append_all (tabs : ptr) (k : nat) (L : list (list Z)) : M unit :=
  match L with [] => ret tt | e :: L => append_entry tabs k e ;;; append_all tabs k L end.

(** lines 97-131 *)
Definition minor_entries : list (list Z) :=
  [[H5E_SEEKERROR; POLYCAP_ERROR_IO]; [H5E_READERROR; POLYCAP_ERROR_IO]; [H5E_WRITEERROR; POLYCAP_ERROR_IO];
   [H5E_CLOSEERROR; POLYCAP_ERROR_IO]; [H5E_OVERFLOW; POLYCAP_ERROR_IO]; [H5E_FCNTL; POLYCAP_ERROR_IO];
   [H5E_FILEEXISTS; POLYCAP_ERROR_IO]; [H5E_FILEOPEN; POLYCAP_ERROR_IO]; [H5E_CANTCREATE; POLYCAP_ERROR_IO];
   [H5E_CANTOPENFILE; POLYCAP_ERROR_IO]; [H5E_CANTCLOSEFILE; POLYCAP_ERROR_IO]; [H5E_NOTHDF5; POLYCAP_ERROR_IO];
   [H5E_BADFILE; POLYCAP_ERROR_INVALID_ARGUMENT]; [H5E_TRUNCATED; POLYCAP_ERROR_IO]; [H5E_MOUNT; POLYCAP_ERROR_IO];
   [H5E_NOFILTER; POLYCAP_ERROR_IO]; [H5E_CALLBACK; POLYCAP_ERROR_IO]; [H5E_CANAPPLY; POLYCAP_ERROR_IO];
   [H5E_SETLOCAL; POLYCAP_ERROR_IO]; [H5E_NOENCODER; POLYCAP_ERROR_IO];
   [H5E_BADGROUP; POLYCAP_ERROR_INVALID_ARGUMENT]; [H5E_BADSELECT; POLYCAP_ERROR_INVALID_ARGUMENT];
   [H5E_UNINITIALIZED; POLYCAP_ERROR_INVALID_ARGUMENT]; [H5E_UNSUPPORTED; POLYCAP_ERROR_UNSUPPORTED];
   [H5E_NOTFOUND; POLYCAP_ERROR_INVALID_ARGUMENT]; [H5E_CANTINSERT; POLYCAP_ERROR_INVALID_ARGUMENT];
   [H5E_BADTYPE; POLYCAP_ERROR_TYPE]; [H5E_BADRANGE; POLYCAP_ERROR_INVALID_ARGUMENT];
   [H5E_BADVALUE; POLYCAP_ERROR_INVALID_ARGUMENT]; [H5E_EXISTS; POLYCAP_ERROR_INVALID_ARGUMENT];
   [H5E_ALREADYEXISTS; POLYCAP_ERROR_INVALID_ARGUMENT]; [H5E_CANTCONVERT; POLYCAP_ERROR_TYPE];
   [H5E_CANTDELETE; POLYCAP_ERROR_INVALID_ARGUMENT]; [H5E_CANTOPENOBJ; POLYCAP_ERROR_INVALID_ARGUMENT];
   [H5E_CANTMOVE; POLYCAP_ERROR_INVALID_ARGUMENT]].
(** lines 141-148; an entry is [maj; min; code] *)
Definition exact_entries : list (list Z) :=
  [[H5E_CACHE; H5E_BADVALUE; POLYCAP_ERROR_IO]; [H5E_RESOURCE; H5E_CANTINIT; POLYCAP_ERROR_IO];
   [H5E_INTERNAL; H5E_SYSERRSTR; POLYCAP_ERROR_IO]; [H5E_DATATYPE; H5E_CANTINIT; POLYCAP_ERROR_TYPE];
   [H5E_DATASET; H5E_CANTINIT; POLYCAP_ERROR_INVALID_ARGUMENT]; [H5E_ARGS; H5E_CANTINIT; POLYCAP_ERROR_TYPE];
   [H5E_ARGS; H5E_BADTYPE; POLYCAP_ERROR_INVALID_ARGUMENT]; [H5E_REFERENCE; H5E_CANTINIT; POLYCAP_ERROR_INVALID_ARGUMENT]].

(** The version of HDF5 the library was compiled with: H5_VERSION_GE(1,12,0), H5_VERSION_LE(1,13,0)
    (lines 150-160). *)
Record h5version := mkVer { ge_1_12_0 : bool; le_1_13_0 : bool }.
Definition exact_by_version (v : h5version) : list (list Z) :=
  (if ge_1_12_0 v then [[H5E_DATASET; H5E_CANTCREATE; POLYCAP_ERROR_INVALID_ARGUMENT]] else []).
Definition minor_late (v : h5version) : list Z :=
  if le_1_13_0 v then [H5E_BADATOM; POLYCAP_ERROR_INVALID_ARGUMENT] else [H5E_BADID; POLYCAP_ERROR_INVALID_ARGUMENT].
Definition exact_late (v : h5version) : list Z :=
  if le_1_13_0 v then [H5E_SYM; H5E_CANTINIT; POLYCAP_ERROR_INVALID_ARGUMENT]
  else [H5E_SYM; H5E_CANTCREATE; POLYCAP_ERROR_INVALID_ARGUMENT].

(** tables_init: lines 82-167 (in the model one thread; the mutex is left out, H5Eset_auto has no
    effect on anything modelled). *)
Definition tables_init (v : h5version) (tabs : ptr) : M unit :=
  len <- load_int tabs (TB_MIN + 1) ;;
  (if Z.eqb len 0 then
     store tabs (TB_MIN + 1) (Vint 0) ;;; store tabs (TB_MIN + 2) (Vint 1) ;;;
     p <- malloc 2 ;; store tabs TB_MIN (Vptr p) ;;;
     append_all tabs TB_MIN minor_entries
   else ret tt) ;;;
  len <- load_int tabs (TB_EX + 1) ;;
  (if Z.eqb len 0 then
     store tabs (TB_EX + 1) (Vint 0) ;;; store tabs (TB_EX + 2) (Vint 1) ;;;
     p <- malloc 3 ;; store tabs TB_EX (Vptr p) ;;;
     append_all tabs TB_EX exact_entries ;;;
     append_all tabs TB_EX (exact_by_version v) ;;;
     append_entry tabs TB_MIN (minor_late v) ;;;
     append_entry tabs TB_EX (exact_late v)
   else ret tt).

(** ** set_exception: lines 184-245 *)

(** The loop over _minor_table, lines 206-211. *)
Fixpoint find_minor (n i : nat) (p : ptr) (min code : Z) : M Z :=
  match n with
  | O => ret code
  | S n => m <- load_int p (2 * i) ;;
           if Z.eqb m min then load_int p (2 * i + 1) else find_minor n (S i) p min code
  end.
(** The loop over _exact_table, lines 213-218. *)
Fixpoint find_exact (n i : nat) (p : ptr) (maj min code : Z) : M Z :=
  match n with
  | O => ret code
  | S n => a <- load_int p (3 * i) ;;
           m <- load_int p (3 * i + 1) ;;
           if Z.eqb m min && Z.eqb a maj then load_int p (3 * i + 2) else find_exact n (S i) p maj min code
  end.

Definition set_exception (tabs : ptr) (err : eslot) : W unit :=
  match err with
  | None => retW tt
  | Some _ =>
    bindW (H5Ewalk true) (fun up =>
    if negb (fst up) then lift (set_error_literal err POLYCAP_ERROR_RUNTIME (Some "Failed to walk HDF5 error stack"%string))
    else match snd up with
    | None => lift ub     (* err is uninitialised, and line 200 reads err.n *)
    | Some e =>
      bindW (lift (len <- load_int tabs (TB_MIN + 1) ;; p <- load_ptr tabs TB_MIN ;;
                   code <- find_minor (Z.to_nat len) 0 p (he_min e) POLYCAP_ERROR_RUNTIME ;;
                   len <- load_int tabs (TB_EX + 1) ;; p <- load_ptr tabs TB_EX ;;
                   find_exact (Z.to_nat len) 0 p (he_maj e) (he_min e) code)) (fun code =>
      match he_desc e with
      | None => lift (set_error_literal err POLYCAP_ERROR_RUNTIME (Some "Failed to extract top-level HDF5 error description"%string))
      | Some d =>
        bindW (lift (strdup d)) (fun desc =>
        bindW (H5Ewalk false) (fun down =>
        if negb (fst down) then lift (set_error_literal err POLYCAP_ERROR_RUNTIME (Some "Failed to walk HDF5 error stack"%string))
        else match snd down with
        | None => lift ub
        | Some b =>
          match he_desc b with
          | None => lift (set_error_literal err POLYCAP_ERROR_RUNTIME (Some "Failed to extract top-level HDF5 error description"%string))
          | Some bottom =>
            lift (t <- load_str desc 0 ;;    (* "%s" with a NULL pointer is undefined *)
                  set_error err code (Some (t ++ " (" ++ bottom ++ ")")%string) ;;;
                  free desc)
          end
        end))
      end)
    end)
  end.

(** if (call < 0) { set_exception(error); return false; } *)
Definition checked (tabs : ptr) (err : eslot) (m : W Z) (k : Z -> W bool) : W bool :=
  bindW m (fun x => if Z.ltb x 0 then bindW (set_exception tabs err) (fun _ => retW false) else k x).
(** if (!f(...)) return false; *)
Definition andthen (m k : W bool) : W bool := bindW m (fun b => if b then k else retW false).

(** polycap_h5_write_dataset: lines 249-314.  The buffer starts at cell [off] of [p]. *)
Definition write_dataset (tabs : ptr) (file : Z) (dims : list nat) (name : path) (p : ptr) (off : nat) (unit : string) (err : eslot) : W bool :=
  checked tabs err (H5Screate_simple dims) (fun space =>
  checked tabs err (H5Dcreate file name space) (fun dset =>
  checked tabs err (H5Dwrite dset p off) (fun _ =>
  bindW H5Screate_scalar (fun aspace =>
  bindW H5Tcopy (fun aty =>
  checked tabs err (H5Tset_size aty (String.length unit)) (fun _ =>
  checked tabs err (H5Acreate dset aty aspace) (fun attr =>
  checked tabs err (H5Awrite attr aty unit) (fun _ =>
  checked tabs err (H5Sclose aspace) (fun _ =>
  checked tabs err (H5Tclose aty) (fun _ =>
  checked tabs err (H5Aclose attr) (fun _ =>
  checked tabs err (H5Dclose dset) (fun _ =>
  checked tabs err (H5Sclose space) (fun _ =>
  retW true))))))))))))).

(** strerror(errno) after a failed malloc *)
Definition strerror_enomem : string := "Cannot allocate memory".

(** data_temp = malloc(...); the loop "for (j...) data_temp[j + c*n] = ..."; write; free: e.g.
    lines 357-375, 430-445, 446-460, 686-701, 735-748.  [rd c j] reads component [c] of row [j]. *)
Definition fill_body (tmp : ptr) (k n : nat) (rd : nat -> nat -> M T) (j : nat) : M unit :=
  for_n k 0 (fun c => x <- rd c j ;; store tmp (j + n * c) (Vdbl x)).
Definition write_table (tabs : ptr) (file : Z) (k n : nat) (dims : list nat) (rd : nat -> nat -> M T) (name : path) (unit : string) (err : eslot) : W bool :=
  bindW (lift (malloc (n * k))) (fun tmp =>
  match tmp with
  | None => lift (set_error_literal err POLYCAP_ERROR_MEMORY (Some strerror_enomem) ;;; ret false)
  | Some _ =>
    bindW (lift (for_n n 0 (fill_body tmp k n rd))) (fun _ =>
    andthen (write_dataset tabs file dims name tmp 0 unit err) (
    bindW (lift (free tmp)) (fun _ => retW true)))
  end).

(** Lines 566-576, 650-660: the average weight; the result of malloc is not checked. *)
Definition total_body (tmp : ptr) (im : ptr) (fw : nat) (ne n : nat) (started : Z) (j : nat) : M unit :=
  store tmp j (Vdbl (#0)%num) ;;;
  for_n n 0 (fun k => w <- load_ptr im fw ;; x <- load_dbl w (k * ne + j) ;; a <- load_dbl tmp j ;; store tmp j (Vdbl (a + x)%num)) ;;;
  a <- load_dbl tmp j ;;
  store tmp j (Vdbl (a / nofZ started)%num).
Definition write_total (tabs : ptr) (file : Z) (im : ptr) (fw : nat) (ne n : nat) (started : Z) (name : path) (err : eslot) : W bool :=
  bindW (lift (malloc ne)) (fun tmp =>
  bindW (lift (for_n ne 0 (total_body tmp im fw ne n started))) (fun _ =>
  andthen (write_dataset tabs file [ne] name tmp 0 "a.u." err) (
  bindW (lift (free tmp)) (fun _ => retW true)))).

(** images->X[c][j] and the int column images->X[j] *)
Definition col (im : ptr) (f : nat) (c j : nat) : M T := a <- load_ptr im (f + c) ;; load_dbl a j.
Definition icolumn (im : ptr) (f : nat) (_ j : nat) : M T := a <- load_ptr im f ;; z <- load_int a j ;; ret (nofZ z).

(** The block of external leaks, lines 522-594, and of internal leaks, 596-679: [fc], [fd], [fe],
    [fw], [fr] are the fields of images; only the internal ones have electric vectors. *)
Definition write_leaks (tabs : ptr) (file : Z) (im : ptr) (group : string) (fc fd : nat) (fe : option nat) (fw fr : nat)
    (ne n : nat) (started : Z) (err : eslot) : W bool :=
  bindW (H5Gcreate2 file [group]) (fun gid =>
  andthen (write_table tabs file 3 n [3; n] (col im fc) [group; "Coordinates"%string] "[cm,cm,cm]" err) (
  andthen (write_table tabs file 2 n [2; n] (col im fd) [group; "Direction"%string] "[cm,cm]" err) (
  andthen (match fe with Some f => write_table tabs file 2 n [2; n] (col im f) [group; "Electric_Vector"%string] "[cm,cm]" err
           | None => retW true end) (
  bindW (lift (load_ptr im fw)) (fun w =>
  andthen (write_dataset tabs file [n; ne] [group; "Weights"%string] w 0 "[keV,a.u.]" err) (
  andthen (write_total tabs file im fw ne n started [group; "Weight_Total"%string] err) (
  andthen (write_table tabs file 1 n [n] (icolumn im fr) [group; "N_Reflections"%string] "a.u." err) (
  bindW (H5Gclose gid) (fun x =>
  if Z.ltb x 0 then bindW (set_exception tabs err) (fun _ => retW true) else retW true))))))))).

(** Closing a group or the file at the end, lines 765-776: a failure is reported, nothing else. *)
Definition close_end (tabs : ptr) (err : eslot) (m : W Z) (k : W bool) : W bool :=
  bindW m (fun x => if Z.ltb x 0 then bindW (set_exception tabs err) (fun _ => k) else k).

(** The group /Input, lines 681-763. *)
Definition write_input (tabs : ptr) (file : Z) (src : ptr) (err : eslot) : W bool :=
  bindW (lift (d <- load_ptr src 0 ;; p <- load_ptr d 7 ;; n <- load_int p 0 ;; ret (d, p, Z.to_nat n))) (fun dpn =>
  let '(d, p, n) := dpn in
  andthen (write_table tabs file 2 n [2; n] (fun c j => a <- load_ptr p (match c with O => 1 | _ => 3 end) ;; load_dbl a j)
            ["Input"%string; "PC_Shape"%string] "[cm,cm]" err) (
  andthen (write_table tabs file 2 n [2; n] (fun c j => a <- load_ptr p (match c with O => 1 | _ => 2 end) ;; load_dbl a j)
            ["Input"%string; "Cap_Shape"%string] "[cm,cm]" err) (
  andthen (write_table tabs file 1 1 [1] (fun _ _ => z <- load_int d 1 ;; ret (nofZ z)) ["Input"%string; "N_Capillaries"%string] "a.u." err) (
  andthen (write_dataset tabs file [1] ["Input"%string; "Surface_Roughness"%string] d 0 "Angstrom" err) (
  andthen (write_dataset tabs file [1] ["Input"%string; "Open_Area"%string] d 2 "a.u." err) (
  bindW (lift (ne <- load_int d 3 ;; ret (Z.to_nat ne))) (fun ne =>
  andthen (write_table tabs file 2 ne [2; ne]
             (fun c j => match c with
                         | O => a <- load_ptr d 4 ;; z <- load_int a j ;; ret (nofZ z)
                         | _ => a <- load_ptr d 5 ;; load_dbl a j end)
             ["Input"%string; "PC_Composition"%string] "[Z,w%]" err) (
  andthen (write_dataset tabs file [1] ["Input"%string; "PC_Density"%string] d 6 "g/cm3" err)
          (write_dataset tabs file [1] ["Input"%string; "Src_PC_Dist"%string] src 2 "cm" err))))))))).

(** polycap_transmission_efficiencies_write_hdf5: lines 317-780. *)
Definition write_hdf5 (v : h5version) (tabs : ptr) (eff : ptr) (fname : option string) (err : eslot) : W bool :=
  bindW (lift (tables_init v tabs)) (fun _ =>
  match fname with
  | None => lift (set_error_literal err POLYCAP_ERROR_INVALID_ARGUMENT
                   (Some "polycap_transmission_efficiencies_write_hdf5: filename cannot be NULL"%string) ;;; ret false)
  | Some fname =>
  if is_null eff then lift (set_error_literal err POLYCAP_ERROR_INVALID_ARGUMENT
                   (Some "polycap_transmission_efficiencies_write_hdf5: efficiencies cannot be NULL"%string) ;;; ret false)
  else
  checked tabs err (H5Fcreate fname) (fun file =>
  bindW (lift (ne <- load_int eff E_NEN ;; en <- load_ptr eff E_EN ;; ef <- load_ptr eff E_EFF ;;
               im <- load_ptr eff E_IMG ;; nx <- load_int im I_EXIT ;; ns <- load_int im I_START ;;
               ret (Z.to_nat ne, en, ef, im, Z.to_nat nx, ns))) (fun q =>
  let '(ne, en, ef, im, n, ns) := q in
  andthen (write_dataset tabs file [ne] ["Energies"%string] en 0 "keV" err) (
  andthen (write_dataset tabs file [ne] ["Transmission_Efficiencies"%string] ef 0 "a.u." err) (
  bindW (H5Gcreate2 file ["PC_Start"%string]) (fun g_start =>
  andthen (write_table tabs file 2 n [2; n] (col im I_SC) ["PC_Start"%string; "Coordinates"%string] "[cm,cm]" err) (
  andthen (write_table tabs file 2 n [2; n] (col im I_SD) ["PC_Start"%string; "Direction"%string] "[cm,cm]" err) (
  andthen (write_table tabs file 2 n [2; n] (col im I_SE) ["PC_Start"%string; "Electric_Vector"%string] "[cm,cm]" err) (
  bindW (H5Gcreate2 file ["PC_Exit"%string]) (fun g_exit =>
  andthen (write_table tabs file 3 n [3; n] (col im I_XC) ["PC_Exit"%string; "Coordinates"%string] "[cm,cm,cm]" err) (
  andthen (write_table tabs file 1 n [n] (icolumn im I_XREFL) ["PC_Exit"%string; "N_Reflections"%string] "a.u." err) (
  andthen (write_table tabs file 2 n [2; n] (col im I_XD) ["PC_Exit"%string; "Direction"%string] "[cm,cm]" err) (
  andthen (write_table tabs file 2 n [2; n] (col im I_SRC) ["Source_Start_Coordinates"%string] "[cm,cm]" err) (
  andthen (write_table tabs file 2 n [2; n] (col im I_XE) ["PC_Exit"%string; "Electric_Vector"%string] "[cm,cm]" err) (
  bindW (lift (load_ptr im I_XW)) (fun w =>
  andthen (write_dataset tabs file [n; ne] ["PC_Exit"%string; "Weights"%string] w 0 "[keV,a.u.]" err) (
  bindW (lift (load_ptr im I_XTRAV)) (fun w =>
  andthen (write_dataset tabs file [n] ["PC_Exit"%string; "D_Travel"%string] w 0 "[cm]" err) (
  bindW (lift (load_int im I_NEXT)) (fun nl =>
  andthen (if Z.ltb 0 nl then write_leaks tabs file im "ExternalLeaks" I_LC I_LD None I_LW I_LREFL ne (Z.to_nat nl) ns err else retW true) (
  bindW (lift (load_int im I_NINT)) (fun nl =>
  andthen (if Z.ltb 0 nl then write_leaks tabs file im "InternalLeaks" I_NC I_ND (Some I_NE) I_NW I_NREFL ne (Z.to_nat nl) ns err else retW true) (
  bindW (H5Gcreate2 file ["Input"%string]) (fun g_input =>
  bindW (lift (load_ptr eff E_SRC)) (fun src =>
  andthen (write_input tabs file src err) (
  close_end tabs err (H5Gclose g_exit) (
  close_end tabs err (H5Gclose g_start) (
  close_end tabs err (H5Gclose g_input) (
  close_end tabs err (H5Fclose file) (
  retW true)))))))))))))))))))))))))))))
  end).

End H5.
