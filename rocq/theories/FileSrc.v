(** * Model of polycap_source_new_from_file (src/polycap-source.c:228-445, heap level)

    The argument is [None] for a NULL name, [Some None] for a file that cannot be opened,
    [Some (Some ts)] for a file with the tokens [ts] (FromFile.token).  The second component of
    the result counts the files opened with fopen and not closed.  Simplifications: those of
    FromFile.v and ProfFile.v; [names_at ts] stands for reading the three file names that
    follow a profile type other than 0, 1, 2 (the three lines, one number per byte, and what is
    left of the file), [disk name] for the contents of the file of that name. *)
From Coq Require Import ZArith List Bool Lia String.
From Verif Require Import Num Mem ErrorModel ProfileModel Geometry ConsModel LineModel FromFile ProfFile.
Import ListNotations.
Local Open Scope mem_scope.

Section FileSrc.
Context {T : Type} {N : Num T}.
Local Notation M := (M T).
Local Notation token := (token T).
Variable fit : list (T * T) -> T * T * T.
Variable names_at : list token -> list Z * list Z * list Z * list token.
Variable disk : list Z -> option (list token).

(** fscanf into objects in memory, with its result: the number of conversions, EOF (-1) if
    the file ends before the first. *)
Inductive target := TD (p : ptr) (i : nat) | TI (p : ptr) (i : nat).
Fixpoint fscan_from (k : Z) (targets : list target) (ts : list token) : M (Z * list token) :=
  match targets with
  | [] => ret (k, ts)
  | t :: r =>
      match ts with
      | [] => ret ((if Z.eqb k 0 then -1 else k)%Z, [])
      | tok :: rest =>
          match t with
          | TD p i => match as_dbl tok with Some v => store p i (Vdbl v) ;;; fscan_from (k + 1) r rest | None => ret (k, ts) end
          | TI p i => match as_int tok with Some v => store p i (Vint v) ;;; fscan_from (k + 1) r rest | None => ret (k, ts) end
          end
      end
  end.
Definition fscan := fscan_from 0.

(** filecheck = fscanf(...); if(filecheck == 0){ report, polycap_source_free, return NULL }:
    src/polycap-source.c:273-314.  The file stays open. *)
Definition checked (targets : list target) (src : ptr) (err : eslot) (msg : string) (ts : list token)
    (k : list token -> M (ptr * nat)) : M (ptr * nat) :=
  r <- fscan targets ts ;;
  if Z.eqb (fst r) 0 then
    set_error err POLYCAP_ERROR_IO (Some msg) ;;; source_free src ;;; ret (NULL, 1)
  else k (snd r).

(** src/polycap-source.c:328-331 *)
Fixpoint scan_elems (n i : nat) (iz wi : ptr) (ts : list token) : M (list token) :=
  match n with
  | O => ret ts
  | S n =>
      r <- fscan [TI iz i; TD wi i] ts ;;
      w <- load_dbl wi i ;;
      store wi i (Vdbl (w / #100)%num) ;;;
      scan_elems n (S i) iz wi (snd r)
  end.

(** src/polycap-source.c:426-431; true when all are in range *)
Fixpoint iz_loop94 (n from : nat) (iz : ptr) : M bool :=
  match n with
  | O => ret true
  | S n =>
      x <- load_int iz from ;;
      if Z.ltb x 1 || Z.ltb 94 x then ret false else iz_loop94 n (S from) iz
  end.

(** if (c) { report INVALID_ARGUMENT, polycap_source_free, return NULL }: after fclose *)
Definition refuse (c : bool) (src : ptr) (err : eslot) (msg : string) (k : M (ptr * nat)) : M (ptr * nat) :=
  if c then invalid err msg ;;; source_free src ;;; ret (NULL, 0) else k.

(** src/polycap-source.c:367-444 *)
Definition source_checks (d src : ptr) (err : eslot) (ts : list token) : M (ptr * nat) :=
  _r <- fscan [TI d D_NCAP] ts ;;
  nelem <- load_int d D_NELEM ;; wi <- load_ptr d D_WI ;;
  check_weight (Z.to_nat nelem) wi err ;;;
  n_cap <- load_int d D_NCAP ;; p <- load_ptr d D_PROF ;;
  c <- load_ptr p P_CAP ;; c0 <- load_dbl c 0 ;; e <- load_ptr p P_EXT ;; e0 <- load_dbl e 0 ;;
  store d D_OPEN (Vdbl (open_area_num n_cap c0 e0)) ;;;
  x <- load_dbl src 2 ;;
  refuse (nltb x (#0)%num) src err "polycap_source_new_from_file: source_temp->d_source must be greater than 0.0" (
  x <- load_dbl src 3 ;;
  refuse (nltb x (#0)%num) src err "polycap_source_new_from_file: source_temp->src_x must be greater than 0.0" (
  x <- load_dbl src 4 ;;
  refuse (nltb x (#0)%num) src err "polycap_source_new_from_file: source_temp->src_y must be greater than 0.0" (
  n <- load_int src S_NEN ;;
  refuse (Z.leb n 0) src err "polycap_source_new_from_file: source->n_energies must be greater than 0" (
  en <- load_ptr src S_EN ;;
  ok <- energy_loop (Z.to_nat n) 0 en ;;
  refuse (negb ok) src err "polycap_source_new_from_file: source->energies must be greater than 1 and smaller than 100" (
  refuse (Z.ltb n_cap 1) src err "polycap_source_new_from_file: description->n_cap must be greater than 1" (
  o <- load_dbl d D_OPEN ;;
  refuse (nltb o (#0)%num || nltb (#1)%num o) src err "polycap_source_new_from_file: description->open_area must be greater than 0 and less than 1" (
  refuse (Z.ltb nelem 1) src err "polycap_source_new_from_file: description->nelem must be 1 or greater" (
  iz <- load_ptr d D_IZ ;;
  ok <- iz_loop94 (Z.to_nat nelem) 0 iz ;;
  refuse (negb ok) src err "polycap_source_new_from_file: description->iz[i] must be greater than 0 and less than 94" (
  x <- load_dbl d D_DENS ;;
  refuse (nltb x (#0)%num) src err "polycap_source_new_from_file: description->density must be greater than 0.0" (
  v <- validate_heap p n_cap err ;;
  if negb (Z.eqb v 1) then
    clear_error err ;;;
    refuse true src err "polycap_source_new_from_file: description->profile is faulty. Some capillary coordinates are outside of the external radius." (ret (NULL, 0))
  else ret (src, 0))))))))))).

(** fopen of a name in memory: NULL, or the bytes before the terminating 0. *)
Fixpoint read_bytes (b : @block T) : option (list Z) :=
  match b with
  | Vint 0 :: _ => Some []
  | Vint c :: r => option_map (cons c) (read_bytes r)
  | _ => None
  end.
Definition named_file (p : ptr) : M (option (option (list token))) := fun s =>
  match p with
  | None => Ok (None, s)
  | Some l =>
      match mem s l with
      | Some b => match read_bytes b with Some name => Ok (Some (disk name), s) | None => UB end
      | None => UB
      end
  end.

(** src/polycap-source.c:345-366 *)
Definition source_profile (type : Z) (d src : ptr) (err : eslot) (ts : list token) : M (ptr * nat) :=
  if (Z.eqb type 0 || Z.eqb type 1 || Z.eqb type 2)%bool then
    match read_dbl_vars 7 ts with
    | Some ([len; re_up; re_down; ri_up; ri_down; fu; fd], ts) =>
        p <- profile_new fit type len re_up re_down ri_up ri_down fu fd err ;;
        store d D_PROF (Vptr p) ;;;
        match p with
        | None => source_free src ;;; ret (NULL, 1)
        | Some _ => source_checks d src err ts
        end
    | _ => ub
    end
  else
    let '(l1, l2, l3, ts) := names_at ts in
    n1 <- read_input_line (Some (l1 ++ [newline])) err ;;
    n2 <- read_input_line (Some (l2 ++ [newline])) err ;;
    n3 <- read_input_line (Some (l3 ++ [newline])) err ;;
    f1 <- named_file (fst n1) ;; f2 <- named_file (fst n2) ;; f3 <- named_file (fst n3) ;;
    r <- profile_new_from_file f1 f2 f3 err ;;
    store d D_PROF (Vptr (fst r)) ;;;
    match fst r with
    | None => source_free src ;;; ret (NULL, S (snd r))
    | Some _ =>
        free (fst n3) ;;; free (fst n2) ;;; free (fst n1) ;;;
        source_checks d src err ts
    end.

(** src/polycap-source.c:316-344: composition and energies *)
Definition source_tables (d src : ptr) (err : eslot) (ts : list token) : M (ptr * nat) :=
  nelem <- load_int d D_NELEM ;;
  iz <- malloc (Z.to_nat nelem) ;;
  store d D_IZ (Vptr iz) ;;;
  match iz with
  | None => mem_error err "polycap_source_new_from_file: could not allocate memory for description->iz" ;;; source_free src ;;; ret (NULL, 1)
  | Some _ =>
  wi <- malloc (Z.to_nat nelem) ;;
  store d D_WI (Vptr wi) ;;;
  match wi with
  | None => mem_error err "polycap_source_new_from_file: could not allocate memory for description->wi" ;;; source_free src ;;; ret (NULL, 1)
  | Some _ =>
  ts <- scan_elems (Z.to_nat nelem) 0 iz wi ts ;;
  r <- fscan [TD d D_DENS] ts ;;
  match read_dbl_vars 3 (snd r) with
  | Some ([e_start; e_final; delta_e], ts) =>
      match ntoZ ((e_final - e_start) / delta_e + #1)%num with
      | None => ub                       (* conversion of a number that is no size_t *)
      | Some n =>
          if Z.ltb n 0 then ub else
          store src S_NEN (Vint n) ;;;
          en <- malloc (Z.to_nat n) ;;
          store src S_EN (Vptr en) ;;;
          match en with
          | None => mem_error err "polycap_source_new_from_file: could not allocate memory for source->energies" ;;; source_free src ;;; ret (NULL, 1)
          | Some _ =>
              for_n (Z.to_nat n) 0 (fun i => store en i (Vdbl (e_start + nofZ (Z.of_nat i) * delta_e)%num)) ;;;
              let '(_, _, ts) := scan1 as_int None ts in
              let '(_, type, ts) := scan1 as_int None ts in
              match type with
              | None => ub
              | Some type => source_profile type d src err ts
              end
          end
      end
  | _ => ub
  end end end.

(** the two structs from calloc: src/polycap-source.c:250, 256 *)
Definition desc_zero : @block T := [Vdbl (#0)%num; Vint 0; Vdbl (#0)%num; Vint 0; Vptr NULL; Vptr NULL; Vdbl (#0)%num; Vptr NULL].
Definition src_zero : @block T := Vptr NULL :: Vptr NULL :: repeat (Vdbl (#0)%num) 8 ++ [Vint 0; Vptr NULL].

(** polycap_source_new_from_file: src/polycap-source.c:228-445 *)
Definition source_new_from_file (file : option (option (list token))) (err : eslot) : M (ptr * nat) :=
  match file with
  | None => invalid err "polycap_source_new_from_file: filename cannot be NULL" ;;; ret (NULL, 0)
  | Some file =>
  d <- alloc desc_zero ;;
  match d with
  | None => mem_error err "polycap_source_new_from_file: could not allocate memory for description" ;;; ret (NULL, 0)
  | Some _ =>
  src <- alloc src_zero ;;
  match src with
  | None => mem_error err "polycap_source_new_from_file: could not allocate memory for source" ;;; description_free d ;;; ret (NULL, 0)
  | Some _ =>
  store src S_DESC (Vptr d) ;;;
  g <- rng_new ;;
  store src S_RNG (Vptr g) ;;;
  match file with
  | None => set_error err POLYCAP_ERROR_IO (Some "polycap_source_new_from_file: could not open"%string) ;;; source_free src ;;; ret (NULL, 0)
  | Some ts =>
  checked [TD d D_SIG] src err "polycap_source_new_from_file: could not read &description->sig_rough" ts (fun ts =>
  checked [TD src 2] src err "polycap_source_new_from_file: could not read &source->d_source" ts (fun ts =>
  checked [TD src 3; TD src 4] src err "polycap_source_new_from_file: could not read &source->src_x or &source->src_y" ts (fun ts =>
  checked [TD src 5; TD src 6] src err "polycap_source_new_from_file: could not read &source->src_sigx or &source->src_sigy" ts (fun ts =>
  checked [TD src 7; TD src 8] src err "polycap_source_new_from_file: could not read &source->src_shiftx or &source->src_shifty" ts (fun ts =>
  checked [TD src 9] src err "polycap_source_new_from_file: could not read &source->hor_pol" ts (fun ts =>
  checked [TI d D_NELEM] src err "polycap_source_new_from_file: could not read &description->nelem" ts (fun ts =>
  source_tables d src err ts)))))))
  end end end end.

End FileSrc.
