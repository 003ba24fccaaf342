(** * Model of polycap_source_new_from_file (src/polycap-source.c:228-445), functional

    The file is a list of tokens; reading, conversion and checks follow the code.
    Simplifications: memory is available; a token is read as a whole or not at all ("3.5"
    read with %d is not split); nelem is the value read with %u (no wrap-around). *)
From Coq Require Import ZArith List Bool Lia String.
From Verif Require Import Num ErrorModel ProfileModel ProfileProofs Geometry ConsModel DescProofs SourceModel.
Import ListNotations.
Local Open Scope num_scope.

(** What a token is when read with %lf, and when read with %d/%u. *)
Record token (T : Type) := mkTok { as_dbl : option T; as_int : option Z }.
Arguments mkTok {T}. Arguments as_dbl {T}. Arguments as_int {T}.

(** The source that is handed out. *)
Record file_source (T : Type) := mkFS {
  fs_nums : source_nums T; fs_energies : list T;
  fs_sig : T; fs_ncap : Z; fs_open : T; fs_iz : list Z; fs_wi : list T; fs_dens : T; fs_prof : profile T }.
Arguments mkFS {T}. Arguments fs_nums {T}. Arguments fs_energies {T}. Arguments fs_sig {T}. Arguments fs_ncap {T}.
Arguments fs_open {T}. Arguments fs_iz {T}. Arguments fs_wi {T}. Arguments fs_dens {T}. Arguments fs_prof {T}.

(** Undefined behaviour (an uninitialised variable is used), or: the code in the error
    variable (None: NULL) and the source (None: NULL). *)
Inductive fres (T : Type) := FUB | FDone (e : option Z) (r : option (file_source T)).
Arguments FUB {T}. Arguments FDone {T}.

(** polycap_set_error_literal on the error variable (src/polycap-error.c:145-153): the first
    one stays. *)
Definition report (e : option Z) (c : Z) : option Z := match e with None => Some c | Some _ => e end.

Section FromFile.
Context {T : Type} {N : Num T}.
Local Notation token := (token T).

(** fscanf with one conversion: result, the variable afterwards, what is left of the file. *)
Definition scan1 {A} (get : token -> option A) (old : option A) (ts : list token) : Z * option A * list token :=
  match ts with
  | [] => ((-1)%Z, old, [])
  | t :: r => match get t with Some v => (1%Z, Some v, r) | None => (0%Z, old, ts) end
  end.

(** fscanf with two conversions. *)
Definition scan2 {A B} (ga : token -> option A) (gb : token -> option B) (oa : option A) (ob : option B) (ts : list token)
  : Z * option A * option B * list token :=
  let '(n, a, ts) := scan1 ga oa ts in
  if Z.eqb n 1 then
    let '(m, b, ts) := scan1 gb ob ts in
    ((if Z.eqb m 1 then 2 else 1)%Z, a, b, ts)
  else (n, a, ob, ts).

(** src/polycap-source.c:273-277 and alike: only the result 0 is looked at. *)
Definition read1 {A} (get : token -> option A) (old : option A) (e : option Z) (ts : list token)
    (k : option A -> list token -> fres T) : fres T :=
  let '(n, a, ts) := scan1 get old ts in
  if Z.eqb n 0 then FDone (report e POLYCAP_ERROR_IO) None else k a ts.
Definition read2 (old1 old2 : option T) (e : option Z) (ts : list token)
    (k : option T -> option T -> list token -> fres T) : fres T :=
  let '(n, a, b, ts) := scan2 as_dbl as_dbl old1 old2 ts in
  if Z.eqb n 0 then FDone (report e POLYCAP_ERROR_IO) None else k a b ts.

(** A value is needed: an uninitialised variable is undefined behaviour. *)
Definition need {A} (a : option A) (k : A -> fres T) : fres T := match a with None => FUB | Some v => k v end.

(** The composition loop: src/polycap-source.c:328-331 (freshly allocated arrays). *)
Fixpoint read_elems (n : nat) (ts : list token) : option (list Z * list T * list token) :=
  match n with
  | O => Some ([], [], ts)
  | S n =>
      let '(_, z, w, ts) := scan2 as_int as_dbl None None ts in
      match z, w with
      | Some z, Some w =>
          match read_elems n ts with
          | Some (zs, ws, ts) => Some (z :: zs, (w / #100) :: ws, ts)
          | None => None
          end
      | _, _ => None
      end
  end.

(** a sequence of unchecked fscanf conversions into uninitialised variables; [None] once
    one of them is not assigned. *)
Fixpoint read_dbl_vars (n : nat) (ts : list token) : option (list T * list token) :=
  match n with
  | O => Some ([], ts)
  | S n =>
      match scan1 as_dbl None ts with
      | (_, Some v, ts) => match read_dbl_vars n ts with Some (vs, ts) => Some (v :: vs, ts) | None => None end
      | _ => None
      end
  end.

(** The polynomial fit inside polycap_profile_new, and profiles from files
    (polycap_profile_new_from_file, not modelled): arbitrary. *)
Variable fit : list (T * T) -> T * T * T.
Variable profile_from_files : list token -> option (profile T) * list token.

(** polycap_profile_new, its result as a value: src/polycap-profile.c:66-207; the arrays are
    those [profile_new] builds in memory (ProfileProofs.profile_new_success). *)
Definition profile_value (type : Z) (len re_up re_down ri_up ri_down fd_up fd_down : T) : option (profile T) :=
  match arg_error len re_up re_down ri_up ri_down fd_up fd_down with
  | Some _ => None
  | None => Some (mkProfile 999 (List.map (pz len) (seq 0 npts)) (List.map (pc len ri_up ri_down) (seq 0 npts))
                    (List.map (pe fit type len re_up re_down fd_up fd_down) (seq 0 npts)))
  end.

(** src/polycap-source.c:345-366 *)
Definition read_profile (type : Z) (ts : list token) : option (option (profile T) * list token) :=
  if (Z.eqb type 0 || Z.eqb type 1 || Z.eqb type 2)%bool then
    match read_dbl_vars 7 ts with
    | Some ([len; re_up; re_down; ri_up; ri_down; fu; fd], ts) =>
        Some (profile_value type len re_up re_down ri_up ri_down fu fd, ts)
    | _ => None
    end
  else Some (profile_from_files ts).

(** the checks: src/polycap-source.c:379-441, in order; true = refused *)
Definition file_checks (f : file_source T) : bool :=
  (so_d (fs_nums f) <? #0) || (so_x (fs_nums f) <? #0) || (so_y (fs_nums f) <? #0)
  || Nat.leb (List.length (fs_energies f)) 0
  || existsb (fun x => (x <? #1) || (x >? #100)) (fs_energies f)
  || Z.ltb (fs_ncap f) 1
  || ((fs_open f <? #0) || (fs_open f >? #1))
  || Nat.ltb (List.length (fs_iz f)) 1
  || existsb (fun z => Z.ltb z 1 || Z.ltb 94 z) (fs_iz f)
  || (fs_dens f <? #0).

(** src/polycap-source.c:371-444: composition check (its outcome is only reported), open
    area, checks, validation. *)
Definition finish (e : option Z) (f : file_source T) : fres T :=
  let nw := norm_weights (fs_wi f) in
  let e := if snd nw then e else report e POLYCAP_ERROR_INVALID_ARGUMENT in
  match p_cap (fs_prof f), p_ext (fs_prof f) with
  | c0 :: _, e0 :: _ =>
      let f := mkFS (fs_nums f) (fs_energies f) (fs_sig f) (fs_ncap f) (open_area_num (fs_ncap f) c0 e0)
                    (fs_iz f) (fst nw) (fs_dens f) (fs_prof f) in
      if file_checks f then FDone (report e POLYCAP_ERROR_INVALID_ARGUMENT) None
      else
        match profile_validate (fs_prof f) (fs_ncap f) with
        | None => FUB
        | Some v =>
            if Z.eqb v 1 then FDone e (Some f)
            else FDone (Some POLYCAP_ERROR_INVALID_ARGUMENT) None  (* cleared, then set: lines 438-439 *)
        end
  | _, _ => FUB
  end.

(** for(i=0; i<n_energies; i++) energies[i] = e_start + i*delta_e : src/polycap-source.c:341-342 *)
Definition file_energies (e_start delta_e : T) (n : nat) : list T :=
  List.map (fun i => e_start + nofZ (Z.of_nat i) * delta_e) (seq 0 n).

(** polycap_source_new_from_file after the file was opened: src/polycap-source.c:273-444.
    [e]: the error variable on entry.  Variables in the two calloc'ed structs start as 0. *)
Definition source_from_file (e : option Z) (ts : list token) : fres T :=
  read1 as_dbl (Some (#0)) e ts (fun sig ts =>
  read1 as_dbl (Some (#0)) e ts (fun d ts =>
  read2 (Some (#0)) (Some (#0)) e ts (fun x y ts =>
  read2 (Some (#0)) (Some (#0)) e ts (fun sx sy ts =>
  read2 (Some (#0)) (Some (#0)) e ts (fun hx hy ts =>
  read1 as_dbl (Some (#0)) e ts (fun pol ts =>
  read1 as_int (Some 0%Z) e ts (fun nelem ts =>
  need nelem (fun nelem =>
  need (read_elems (Z.to_nat nelem) ts) (fun '(zs, ws, ts) =>
  let '(_, dens, ts) := scan1 as_dbl (Some (#0)) ts in
  need (read_dbl_vars 3 ts) (fun '(es, ts) =>
  match es with
  | [e_start; e_final; delta_e] =>
      need (ntoZ ((e_final - e_start) / delta_e + #1)) (fun n =>
      if Z.ltb n 0 then FUB
      else
        let ens := file_energies e_start delta_e (Z.to_nat n) in
        let '(_, _, ts) := scan1 as_int None ts in
        let '(_, type, ts) := scan1 as_int None ts in
        need type (fun type =>
        need (read_profile type ts) (fun '(prof, ts) =>
        match prof with
        | None => FDone (report e POLYCAP_ERROR_INVALID_ARGUMENT) None
        | Some prof =>
            let '(_, n_cap, ts) := scan1 as_int (Some 0%Z) ts in
            need n_cap (fun n_cap =>
            need sig (fun sig => need d (fun d => need x (fun x => need y (fun y => need sx (fun sx => need sy (fun sy =>
            need hx (fun hx => need hy (fun hy => need pol (fun pol => need dens (fun dens =>
            finish e (mkFS (mkSource d x y sx sy hx hy pol) ens sig n_cap (#0) zs ws dens prof))))))))))))
        end)))
  | _ => FUB
  end)))))))))).

End FromFile.
