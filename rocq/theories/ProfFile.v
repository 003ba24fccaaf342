(** * Model of polycap_profile_new_from_file (src/polycap-profile.c:211-320, heap level)

    A file is a list of tokens (FromFile.token).  A file argument is [None] for a NULL name,
    [Some None] for a file that cannot be opened, [Some (Some ts)] for a readable file with
    contents [ts].  The second component of the result counts the files that were opened with
    fopen and not closed.  Simplifications: a token is converted as a whole or not at all; a
    text larger than an int is not a number for %d; sizes are counted in cells; the messages
    omit the file names and the strerror suffix. *)
From Coq Require Import ZArith List Bool Lia String.
From Verif Require Import Num Mem ErrorModel ProfileModel FromFile.
Import ListNotations.
Local Open Scope mem_scope.

Section ProfFile.
Context {T : Type}.
Local Notation M := (M T).
Local Notation token := (token T).

(** fscanf(fptr, "%lf ... %lf", targets): a conversion stores its value if it succeeds and
    ends the call if it fails; the result of fscanf is not looked at.  [None]: the local
    variables sx, sy, never used (src/polycap-profile.c:295). *)
Fixpoint fscan_cells (targets : list (option (ptr * nat))) (ts : list token) : M (list token) :=
  match targets with
  | [] => ret ts
  | t :: r =>
      match ts with
      | [] => ret []
      | tok :: rest =>
          match as_dbl tok with
          | None => ret ts
          | Some v =>
              (match t with Some (p, i) => store p i (Vdbl v) | None => ret tt end) ;;;
              fscan_cells r rest
          end
      end
  end.

(** for(i=0; i<=profile->nmax; i++){ fscanf(...); } : src/polycap-profile.c:275-277, 294-296, 311-313. *)
Fixpoint scan_rows (k i : nat) (row : nat -> list (option (ptr * nat))) (ts : list token) : M (list token) :=
  match k with
  | O => ret ts
  | S k => ts <- fscan_cells (row i) ts ;; scan_rows k (S i) row ts
  end.
Definition row2 (z a : ptr) (i : nat) : list (option (ptr * nat)) := [Some (z, i); Some (a, i)].
Definition row3 (z : ptr) (i : nat) : list (option (ptr * nat)) := [Some (z, i); None; None].

(** fscanf(fptr,"%d",&n_tmp): src/polycap-profile.c:240, 288, 305. *)
Definition scan_count (old : option Z) (ts : list token) : option Z * list token :=
  let '(_, n, ts) := scan1 as_int old ts in (n, ts).

Definition int_max : Z := 2147483647.

(** src/polycap-profile.c:247-272: allocation with clean-up on failure.  The first file is
    still open and stays open. *)
Definition file_alloc (n : Z) (err : eslot) (k : ptr -> ptr -> ptr -> ptr -> M (ptr * nat)) : M (ptr * nat) :=
  p <- malloc 4 ;;
  match p with
  | None => mem_error err "polycap_profile_new_from_file: could not allocate memory for profile" ;;; ret (NULL, 1)
  | Some _ =>
      store p P_NMAX (Vint n) ;;;
      z <- malloc (Z.to_nat (n + 1)) ;;
      store p P_Z (Vptr z) ;;;
      match z with
      | None => mem_error err "polycap_profile_new_from_file: could not allocate memory for profile->z" ;;;
                free p ;;; ret (NULL, 1)
      | Some _ =>
          cap <- malloc (Z.to_nat (n + 1)) ;;
          store p P_CAP (Vptr cap) ;;;
          match cap with
          | None => mem_error err "polycap_profile_new_from_file: could not allocate memory for profile->cap" ;;;
                    free z ;;; free p ;;; ret (NULL, 1)
          | Some _ =>
              ext <- malloc (Z.to_nat (n + 1)) ;;
              store p P_EXT (Vptr ext) ;;;
              match ext with
              | None => mem_error err "polycap_profile_new_from_file: could not allocate memory for profile->ext" ;;;
                        free cap ;;; free z ;;; free p ;;; ret (NULL, 1)
              | Some _ => k p z cap ext
              end
          end
      end
  end.

(** Opening and reading the second and third file: src/polycap-profile.c:281-298, 300-315.
    [n_tmp]: the variable before; it keeps its value if no number is found. *)
Definition next_file (name : string) (p : ptr) (n n_tmp : Z) (row : nat -> list (option (ptr * nat)))
    (f : option (list token)) (err : eslot) (k : M (ptr * nat)) : M (ptr * nat) :=
  match f with
  | None =>
      set_error err POLYCAP_ERROR_IO (Some ("polycap_profile_new_from_file: could not open " ++ name)%string) ;;;
      profile_free p ;;; ret (NULL, 0)
  | Some ts =>
      match scan_count (Some n_tmp) ts with
      | (Some m, ts) =>
          if Z.eqb n m then
            _ts <- scan_rows (Z.to_nat (n + 1)) 0 row ts ;; k
          else
            set_error err POLYCAP_ERROR_IO (Some ("polycap_profile_new_from_file: Number of intervals inconsistent: " ++ name)%string) ;;;
            profile_free p ;;; ret (NULL, 1)
      | (None, _) => ub
      end
  end.

(** polycap_profile_new_from_file: src/polycap-profile.c:211-320. *)
Definition profile_new_from_file (f1 f2 f3 : option (option (list token))) (err : eslot) : M (ptr * nat) :=
  match f1 with
  | None => set_error_literal err POLYCAP_ERROR_INVALID_ARGUMENT
              (Some "polycap_profile_new_from_file: single_cap_profile_file cannot be NULL"%string) ;;; ret (NULL, 0)
  | Some f1 =>
  match f2 with
  | None => set_error_literal err POLYCAP_ERROR_INVALID_ARGUMENT
              (Some "polycap_profile_new_from_file: central_axis_file cannot be NULL"%string) ;;; ret (NULL, 0)
  | Some f2 =>
  match f3 with
  | None => set_error_literal err POLYCAP_ERROR_INVALID_ARGUMENT
              (Some "polycap_profile_new_from_file: external_shape_file cannot be NULL"%string) ;;; ret (NULL, 0)
  | Some f3 =>
  match f1 with
  | None => set_error err POLYCAP_ERROR_IO
              (Some "polycap_profile_new_from_file: could not open single_cap_profile_file"%string) ;;; ret (NULL, 0)
  | Some ts =>
  match scan_count None ts with
  | (None, _) => ub                       (* n_tmp is read uninitialised: line 242 *)
  | (Some n, ts) =>
      if Z.leb n 100 then
        set_error_literal err POLYCAP_ERROR_INVALID_ARGUMENT
          (Some "polycap_profile_new_from_file: n_tmp must be greater than 100"%string) ;;; ret (NULL, 1)
      else if Z.leb int_max n then ub     (* profile->nmax+1 overflows: line 253 *)
      else
        file_alloc n err (fun p z cap ext =>
          _ts <- scan_rows (Z.to_nat (n + 1)) 0 (row2 z cap) ts ;;
          next_file "central_axis_file" p n n (row3 z) f2 err (
          next_file "external_shape_file" p n n (row2 z ext) f3 err (
          ret (p, 0))))
  end end end end end.

End ProfFile.
