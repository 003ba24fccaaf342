(** * Model of src/polycap-error.c (and polycap_strdup of src/polycap-aux.c) *)
From Coq Require Import ZArith List Bool Lia String.
From Verif Require Import Mem.
Import ListNotations.
Local Open Scope mem_scope.

(** enum polycap_error_code, include/polycap-error.h:65-73 (declaration order). *)
Definition POLYCAP_ERROR_MEMORY : Z := 0.
Definition POLYCAP_ERROR_INVALID_ARGUMENT : Z := 1.
Definition POLYCAP_ERROR_IO : Z := 2.
Definition POLYCAP_ERROR_OPENMP : Z := 3.
Definition POLYCAP_ERROR_TYPE : Z := 4.
Definition POLYCAP_ERROR_UNSUPPORTED : Z := 5.
Definition POLYCAP_ERROR_RUNTIME : Z := 6.

(** A polycap_error object is a block [code; message]
    (include/polycap-error.h, struct _polycap_error). *)
Notation E_CODE := 0 (only parsing).
Notation E_MSG := 1 (only parsing).

Section Error.
Context {T : Type}.
Local Notation M := (M T).
Local Notation val := (val T).


(** polycap_strdup: src/polycap-aux.c:20-30 (a single-cell string block; NULL when
    memory is exhausted).  Also used for vasprintf in polycap_strdup_vprintf,
    src/polycap-error.c:22-41: the formatted text is the given string.
    Simplification: vasprintf fails only for lack of memory. *)
Definition strdup (s : string) : M ptr := alloc [Vstr s].

(** polycap_error_new_valist / polycap_error_new_literal:
    src/polycap-error.c:43-56 and 75-88.  The two differ only in how the text is
    duplicated.  [msg = None] is a NULL format/message.  The result of the malloc
    in line 51/83 is not checked. *)
Definition error_new (code : Z) (msg : option string) : M ptr :=
  match msg with
  | None => ret NULL
  | Some m =>
      e <- malloc 2 ;;
      store e E_CODE (Vint code) ;;;
      d <- strdup m ;;
      store e E_MSG (Vptr d) ;;;
      ret e
  end.

(** polycap_error_free: src/polycap-error.c:90-98. *)
Definition error_free (e : ptr) : M unit :=
  match e with
  | None => ret tt
  | Some _ =>
      m <- load_ptr e E_MSG ;;
      (match m with Some _ => free m | None => ret tt end) ;;;
      free e
  end.

(** polycap_error_copy: src/polycap-error.c:100-115.  The struct assignment in
    line 108 copies both fields, line 110 resets the message. *)
Definition error_copy (e : ptr) : M ptr :=
  match e with
  | None => ret NULL
  | Some _ =>
      c <- malloc 2 ;;
      code <- load_int e E_CODE ;;
      store c E_CODE (Vint code) ;;;
      store c E_MSG (Vptr NULL) ;;;
      m <- load_ptr e E_MSG ;;
      (match m with
       | Some _ => s <- load_str m 0 ;; d <- strdup s ;; store c E_MSG (Vptr d)
       | None => ret tt
       end) ;;;
      ret c
  end.

(** polycap_error_matches: src/polycap-error.c:117-119. *)
Definition error_matches (e : ptr) (code : Z) : M bool :=
  match e with
  | None => ret false
  | Some _ => c <- load_int e E_CODE ;; ret (Z.eqb c code)
  end.

(** An error argument [polycap_error **]: NULL, or the address of a one-cell
    block holding a [polycap_error *]. *)
Definition eslot := ptr.

(** polycap_set_error: src/polycap-error.c:125-143.  The new error object is built
    first; over an occupied slot its message is printed (reading it: undefined for
    a NULL object, line 140) and it is freed again. *)
Definition set_error (err : eslot) (code : Z) (fmt : option string) : M unit :=
  match err with
  | None => ret tt
  | Some _ =>
      n <- error_new code fmt ;;
      old <- load_ptr err 0 ;;
      match old with
      | None => store err 0 (Vptr n)
      | Some _ => (_ <- load_ptr n E_MSG ;; error_free n)
      end
  end.

(** polycap_set_error_literal: src/polycap-error.c:145-153. *)
Definition set_error_literal (err : eslot) (code : Z) (msg : option string) : M unit :=
  match err with
  | None => ret tt
  | Some _ =>
      old <- load_ptr err 0 ;;
      match old with
      | None => n <- error_new code msg ;; store err 0 (Vptr n)
      | Some _ => ret tt
      end
  end.

(** polycap_propagate_error: src/polycap-error.c:155-175. *)
Definition propagate_error (dest : eslot) (src : ptr) : M unit :=
  match src with
  | None => ret tt
  | Some _ =>
      match dest with
      | None => error_free src
      | Some _ =>
          old <- load_ptr dest 0 ;;
          match old with
          | Some _ => (_ <- load_ptr src E_MSG ;; error_free src)
          | None => store dest 0 (Vptr src)
          end
      end
  end.

(** polycap_clear_error: src/polycap-error.c:177-182. *)
Definition clear_error (err : eslot) : M unit :=
  match err with
  | None => ret tt
  | Some _ =>
      old <- load_ptr err 0 ;;
      match old with
      | None => ret tt
      | Some _ => error_free old ;;; store err 0 (Vptr NULL)
      end
  end.

End Error.
