(** * Model of polycap_read_input_line (src/polycap-description.c:24-56), heap level *)
From Coq Require Import ZArith List Bool Lia String.
From Verif Require Import Mem ErrorModel ProfileModel.
Import ListNotations.
Local Open Scope mem_scope.

Section Line.
Context {T : Type}.
Local Notation M := (M T).

(** realloc (C library): a new block of [n] cells with the old contents as far as they
    fit, the old block is gone; on failure NULL, the old block is untouched. *)
Definition realloc (p : ptr) (n : nat) : M ptr := fun s =>
  match p with
  | None => malloc n s
  | Some l =>
      match mem s l with
      | None => UB
      | Some b =>
          if orc s (cnt s)
          then Ok (Some (nxt s),
                   mkSt (upd (upd (mem s) l None) (nxt s) (Some (firstn n b ++ repeat Vundef (n - List.length b))))
                        (S (nxt s)) (orc s) (S (cnt s)))
          else Ok (NULL, mkSt (mem s) (nxt s) (orc s) (S (cnt s)))
      end
  end.

(** '\n' *)
Definition newline : Z := 10.

(** The reading loop: src/polycap-description.c:45-52.  [stream] is what is left of the
    file (one number per byte; the end of the list is EOF); [j], [size] are the variables
    j and str_current_size.  Simplification: [j] does not wrap around at 2^32. *)
Fixpoint read_loop (stream : list Z) (p : ptr) (j size : nat) : M (ptr * nat * list Z) :=
  match stream with
  | [] => ret (p, j, [])
  | c :: rest =>
      if Z.eqb c newline then ret (p, j, rest)
      else
        store p j (Vint c) ;;;
        if Nat.eqb (S j) size
        then q <- realloc p (S j + 128) ;; read_loop rest q (S j) (S j + 128)
        else read_loop rest p (S j) size
  end.

(** polycap_read_input_line: src/polycap-description.c:24-56.  A file is NULL or what is
    left to read; the result is the string and what is left afterwards. *)
Definition read_input_line (file : option (list Z)) (err : eslot) : M (ptr * list Z) :=
  match file with
  | None =>
      set_error_literal err POLYCAP_ERROR_INVALID_ARGUMENT
        (Some "polycap_read_input_line: fptr cannot be NULL"%string) ;;; ret (NULL, [])
  | Some stream =>
      p <- malloc 128 ;;
      match p with
      | None => mem_error err "polycap_read_input_line: could not allocate memory for strPtr" ;;; ret (NULL, stream)
      | Some _ =>
          r <- read_loop stream p 0 128 ;;
          let '(q, j, rest) := r in
          store q j (Vint 0) ;;;
          o <- realloc q (S j) ;;
          ret (o, rest)
      end
  end.

End Line.
