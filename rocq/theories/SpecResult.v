(** * Vocabulary: result objects in memory (only about heaps)

    What polycap_source_get_transmission_efficiencies hands out, as data and as blocks. *)
From Coq Require Import ZArith List Bool Lia.
From Verif Require Import Num Mem SpecHeap Geometry SpecPhoton.
Import ListNotations.

Section Spec.
Context {T : Type}.

(** What is recorded of one transmitted photon: where it left the source, where and in which
    direction and with which electric vector it entered the optic, the same where it left it,
    how often it was reflected, how far it travelled and one weight per energy.  Directions
    and electric vectors are recorded by x and y only. *)
Record exit_row := mkRow {
  r_src : T * T; r_start : T * T; r_start_dir : T * T; r_start_elecv : T * T;
  r_exit : vec3 T; r_exit_dir : T * T; r_exit_elecv : T * T;
  r_nrefl : Z; r_travel : T; r_weights : list T }.

(** What is recorded of one leak. *)
Record leak_row := mkLeakRow {
  k_coords : vec3 T; k_dir : T * T; k_elecv : T * T; k_nrefl : Z; k_weights : list T }.

Record result := mkResult {
  q_started : Z; q_rows : list exit_row; q_ext : list leak_row; q_int : list leak_row;
  q_energies : list T; q_effs : list T }.

Definition dcol {A} (f : A -> T) (l : list A) : list (val T) := List.map (fun a => Vdbl (f a)) l.
Definition icol {A} (f : A -> Z) (l : list A) : list (val T) := List.map (fun a => Vint (f a)) l.
Definition wcol {A} (f : A -> list T) (l : list A) : list (val T) := List.concat (List.map (fun a => List.map Vdbl (f a)) l).

(** The arrays of the struct, column by column in its order (src/polycap-private.h:160-180). *)
Definition row_columns (l : list exit_row) : list (list (val T)) :=
  [dcol (fun r => fst (r_src r)) l; dcol (fun r => snd (r_src r)) l;
   dcol (fun r => fst (r_start r)) l; dcol (fun r => snd (r_start r)) l;
   dcol (fun r => fst (r_start_dir r)) l; dcol (fun r => snd (r_start_dir r)) l;
   dcol (fun r => fst (r_start_elecv r)) l; dcol (fun r => snd (r_start_elecv r)) l;
   dcol (fun r => vx (r_exit r)) l; dcol (fun r => vy (r_exit r)) l; dcol (fun r => vz (r_exit r)) l;
   dcol (fun r => fst (r_exit_dir r)) l; dcol (fun r => snd (r_exit_dir r)) l;
   dcol (fun r => fst (r_exit_elecv r)) l; dcol (fun r => snd (r_exit_elecv r)) l;
   icol r_nrefl l; dcol r_travel l; wcol r_weights l].
Definition ext_columns (l : list leak_row) : list (list (val T)) :=
  [dcol (fun k => vx (k_coords k)) l; dcol (fun k => vy (k_coords k)) l; dcol (fun k => vz (k_coords k)) l;
   dcol (fun k => fst (k_dir k)) l; dcol (fun k => snd (k_dir k)) l; wcol k_weights l; icol k_nrefl l].
Definition int_columns (l : list leak_row) : list (list (val T)) :=
  [dcol (fun k => vx (k_coords k)) l; dcol (fun k => vy (k_coords k)) l; dcol (fun k => vz (k_coords k)) l;
   dcol (fun k => fst (k_dir k)) l; dcol (fun k => snd (k_dir k)) l;
   dcol (fun k => fst (k_elecv k)) l; dcol (fun k => snd (k_elecv k)) l; wcol k_weights l; icol k_nrefl l].

(** [p] points to an array that begins with [cells] (NULL: there are none). *)
Definition begins (s : st T) (p : ptr) (cells : list (val T)) : Prop :=
  match p with Some l => exists more, mem s l = Some (cells ++ more) | None => cells = [] end.

(** The data has one weight per energy everywhere. *)
Definition regular (r : result) : Prop :=
  List.length (q_effs r) = List.length (q_energies r) /\
  Forall (fun x => List.length (r_weights x) = List.length (q_energies r)) (q_rows r) /\
  Forall (fun k => List.length (k_weights k) = List.length (q_energies r)) (q_ext r) /\
  Forall (fun k => List.length (k_weights k) = List.length (q_energies r)) (q_int r).

(** [eff] is a result object holding [r]: its images struct is at [im], its arrays are at
    [pen], [peff], [p1], [p2], [p3]; [src] is the source it was made for. *)
Definition result_object (s : st T) (eff im : loc) (pen peff src : ptr) (p1 p2 p3 : list ptr) (r : result) : Prop :=
  regular r /\
  mem s eff = Some [Vint (Z.of_nat (List.length (q_energies r))); Vptr pen; Vptr peff; Vptr (Some im); Vptr src] /\
  mem s im = Some (Vint (q_started r) :: Vint (Z.of_nat (List.length (q_rows r))) :: List.map Vptr p1 ++
                   Vint (Z.of_nat (List.length (q_ext r))) :: List.map Vptr p2 ++
                   Vint (Z.of_nat (List.length (q_int r))) :: List.map Vptr p3) /\
  begins s pen (List.map Vdbl (q_energies r)) /\ begins s peff (List.map Vdbl (q_effs r)) /\
  Forall2 (begins s) p1 (row_columns (q_rows r)) /\
  Forall2 (begins s) p2 (ext_columns (q_ext r)) /\
  Forall2 (begins s) p3 (int_columns (q_int r)).

(** All blocks of a result object. *)
Definition result_blocks (eff im : loc) (pen peff : ptr) (p1 p2 p3 : list ptr) : list loc :=
  List.concat (List.map plocs (pen :: peff :: p1 ++ p2 ++ p3)) ++ [im; eff].

(** [l] is an array of vectors. *)
Definition vec_array (s : st T) (l : loc) (vs : list (vec3 T)) : Prop :=
  mem s l = Some (List.concat (List.map vcells vs)).

(** [l] is an array of pointers to arrays of doubles, which live in [ls]. *)
Definition dbl_arrays (s : st T) (l : loc) (ls : list loc) (xss : list (list T)) : Prop :=
  mem s l = Some (List.map (fun a => Vptr (Some a)) ls) /\ Forall2 (dbl_array s) ls xss.

(** [l] is a leak object, its weights in block [w]; [ev] is its electric vector, or nothing
    if that part of it was never written. *)
Definition leak_record (s : st T) (l w : loc) (coords dir : vec3 T) (ev : option (vec3 T)) (nrefl : Z) (ws : list T) : Prop :=
  mem s l = Some (vcells coords ++ vcells dir ++ match ev with Some v => vcells v | None => [Vundef; Vundef; Vundef] end ++
                  [Vint (Z.of_nat (List.length ws)); Vptr (Some w); Vint nrefl]) /\
  dbl_array s w ws.

(** [l] is an array of pointers to leak objects, one for each of [ks]. *)
Definition leak_records (s : st T) (l : loc) (ls : list (loc * loc)) (dir : leak_row -> vec3 T) (ev : leak_row -> option (vec3 T)) (ks : list leak_row) : Prop :=
  mem s l = Some (List.map (fun lw => Vptr (Some (fst lw))) ls) /\
  Forall2 (fun lw k => leak_record s (fst lw) (snd lw) (k_coords k) (dir k) (ev k) (k_nrefl k) (k_weights k)) ls ks.

(** [l] is a variable. *)
Definition variable (s : st T) (l : loc) : Prop := exists v, mem s l = Some [v].

(** Directions and electric vectors are handed out with z rebuilt from x and y. *)
Definition completed {N : Num T} (xy : T * T) : vec3 T :=
  mkV (fst xy) (snd xy) (nsqrt (#1 - fst xy * fst xy - snd xy * snd xy)%num).
(** A point in a plane z = 0. *)
Definition flat {N : Num T} (xy : T * T) : vec3 T := mkV (fst xy) (snd xy) (#0)%num.

(** After a failed allocation the report itself gets memory. *)
Definition reports_fit (err : ptr) (s : st T) : Prop :=
  forall k, orc s k = false -> err = None \/ (orc s (S k) = true /\ orc s (S (S k)) = true).

(** What every failing getter leaves behind: a new error with code [c] (unless there was one),
    and, apart from the variables [outs], every block as it was. *)
Definition failed (err : ptr) (c : Z) (outs : list loc) (s s' : st T) : Prop :=
  (forall l b, mem s l = Some b -> ~ In l outs -> err <> Some l -> mem s' l = Some b) /\
  (forall e, err = Some e ->
     (slot_holds s e NULL -> exists p t m, slot_holds s' e (Some p) /\ error_object s' p t c m /\
        (forall l, l = p \/ l = t -> ~ In l outs -> mem s l = None)) /\
     (forall p, slot_holds s e (Some p) -> slot_holds s' e (Some p))).

(** The report itself gets memory. *)
Definition report_fits (err : ptr) (s : st T) : Prop := err <> None -> orc s (cnt s) = true /\ orc s (S (cnt s)) = true.

End Spec.
Arguments exit_row T : clear implicits.
Arguments leak_row T : clear implicits.
Arguments result T : clear implicits.
