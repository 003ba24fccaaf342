(** * Model of polycap_source_get_transmission_efficiencies in memory
      (src/polycap-source.c:448-1079)

    RunModel.v says what the threads compute; here is what the function does to memory: its
    argument checks, its allocations with their clean-up, the effects of the threads on the
    arrays of the result object, and the completion of that object.

    Simplifications: the memory private to a thread (photons, its weights, its leak arrays,
    its random generator) is not on this heap, its contents are the lists of RunModel.v, and
    allocating it is assumed to succeed; the printed lines are left out; the texts of the
    messages about failed allocations are shortened; efficiencies->images is read once in the
    preparation.  malloc(0) gives a block, as glibc does. *)
From Coq Require Import ZArith List Bool Lia String.
From Verif Require Import Num Mem ErrorModel ProfileModel Geometry SpecPhoton ConsModel ResultModel H5Model CapilModel RunModel.
Import ListNotations.
Local Open Scope mem_scope.

Section Sim.
Context {T : Type} {N : Num T}.
Local Notation M := (M T).

(** The variables of the function that point into memory, and max_threads (lines 450-455). *)
Record sim_vars := mkVars {
  v_source : ptr; v_desc : ptr; v_threads : nat;
  v_sum : ptr; v_exit : ptr; v_nent : ptr; v_ntrans : ptr; v_eff : ptr }.

(** if (b) { polycap_set_error_literal(INVALID_ARGUMENT); return NULL; } *)
Definition refuse_sim {A} (b : bool) (err : eslot) (msg : string) (k : M (option A)) : M (option A) :=
  if b then set_error_literal err POLYCAP_ERROR_INVALID_ARGUMENT (Some msg) ;;; ret None else k.

(** p = malloc(n); if (p == NULL) { report; return NULL; }: lines 499-525.  What was obtained
    before is not released. *)
Definition alloc_or_leak {A} (n : nat) (err : eslot) (msg : string) (k : ptr -> M (option A)) : M (option A) :=
  p <- malloc n ;;
  match p with
  | None => mem_error err msg ;;; ret None
  | Some _ => k p
  end.

(** An array of the result object: its pointer goes to cell [i] of [obj]; without memory the
    object made so far and sum_weights are released (lines 541-553 and 564-680). *)
Definition alloc_field {A} (obj : ptr) (i n : nat) (eff sum : ptr) (err : eslot) (k : ptr -> M (option A)) : M (option A) :=
  p <- malloc n ;;
  store obj i (Vptr p) ;;;
  match p with
  | None => mem_error err "polycap_source_get_transmission_efficiencies: could not allocate memory" ;;;
            efficiencies_free eff ;;; free sum ;;; ret None
  | Some _ => k p
  end.
Fixpoint alloc_fields {A} (obj : ptr) (fs : list (nat * nat)) (eff sum : ptr) (err : eslot) (k : M (option A)) : M (option A) :=
  match fs with
  | [] => k
  | (i, n) :: fs => alloc_field obj i n eff sum err (fun _ => alloc_fields obj fs eff sum err k)
  end.

(** The arrays of efficiencies->images allocated before the simulation, with their sizes, in
    the order of lines 564-680. *)
Definition first_arrays (n ne : nat) : list (nat * nat) :=
  [(I_SC, n); (I_SC + 1, n); (I_SRC, n); (I_SRC + 1, n); (I_SD, n); (I_SD + 1, n); (I_SE, n); (I_SE + 1, n);
   (I_XC, n); (I_XC + 1, n); (I_XC + 2, n); (I_XD, n); (I_XD + 1, n); (I_XE, n); (I_XE + 1, n);
   (I_XREFL, n); (I_XTRAV, n); (I_XW, n * ne)].

(** calloc(1, sizeof(...)): lines 533 and 557. *)
Definition new_eff : list (val T) := [Vint 0; Vptr NULL; Vptr NULL; Vptr NULL; Vptr NULL].
Definition new_images : list (val T) :=
  Vint 0 :: Vint 0 :: List.repeat (Vptr NULL) 18 ++ Vint 0 :: List.repeat (Vptr NULL) 7 ++ Vint 0 :: List.repeat (Vptr NULL) 9.

(** efficiencies and all it points to: lines 532-682. *)
Definition prepare_result (source desc : ptr) (mt n ne : nat) (sum ie nent ntr : ptr) (err : eslot) : M (option sim_vars) :=
  eff <- alloc new_eff ;;
  match eff with
  | None => mem_error err "polycap_source_get_transmission_efficiencies: could not allocate memory for efficiencies" ;;;
            free sum ;;; ret None
  | Some _ =>
      alloc_field eff E_EN ne eff sum err (fun _ =>
      alloc_field eff E_EFF ne eff sum err (fun _ =>
      im <- alloc new_images ;;
      store eff E_IMG (Vptr im) ;;;
      match im with
      | None => mem_error err "polycap_source_get_transmission_efficiencies: could not allocate memory for efficiencies->images" ;;;
                efficiencies_free eff ;;; free sum ;;; ret None
      | Some _ =>
          alloc_fields im (first_arrays n ne) eff sum err (
          store eff E_SRC (Vptr source) ;;;
          ret (Some (mkVars source desc mt sum ie nent ntr eff)))
      end))
  end.

(** max_threads after the clamp of lines 493-495. *)
Definition clamp_threads (max_threads omp_max : Z) : Z :=
  if (Z.ltb max_threads 1 || Z.ltb omp_max max_threads)%bool then omp_max else max_threads.

(** Lines 457-682.  [omp_max]: omp_get_max_threads(). *)
Definition prepare (source monitor : ptr) (max_threads n_photons omp_max : Z) (err : eslot) : M (option sim_vars) :=
  refuse_sim (is_null source) err "polycap_source_get_transmission_efficiencies: source cannot be NULL" (
  refuse_sim (negb (is_null monitor)) err "polycap_source_get_transmission_efficiencies: progress_monitor must be NULL as polycap_progress_monitor currently has no implementation" (
  desc <- load_ptr source S_DESC ;;
  refuse_sim (is_null desc) err "polycap_source_get_transmission_efficiencies: description cannot be NULL" (
  ne <- load_int source S_NEN ;;
  refuse_sim (Z.ltb ne 1) err "polycap_source_get_transmission_efficiencies: source->n_energies must be greater than or equal to 1" (
  en <- load_ptr source S_EN ;;
  refuse_sim (is_null en) err "polycap_source_get_transmission_efficiencies: source->energies cannot be NULL" (
  ok <- energy_loop (Z.to_nat ne) 0 en ;;
  refuse_sim (negb ok) err "polycap_source_get_transmission_efficiencies: source->energies[i] must be greater than 1 and less than 100" (
  refuse_sim (Z.ltb n_photons 1) err "polycap_source_get_transmission_efficiencies: n_photons must be greater than 1" (
  let mt := Z.to_nat (clamp_threads max_threads omp_max) in
  let ne := Z.to_nat ne in
  alloc_or_leak ne err "polycap_source_get_transmission_efficiencies: could not allocate memory for sum_weights" (fun sum =>
  for_n ne 0 (fun i => store sum i (Vdbl (#0)%num)) ;;;
  alloc_or_leak mt err "polycap_source_get_transmission_efficiencies: could not allocate memory for iexit_temp" (fun ie =>
  alloc_or_leak mt err "polycap_source_get_transmission_efficiencies: could not allocate memory for not_entered_temp" (fun nent =>
  alloc_or_leak mt err "polycap_source_get_transmission_efficiencies: could not allocate memory for not_transmitted_temp" (fun ntr =>
  for_n mt 0 (fun i => store ie i (Vint 0) ;;; store nent i (Vint 0) ;;; store ntr i (Vint 0)) ;;;
  prepare_result source desc mt (Z.to_nat n_photons) ne sum ie nent ntr err))))))))))).

(** ** Effects of the threads *)
(** Shared variables of the function itself: sum_irefl, leak_counter, intleak_counter
    (uninitialised at first), and whether the single block was executed. *)
Record frame := mkFrame { f_irefl : Z; f_next : option nat; f_nint : option nat; f_single : bool }.
Definition frame0 : frame := mkFrame 0 None None false.

(** Where the arrays of RunModel.field live in the images struct. *)
Definition field_cell (f : field) : nat :=
  match f with
  | FSrcX => I_SRC | FSrcY => I_SRC + 1 | FStartX => I_SC | FStartY => I_SC + 1
  | FSdirX => I_SD | FSdirY => I_SD + 1 | FSelecX => I_SE | FSelecY => I_SE + 1
  | FExitX => I_XC | FExitY => I_XC + 1 | FExitZ => I_XC + 2 | FEdirX => I_XD | FEdirY => I_XD + 1
  | FEelecX => I_XE | FEelecY => I_XE + 1 | FNrefl => I_XREFL | FDtravel => I_XTRAV | FWeight _ => I_XW
  end.
(** ... and at which index: line 895 for the weights. *)
Definition field_index (f : field) (j ne : nat) : nat := match f with FWeight k => k + j * ne | _ => j end.
Definition entry_cell (e : entry T) : val T := match e with ED v => Vdbl v | EI n => Vint n end.

(** An element of an array private to the thread. *)
Definition own {A} (l : list A) (i : nat) : M A := match nth_error l i with Some a => ret a | None => ub end.

(** images->field = realloc(images->field, n) *)
Definition grow_field (im : ptr) (f n : nat) : M unit :=
  p <- load_ptr im f ;; q <- realloc p n ;; store im f (Vptr q).
Fixpoint grow_fields (im : ptr) (fs : list nat) (n : nat) : M unit :=
  match fs with [] => ret tt | f :: fs => grow_field im f n ;;; grow_fields im fs n end.

(** efficiencies->images->field[i] = v *)
Definition put_image (eff : ptr) (f i : nat) (v : val T) : M unit :=
  im <- load_ptr eff E_IMG ;; a <- load_ptr im f ;; store a i v.

(** One leak, lines 1005-1013. *)
Definition copy_ext (source eff : ptr) (c : nat) (d : leak_data T) : M unit :=
  put_image eff I_LC c (Vdbl (vx (lk_coords d))) ;;;
  put_image eff (I_LC + 1) c (Vdbl (vy (lk_coords d))) ;;;
  put_image eff (I_LC + 2) c (Vdbl (vz (lk_coords d))) ;;;
  put_image eff I_LD c (Vdbl (vx (lk_dir d))) ;;;
  put_image eff (I_LD + 1) c (Vdbl (vy (lk_dir d))) ;;;
  put_image eff I_LREFL c (Vint (lk_nrefl d)) ;;;
  ne <- load_int source S_NEN ;;
  for_n (Z.to_nat ne) 0 (fun l => w <- own (lk_weights d) l ;; put_image eff I_LW (c * Z.to_nat ne + l) (Vdbl w)).
(** One leak, lines 1016-1026. *)
Definition copy_int (source eff : ptr) (c : nat) (d : leak_data T) : M unit :=
  put_image eff I_NC c (Vdbl (vx (lk_coords d))) ;;;
  put_image eff (I_NC + 1) c (Vdbl (vy (lk_coords d))) ;;;
  put_image eff (I_NC + 2) c (Vdbl (vz (lk_coords d))) ;;;
  put_image eff I_ND c (Vdbl (vx (lk_dir d))) ;;;
  put_image eff (I_ND + 1) c (Vdbl (vy (lk_dir d))) ;;;
  put_image eff I_NE c (Vdbl (vx (lk_elecv d))) ;;;
  put_image eff (I_NE + 1) c (Vdbl (vy (lk_elecv d))) ;;;
  put_image eff I_NREFL c (Vint (lk_nrefl d)) ;;;
  ne <- load_int source S_NEN ;;
  for_n (Z.to_nat ne) 0 (fun l => w <- own (lk_weights d) l ;; put_image eff I_NW (c * Z.to_nat ne + l) (Vdbl w)).
(** The loops of lines 1004-1027; the counter after them.  Reading the counter before it was
    set is undefined behaviour. *)
Fixpoint copy_leaks (one : nat -> leak_data T -> M unit) (c : option nat) (l : list (leak_data T)) : M (option nat) :=
  match l with
  | [] => ret c
  | d :: l => match c with
              | None => ub
              | Some c => one c d ;;; copy_leaks one (Some (S c)) l
              end
  end.

(** for(i=0; i<n_energies; i++) sum_weights[i] += weights[i]: line 972. *)
Definition add_weights (sum : ptr) (ne : nat) (w : list T) : M unit :=
  for_n ne 0 (fun i => a <- load_dbl sum i ;; b <- own w i ;; store sum i (Vdbl (a + b)%num)).

(** images->field += n *)
Definition add_field (eff : ptr) (f : nat) (n : Z) : M unit :=
  im <- load_ptr eff E_IMG ;; o <- load_int im f ;; store im f (Vint (o + n)).

(** What an action of a thread (RunModel.action) does in memory: lines 754-1029. *)
Definition hact (v : sim_vars) (a : action T) (fr : frame) : M frame :=
  match a with
  | AIncr c t =>
      let p := match c with CExit => v_exit v | CNotEntered => v_nent v | CNotTransmitted => v_ntrans v end in
      o <- load_int p t ;; store p t (Vint (o + 1)) ;;; ret fr
  | AStore f j e =>
      ne <- load_int (v_source v) S_NEN ;;
      put_image (v_eff v) (field_cell f) (field_index f j (Z.to_nat ne)) (entry_cell e) ;;; ret fr
  | ARefl n => ret (mkFrame (f_irefl fr + n) (f_next fr) (f_nint fr) (f_single fr))
  | ASum w leaks =>
      ne <- load_int (v_source v) S_NEN ;;
      add_weights (v_sum v) (Z.to_nat ne) w ;;;
      match leaks with
      | None => ret fr
      | Some (e, i) => add_field (v_eff v) I_NEXT e ;;; add_field (v_eff v) I_NINT i ;;; ret fr
      end
  | ASingle =>
      if f_single fr then ret fr else
      im <- load_ptr (v_eff v) E_IMG ;;
      ne <- load_int (v_source v) S_NEN ;;
      e <- load_int im I_NEXT ;;
      grow_fields im [I_LC; I_LC + 1; I_LC + 2; I_LD; I_LD + 1; I_LREFL] (Z.to_nat e) ;;;
      grow_field im I_LW (Z.to_nat ne * Z.to_nat e) ;;;
      i <- load_int im I_NINT ;;
      grow_fields im [I_NC; I_NC + 1; I_NC + 2; I_ND; I_ND + 1; I_NE; I_NE + 1; I_NREFL] (Z.to_nat i) ;;;
      grow_field im I_NW (Z.to_nat ne * Z.to_nat i) ;;;
      ret (mkFrame (f_irefl fr) (Some 0) (Some 0) true)
  | ACopy ext int =>
      c <- copy_leaks (copy_ext (v_source v) (v_eff v)) (f_next fr) ext ;;
      d <- copy_leaks (copy_int (v_source v) (v_eff v)) (f_nint fr) int ;;
      ret (mkFrame (f_irefl fr) c d (f_single fr))
  end.

(** The team (as RunModel.step).  [None]: undefined behaviour happened. *)
Definition hrun (m : M frame) (s : st T) : option (frame * st T) :=
  match m s with Ok r => Some r | UB => None end.
Inductive hstep (v : sim_vars) : list (list (instr T)) * option (frame * st T) -> list (list (instr T)) * option (frame * st T) -> Prop :=
| hstep_act t a rest ths fr s :
    nth_error ths t = Some (Act a :: rest) ->
    hstep v (ths, Some (fr, s)) (RunModel.set_nth t rest ths, hrun (hact v a fr) s)
| hstep_barrier rests fs :
    rests <> [] -> hstep v (List.map (cons Barrier) rests, Some fs) (rests, Some fs).
Inductive hsteps (v : sim_vars) : list (list (instr T)) * option (frame * st T) -> list (list (instr T)) * option (frame * st T) -> Prop :=
| hsteps_refl c : hsteps v c c
| hsteps_cons c c' c'' : hstep v c c' -> hsteps v c' c'' -> hsteps v c c''.

(** ** The end: lines 1038-1078 *)
(** The loop of lines 1038-1042. *)
Fixpoint sum_counts (n from : nat) (ie nent ntr : ptr) (a b c : Z) : M (Z * Z * Z) :=
  match n with
  | O => ret (a, b, c)
  | S n =>
      x <- load_int ie from ;; y <- load_int nent from ;; z <- load_int ntr from ;;
      sum_counts n (S from) ie nent ntr (a + x) (b + y) (c + z)
  end.

(** One iteration of lines 1056-1060. *)
Definition finish_energy (v : sim_vars) (ie ntr : Z) (i : nat) : M unit :=
  en <- load_ptr (v_source v) S_EN ;; x <- load_dbl en i ;;
  pe <- load_ptr (v_eff v) E_EN ;; store pe i (Vdbl x) ;;;
  w <- load_dbl (v_sum v) i ;; o <- load_dbl (v_desc v) D_OPEN ;;
  pf <- load_ptr (v_eff v) E_EFF ;; store pf i (Vdbl (w / (nofZ ie + nofZ ntr) * o)%num).

Definition complete (v : sim_vars) : M ptr :=
  r <- sum_counts (v_threads v) 0 (v_exit v) (v_nent v) (v_ntrans v) 0 0 0 ;;
  let '(ie, nent, ntr) := r in
  store (v_desc v) D_OPEN (Vdbl (nofZ (ie + ntr)%Z / nofZ (ie + nent + ntr)%Z)%num) ;;;
  ne <- load_int (v_source v) S_NEN ;;
  store (v_eff v) E_NEN (Vint ne) ;;;
  im <- load_ptr (v_eff v) E_IMG ;;
  store im I_START (Vint (ie + nent + ntr)) ;;;
  store im I_EXIT (Vint ie) ;;;
  for_n (Z.to_nat ne) 0 (finish_energy v ie ntr) ;;;
  free (v_sum v) ;;; free (v_exit v) ;;; free (v_nent v) ;;; free (v_ntrans v) ;;;
  ret (v_eff v).

(** ** The call *)
(** [sim_call ... s r]: called in state [s] with threads that execute the programs [progs],
    the function can end as [r]: [None] is undefined behaviour, otherwise the result and the
    new state. *)
Inductive sim_call (source monitor : ptr) (max_threads n_photons omp_max : Z) (err : eslot)
    (progs : list (list (instr T))) (s : st T) : option (ptr * st T) -> Prop :=
| call_prepare_ub :
    prepare source monitor max_threads n_photons omp_max err s = UB ->
    sim_call source monitor max_threads n_photons omp_max err progs s None
| call_refused s' :
    prepare source monitor max_threads n_photons omp_max err s = Ok (None, s') ->
    sim_call source monitor max_threads n_photons omp_max err progs s (Some (NULL, s'))
| call_run_ub v s1 ths :
    prepare source monitor max_threads n_photons omp_max err s = Ok (Some v, s1) ->
    hsteps v (progs, Some (frame0, s1)) (ths, None) ->
    sim_call source monitor max_threads n_photons omp_max err progs s None
| call_complete v s1 ths fr s2 :
    prepare source monitor max_threads n_photons omp_max err s = Ok (Some v, s1) ->
    hsteps v (progs, Some (frame0, s1)) (ths, Some (fr, s2)) -> done ths ->
    sim_call source monitor max_threads n_photons omp_max err progs s
      (match complete v s2 with Ok r => Some r | UB => None end).

End Sim.
