(** * Model of polycap_source_get_transmission_efficiencies, the simulation itself
      (src/polycap-source.c:696-1058)

    Layers:
    - one attempt: a photon is drawn, launched and tested against the exit window;
    - one job (one value of the loop counter j): attempts until one is transmitted;
    - one thread: its private sums and leak arrays, and the list of its effects on
      shared memory;
    - the team: all interleavings of those effects, with critical sections, barriers
      and the single block;
    - the end: counters added up, efficiencies computed.

    Not modelled here: the argument checks and allocations of lines 457-692 (allocation
    is assumed to succeed), the progress output, polycap_rng (a random generator is the
    list of numbers it will deliver). *)
From Coq Require Import ZArith List Bool Permutation.
From Verif Require Import Num Geometry SpecPhoton RM CapilModel TraceModel LaunchModel SourceModel.
Import ListNotations.
Local Open Scope num_scope.
Local Open Scope rm_scope.

(** ** One attempt *)
(** A launched photon: the return code of polycap_photon_launch, the photon, *weights,
    and photon->src_start_coords. *)
Record attempt (T : Type) := mkAttempt {
  at_code : Z; at_ph : photon T; at_w : list (option T); at_src : vec3 T }.
Arguments mkAttempt {T}. Arguments at_code {T}. Arguments at_ph {T}. Arguments at_w {T}. Arguments at_src {T}.

Section Run.
Context {T : Type} {N : Num T}.

(** polycap_photon_new as polycap_source_get_photon calls it
    (src/polycap-photon.c:98-135, src/polycap-source.c:139-141: a NULL result is
    dereferenced). *)
Definition fresh_photon (d : drawn T) : RM (photon T) :=
  if (vz (dr_start d) <? #0) || (vz (dr_dir d) <? #0) then ub
  else ret (mkPhoton (dr_start d) (dr_dir d) (dr_elecv d) (dr_start d) (dr_dir d) (dr_elecv d)
              [] [] None None 0%Z (#0) [] []).

(** Lines 744-747: draw and launch one photon.  [None]: the numbers [rs] are used up.
    An attempt whose *weights was not assigned would free an indeterminate pointer
    (lines 882, 981): Ub. *)
Definition attempt_run (x : xraylib T) (o : optic T) (s : source_nums T) (en : list T) (junk : vec3 T)
    (leak_calc : bool) (fuel : nat) (rs : list T) : RM (option (attempt T * list T)) :=
  cap0 <- rd (p_cap (o_prof o)) 0 ;;
  ext0 <- rd (p_ext (o_prof o)) 0 ;;
  match draw_photon s (o_ncap o) cap0 ext0 rs with
  | None => ret None
  | Some (d, rs) =>
      ph <- fresh_photon d ;;
      '(code, ph, w) <- quiet (launch x o junk fuel ph (Some en) false leak_calc) ;;
      match w with
      | None => ub
      | Some w => ret (Some (mkAttempt code ph w (dr_src d), rs))
      end
  end.

(** The point of the photon's last straight line on the exit plane, in the order of
    operations of lines 763-765 and 898-903. *)
Definition exit_point (c d : vec3 T) (zmax : T) : vec3 T :=
  mkV (vx c + vx d * (zmax - vz c) / vz d) (vy c + vy d * (zmax - vz c) / vz d)
      (vz c + vz d * (zmax - vz c) / vz d).

(** iesc after the exit-window test, lines 759-776. *)
Definition classify (o : optic T) (a : attempt T) : RM Z :=
  if Z.eqb (at_code a) 1 then
    zmax <- rd (p_z (o_prof o)) (p_nmax (o_prof o)) ;;
    extmax <- rd (p_ext (o_prof o)) (p_nmax (o_prof o)) ;;
    let e := exit_point (ph_exit (at_ph a)) (ph_edir (at_ph a)) zmax in
    let v := mkV (vx e) (vy e) zmax in
    if n_shells (o_ncap o) =? #0 then
      ret (if nsqrt (vx v * vx v + vy v * vy v) >? extmax then 0%Z else 1%Z)
    else quiet (within_e extmax v)
  else ret (at_code a).

(** The loop ends on every value of iesc but these, line 884. *)
Definition again (iesc : Z) : bool :=
  Z.eqb iesc 0 || Z.eqb iesc 2 || Z.eqb iesc (-2) || Z.eqb iesc (-1).

(** ** One job *)
(** The attempts made for one value of j, each with its final iesc, oldest first
    (do-while loop of lines 742-884).  [None]: still looping when the random numbers
    are used up. *)
Fixpoint job_run (n : nat) (x : xraylib T) (o : optic T) (s : source_nums T) (en : list T) (junk : vec3 T)
    (leak_calc : bool) (fuel : nat) (rs : list T) : RM (option (list (attempt T * Z) * list T)) :=
  match n with
  | O => nofuel
  | S n =>
      r <- attempt_run x o s en junk leak_calc fuel rs ;;
      match r with
      | None => ret None
      | Some (a, rs) =>
          iesc <- classify o a ;;
          if again iesc then
            r <- job_run n x o s en junk leak_calc fuel rs ;;
            match r with
            | None => ret None
            | Some (l, rs) => ret (Some ((a, iesc) :: l, rs))
            end
          else ret (Some ([(a, iesc)], rs))
      end
  end.

(** The jobs [js] of one thread, on its random numbers: the attempts of each. *)
Fixpoint jobs_run (n : nat) (x : xraylib T) (o : optic T) (s : source_nums T) (en : list T) (junk : vec3 T)
    (leak_calc : bool) (fuel : nat) (rs : list T) (m : nat) : RM (option (list (list (attempt T * Z)))) :=
  match m with
  | O => ret (Some [])
  | S m =>
      r <- job_run n x o s en junk leak_calc fuel rs ;;
      match r with
      | None => ret None
      | Some (l, rs) =>
          r <- jobs_run n x o s en junk leak_calc fuel rs m ;;
          match r with None => ret None | Some ls => ret (Some (l :: ls)) end
      end
  end.

(** ** Leak arrays private to a thread *)
(** n_extleak, leak_mem_size (the length of the array) and the array itself; a cell
    [None] is not written yet. *)
Record leakbuf := mkBuf { lb_n : nat; lb_cells : list (option (leak_data T)) }.
Definition lb_empty : leakbuf := mkBuf 0 [].

(** An array store. *)
Fixpoint put {A} (l : list A) (i : nat) (a : A) : option (list A) :=
  match l, i with
  | _ :: l, O => Some (a :: l)
  | b :: l, S i => match put l i a with Some l => Some (b :: l) | None => None end
  | [], _ => None
  end.

(** for(k = 0; k < n; k++) arr[at+k] = copy of src[k]. *)
Fixpoint put_all {A} (l : list (option A)) (i : nat) (src : list A) : option (list (option A)) :=
  match src with
  | [] => Some l
  | a :: src => match put l i (Some a) with Some l => put_all l (S i) src | None => None end
  end.

(** The new size of a leak array that must hold [n] records: lines 803-810, 820-827,
    926-933, 935-942. *)
Definition grow (size n : nat) : nat :=
  if Nat.ltb size n then
    if Nat.eqb size 0 then n else if Nat.ltb (size * 2) n then n else (size * 2)%nat
  else size.

(** Append copies of [src] to a leak array: lines 801-817 (and 818-834, 925-959). *)
Definition lb_append (b : leakbuf) (src : list (leak_data T)) : RM leakbuf :=
  let n := (lb_n b + length src)%nat in
  let size := grow (length (lb_cells b)) n in
  let cells := lb_cells b ++ List.repeat None (size - length (lb_cells b)) in
  match put_all cells (n - length src) src with
  | Some cells => ret (mkBuf n cells)
  | None => ub
  end.

(** The records 0..n-1 of a leak array; reading an unwritten or missing cell is Ub. *)
Fixpoint read_all {A} (n : nat) (l : list (option A)) : RM (list A) :=
  match n with
  | O => ret []
  | S n => match l with
           | Some a :: l => r <- read_all n l ;; ret (a :: r)
           | _ => ub
           end
  end.

(** ** Shared memory and effects on it *)
(** The arrays of struct _polycap_images (src/polycap-private.h) with one entry per
    transmitted photon; [FWeight k]: exit_coord_weights[k + j*n_energies]. *)
Inductive field :=
| FSrcX | FSrcY | FStartX | FStartY | FSdirX | FSdirY | FSelecX | FSelecY
| FExitX | FExitY | FExitZ | FEdirX | FEdirY | FEelecX | FEelecY
| FNrefl | FDtravel | FWeight (k : nat).
Inductive entry := ED (v : T) | EI (n : Z).
(** The three per-thread counters of lines 507-530. *)
Inductive counter := CExit | CNotEntered | CNotTransmitted.

Inductive action :=
| AIncr (c : counter) (tid : nat)                  (* e.g. iexit_temp[thread_id]++ *)
| AStore (f : field) (j : nat) (e : entry)         (* e.g. images->pc_exit_dir[0][j] = ... *)
| ARefl (n : Z)                                    (* critical: sum_irefl += n, 961-964 *)
| ASum (w : list T) (leaks : option (Z * Z))       (* critical: 971-978 *)
| ASingle                                          (* single: 982-1001 *)
| ACopy (ext int : list (leak_data T)).            (* critical: 1002-1029 *)
Inductive instr := Act (a : action) | Barrier.

Record shared := mkShared {
  sh_cnt : counter -> nat -> Z;
  sh_img : field -> nat -> option entry;
  sh_irefl : Z;
  sh_sumw : list T;
  sh_iext : Z; sh_iint : Z;
  sh_single : bool;                                 (* the single block was executed *)
  sh_ext : list (option (leak_data T)); sh_next : nat;  (* leak arrays and leak_counter *)
  sh_int : list (option (leak_data T)); sh_nint : nat }.

Definition counter_eqb (a b : counter) : bool :=
  match a, b with CExit, CExit | CNotEntered, CNotEntered | CNotTransmitted, CNotTransmitted => true | _, _ => false end.
Definition field_eqb (a b : field) : bool :=
  match a, b with
  | FSrcX, FSrcX | FSrcY, FSrcY | FStartX, FStartX | FStartY, FStartY | FSdirX, FSdirX | FSdirY, FSdirY
  | FSelecX, FSelecX | FSelecY, FSelecY | FExitX, FExitX | FExitY, FExitY | FExitZ, FExitZ
  | FEdirX, FEdirX | FEdirY, FEdirY | FEelecX, FEelecX | FEelecY, FEelecY | FNrefl, FNrefl
  | FDtravel, FDtravel => true
  | FWeight k, FWeight l => Nat.eqb k l
  | _, _ => false
  end.

(** Component-wise addition, line 972. *)
Fixpoint vec_add (a b : list T) : list T :=
  match a, b with
  | x :: a, y :: b => (x + y) :: vec_add a b
  | _, _ => a
  end.

(** Initial state: sums and counters 0 (lines 503-530), images calloc'ed or malloc'ed. *)
Definition shared0 (n_energies : nat) : shared :=
  mkShared (fun _ _ => 0%Z) (fun _ _ => None) 0 (List.repeat (#0) n_energies) 0 0 false [] 0 [] 0.

(** Effect of one action; [None]: an array store out of bounds. *)
Definition act (a : action) (s : shared) : option shared :=
  match a with
  | AIncr c t =>
      Some (mkShared (fun c' t' => if (counter_eqb c' c && Nat.eqb t' t)%bool then (sh_cnt s c t + 1)%Z else sh_cnt s c' t')
              (sh_img s) (sh_irefl s) (sh_sumw s) (sh_iext s) (sh_iint s) (sh_single s)
              (sh_ext s) (sh_next s) (sh_int s) (sh_nint s))
  | AStore f j e =>
      Some (mkShared (sh_cnt s)
              (fun f' j' => if (field_eqb f' f && Nat.eqb j' j)%bool then Some e else sh_img s f' j')
              (sh_irefl s) (sh_sumw s) (sh_iext s) (sh_iint s) (sh_single s)
              (sh_ext s) (sh_next s) (sh_int s) (sh_nint s))
  | ARefl n =>
      Some (mkShared (sh_cnt s) (sh_img s) (sh_irefl s + n)%Z (sh_sumw s) (sh_iext s) (sh_iint s)
              (sh_single s) (sh_ext s) (sh_next s) (sh_int s) (sh_nint s))
  | ASum w leaks =>
      let '(ne, ni) := match leaks with Some p => p | None => (0%Z, 0%Z) end in
      Some (mkShared (sh_cnt s) (sh_img s) (sh_irefl s) (vec_add (sh_sumw s) w)
              (sh_iext s + ne)%Z (sh_iint s + ni)%Z (sh_single s) (sh_ext s) (sh_next s) (sh_int s) (sh_nint s))
  | ASingle =>
      if sh_single s then Some s
      else Some (mkShared (sh_cnt s) (sh_img s) (sh_irefl s) (sh_sumw s) (sh_iext s) (sh_iint s) true
                   (List.repeat None (Z.to_nat (sh_iext s))) 0 (List.repeat None (Z.to_nat (sh_iint s))) 0)
  | ACopy ext int =>
      match put_all (sh_ext s) (sh_next s) ext, put_all (sh_int s) (sh_nint s) int with
      | Some e, Some i =>
          Some (mkShared (sh_cnt s) (sh_img s) (sh_irefl s) (sh_sumw s) (sh_iext s) (sh_iint s) (sh_single s)
                  e (sh_next s + length ext)%nat i (sh_nint s + length int)%nat)
      | _, _ => None
      end
  end.

(** ** One thread *)
(** The variables private to a thread, lines 701-733. *)
Record locals := mkLocals {
  lo_w : list T; lo_ext : leakbuf; lo_int : leakbuf; lo_etmp : leakbuf; lo_itmp : leakbuf }.
Definition locals0 (n_energies : nat) : locals :=
  mkLocals (List.repeat (#0) n_energies) lb_empty lb_empty lb_empty lb_empty.

(** The electric vector turned towards the photon direction, lines 785-794 and 906-917. *)
Definition turned (selec sdir elec dir : vec3 T) : vec3 T :=
  let cosalpha := vscalar selec sdir in
  let alpha := nacos cosalpha in
  let c_ae := #1 / nsin alpha in
  let c_be := - #1 * c_ae * cosalpha in
  vnorm (mkV (vx elec * c_ae + vx dir * c_be) (vy elec * c_ae + vy dir * c_be) (vz elec * c_ae + vz dir * c_be)).

(** Counters incremented for an attempt: lines 754-757 (before the window test) and 779. *)
Definition count_actions (tid : nat) (a : attempt T) (iesc : Z) : list action :=
  (if Z.eqb (at_code a) 0 then [AIncr CNotTransmitted tid] else []) ++
  (if Z.eqb (at_code a) 2 then [AIncr CNotEntered tid] else []) ++
  (if Z.eqb iesc 1 then [AIncr CExit tid] else []).

(** Stores for a transmitted photon inside the loop, lines 780-797. *)
Definition start_actions (j : nat) (a : attempt T) : list action :=
  let p := at_ph a in
  let e := turned (ph_selec p) (ph_sdir p) (ph_selec p) (ph_sdir p) in
  [AStore FSrcX j (ED (vx (at_src a))); AStore FSrcY j (ED (vy (at_src a)));
   AStore FStartX j (ED (vx (ph_start p))); AStore FStartY j (ED (vy (ph_start p)));
   AStore FSdirX j (ED (vx (ph_sdir p))); AStore FSdirY j (ED (vy (ph_sdir p)));
   AStore FSelecX j (ED (nround (vx e))); AStore FSelecY j (ED (nround (vy e)))].

(** exit_coord_weights[k+j*n_energies] = weights_temp[k], lines 893-896. *)
Fixpoint weight_actions (j k : nat) (w : list T) : list action :=
  match w with
  | [] => []
  | v :: w => AStore (FWeight k) j (ED v) :: weight_actions j (S k) w
  end.

(** Stores after the loop, lines 893-922. *)
Definition exit_actions (o : optic T) (j : nat) (a : attempt T) (w : list T) : RM (list action) :=
  zmax <- rd (p_z (o_prof o)) (p_nmax (o_prof o)) ;;
  let p := at_ph a in
  let c := ph_exit p in
  let q := exit_point c (ph_edir p) zmax in
  let e := turned (ph_selec p) (ph_sdir p) (ph_eelec p) (ph_edir p) in
  ret (weight_actions j 0 w ++
       [AStore FExitX j (ED (vx q)); AStore FExitY j (ED (vy q)); AStore FExitZ j (ED (vz q));
        AStore FEdirX j (ED (vx (ph_edir p))); AStore FEdirY j (ED (vy (ph_edir p)));
        AStore FEelecX j (ED (nround (vx e))); AStore FEelecY j (ED (nround (vy e)));
        AStore FNrefl j (EI (ph_irefl p));
        AStore FDtravel j (ED (ph_dtravel p +
          nsqrt ((vx q - vx c) * (vx q - vx c) + (vy q - vy c) * (vy q - vy c) + (zmax - vz c) * (zmax - vz c))))]).

(** Leaks of an attempt that was not transmitted, lines 798-836.  (lb_append with no
    record leaves the array as it is, as the tests n > 0 of lines 802 and 819 do.) *)
Definition keep_leaks (leak_calc : bool) (lo : locals) (a : attempt T) (iesc : Z) : RM locals :=
  if (leak_calc && (Z.eqb iesc 0 || Z.eqb iesc 2))%bool then
    e <- lb_append (lo_etmp lo) (ph_ext (at_ph a)) ;;
    i <- lb_append (lo_itmp lo) (ph_int (at_ph a)) ;;
    ret (mkLocals (lo_w lo) (lo_ext lo) (lo_int lo) e i)
  else ret lo.

(** All attempts of a job but the last: their counters and leaks. *)
Fixpoint failed_run (leak_calc : bool) (tid : nat) (lo : locals) (l : list (attempt T * Z)) : RM (list action * locals) :=
  match l with
  | [] => ret ([], lo)
  | (a, iesc) :: l =>
      lo <- keep_leaks leak_calc lo a iesc ;;
      '(acts, lo) <- failed_run leak_calc tid lo l ;;
      ret (count_actions tid a iesc ++ acts, lo)
  end.

(** The last attempt and the rest of the loop body, lines 779-982. *)
Definition exited_run (o : optic T) (leak_calc : bool) (n_energies tid j : nat) (lo : locals) (a : attempt T) (iesc : Z)
    : RM (list action * locals) :=
  (* lines 838-879: the kept leaks are appended to the photon's own *)
  '(ext, int, lo) <-
    (if leak_calc then
       e <- read_all (lb_n (lo_etmp lo)) (lb_cells (lo_etmp lo)) ;;
       i <- read_all (lb_n (lo_itmp lo)) (lb_cells (lo_itmp lo)) ;;
       ret (ph_ext (at_ph a) ++ e, ph_int (at_ph a) ++ i,
            mkLocals (lo_w lo) (lo_ext lo) (lo_int lo)
              (match e with [] => lo_etmp lo | _ => lb_empty end)
              (match i with [] => lo_itmp lo | _ => lb_empty end))
     else ret (ph_ext (at_ph a), ph_int (at_ph a), lo)) ;;
  (* lines 893-896 read weights_temp[0..n_energies-1] *)
  w <- read_all n_energies (at_w a) ;;
  ex <- exit_actions o j a w ;;
  let lo := mkLocals (vec_add (lo_w lo) w) (lo_ext lo) (lo_int lo) (lo_etmp lo) (lo_itmp lo) in
  lo <- (if leak_calc then
           e <- lb_append (lo_ext lo) ext ;;
           i <- lb_append (lo_int lo) int ;;
           ret (mkLocals (lo_w lo) e i (lo_etmp lo) (lo_itmp lo))
         else ret lo) ;;
  ret (count_actions tid a iesc ++ start_actions j a ++ ex ++ [ARefl (ph_irefl (at_ph a))], lo).

(** One iteration of the parallel loop, given its attempts. *)
Definition body_run (o : optic T) (leak_calc : bool) (n_energies tid j : nat) (lo : locals) (l : list (attempt T * Z))
    : RM (list action * locals) :=
  match rev l with
  | [] => ub
  | (a, iesc) :: before =>
      '(acts, lo) <- failed_run leak_calc tid lo (rev before) ;;
      '(acts', lo) <- exited_run o leak_calc n_energies tid j lo a iesc ;;
      ret (acts ++ acts', lo)
  end.

(** The iterations a thread is given, in order; [jobs j] are the attempts of iteration j. *)
Fixpoint loop_run (o : optic T) (leak_calc : bool) (n_energies tid : nat) (jobs : nat -> list (attempt T * Z))
    (lo : locals) (js : list nat) : RM (list action * locals) :=
  match js with
  | [] => ret ([], lo)
  | j :: js =>
      '(acts, lo) <- body_run o leak_calc n_energies tid j lo (jobs j) ;;
      '(acts', lo) <- loop_run o leak_calc n_energies tid jobs lo js ;;
      ret (acts ++ acts', lo)
  end.

(** All a thread does to shared memory: lines 741-1029.  (OpenMP's implicit barrier at the
    end of the loop makes no difference to the effects and is left out.) *)
Definition thread_run (o : optic T) (leak_calc : bool) (n_energies tid : nat)
    (jobs : nat -> list (attempt T * Z)) (js : list nat) : RM (list instr) :=
  '(acts, lo) <- loop_run o leak_calc n_energies tid jobs (locals0 n_energies) js ;;
  let sum leaks := Act (ASum (lo_w lo) leaks) in
  if leak_calc then
    ext <- read_all (lb_n (lo_ext lo)) (lb_cells (lo_ext lo)) ;;
    int <- read_all (lb_n (lo_int lo)) (lb_cells (lo_int lo)) ;;
    ret (List.map Act acts ++ [sum (Some (Z.of_nat (lb_n (lo_ext lo)), Z.of_nat (lb_n (lo_int lo)))); Barrier;
                               Act ASingle; Barrier; Act (ACopy ext int)])
  else ret (List.map Act acts ++ [sum None]).

(** ** The team: one list of instructions per thread, in thread order *)
Fixpoint threads_run (o : optic T) (leak_calc : bool) (n_energies tid : nat)
    (jobs : nat -> list (attempt T * Z)) (dist : list (list nat)) : RM (list (list instr)) :=
  match dist with
  | [] => ret []
  | js :: dist =>
      p <- thread_run o leak_calc n_energies tid jobs js ;;
      ps <- threads_run o leak_calc n_energies (S tid) jobs dist ;;
      ret (p :: ps)
  end.

(** Replace the [t]-th element. *)
Fixpoint set_nth {A} (t : nat) (a : A) (l : list A) : list A :=
  match l, t with
  | [], _ => []
  | _ :: l, O => a :: l
  | b :: l, S t => b :: set_nth t a l
  end.

(** One step of the team: any thread executes its next action, or all threads are at a
    barrier and pass it.  Shared memory [None]: undefined behaviour happened. *)
Inductive step : list (list instr) * option shared -> list (list instr) * option shared -> Prop :=
| step_act t a rest ths s :
    nth_error ths t = Some (Act a :: rest) -> step (ths, Some s) (set_nth t rest ths, act a s)
| step_barrier rests s :
    rests <> [] -> step (List.map (cons Barrier) rests, Some s) (rests, Some s).

Inductive steps : list (list instr) * option shared -> list (list instr) * option shared -> Prop :=
| steps_refl c : steps c c
| steps_cons c c' c'' : step c c' -> steps c' c'' -> steps c c''.

(** All threads are done. *)
Definition done (ths : list (list instr)) : Prop := Forall (fun p => p = []) ths.

(** ** The end *)
(** What the function returns, and the new open_area of the description. *)
Record result := mkResult {
  re_start : Z; re_exit : Z; re_irefl : Z;
  re_energies : list T; re_eff : list T; re_open : T;
  re_img : field -> nat -> option entry;
  re_iext : Z; re_ext : list (option (leak_data T));
  re_iint : Z; re_int : list (option (leak_data T)) }.

Definition total (c : counter) (nthreads : nat) (s : shared) : Z :=
  fold_left Z.add (List.map (sh_cnt s c) (seq 0 nthreads)) 0%Z.

(** Lines 1038-1066 (64-bit counters: no overflow).  [open_before]: description->open_area
    before the call. *)
Definition finish (en : list T) (nthreads : nat) (open_before : T) (s : shared) : result :=
  let ie := total CExit nthreads s in
  let ne := total CNotEntered nthreads s in
  let nt := total CNotTransmitted nthreads s in
  let open_area := nofZ (ie + nt)%Z / nofZ (ie + ne + nt)%Z in
  mkResult (ie + ne + nt)%Z ie (sh_irefl s) en
    (List.map (fun w => w / (nofZ ie + nofZ nt) * open_area) (sh_sumw s)) open_area
    (sh_img s) (sh_iext s) (sh_ext s) (sh_iint s) (sh_int s).

(** ** A complete run *)
(** [r] is a result of polycap_source_get_transmission_efficiencies for [n] photons:
    - thread t executes the iterations [dist t] (any distribution of 0..n-1 over the
      threads, in any order), drawing on its own random numbers [streams t];
    - [jobs j] are the attempts made for iteration j;
    - some schedule of the threads led from the initial memory to the end. *)
Definition simulation (x : xraylib T) (o : optic T) (src : source_nums T) (en : list T) (junk : vec3 T)
    (leak_calc : bool) (n : nat) (dist : list (list nat)) (streams : list (list T))
    (jobs : nat -> list (attempt T * Z)) (open_before : T) (r : result) : Prop :=
  (1 <= n)%nat /\ Permutation (concat dist) (seq 0 n) /\
  length streams = length dist /\
  (forall t js rs, nth_error dist t = Some js -> nth_error streams t = Some rs ->
     exists k fuel, jobs_run k x o src en junk leak_calc fuel rs (length js) None
                    = Ret (Some (List.map jobs js), None)) /\
  exists progs ths s,
    threads_run o leak_calc (length en) 0 jobs dist None = Ret (progs, None) /\
    steps (progs, Some (shared0 (length en))) (ths, Some s) /\ done ths /\
    r = finish en (length dist) open_before s.

End Run.
Arguments leakbuf T : clear implicits.
Arguments entry T : clear implicits.
Arguments action T : clear implicits.
Arguments instr T : clear implicits.
Arguments shared T : clear implicits.
Arguments locals T : clear implicits.
Arguments result T : clear implicits.
