(** * The flight of one photon in memory: polycap_capil_reflect, polycap_capil_trace and
      polycap_photon_launch (src/polycap-capil.c:565-891, 1197-1361, src/polycap-photon.c:22-96,
      390-955) on the heap of Mem.v

    TraceModel.v and LaunchModel.v say what these functions compute; here is what they do to
    memory: the photon is an object in memory, its leaks are arrays of pointers to leak objects,
    the temporary photons and arrays are allocated and released, and every allocation may fail.

    Simplifications: a stretch of code that only reads and writes fields and arrays of the photon
    (no allocation, no call that allocates) is one step: the fields are read, the functional model
    computes, the changed fields are written back.  The same for polycap_capil_trace_wall, whose
    only allocation (the point returned by polycap_photon_pc_intersect) is released at once in
    both places where it is made (src/polycap-capil.c:1085-1094, 1160-1169).  The description is
    read once, at the start of polycap_photon_launch, and the random texts of error messages are
    replaced by fixed ones.  NULL checks of the static functions are left out. *)
From Coq Require Import ZArith List Bool Lia String.
From Verif Require Import Num Mem ErrorModel ProfileModel Geometry SpecPhoton ConsModel H5Model RM CapilModel TraceModel LaunchModel.
Import ListNotations.
Local Open Scope mem_scope.

Section Flight.
Context {T : Type} {N : Num T}.
Local Notation M := (M T).
Local Notation ret := Mem.ret.
Local Notation bind := Mem.bind.
Local Notation ub := Mem.ub.

(** A computation that may also run out of the step budget ([None]); the slot says whether, and
    with which code, *error has been set. *)
Definition MF (A : Type) : Type := slot -> M (option (A * slot)).
Definition retF {A} (a : A) : MF A := fun e => ret (Some (a, e)).
Definition bindF {A B} (m : MF A) (k : A -> MF B) : MF B := fun e =>
  o <- m e ;; match o with Some (a, e') => k a e' | None => ret None end.
Definition inM {A} (m : M A) : MF A := fun e => a <- m ;; ret (Some (a, e)).
(** A computation of the functional model; its first report goes to *error. *)
Definition calc {A} (err : eslot) (m : RM A) : MF A := fun e =>
  match m e with
  | Ret (a, e') =>
      (match e, e' with
       | None, Some c => set_error_literal err c (Some "polycap_photon_launch"%string)
       | _, _ => ret tt
       end) ;;; ret (Some (a, e'))
  | Ub => ub
  | Fuel => ret None
  end.
(** polycap_set_error(error, POLYCAP_ERROR_MEMORY, ..) *)
Definition no_memory (err : eslot) : MF unit := fun e =>
  mem_error err "could not allocate memory" ;;; ret (Some (tt, match e with None => Some E_MEM | Some c => Some c end)).
(** A call with error = NULL. *)
Definition silently {A} (m : MF A) : MF A := fun e =>
  o <- m None ;; ret (match o with Some (a, _) => Some (a, e) | None => None end).

Local Notation "x <~ m ;; k" := (bindF m (fun x => k)) (at level 61, m at next level, right associativity).
Local Notation "m ~; k" := (bindF m (fun _ => k)) (at level 61, right associativity).

(** ** Fields of the photon *)
Definition read_vec (p : ptr) (i : nat) : M (vec3 T) :=
  x <- load_dbl p i ;; y <- load_dbl p (S i) ;; z <- load_dbl p (S (S i)) ;; ret (mkV x y z).
Fixpoint write_dbls (p : ptr) (from : nat) (xs : list T) : M unit :=
  match xs with [] => ret tt | x :: xs => store p from (Vdbl x) ;;; write_dbls p (S from) xs end.
Definition read_opt (n : nat) (p : ptr) : M (option (list T)) :=
  match p with None => ret None | Some _ => l <- read_dbls n 0 p ;; ret (Some l) end.

(** The fields of a photon in flight, without its leaks (src/polycap-private.h:124-145). *)
Definition read_photon (p : ptr) : M (photon T) :=
  start <- read_vec p F_START ;; sdir <- read_vec p F_SDIR ;; selec <- read_vec p F_SELEC ;;
  exit <- read_vec p F_EXIT ;; edir <- read_vec p F_EDIR ;; eelec <- read_vec p F_EELEC ;;
  n <- load_int p F_NEN ;;
  en <- load_ptr p F_EN ;; ens <- read_dbls (Z.to_nat n) 0 en ;;
  w <- load_ptr p F_WEIGHT ;; ws <- read_dbls (Z.to_nat n) 0 w ;;
  a <- load_ptr p F_AMU ;; amu <- read_opt (Z.to_nat n) a ;;
  f <- load_ptr p F_SCATF ;; scatf <- read_opt (Z.to_nat n) f ;;
  irefl <- load_int p F_IREFL ;; dt <- load_dbl p F_DTRAVEL ;;
  ret (mkPhoton start sdir selec exit edir eelec ens ws amu scatf irefl dt [] []).
(** The fields the tracing code changes. *)
Definition write_photon (p : ptr) (ph : photon T) : M unit :=
  store_vec p F_SDIR (ph_sdir ph) ;;; store_vec p F_EXIT (ph_exit ph) ;;;
  store_vec p F_EDIR (ph_edir ph) ;;; store_vec p F_EELEC (ph_eelec ph) ;;;
  w <- load_ptr p F_WEIGHT ;; write_dbls w 0 (ph_w ph) ;;;
  store p F_IREFL (Vint (ph_irefl ph)) ;;; store p F_DTRAVEL (Vdbl (ph_dtravel ph)).
Definition on_photon {A} (err : eslot) (p : ptr) (f : photon T -> RM (A * photon T)) : MF A :=
  ph <~ inM (read_photon p) ;; r <~ calc err (f ph) ;; inM (write_photon p (snd r)) ~; retF (fst r).

(** if (photon->x) { free(photon->x); photon->x = NULL; }, e.g. src/polycap-photon.c:927-944. *)
Definition release_field (p : ptr) (f : nat) : M unit :=
  q <- load_ptr p f ;; match q with Some _ => free q ;;; store p f (Vptr NULL) | None => ret tt end.
Definition release_arrays (p : ptr) : M unit :=
  release_field p F_EN ;;; release_field p F_WEIGHT ;;; release_field p F_AMU ;;; release_field p F_SCATF.

(** ** Leaks *)
(** photon->extleak = realloc(photon->extleak, sizeof(polycap_leak* ) * ++photon->n_extleak), then
    a new leak in its last element; false: no memory.  src/polycap-capil.c:686-695, 698-707,
    856-866, 868-878, src/polycap-photon.c:700-720 and so on. *)
Definition push_leak (farr fn : nat) (p : ptr) (c d ev : vec3 T) (nrefl : Z) (w : ptr) (err : eslot) : MF bool :=
  n <~ inM (load_int p fn) ;;
  inM (store p fn (Vint (n + 1))) ~;
  a <~ inM (load_ptr p farr) ;;
  a' <~ inM (realloc a (Z.to_nat (n + 1))) ;;
  inM (store p farr (Vptr a')) ~;
  match a' with
  | None => no_memory err ~; retF false
  | Some _ =>
      ne <~ inM (load_int p F_NEN) ;;
      l <~ inM (leak_new c d ev nrefl (Z.to_nat ne) w err) ;;
      inM (store a' (Z.to_nat n) (Vptr l)) ~;
      retF true
  end.

(** for(i=0; i<phot_temp->n_extleak; i++) ..: src/polycap-capil.c:821-824, 837-840. *)
Definition merge_one (ne : nat) (src dst : ptr) (n : nat) (err : eslot) (i : nat) : M unit :=
  l <- load_ptr src i ;;
  c <- read_vec l 0 ;; d <- read_vec l 3 ;; ev <- read_vec l 6 ;; nr <- load_int l L_NREFL ;;
  w <- load_ptr l L_WEIGHT ;;
  q <- leak_new c d ev nr ne w err ;;
  store dst (n + i) (Vptr q).
(** src/polycap-capil.c:809-825 and 826-841. *)
Definition merge_leaks (farr fn : nat) (p t : ptr) (err : eslot) : MF bool :=
  nt <~ inM (load_int t fn) ;;
  if Z.ltb 0 nt then
    n <~ inM (load_int p fn) ;;
    inM (store p fn (Vint (n + nt))) ~;
    a <~ inM (load_ptr p farr) ;;
    a' <~ inM (realloc a (Z.to_nat (n + nt))) ;;
    inM (store p farr (Vptr a')) ~;
    match a' with
    | None => no_memory err ~; retF false
    | Some _ =>
        at_ <~ inM (load_ptr t farr) ;;
        ne <~ inM (load_int p F_NEN) ;;
        inM (for_n (Z.to_nat nt) 0 (merge_one (Z.to_nat ne) at_ a' (Z.to_nat n) err)) ~;
        retF true
    end
  else retF true.

(** ** polycap_photon_scatf, src/polycap-photon.c:22-94; without memory it releases the photon and
    returns. *)
Definition scatf_refused (o : optic T) (ph : photon T) : bool :=
  (nleb (o_dens o) (#0)%num) || match o_iz o with [] => true | _ => false end
     || match ph_en ph with [] => true | _ => false end
     || List.existsb (fun e => nltb e (#1)%num || nltb (#100)%num e) (ph_en ph)
     || List.existsb (fun zw => nltb (snd zw) (#0)%num || nltb (#1)%num (snd zw) || Z.ltb (fst zw) 1 || Z.ltb 111 (fst zw))
          (List.combine (o_iz o) (o_wi o)).
Definition scatfM (x : xraylib T) (o : optic T) (p : ptr) (err : eslot) : MF unit :=
  ph <~ inM (read_photon p) ;;
  if scatf_refused o ph then calc err (report E_ARG)
  else
    n <~ inM (load_int p F_NEN) ;;
    a <~ inM (malloc (Z.to_nat n)) ;;
    inM (store p F_AMU (Vptr a)) ~;
    match a with
    | None => no_memory err ~; inM (photon_free p)
    | Some _ =>
        f <~ inM (malloc (Z.to_nat n)) ;;
        inM (store p F_SCATF (Vptr f)) ~;
        match f with
        | None => no_memory err ~; inM (photon_free p)
        | Some _ =>
            inM (write_dbls a 0 (List.map (xl_amu x o) (ph_en ph)) ;;;
                 write_dbls f 0 (List.map (xl_scatf x o) (ph_en ph)))
        end
    end.

(** ** Arrays of capillary axes *)
Definition read_axes (cx cy : ptr) (n : nat) : M (list (T * T)) :=
  xs <- read_dbls n 0 cx ;; ys <- read_dbls n 0 cy ;; ret (List.combine xs ys).
Definition write_axes (cx cy : ptr) (axes : list (T * T)) : M unit :=
  write_dbls cx 0 (List.map fst axes) ;;; write_dbls cy 0 (List.map snd axes).

(** ** polycap_capil_trace *)
Definition tracerM : Type := nat -> ptr -> ptr -> ptr -> MF (Z * nat).
(** As trace_many (TraceModel.v). *)
Fixpoint trace_manyM (tr : tracerM) (p cx cy : ptr) (n : nat) (iesc : Z) (ix : nat) : MF Z :=
  match n with
  | O => retF iesc
  | S n =>
      r <~ tr ix p cx cy ;;
      if Z.eqb (fst r) 1 then trace_manyM tr p cx cy n (fst r) (snd r) else retF (fst r)
  end.

(** polycap_capil_trace up to the call of polycap_capil_reflect, src/polycap-capil.c:1234-1340:
    [inl]: it returns; [inr (ix, norm, cosine)]: the wall is hit. *)
Definition trace_pre (o : optic T) (junk : vec3 T) (ix : nat) (axes : list (T * T)) (ph : photon T)
  : RM ((Z * nat + nat * vec3 T * T) * photon T) :=
  let p := o_prof o in
  let ph := set_sdir (vnorm (ph_sdir ph)) (set_edir (vnorm (ph_edir ph)) ph) in
  let nsh := n_shells (o_ncap o) in
  RM.bind (trace_segs o ph axes nsh (p_nmax p - ix) ix (ph_exit ph) junk) (fun s =>
  match s with
  | Stop c => RM.ret (inl (c, ix), ph)
  | Miss => RM.ret (inl ((-2)%Z, ix), ph)
  | Hit i pc sn cosa =>
      let ph := set_exit pc (set_dtravel (nadd (ph_dtravel ph) (dist3 pc (ph_exit ph))) ph) in
      if nltb (#1)%num (nabs cosa) then RM.ret (inl ((-1)%Z, S i), ph)
      else
        RM.bind (last_le (p_z p) (vz pc) (p_nmax p) 0 (S i)) (fun ix =>
        RM.bind (interp (p_z p) (p_ext p) (vz pc) ix) (fun ext =>
        RM.bind (if neqb nsh (#0)%num
                 then RM.ret (if nleb ext (nadd (nmul (vx pc) (vx pc)) (nmul (vy pc) (vy pc))) then 0%Z else 1%Z)
                 else if nltb (#0)%num nsh then within_e ext pc else RM.ret 1%Z) (fun w =>
        if Z.eqb w 0 then RM.ret (inl ((-3)%Z, ix), ph) else RM.ret (inr (ix, sn, cosa), ph))))
  end).
(** ... and after it, lines 1342-1360. *)
Definition trace_post (iesc : Z) (sn : vec3 T) (cosa : T) (ph : photon T) : RM (Z * photon T) :=
  if Z.eqb iesc 1 then
    let d := ph_edir ph in
    let d' := (mkV (vx d - #2 * cosa * vx sn) (vy d - #2 * cosa * vy sn) (vz d - #2 * cosa * vz sn))%num in
    RM.ret (1%Z, set_irefl (ph_irefl ph + 1)%Z (set_edir (vnorm d') ph))
  else if (Z.eqb iesc (-1) || Z.eqb iesc (-2))%bool then RM.ret ((-1)%Z, ph)
  else RM.ret (iesc, ph).

Definition trace_bodyM (refl : ptr -> vec3 T -> MF Z) (o : optic T) (junk : vec3 T) (err : eslot) : tracerM :=
  fun ix p cx cy =>
  axes <~ inM (read_axes cx cy (S (p_nmax (o_prof o)))) ;;
  r <~ on_photon err p (trace_pre o junk ix axes) ;;
  match r with
  | inl cix => retF cix
  | inr (ix, sn, cosa) =>
      iesc <~ refl p sn ;;
      c <~ on_photon err p (trace_post iesc sn cosa) ;;
      retF (c, ix)
  end.

(** ** polycap_capil_reflect *)
(** Lines 596-602: alfa, or [None] when it is negative. *)
Definition reflect_alfa (sn : vec3 T) (ph : photon T) : RM (option T * photon T) :=
  let ph := set_edir (vnorm (ph_edir ph)) ph in
  let alfa := vscalar (ph_edir ph) (vnorm sn) in
  if nltb alfa (#0)%num then RM.bind (report E_ARG) (fun _ => RM.ret (None, ph)) else RM.ret (Some alfa, ph).
(** Lines 624-660: reflectivities; the new electric vector is stored unless one of them is out of range. *)
Definition reflect_energies (o : optic T) (sn ev0 : vec3 T) (alfa : T) (wt : Z) (dt : T) (ph : photon T) : RM (refl_res * photon T) :=
  RM.bind (deref (ph_amu ph)) (fun amu =>
  RM.bind (deref (ph_scatf ph)) (fun scatf =>
  RM.bind (refl_loop o (vnorm sn) (ph_edir ph) alfa (Z.ltb 0 wt) dt (ph_en ph) amu scatf (ph_w ph) (ph_eelec ph) ev0) (fun r =>
  let ph := set_w (rr_w r) (set_eelec (rr_ev r) ph) in
  RM.ret (r, if rr_ok r then set_eelec (rr_new r) ph else ph)))).
(** Lines 662-684: where the transmitted light comes out; wall_trace corrected. *)
Definition leak_place (o : optic T) (ph : photon T) (wt : Z) (dt : T) : RM (Z * vec3 T * T) :=
  let p := o_prof o in
  let nsh := n_shells (o_ncap o) in
  let lc := vgo (ph_exit ph) (ndiv dt (nsqrt (vscalar (ph_edir ph) (ph_edir ph)))) (ph_edir ph) in
  RM.bind (if Z.eqb wt 1 then
     RM.bind (last_le (p_z p) (vz lc) (p_nmax p) 0 0) (fun zid =>
     RM.bind (interp (p_z p) (p_ext p) (vz lc) zid) (fun ext =>
     if neqb nsh (#0)%num then
       RM.ret (if nleb ext (nsqrt (nadd (nmul (vx lc) (vx lc)) (nmul (vy lc) (vy lc)))) then 3%Z else wt)
     else
       RM.bind (within_e ext lc) (fun w => RM.ret (if Z.eqb w 0 then 3%Z else wt))))
   else RM.ret wt) (fun wt =>
  RM.bind (rd (p_z p) (p_nmax p)) (fun zmax => RM.ret (wt, lc, zmax))).
(** Lines 850-853: the end of the temporary photon on the exit plane, inside (1) or outside (0). *)
Definition leak_end (o : optic T) (t : photon T) (zmax : T) : RM (Z * vec3 T) :=
  let ec := to_exit (ph_exit t) (ph_edir t) zmax in
  RM.bind (rd (p_ext (o_prof o)) (p_nmax (o_prof o))) (fun extmax =>
  RM.bind (within_e extmax ec) (fun w => RM.ret (w, ec))).
(** capx_temp, capy_temp and ix_temp, lines 768-779. *)
Definition temp_axes (o : optic T) (q_c r_c : Z) (zc : T) : RM (list (T * T) * nat) :=
  RM.bind (cap_axes o (n_shells (o_ncap o)) q_c r_c (S (p_nmax (o_prof o))) 0) (fun axes =>
  RM.bind (last_le (p_z (o_prof o)) zc (S (p_nmax (o_prof o))) 0 0) (fun ix => RM.ret (axes, ix))).

(** The end of every path that has a temporary photon [t] and its two arrays. *)
Definition drop_temp {A} (t cx cy : ptr) (a : A) : MF A :=
  inM (photon_free t ;;; free cx ;;; free cy) ~; retF a.
(** Without memory: report, release what was obtained, return -1 ([Some (-1)]). *)
Definition give_up (t : ptr) (err : eslot) : MF (option Z) :=
  no_memory err ~; inM (photon_free t) ~; retF (Some (-1)%Z).

(** Following the temporary photon through the neighbouring capillary, lines 780-885. *)
Definition follow_temp (tr : tracerM) (o : optic T) (p t cx cy : ptr) (q_c r_c : Z) (zmax : T) (err : eslot) : MF (option Z) :=
  tph <~ inM (read_photon t) ;;
  ax <~ calc err (temp_axes o q_c r_c (vz (ph_exit tph))) ;;
  inM (write_axes cx cy (fst ax)) ~;
  ie <~ trace_manyM tr t cx cy (S (p_nmax (o_prof o)) - snd ax) 0%Z (snd ax) ;;
  if (Z.eqb ie (-1) || Z.eqb ie (-3))%bool then drop_temp t cx cy (Some (-2)%Z)
  else
    ok <~ merge_leaks F_EXTLEAK F_NEXT p t err ;;
    if negb ok then drop_temp t cx cy (Some (-1)%Z) else
    ok <~ merge_leaks F_INTLEAK F_NINT p t err ;;
    if negb ok then drop_temp t cx cy (Some (-1)%Z) else
    if (Z.eqb ie 1 || Z.eqb ie (-2))%bool then
      tph <~ inM (read_photon t) ;;
      ph <~ inM (read_photon p) ;;
      w <~ calc err (leak_end o tph zmax) ;;
      tw <~ inM (load_ptr t F_WEIGHT) ;;
      ok <~ (if Z.eqb (fst w) 0
             then push_leak F_EXTLEAK F_NEXT p (snd w) (ph_edir ph) (ph_eelec ph) (ph_irefl ph) tw err
             else if Z.eqb (fst w) 1
             then push_leak F_INTLEAK F_NINT p (snd w) (ph_edir ph) (ph_eelec ph) (ph_irefl ph) tw err
             else retF true) ;;
      drop_temp t cx cy (if ok then None else Some (-1)%Z)
    else drop_temp t cx cy None.

(** Making the temporary photon, lines 716-767. *)
Definition make_temp (x : xraylib T) (tr : tracerM) (o : optic T) (p wl : ptr) (lc : vec3 T) (dt : T) (q_c r_c : Z) (zmax : T)
    (err : eslot) : MF (option Z) :=
  ph <~ inM (read_photon p) ;;
  desc <~ inM (load_ptr p F_DESC) ;;
  n <~ inM (load_int p F_NEN) ;;
  t <~ inM (photon_new desc lc (ph_edir ph) (ph_eelec ph) err) ;;
  inM (store t F_IREFL (Vint (ph_irefl ph)) ;;; store t F_NEXT (Vint 0) ;;; store t F_NINT (Vint 0) ;;;
       store t F_DTRAVEL (Vdbl (nadd (ph_dtravel ph) dt)) ;;; store t F_NEN (Vint n)) ~;
  e <~ inM (malloc (Z.to_nat n)) ;;
  inM (store t F_EN (Vptr e)) ~;
  match e with
  | None => give_up t err
  | Some _ =>
      w <~ inM (malloc (Z.to_nat n)) ;;
      inM (store t F_WEIGHT (Vptr w)) ~;
      match w with
      | None => give_up t err
      | Some _ =>
          inM (ws <- read_dbls (Z.to_nat n) 0 wl ;; write_dbls w 0 ws ;;; write_dbls e 0 (ph_en ph)) ~;
          scatfM x o t err ~;
          a <~ inM (load_ptr t F_AMU) ;;
          match a with
          | None => give_up t err
          | Some _ =>
              f <~ inM (load_ptr t F_SCATF) ;;
              match f with
              | None => give_up t err
              | Some _ =>
                  cx <~ inM (malloc (S (p_nmax (o_prof o)))) ;;
                  match cx with
                  | None => give_up t err
                  | Some _ =>
                      cy <~ inM (malloc (S (p_nmax (o_prof o)))) ;;
                      match cy with
                      | None => no_memory err ~; inM (free cx) ~; inM (photon_free t) ~; retF (Some (-1)%Z)
                      | Some _ => follow_temp tr o p t cx cy q_c r_c zmax err
                      end
                  end
              end
          end
      end
  end.

(** Lines 661-887; [Some code]: an early return. *)
Definition reflect_leaksM (x : xraylib T) (tr : tracerM) (o : optic T) (p wl : ptr) (wt : Z) (dt : T) (r_c q_c : Z)
    (err : eslot) : MF (option Z) :=
  ph <~ inM (read_photon p) ;;
  pl <~ calc err (leak_place o ph wt dt) ;;
  let '(wt, lc, zmax) := pl in
  ok <~ (if Z.eqb wt 3 then push_leak F_EXTLEAK F_NEXT p lc (ph_edir ph) (ph_eelec ph) (ph_irefl ph) wl err else retF true) ;;
  if negb ok then retF (Some (-1)%Z) else
  ok <~ (if Z.eqb wt 2 then push_leak F_INTLEAK F_NINT p lc (ph_edir ph) (ph_eelec ph) (ph_irefl ph) wl err else retF true) ;;
  if negb ok then retF (Some (-1)%Z) else
  if (Z.eqb wt 1 && nltb (vz lc) zmax)%bool then make_temp x tr o p wl lc dt q_c r_c zmax err
  else retF None.

Definition reflectM (x : xraylib T) (tr : tracerM) (fuel : nat) (o : optic T) (p : ptr) (sn ev0 : vec3 T)
    (leak_calc : bool) (err : eslot) : MF Z :=
  al <~ on_photon err p (reflect_alfa sn) ;;
  match al with
  | None => retF (-1)%Z
  | Some alfa =>
      n <~ inM (load_int p F_NEN) ;;
      wl <~ inM (malloc (Z.to_nat n)) ;;
      match wl with
      | None => no_memory err ~; retF (-1)%Z
      | Some _ =>
          wo <~ (if leak_calc then on_photon err p (trace_wall fuel o) else retF (((0%Z, (#0)%num, 0%Z, 0%Z) : wall_out))) ;;
          let '(wt, dt, r_c, q_c) := wo in
          if (leak_calc && Z.leb wt 0)%bool then inM (free wl) ~; retF (-1)%Z
          else
            r <~ on_photon err p (reflect_energies o sn ev0 alfa wt dt) ;;
            inM (write_dbls wl 0 (rr_leak r)) ~;
            if negb (rr_ok r) then inM (free wl) ~; retF (-1)%Z
            else
              let iesc := if rr_wf r then 1%Z else 0%Z in
              if rr_lf r then
                early <~ reflect_leaksM x tr o p wl wt dt r_c q_c err ;;
                inM (free wl) ~; retF (match early with Some c => c | None => iesc end)
              else inM (free wl) ~; retF iesc
      end
  end.

(** The mutual recursion, as TraceModel.trace. *)
Fixpoint traceM (x : xraylib T) (o : optic T) (junk : vec3 T) (leak_calc : bool) (err : eslot) (fuel : nat) : tracerM :=
  match fuel with
  | O => fun _ _ _ _ _ => ret None
  | S fuel => trace_bodyM (fun p sn => reflectM x (traceM x o junk leak_calc err fuel) (S fuel) o p sn junk leak_calc err) o junk err
  end.

(** ** polycap_photon_launch *)
Fixpoint read_ints (n from : nat) (p : ptr) : M (list Z) :=
  match n with
  | O => ret []
  | S n => x <- load_int p from ;; r <- read_ints n (S from) p ;; ret (x :: r)
  end.
(** The description and its profile. *)
Definition read_optic (d : ptr) : M (optic T) :=
  sig <- load_dbl d D_SIG ;; ncap <- load_int d D_NCAP ;; nel <- load_int d D_NELEM ;;
  iz <- load_ptr d D_IZ ;; izs <- read_ints (Z.to_nat nel) 0 iz ;;
  wi <- load_ptr d D_WI ;; wis <- read_dbls (Z.to_nat nel) 0 wi ;;
  dens <- load_dbl d D_DENS ;; pr <- load_ptr d D_PROF ;;
  n <- load_int pr 0 ;;
  z <- load_ptr pr 1 ;; zs <- read_dbls (S (Z.to_nat n)) 0 z ;;
  c <- load_ptr pr 2 ;; cs <- read_dbls (S (Z.to_nat n)) 0 c ;;
  e <- load_ptr pr 3 ;; es <- read_dbls (S (Z.to_nat n)) 0 e ;;
  ret (mkOptic (mkProfile (Z.to_nat n) zs cs es) ncap sig dens izs wis).

(** Lines 433-450: the weights of earlier leaks and the array are released, the leaks are not. *)
Definition drop_leaks (farr fn : nat) (p : ptr) : M unit :=
  a <- load_ptr p farr ;;
  match a with
  | None => ret tt
  | Some _ =>
      n <- load_int p fn ;;
      for_n (Z.to_nat n) 0 (fun i => l <- load_ptr a i ;; w <- load_ptr l L_WEIGHT ;; free_if w) ;;;
      free a ;;; store p farr (Vptr NULL)
  end.

(** Lines 506-573: position; the capillary, or [None] outside the optic. *)
Definition launch_place (o : optic T) (ph : photon T) : RM (nat * option (T * T)) :=
  let p := o_prof o in
  let st := ph_start ph in
  let nsh := n_shells (o_ncap o) in
  RM.bind (if nltb (#0)%num (vz st) then last_le (p_z p) (vz st) (p_nmax p) 0 0 else RM.ret O) (fun zid =>
  RM.bind (launch_ext p (vz st) zid) (fun ext =>
  RM.bind (if neqb nsh (#0)%num then
             RM.ret (negb (nltb ext (nsqrt (nadd (nmul (vx st) (vx st)) (nmul (vy st) (vy st))))), #0, #0)%num
           else
             let '(q, r) := hex_round (hex_frac (vx st) (vy st) (hex_unit ext nsh)) in
             RM.bind (within_e ext st) (fun w => RM.ret (negb (Z.eqb w 0), q, r))) (fun iqr =>
  let '(inside, q, r) := iqr in
  if negb inside then RM.bind (report E_ARG) (fun _ => RM.ret (zid, None)) else RM.ret (zid, Some (q, r))))).
(** Lines 621-647: the axis of the capillary, the index, and whether the start is in the glass. *)
Definition launch_capillary (o : optic T) (q r : T) (zid : nat) (ph : photon T) : RM (list (T * T) * nat * bool) :=
  let p := o_prof o in
  let st := ph_start ph in
  let nsh := n_shells (o_ncap o) in
  RM.bind (launch_axes o nsh q r (S (p_nmax p)) 0) (fun axes =>
  RM.bind (last_le (p_z p) (vz st) (S (p_nmax p)) 0 0) (fun ix =>
  RM.bind (if nltb (#0)%num (vz st) then
             RM.bind (interp (p_z p) (p_cap p) (vz st) zid) (fun rad =>
             RM.bind (interp (p_z p) (List.map fst axes) (vz st) zid) (fun cx =>
             RM.bind (interp (p_z p) (List.map snd axes) (vz st) zid) (fun cy => RM.ret (rad, cx, cy))))
           else
             RM.bind (rd (p_cap p) 0) (fun rad => RM.bind (rd axes 0) (fun xy => RM.ret (rad, fst xy, snd xy)))) (fun rxy =>
  let '(rad, cx, cy) := rxy in
  let d := (nsqrt ((vx st - cx) * (vx st - cx) + (vy st - cy) * (vy st - cy)))%num in
  RM.ret (axes, ix, nltb rad d)))).

(** Lines 683-694: through the glass. *)
Definition wall_travel (dt : T) (ph : photon T) : RM (unit * photon T) :=
  RM.bind (deref (ph_amu ph)) (fun amu =>
  let ph := set_w (List.map (fun wa => (fst wa * nexp (- #1 * dt * snd wa))%num) (List.combine (ph_w ph) amu)) ph in
  RM.ret (tt, set_exit (vgo (ph_exit ph) (ndiv dt (nsqrt (vscalar (ph_edir ph) (ph_edir ph)))) (ph_edir ph)) ph)).
(** Lines 744-752, 787-791: the axis of the new capillary. *)
Definition wall_capillary (o : optic T) (q_c r_c : Z) (ph : photon T) : RM (list (T * T) * nat) :=
  RM.bind (launch_axes o (n_shells (o_ncap o)) (nofZ q_c) (nofZ r_c) (S (p_nmax (o_prof o))) 0) (fun axes =>
  RM.bind (last_le (p_z (o_prof o)) (vz (ph_exit ph)) (S (p_nmax (o_prof o))) 0 0) (fun ix => RM.ret (axes, ix))).
(** Lines 783-787: on the exit plane. *)
Definition wall_exit_plane (extmax zmax : T) (ph : photon T) : RM (Z * photon T) :=
  let ph := set_exit (to_exit (ph_exit ph) (ph_edir ph) zmax) ph in
  RM.bind (within_e extmax (ph_exit ph)) (fun w => RM.ret (w, ph)).
Definition two_of (o : optic T) : RM (T * T) :=
  RM.bind (rd (p_z (o_prof o)) (p_nmax (o_prof o))) (fun zmax =>
  RM.bind (rd (p_ext (o_prof o)) (p_nmax (o_prof o))) (fun extmax => RM.ret (zmax, extmax))).

(** push_leak with the photon's own data *)
Definition push_own (farr fn : nat) (p : ptr) (err : eslot) : MF bool :=
  ph <~ inM (read_photon p) ;;
  w <~ inM (load_ptr p F_WEIGHT) ;;
  push_leak farr fn p (ph_exit ph) (ph_edir ph) (ph_eelec ph) (ph_irefl ph) w err.

(** The photon entered a new capillary, lines 742-848; false: return -1. *)
Definition wall_onward (x : xraylib T) (o : optic T) (junk : vec3 T) (leak_calc : bool) (fuel : nat) (p cx cy : ptr)
    (dt : T) (r_c q_c : Z) (zmax extmax : T) (err : eslot) : MF bool :=
  on_photon err p (fun ph => RM.ret (tt, set_dtravel (nadd (ph_dtravel ph) dt) ph)) ~;
  ph <~ inM (read_photon p) ;;
  ax <~ calc err (wall_capillary o q_c r_c ph) ;;
  inM (write_axes cx cy (fst ax)) ~;
  ie <~ trace_manyM (traceM x o junk leak_calc err fuel) p cx cy (S (p_nmax (o_prof o))) 0%Z (snd ax) ;;
  if (Z.eqb ie (-1) || Z.eqb ie (-3))%bool then retF false
  else if (Z.eqb ie 1 || Z.eqb ie (-2))%bool then
    w <~ on_photon err p (wall_exit_plane extmax zmax) ;;
    if Z.eqb w 0 then push_own F_EXTLEAK F_NEXT p err
    else if Z.eqb w 1 then push_own F_INTLEAK F_NINT p err
    else retF true
  else retF true.

(** A photon that starts in the glass beyond the entrance, lines 671-877; the caller releases. *)
Definition launch_wallM (x : xraylib T) (o : optic T) (junk : vec3 T) (leak_calc : bool) (fuel : nat) (p cx cy : ptr)
    (err : eslot) : MF Z :=
  wo <~ on_photon err p (trace_wall fuel o) ;;
  let '(wt, dt, r_c, q_c) := wo in
  if Z.leb wt 0 then retF (-1)%Z
  else
    on_photon err p (wall_travel dt) ~;
    ok <~ (if Z.eqb wt 3 then push_own F_EXTLEAK F_NEXT p err else retF true) ;;
    if negb ok then retF (-1)%Z else
    ok <~ (if Z.eqb wt 2 then push_own F_INTLEAK F_NINT p err else retF true) ;;
    if negb ok then retF (-1)%Z else
    ze <~ calc err (two_of o) ;;
    ok <~ (if Z.eqb wt 1 then wall_onward x o junk leak_calc fuel p cx cy dt r_c q_c (fst ze) (snd ze) err else retF true) ;;
    if negb ok then retF (-1)%Z else
    on_photon err p (fun ph =>
      RM.ret (tt, set_w (List.map (fun _ => #0) (ph_w ph))%num
                    (set_edir (vnorm (ph_sdir ph)) (set_exit (mkV (snd ze + #1) (snd ze + #1) (fst ze))%num ph)))) ~;
    retF 1%Z.

(** The end of every path that has cap_x and cap_y. *)
Definition finish {A} (p cx cy : ptr) (a : A) : MF A :=
  inM (free cx ;;; free cy ;;; release_arrays p) ~; retF a.

(** From the arrays of the capillary on, lines 575-955. *)
Definition launch_flight (x : xraylib T) (o : optic T) (junk : vec3 T) (leak_calc : bool) (fuel : nat) (p w : ptr) (n : nat)
    (q r : T) (zid : nat) (err : eslot) : MF Z :=
  cx <~ inM (malloc (S (p_nmax (o_prof o)))) ;;
  match cx with
  | None => no_memory err ~; inM (release_arrays p) ~; retF (-1)%Z
  | Some _ =>
      cy <~ inM (malloc (S (p_nmax (o_prof o)))) ;;
      match cy with
      | None => no_memory err ~; inM (release_arrays p) ~; inM (free cx) ~; retF (-1)%Z
      | Some _ =>
          ph <~ inM (read_photon p) ;;
          ax <~ calc err (launch_capillary o q r zid ph) ;;
          let '(axes, ix, in_glass) := ax in
          inM (write_axes cx cy axes) ~;
          if in_glass then
            if (leak_calc && neqb (vz (ph_start ph)) (#0)%num)%bool then
              silently (reflectM x (traceM x o junk leak_calc NULL fuel) fuel o p (mkV (#0) (#0) (#1))%num junk leak_calc NULL) ~;
              finish p cx cy 2%Z
            else if (leak_calc && nltb (#0)%num (vz (ph_start ph)))%bool then
              c <~ launch_wallM x o junk leak_calc fuel p cx cy err ;;
              finish p cx cy c
            else finish p cx cy 2%Z
          else
            ie <~ trace_manyM (traceM x o junk leak_calc err fuel) p cx cy (S (p_nmax (o_prof o))) 0%Z ix ;;
            pw <~ inM (load_ptr p F_WEIGHT) ;;
            inM (memcpy w pw n) ~;
            finish p cx cy (if (Z.eqb ie (-1) || Z.eqb ie (-3))%bool then (-1)%Z else if Z.eqb ie 0 then 0%Z else 1%Z)
      end
  end.

(** if (b) { polycap_set_error_literal(..); return -1; } *)
Definition refuse_launch (b : bool) (err : eslot) (k : MF Z) : MF Z :=
  if b then calc err (report E_ARG) ~; retF (-1)%Z else k.

(** polycap_photon_launch: [weights] is the address of the caller's variable of type double*. *)
Definition launchM (x : xraylib T) (junk : vec3 T) (fuel : nat) (p : ptr) (n : nat) (energies weights : ptr) (leak_calc : bool)
    (err : eslot) : MF Z :=
  refuse_launch (is_null p) err (
  refuse_launch (is_null energies) err (
  refuse_launch (Nat.ltb n 1) err (
  okE <~ inM (energy_loop n 0 energies) ;;
  refuse_launch (negb okE) err (
  refuse_launch (is_null weights) err (
  inM (drop_leaks F_EXTLEAK F_NEXT p ;;; drop_leaks F_INTLEAK F_NINT p) ~;
  desc <~ inM (load_ptr p F_DESC) ;;
  refuse_launch (is_null desc) err (
  o <~ inM (read_optic desc) ;;
  w <~ inM (malloc n) ;;
  inM (store weights 0 (Vptr w)) ~;
  inM (store p F_NEN (Vint (Z.of_nat n))) ~;
  e <~ inM (malloc n) ;;
  inM (store p F_EN (Vptr e)) ~;
  match e with
  | None => no_memory err ~; inM (photon_free p) ~; retF (-1)%Z
  | Some _ =>
      pw <~ inM (malloc n) ;;
      inM (store p F_WEIGHT (Vptr pw)) ~;
      match pw with
      | None => no_memory err ~; inM (photon_free p) ~; retF (-1)%Z
      | Some _ =>
          inM (ens <- read_dbls n 0 energies ;; write_dbls e 0 ens ;;; write_dbls pw 0 (List.repeat (#1)%num n)) ~;
          inM (store p F_IREFL (Vint 0) ;;; store p F_NEXT (Vint 0) ;;; store p F_NINT (Vint 0)) ~;
          on_photon err p (fun ph => RM.ret (tt, set_sdir (vnorm (ph_sdir ph)) ph)) ~;
          scatfM x o p err ~;
          on_photon err p (fun ph => RM.ret (tt, launch_reset ph)) ~;
          ph <~ inM (read_photon p) ;;
          pl <~ calc err (launch_place o ph) ;;
          match pl with
          | (_, None) => inM (release_arrays p) ~; retF (-2)%Z
          | (zid, Some (q, r)) => launch_flight x o junk leak_calc fuel p w n q r zid err
          end
      end
  end)))))).

End Flight.
