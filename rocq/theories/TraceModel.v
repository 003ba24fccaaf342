(** * Model of src/polycap-capil.c, part 2: tracing; polycap_photon_pc_intersect *)
From Coq Require Import ZArith List Bool.
From Verif Require Import Num Geometry SpecPhoton RM CapilModel.
Import ListNotations.
Local Open Scope num_scope.
Local Open Scope rm_scope.

Section Trace.
Context {T : Type} {N : Num T}.

(** polycap_photon_within_pc_boundary with its report: src/polycap-photon.c:139-169. *)
Definition within_e (radius : T) (c : vec3 T) : RM Z :=
  (if radius <=? #0 then report E_ARG else ret tt) ;;; ret (within_pc_boundary radius c).

(** for(i = i0; i < i0 + n; i++) if(z[i] <= zc) id = i;
    src/polycap-capil.c:926-929, 664-667, 1003-1006, 1330-1333,
    src/polycap-photon.c:205-208, 508-511. *)
Fixpoint last_le (zs : list T) (zc : T) (n i id : nat) : RM nat :=
  match n with
  | O => ret id
  | S n => z <- rd zs i ;; last_le zs zc n (S i) (if z <=? zc then i else id)
  end.

(** Linear interpolation of an array at z [zc] between indices id and id+1, in the
    order of operations of src/polycap-capil.c:1007-1009. *)
Definition interp (zs vs : list T) (zc : T) (id : nat) : RM T :=
  v1 <- rd vs (S id) ;; v0 <- rd vs id ;; z1 <- rd zs (S id) ;; z0 <- rd zs id ;;
  ret ((v1 - v0) / (z1 - z0) * (zc - z0) + v0).

(** The ray through [c] with direction [d] at height [z]:
    e.g. src/polycap-capil.c:982-984. *)
Definition ray_at (c d : vec3 T) (z : T) : vec3 T :=
  mkV (vx c + vx d * (z - vz c) / vz d) (vy c + vy d * (z - vz c) / vz d) z.

(** Distance between two points: e.g. src/polycap-capil.c:1170-1173. *)
Definition dist3 (a b : vec3 T) : T := let r := vsub a b in nsqrt (vscalar r r).

(** ** polycap_photon_pc_intersect: src/polycap-photon.c:174-362 *)

(** The do-loop of lines 225-236: walk from z_id in direction [d] until inside/outside
    changes.  [w0] is the position of the start point.  Result: the index, or None if
    the loop ended without a change. *)
Fixpoint pci_loop (p : profile T) (pc pd : vec3 T) (w0 : Z) (d : Z) (k : nat) (zid : Z) : RM (option Z) :=
  match k with
  | O => nofuel
  | S k =>
      let zid := (zid + d)%Z in
      z <- rdZ (p_z p) zid ;;
      ext <- rdZ (p_ext p) zid ;;
      if negb (Z.eqb w0 (within_pc_boundary ext (ray_at pc pd z))) then ret (Some zid)
      else if (Z.leb 0 zid && Z.leb zid (Z.of_nat (p_nmax p)))%bool then pci_loop p pc pd w0 d k zid
      else ret None
  end.

Definition between (lo x hi : T) : bool := (x >=? lo) && (x <=? hi).

(** Choice among the three solutions: lines 265-344.  [None]: return NULL;
    [Some None]: no viable solution, the segment end is used. [better a b] is
    a >= b for dir < 0 and a <= b otherwise; [sbetter] is the strict version. *)
Definition pci_choose (better sbetter : T -> T -> bool) (lo hi z1 z2 z3 : T) : option (option T) :=
  let v1 := between lo z1 hi in
  let v2 := between lo z2 hi in
  let v3 := between lo z3 hi in
  if v1 && v2 && v3 then
    if better z1 z2 && better z1 z3 then Some (Some z1)
    else if better z2 z1 && better z2 z3 then Some (Some z2)
    else if better z3 z1 && better z3 z2 then Some (Some z3)
    else None
  else if v2 && v3 then Some (Some (if sbetter z3 z2 then z3 else z2))
  else if v1 && v3 then Some (Some (if sbetter z1 z3 then z1 else z3))
  else if v1 && v2 then Some (Some (if sbetter z1 z2 then z1 else z2))
  else if v1 then Some (Some z1)
  else if v2 then Some (Some z2)
  else if v3 then Some (Some z3)
  else Some None.

Definition apothem_of (ext : T) : T := nsqrt ((ext * ext) - ((ext / #2) * (ext / #2))).

(** The point with all three coordinates computed from the ray, lines 244-249, 347-349. *)
Definition ray_at3 (c d : vec3 T) (z : T) : vec3 T :=
  mkV (vx c + vx d * (z - vz c) / vz d) (vy c + vy d * (z - vz c) / vz d) (vz c + vz d * (z - vz c) / vz d).

Definition pc_intersect (pc pdir : vec3 T) (p : profile T) : RM (option (vec3 T)) :=
  if vz pdir =? #0 then report E_ARG ;;; ret None
  else
    let pd := vnorm (mkV (- #1 * vx pdir) (- #1 * vy pdir) (- #1 * vz pdir)) in
    zid <- last_le (p_z p) (vz pc) (p_nmax p) 0 0 ;;
    (* lines 209: same value as [interp], same order of operations *)
    ext0 <- interp (p_z p) (p_ext p) (vz pc) zid ;;
    let w0 := within_pc_boundary ext0 pc in
    if Z.eqb w0 1 then report E_ARG ;;; ret None
    else
      let neg := vz pd <? #0 in
      let d := if neg then (-1)%Z else 1%Z in
      let zid := if neg then (Z.of_nat zid + 1)%Z else Z.of_nat zid in
      r <- pci_loop p pc pd w0 d (p_nmax p + 3) zid ;;
      match r with
      | None => ret None
      | Some zid =>
          z_b <- rdZ (p_z p) zid ;; z_e <- rdZ (p_z p) (zid - d) ;;
          e_b <- rdZ (p_ext p) zid ;; e_e <- rdZ (p_ext p) (zid - d) ;;
          let pb := ray_at3 pc pd z_b in
          let pe := ray_at3 pc pd z_e in
          let d_b := apothem_of e_b in
          let d_e := apothem_of e_e in
          let dp nx ny q := nabs (nx * vx q + ny * vy q) in
          let sol nx ny :=
            (dp nx ny pb - d_b) / (d_b - d_e - dp nx ny pb + dp nx ny pe) * (e_b - e_e) + e_b in
          let z1 := sol (#0) (#1) in
          let z2 := sol ncospi6 nhalf in
          let z3 := sol ncospi6 (- nhalf) in
          let ch := if neg then pci_choose (fun a b => a >=? b) (fun a b => a >? b) z_b z_e z1 z2 z3
                    else pci_choose (fun a b => a <=? b) (fun a b => a <? b) z_e z_b z1 z2 z3 in
          match ch with
          | None => ret None
          | Some None => ret (Some pe)
          | Some (Some zf) => ret (Some (ray_at3 pc pd zf))
          end
      end.

(** ** polycap_capil_trace_wall: src/polycap-capil.c:896-1194 *)

(** The search for the next segment hit of lines 975-998 (monocapillary: axis 0,0) and
    1091-1117 (capillary (q,r)).  [axis] maps a z index to the capillary axis point.
    Result: iesc, interact_coords, z_id after the loop. *)
Fixpoint wall_segs (o : optic T) (ph : photon T) (axis : nat -> RM (T * T)) (k : nat)
    (zid : nat) (inter sn : vec3 T) : RM (Z * vec3 T * nat) :=
  match k with
  | O => nofuel
  | S k =>
      let p := o_prof o in
      rad0 <- rd (p_cap p) zid ;;
      rad1 <- rd (p_cap p) (S zid) ;;
      z0 <- rd (p_z p) zid ;;
      z1 <- rd (p_z p) (S zid) ;;
      '(x0, y0) <- axis zid ;;
      '(x1, y1) <- axis (S zid) ;;
      '(iesc, inter, sn) <- segment (mkV x0 y0 z0) (mkV x1 y1 z1) rad0 rad1
          (ray_at (ph_exit ph) (ph_edir ph) z0) (ray_at (ph_exit ph) (ph_edir ph) z1) (ph_edir ph) inter sn ;;
      let zid := S zid in
      if (negb (Z.eqb iesc 1) && Z.ltb (Z.of_nat zid) (Z.of_nat (p_nmax p) - 1))%bool
      then wall_segs o ph axis k zid inter sn
      else ret (iesc, inter, zid)
  end.

(** Lines 977-989, 1100-1107: the axis of capillary (q,r) at index i. *)
Definition axis_of (o : optic T) (nsh q r : T) (i : nat) : RM (T * T) :=
  ext <- rd (p_ext (o_prof o)) i ;;
  let u := hex_unit ext nsh in
  ret (axis_x q r u, axis_y r u).

Inductive walk_res :=
| Stumbled (d_travel : T)                              (* line 1050-1052: return 1 *)
| Left (dist : T) (zid : nat) (pos : vec3 T) (q r : T).  (* the do-loop ended *)

Definition in_stack (nsh q r : T) : bool :=
  (nabs q <=? nsh) && (nabs r <=? nsh) && (nabs (- #1 * q - r) <=? nsh).
Definition out_stack (nsh q r : T) : bool :=
  (nabs q >? nsh) || (nabs r >? nsh) || (nabs (- #1 * q - r) >? nsh).

(** The do-loop of lines 1005-1056: propagate in steps of a tenth of the capillary
    radius until the hexagon changes. [zmax] is z[nmax]. *)
Fixpoint wall_walk (o : optic T) (ph : photon T) (nsh zmax q_i r_i : T) (fuel : nat)
    (dist : T) (zid : nat) : RM walk_res :=
  match fuel with
  | O => nofuel
  | S fuel =>
      let p := o_prof o in
      cap <- rd (p_cap p) zid ;;
      let dist := dist + cap / #10 in
      let pos := vgo (ph_exit ph) dist (ph_edir ph) in
      zid <- last_le (p_z p) (vz pos) (p_nmax p) 0 zid ;;
      ext <- interp (p_z p) (p_ext p) (vz pos) zid ;;
      rad0 <- interp (p_z p) (p_cap p) (vz pos) zid ;;
      let u := hex_unit ext nsh in
      let '(q_new, r_new) := hex_round (hex_frac (vx pos) (vy pos) u) in
      let cy := axis_y r_i u in
      let cx := axis_x q_i r_i u in
      let d0 := nsqrt ((vx pos - cx) * (vx pos - cx) + (vy pos - cy) * (vy pos - cy)) in
      let d_travel := dist3 pos (ph_exit ph) in
      if (d0 <? rad0) && in_stack nsh q_i r_i && (d_travel >? c1em5) then ret (Stumbled d_travel)
      else if (q_new =? q_i) && (r_new =? r_i) && (vz pos <=? zmax)
      then wall_walk o ph nsh zmax q_i r_i fuel dist zid
      else ret (Left dist zid pos q_new r_new)
  end.

(** double -> int assignment *r_cntr = r_i. *)
Definition to_int (x : T) : RM Z := match ntoZ x with Some z => ret z | None => ub end.

(** Result of trace_wall: code, d_travel, r_cntr, q_cntr. *)
Definition wall_out : Type := Z * T * Z * Z.

(** At the exit window: lines 1062-1088 (with [last] = phot_coord0) and 1133-1160
    (with [last] = temp_phot). *)
Definition wall_exit (o : optic T) (ph : photon T) (zmax : T) (last : option (vec3 T)) (r q : Z) : RM wall_out :=
  let p := o_prof o in
  let tmp := ray_at (ph_exit ph) (ph_edir ph) zmax in
  let lastp := match last with Some l => l | None => tmp end in
  extmax <- rd (p_ext p) (p_nmax p) ;;
  w <- within_e extmax tmp ;;
  if Z.eqb w 0 then
    i <- pc_intersect tmp (ph_edir ph) p ;;
    let to := match i with None => lastp | Some x => x end in
    ret (3%Z, dist3 to (ph_exit ph), r, q)
  else ret (2%Z, dist3 lastp (ph_exit ph), r, q).

(** What follows a hit or a miss in the segments: lines 1127-1188. *)
Definition wall_end (o : optic T) (ph : photon T) (zmax : T) (iesc : Z) (inter : vec3 T) (zid : nat) (r q : Z) : RM wall_out :=
  if negb (Z.eqb iesc 1) then wall_exit o ph zmax None r q
  else ret (if Nat.leb (p_nmax (o_prof o)) zid then 2%Z else 1%Z, dist3 inter (ph_exit ph), r, q).

(** The polycapillary branch with its goto: lines 1001-1125.  [inter] is interact_coords,
    which a hit in the last segment has already overwritten when the goto is taken. *)
Fixpoint wall_hex (o : optic T) (ph : photon T) (nsh zmax : T) (fuel : nat)
    (dist : T) (zid : nat) (q_i r_i : T) (inter : vec3 T) : RM wall_out :=
  match fuel with
  | O => nofuel
  | S fuel =>
      let nmax := p_nmax (o_prof o) in
      w <- wall_walk o ph nsh zmax q_i r_i (S fuel) dist zid ;;
      match w with
      | Stumbled d => r <- to_int r_i ;; q <- to_int q_i ;; ret (1%Z, d, r, q)
      | Left dist zid pos q_new r_new =>
          if out_stack nsh q_new r_new || (vz pos >? zmax) then
            r <- to_int r_new ;; q <- to_int q_new ;;
            wall_exit o ph zmax (Some pos) r q
          else
            '(iesc, inter, zid) <- wall_segs o ph (axis_of o nsh q_new r_new) (S nmax) zid inter (ph_exit ph) ;;
            if (Nat.leb nmax zid && negb (Z.eqb iesc 0))%bool
            then wall_hex o ph nsh zmax fuel dist (nmax - 1) q_new r_new inter
            else
              r <- to_int r_new ;; q <- to_int q_new ;;
              wall_end o ph zmax iesc inter zid r q
      end
  end.

(** The exterior radius at the photon: lines 931-937. *)
Definition ext_here (p : profile T) (zc : T) (zid : nat) : RM T :=
  z0 <- rd (p_z p) zid ;;
  if negb (z0 =? zc) then interp (p_z p) (p_ext p) zc zid else rd (p_ext p) zid.

(** polycap_capil_trace_wall.  Returns the code with the three outputs, and the photon
    (its exit_direction is normalised, line 919). *)
Definition trace_wall (fuel : nat) (o : optic T) (ph : photon T) : RM (wall_out * photon T) :=
  let ph := set_edir (vnorm (ph_edir ph)) ph in
  let p := o_prof o in
  let none : wall_out := ((-2)%Z, #0, 0%Z, 0%Z) in
  zmax <- rd (p_z p) (p_nmax p) ;;
  if vz (ph_exit ph) >=? zmax then ret (none, ph)
  else
    zid <- last_le (p_z p) (vz (ph_exit ph)) (p_nmax p) 0 0 ;;
    ext <- ext_here p (vz (ph_exit ph)) zid ;;
    let nsh := n_shells (o_ncap o) in
    if nsh =? #0 then
      if nsqrt (vx (ph_exit ph) * vx (ph_exit ph) + vy (ph_exit ph) * vy (ph_exit ph)) >? ext
      then report E_ARG ;;; ret (none, ph)
      else
        '(iesc, inter, zid) <- wall_segs o ph (fun _ => ret (#0, #0)) (S (p_nmax p)) zid (ph_exit ph) (ph_exit ph) ;;
        (* q_new = r_new = 0: lines 910, 1130-1131 *)
        w <- wall_end o ph zmax iesc inter zid 0%Z 0%Z ;;
        ret (w, ph)
    else
      pos <- within_e ext (ph_exit ph) ;;
      if Z.eqb pos 0 then ret (none, ph)
      else
        let '(q_i, r_i) := hex_round (hex_frac (vx (ph_exit ph)) (vy (ph_exit ph)) (hex_unit ext nsh)) in
        w <- wall_hex o ph nsh zmax fuel (#0) zid q_i r_i (ph_exit ph) ;;
        ret (w, ph).

(** ** polycap_capil_reflect: src/polycap-capil.c:565-891 *)

(** The loop over the energies, lines 620-646. [wt]: wall_trace > 0, [dt]: d_travel.
    [ev]: photon->exit_electric_vector, [ev0]: the local electric_vector. *)
Record refl_res := mkRefl { rr_ok : bool; rr_ev : vec3 T; rr_new : vec3 T;
                            rr_leak : list T; rr_w : list T; rr_lf : bool; rr_wf : bool }.
Fixpoint refl_loop (o : optic T) (sn dir : vec3 T) (alfa : T) (wt : bool) (dt : T)
    (en amu scatf w : list T) (ev ev0 : vec3 T) : RM refl_res :=
  match en with
  | [] => ret (mkRefl true ev ev0 [] [] false false)
  | e :: en =>
      s <- rd scatf 0 ;;
      a <- rd amu 0 ;;
      let cons1 := (ndec 101358 100000 * e) * alfa * o_rough o in
      let r_rough := nexp (- #1 * cons1 * cons1) in
      '(rtot, ev, ev0) <- refl_polar e (o_dens o) s a sn dir ev ev0 ;;
      if (rtot <? #0) || (rtot >? #1)
      then report E_IO ;;; ret (mkRefl false ev ev0 [] w false false)
      else
        w0 <- rd w 0 ;;
        let lk := (#1 - rtot * r_rough) * w0 * nexp (- #1 * dt * a) in
        let w1 := w0 * rtot * r_rough in
        r <- refl_loop o sn dir alfa wt dt en (List.tl amu) (List.tl scatf) (List.tl w) ev ev0 ;;
        ret (mkRefl (rr_ok r) (rr_ev r) (rr_new r)
               (if wt then lk :: rr_leak r else []) (w1 :: rr_w r)
               (wt && (lk >=? c1em4) || rr_lf r) ((w1 >=? c1em4) || rr_wf r))
  end.

(** Cross sections per energy; polycap_photon_scatf: src/polycap-photon.c:22-94.
    [cs_total], [fi], [atomic_weight]: xraylib's CS_Total, Fi and AtomicWeight (external). *)
Record xraylib := { cs_total : Z -> T -> T; fi : Z -> T -> T; atomic_weight : Z -> T }.

Definition xl_amu (x : xraylib) (o : optic T) (e : T) : T :=
  List.fold_left (fun t zw => t + cs_total x (fst zw) e * snd zw) (List.combine (o_iz o) (o_wi o)) (#0) * o_dens o.
Definition xl_scatf (x : xraylib) (o : optic T) (e : T) : T :=
  List.fold_left (fun t zw => t + (nofZ (fst zw) + fi x (fst zw) e) * (snd zw / atomic_weight x (fst zw)))
    (List.combine (o_iz o) (o_wi o)) (#0).

Definition photon_scatf (x : xraylib) (o : optic T) (ph : photon T) : RM (photon T) :=
  if (o_dens o <=? #0) || match o_iz o with [] => true | _ => false end
     || match ph_en ph with [] => true | _ => false end
     || List.existsb (fun e => (e <? #1) || (e >? #100)) (ph_en ph)
     || List.existsb (fun zw => (snd zw <? #0) || (snd zw >? #1) || Z.ltb (fst zw) 1 || Z.ltb 111 (fst zw))
          (List.combine (o_iz o) (o_wi o))
  then report E_ARG ;;; ret ph
  else ret (set_cs (Some (List.map (xl_amu x o) (ph_en ph))) (Some (List.map (xl_scatf x o) (ph_en ph))) ph).

(** capx_temp, capy_temp and ix_temp: lines 791-803. *)
Fixpoint cap_axes (o : optic T) (nsh : T) (q r : Z) (n i : nat) : RM (list (T * T)) :=
  match n with
  | O => ret []
  | S n =>
      xy <- (if nsh =? #0 then ret (#0, #0)
             else ext <- rd (p_ext (o_prof o)) i ;;
                  let u := hex_unit ext nsh in
                  ret ((#2 * nofZ q + nofZ r) * ncospi6 * u, #3 / #2 * nofZ r * u)) ;;
      l <- cap_axes o nsh q r n (S i) ;;
      ret (xy :: l)
  end.

(** A photon as polycap_photon_new makes it inside polycap_capil_reflect, line 716;
    None when the checks of polycap_photon_new reject it (src/polycap-photon.c:96-137). *)
Definition photon_fresh (start dir ev : vec3 T) : option (photon T) :=
  if (vz start <? #0) || (vz dir <? #0) then None
  else Some (mkPhoton start dir ev start dir ev [] [] None None 0%Z (#0) [] []).

(** The type of polycap_capil_trace: index, photon, capillary axis; result code, index, photon. *)
Definition tracer : Type := nat -> photon T -> list (T * T) -> RM (Z * nat * photon T).

(** for(i = from; i <= nmax; i++) iesc = trace(..); if(iesc != 1) break;
    lines 808-816, src/polycap-photon.c:723-730, 909-916.  [n] iterations at most, [iesc]
    the value before the loop. *)
Fixpoint trace_many (tr : tracer) (axes : list (T * T)) (n : nat) (iesc : Z) (ix : nat) (ph : photon T)
  : RM (Z * photon T) :=
  match n with
  | O => ret (iesc, ph)
  | S n =>
      '(iesc, ix, ph) <- tr ix ph axes ;;
      if Z.eqb iesc 1 then trace_many tr axes n iesc ix ph else ret (iesc, ph)
  end.

(** The point of the ray on the exit plane, lines 864-866. *)
Definition to_exit (c d : vec3 T) (zmax : T) : vec3 T :=
  let k := (zmax - vz c) / vz d in
  mkV (vx c + vx d * k) (vy c + vy d * k) (vz c + vz d * k).

(** The part of polycap_capil_reflect after the energy loop that follows the transmitted
    part of the photon, lines 650-885.  Result: Some code for an early return. *)
Definition reflect_leaks (x : xraylib) (tr : tracer) (o : optic T) (ph : photon T) (wl : list T)
    (wt : Z) (dt : T) (r_c q_c : Z) : RM (option Z * photon T) :=
  let p := o_prof o in
  let nsh := n_shells (o_ncap o) in
  let k := dt / nsqrt (vscalar (ph_edir ph) (ph_edir ph)) in
  let lc := vgo (ph_exit ph) k (ph_edir ph) in
  (* lines 663-681 *)
  wt <- (if Z.eqb wt 1 then
           zid <- last_le (p_z p) (vz lc) (p_nmax p) 0 0 ;;
           ext <- interp (p_z p) (p_ext p) (vz lc) zid ;;
           if nsh =? #0 then
             ret (if nsqrt (vx lc * vx lc + vy lc * vy lc) >=? ext then 3%Z else wt)
           else
             w <- within_e ext lc ;; ret (if Z.eqb w 0 then 3%Z else wt)
         else ret wt) ;;
  let lk c w := mkLeak c (ph_edir ph) (ph_eelec ph) (ph_irefl ph) w in
  let ph := if Z.eqb wt 3 then add_ext [lk lc wl] ph else ph in      (* 683-695 *)
  let ph := if Z.eqb wt 2 then add_int [lk lc wl] ph else ph in      (* 696-708 *)
  zmax <- rd (p_z p) (p_nmax p) ;;
  if (Z.eqb wt 1) && (vz lc <? zmax) then                            (* 709 *)
    t <- (match photon_fresh lc (ph_edir ph) (ph_eelec ph) with
          | Some t => ret t
          | None => report E_ARG ;;; ub end) ;;    (* line 717 dereferences the NULL result *)
    let t := mkPhoton (ph_start t) (ph_sdir t) (ph_selec t) (ph_exit t) (ph_edir t) (ph_eelec t)
               (ph_en ph) wl None None (ph_irefl ph) (ph_dtravel ph + dt) [] [] in
    t <- photon_scatf x o t ;;
    match ph_amu t, ph_scatf t with
    | Some _, Some _ =>
        axes <- cap_axes o nsh q_c r_c (S (p_nmax p)) 0 ;;
        ix <- last_le (p_z p) (vz (ph_exit t)) (S (p_nmax p)) 0 0 ;;
        '(ie, t) <- trace_many tr axes (S (p_nmax p) - ix) 0%Z ix t ;;
        if (Z.eqb ie (-1) || Z.eqb ie (-3))%bool then ret (Some (-2)%Z, ph)
        else
          let ph := add_int (ph_int t) (add_ext (ph_ext t) ph) in    (* 832-862 *)
          if (Z.eqb ie 1 || Z.eqb ie (-2))%bool then
            let ec := to_exit (ph_exit t) (ph_edir t) zmax in
            extmax <- rd (p_ext p) (p_nmax p) ;;
            w <- within_e extmax ec ;;
            ret (None, if Z.eqb w 0 then add_ext [lk ec (ph_w t)] ph
                       else if Z.eqb w 1 then add_int [lk ec (ph_w t)] ph else ph)
          else ret (None, ph)
    | _, _ => report E_MEM ;;; ret (Some (-1)%Z, ph)
    end
  else ret (None, ph).

(** polycap_capil_reflect; [ev0] is the uninitialised local electric_vector. *)
Definition reflect (x : xraylib) (tr : tracer) (fuel : nat) (o : optic T) (ph : photon T) (sn ev0 : vec3 T)
    (leak_calc : bool) : RM (Z * photon T) :=
  let sn := vnorm sn in
  let ph := set_edir (vnorm (ph_edir ph)) ph in
  let alfa := vscalar (ph_edir ph) sn in
  if alfa <? #0 then report E_ARG ;;; ret ((-1)%Z, ph)
  else
    '((wt, dt, r_c, q_c), ph) <- (if leak_calc then trace_wall fuel o ph
                                  else ret (((0%Z, #0, 0%Z, 0%Z) : wall_out), ph)) ;;
    if (leak_calc && Z.leb wt 0)%bool then ret ((-1)%Z, ph)
    else
      amu <- deref (ph_amu ph) ;;
      scatf <- deref (ph_scatf ph) ;;
      r <- refl_loop o sn (ph_edir ph) alfa (Z.ltb 0 wt) dt (ph_en ph) amu scatf (ph_w ph) (ph_eelec ph) ev0 ;;
      let ph := set_w (rr_w r) (set_eelec (rr_ev r) ph) in
      if negb (rr_ok r) then ret ((-1)%Z, ph)
      else
        let ph := set_eelec (rr_new r) ph in
        let iesc := if rr_wf r then 1%Z else 0%Z in
        if rr_lf r then
          '(early, ph) <- reflect_leaks x tr o ph (rr_leak r) wt dt r_c q_c ;;
          ret (match early with Some c => c | None => iesc end, ph)
        else ret (iesc, ph).

(** ** polycap_capil_trace: src/polycap-capil.c:1197-1361 *)

Inductive seg_res :=
| Stop (code : Z)                                                   (* return *)
| Miss                                                              (* iesc != 1 after the loop *)
| Hit (i : nat) (pc sn : vec3 T) (cosa : T).                        (* break with iesc == 1 *)

(** The loop over the segments, lines 1244-1314; [n] segments from index [i]. *)
Fixpoint trace_segs (o : optic T) (ph : photon T) (axes : list (T * T)) (nsh : T) (n i : nat) (pc sn : vec3 T)
  : RM seg_res :=
  match n with
  | O => ret Miss
  | S n =>
      let p := o_prof o in
      '(x0, y0) <- rd axes i ;; z0 <- rd (p_z p) i ;; rad0 <- rd (p_cap p) i ;;
      '(x1, y1) <- rd axes (S i) ;; z1 <- rd (p_z p) (S i) ;; rad1 <- rd (p_cap p) (S i) ;;
      e0 <- rd (p_ext p) i ;; e1 <- rd (p_ext p) (S i) ;;
      if (Z.eqb (within_pc_boundary e0 (mkV x0 y0 z0)) 0 || Z.eqb (within_pc_boundary e1 (mkV x1 y1 z1)) 0)%bool
      then report E_ARG ;;; ret (Stop (-1)%Z)
      else
        '(iesc, pc, sn) <- segment (mkV x0 y0 z0) (mkV x1 y1 z1) rad0 rad1
            (ray_at (ph_exit ph) (ph_edir ph) z0) (ray_at (ph_exit ph) (ph_edir ph) z1) (ph_edir ph) pc sn ;;
        let cosa := vscalar sn (ph_edir ph) in
        let iesc := if (nacos cosa >? npi / #2) || (nacos cosa <? #0) then (-5)%Z else iesc in
        if Z.eqb iesc 1 then
          let ext := (e0 - e1) / (z0 - z1) * (vz pc - z1) + e1 in
          if nsh =? #0 then
            if nsqrt (vx pc * vx pc + vy pc * vy pc) >=? ext then ret (Stop (-3)%Z)
            else ret (Hit i pc sn cosa)
          else
            w <- within_e ext pc ;;
            if Z.eqb w 0 then ret (Stop (-3)%Z) else ret (Hit i pc sn cosa)
        else
          w <- within_e e0 (ray_at (ph_exit ph) (ph_edir ph) z0) ;;
          if Z.eqb w 0 then ret (Stop (-3)%Z)
          else trace_segs o ph axes nsh n (S i) pc sn
  end.

(** polycap_capil_trace; [refl] is polycap_capil_reflect, [junk] the uninitialised
    surface_norm.  (NULL checks of lines 1213-1232 omitted: callers pass valid
    addresses; photon->description == description in both callers.) *)
Definition trace_body (refl : photon T -> vec3 T -> RM (Z * photon T)) (o : optic T) (junk : vec3 T) : tracer :=
  fun ix ph axes =>
  let p := o_prof o in
  let ph := set_sdir (vnorm (ph_sdir ph)) (set_edir (vnorm (ph_edir ph)) ph) in
  let nsh := n_shells (o_ncap o) in
  s <- trace_segs o ph axes nsh (p_nmax p - ix) ix (ph_exit ph) junk ;;
  match s with
  | Stop c => ret (c, ix, ph)
  | Miss => ret ((-2)%Z, ix, ph)
  | Hit i pc sn cosa =>
      let ph := set_exit pc (set_dtravel (ph_dtravel ph + dist3 pc (ph_exit ph)) ph) in
      if nabs cosa >? #1 then ret ((-1)%Z, S i, ph)
      else
        ix <- last_le (p_z p) (vz pc) (p_nmax p) 0 (S i) ;;
        ext <- interp (p_z p) (p_ext p) (vz pc) ix ;;
        w <- (if nsh =? #0 then ret (if vx pc * vx pc + vy pc * vy pc >=? ext then 0%Z else 1%Z)
              else if nsh >? #0 then within_e ext pc else ret 1%Z) ;;
        if Z.eqb w 0 then ret ((-3)%Z, ix, ph)
        else
          '(iesc, ph) <- refl ph sn ;;
          if Z.eqb iesc 1 then
            let d := ph_edir ph in
            let d' := mkV (vx d - #2 * cosa * vx sn) (vy d - #2 * cosa * vy sn) (vz d - #2 * cosa * vz sn) in
            ret (1%Z, ix, set_irefl (ph_irefl ph + 1)%Z (set_edir (vnorm d') ph))
          else if (Z.eqb iesc (-1) || Z.eqb iesc (-2))%bool then ret ((-1)%Z, ix, ph)
          else ret (iesc, ix, ph)
  end.

(** The mutual recursion trace <-> reflect: [fuel] bounds its depth (and the length of
    each walk through the glass). *)
Fixpoint trace (x : xraylib) (o : optic T) (junk : vec3 T) (leak_calc : bool) (fuel : nat) : tracer :=
  match fuel with
  | O => fun _ _ _ => nofuel
  | S fuel => trace_body (fun ph sn => reflect x (trace x o junk leak_calc fuel) (S fuel) o ph sn junk leak_calc) o junk
  end.

End Trace.
Arguments xraylib T : clear implicits.
