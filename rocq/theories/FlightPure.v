(** * The pieces of the functional model: first report stays, leaks are not looked at, and the
      functions are compositions of the pieces *)
From Coq Require Import ZArith List Bool Lia.
From Verif Require Import Num Mem Geometry SpecPhoton RM CapilModel TraceModel LaunchModel RMLogic LenProofs SepLib FlightMem FlightRep.
Import ListNotations.

Section Sticky.
Context {T : Type} {N : Num T}.

Lemma sticky_ret {A} (a : A) : sticky (ret a).
Proof. intros c b e' E. injection E as <- <-. reflexivity. Qed.
Lemma sticky_report z : sticky (report z).
Proof. intros c b e' E. injection E as <- <-. reflexivity. Qed.
Lemma sticky_ub {A} : sticky (@ub A).
Proof. intros c b e' E. discriminate. Qed.
Lemma sticky_nofuel {A} : sticky (@nofuel A).
Proof. intros c b e' E. discriminate. Qed.
Lemma sticky_bind {A B} (m : RM A) (k : A -> RM B) : sticky m -> (forall a, sticky (k a)) -> sticky (bind m k).
Proof.
  intros Hm Hk c b e' E. unfold bind in E. destruct (m (Some c)) as [[a e1]| |] eqn:Em; try discriminate.
  rewrite (Hm _ _ _ Em) in E. eapply Hk. exact E.
Qed.
Lemma sticky_rd {A} (l : list A) i : sticky (rd l i).
Proof. unfold rd. destruct nth_error; [apply sticky_ret|apply sticky_ub]. Qed.
Lemma sticky_rdZ {A} (l : list A) i : sticky (rdZ l i).
Proof. unfold rdZ. destruct Z.ltb; [apply sticky_ub|apply sticky_rd]. Qed.
Lemma sticky_deref {A} (o : option A) : sticky (deref o).
Proof. destruct o; [apply sticky_ret|apply sticky_ub]. Qed.
Lemma sticky_quiet {A} (m : RM A) : sticky (quiet m).
Proof. intros c a e' E. unfold quiet in E. destruct (m None) as [[x y]| |]; try discriminate. injection E as <- <-. reflexivity. Qed.
Hint Resolve sticky_ret sticky_report sticky_ub sticky_nofuel sticky_rd sticky_rdZ sticky_deref sticky_quiet : stk.
Ltac stk := cbv beta zeta; repeat first
  [ solve [auto with stk nocore] | apply sticky_bind; [|intros] | match goal with |- sticky (match ?x with _ => _ end) => destruct x end | progress cbv beta zeta ].

Lemma sticky_segment a b c d e f g h i : sticky (segment a b c d e f g h i : RM (Z * vec3 T * vec3 T)).
Proof. unfold segment. stk. Qed.
Hint Resolve sticky_segment : stk.
Lemma sticky_refl_polar a b c d e f g h : sticky (refl_polar a b c d e f g h : RM (T * vec3 T * vec3 T)).
Proof. unfold refl_polar. stk. Qed.
Hint Resolve sticky_refl_polar : stk.
Lemma sticky_within_e (r : T) c : sticky (within_e r c).
Proof. unfold within_e. stk. Qed.
Lemma sticky_last_le (zs : list T) zc : forall n i id, sticky (last_le zs zc n i id).
Proof. induction n; intros; cbn [last_le]; stk. Qed.
Lemma sticky_interp (zs vs : list T) zc id : sticky (interp zs vs zc id).
Proof. unfold interp. stk. Qed.
Hint Resolve sticky_within_e sticky_last_le sticky_interp : stk.
Lemma sticky_pci_loop (p : profile T) pc pd w0 d : forall k z, sticky (pci_loop p pc pd w0 d k z).
Proof. induction k; intros; cbn [pci_loop]; stk. Qed.
Hint Resolve sticky_pci_loop : stk.
Lemma sticky_pc_intersect pc pd (p : profile T) : sticky (pc_intersect pc pd p).
Proof.
  unfold pc_intersect. destruct neqb; [stk|]. apply sticky_bind; [auto with stk|]. intros. apply sticky_bind; [auto with stk|]. intros.
  cbv zeta. destruct Z.eqb; [stk|]. apply sticky_bind; [auto with stk|]. intros [z|]; [|stk].
  repeat (apply sticky_bind; [auto with stk|]; intros). cbv zeta.
  match goal with |- sticky (match ?x with _ => _ end) => destruct x as [[|]|] end; auto with stk.
Qed.
Hint Resolve sticky_pc_intersect : stk.
Lemma sticky_axis_of (o : optic T) a b c i : sticky (axis_of o a b c i).
Proof. unfold axis_of. stk. Qed.
Hint Resolve sticky_axis_of : stk.
Lemma sticky_wall_segs (o : optic T) ph axis : (forall i, sticky (axis i)) -> forall k z a b, sticky (wall_segs o ph axis k z a b).
Proof. intros Ha. induction k; intros; cbn [wall_segs]; stk. Qed.
Lemma sticky_wall_walk (o : optic T) ph a b c d : forall k e f, sticky (wall_walk o ph a b c d k e f).
Proof. induction k; intros; cbn [wall_walk]; stk. Qed.
Lemma sticky_to_int (z : T) : sticky (to_int z).
Proof. unfold to_int. stk. Qed.
Hint Resolve sticky_wall_segs sticky_wall_walk sticky_to_int : stk.
Lemma sticky_wall_exit (o : optic T) ph a b c d : sticky (wall_exit o ph a b c d).
Proof. unfold wall_exit. stk. Qed.
Hint Resolve sticky_wall_exit : stk.
Lemma sticky_wall_end (o : optic T) ph a b c d e f : sticky (wall_end o ph a b c d e f).
Proof. unfold wall_end. stk. Qed.
Hint Resolve sticky_wall_end : stk.
Lemma sticky_wall_hex (o : optic T) ph a b : forall k c d e f g, sticky (wall_hex o ph a b k c d e f g).
Proof. induction k; intros; cbn [wall_hex]; stk. Qed.
Hint Resolve sticky_wall_hex : stk.
Lemma sticky_ext_here (p : profile T) a b : sticky (ext_here p a b).
Proof. unfold ext_here. stk. Qed.
Hint Resolve sticky_ext_here : stk.
Lemma sticky_trace_wall fuel (o : optic T) ph : sticky (trace_wall fuel o ph).
Proof.
  unfold trace_wall. cbv zeta. apply sticky_bind; [auto with stk|intros zmax]. destruct nleb; [stk|].
  apply sticky_bind; [auto with stk|intros zid]. apply sticky_bind; [auto with stk|intros ext]. destruct neqb; [destruct nltb; [stk|]|].
  - apply sticky_bind; [apply sticky_wall_segs; auto with stk|]. intros [[? ?] ?]. stk.
  - stk.
Qed.
Lemma sticky_refl_loop (o : optic T) a b c d e : forall en amu scatf w ev ev0, sticky (refl_loop o a b c d e en amu scatf w ev ev0).
Proof. induction en; intros; cbn [refl_loop]; stk. Qed.
Hint Resolve sticky_trace_wall sticky_refl_loop : stk.
Lemma sticky_cap_axes (o : optic T) a b c : forall n i, sticky (cap_axes o a b c n i).
Proof. induction n; intros; cbn [cap_axes]; stk. Qed.
Lemma sticky_launch_axes (o : optic T) a b c : forall n i, sticky (launch_axes o a b c n i).
Proof. induction n; intros; cbn [launch_axes]; stk. Qed.
Lemma sticky_launch_ext (p : profile T) a b : sticky (launch_ext p a b).
Proof. unfold launch_ext. stk. Qed.
Lemma sticky_trace_segs (o : optic T) ph axes nsh : forall n i a b, sticky (trace_segs o ph axes nsh n i a b).
Proof. induction n; intros; cbn [trace_segs]; stk. Qed.
Hint Resolve sticky_cap_axes sticky_launch_axes sticky_launch_ext sticky_trace_segs : stk.

(** The pieces. *)
Lemma sticky_trace_pre (o : optic T) junk ix axes ph : sticky (trace_pre o junk ix axes ph).
Proof. unfold trace_pre. stk. Qed.
Lemma sticky_trace_post iesc (sn : vec3 T) cosa ph : sticky (trace_post iesc sn cosa ph).
Proof. unfold trace_post. stk. Qed.
Lemma sticky_reflect_alfa (sn : vec3 T) ph : sticky (reflect_alfa sn ph).
Proof. unfold reflect_alfa. stk. Qed.
Lemma sticky_reflect_energies (o : optic T) sn ev0 alfa wt dt ph : sticky (reflect_energies o sn ev0 alfa wt dt ph).
Proof. unfold reflect_energies. stk. Qed.
Lemma sticky_leak_place (o : optic T) ph wt dt : sticky (leak_place o ph wt dt).
Proof. unfold leak_place. stk. Qed.
Lemma sticky_leak_end (o : optic T) t zmax : sticky (leak_end o t zmax).
Proof. unfold leak_end. stk. Qed.
Lemma sticky_temp_axes (o : optic T) q r z : sticky (temp_axes o q r z).
Proof. unfold temp_axes. stk. Qed.
Lemma sticky_launch_place (o : optic T) ph : sticky (launch_place o ph).
Proof. unfold launch_place. stk. Qed.
Lemma sticky_launch_capillary (o : optic T) q r zid ph : sticky (launch_capillary o q r zid ph).
Proof. unfold launch_capillary. stk. Qed.
Lemma sticky_wall_travel (dt : T) ph : sticky (wall_travel dt ph).
Proof. unfold wall_travel. stk. Qed.
Lemma sticky_wall_capillary (o : optic T) q r ph : sticky (wall_capillary o q r ph).
Proof. unfold wall_capillary. stk. Qed.
Lemma sticky_wall_exit_plane (a b : T) ph : sticky (wall_exit_plane a b ph).
Proof. unfold wall_exit_plane. stk. Qed.
Lemma sticky_two_of (o : optic T) : sticky (two_of o).
Proof. unfold two_of. stk. Qed.

(** ** The leaks are not looked at *)
Lemma bind_ext {A B} (m m' : RM A) (k k' : A -> RM B) e : m e = m' e -> (forall a e, k a e = k' a e) -> bind m k e = bind m' k' e.
Proof. intros E K. unfold bind. rewrite E. destruct (m' e) as [[a e']| |]; auto. Qed.
Definition alike (a b : photon T) : Prop := ph_exit a = ph_exit b /\ ph_edir a = ph_edir b.
Ltac bx := apply bind_ext; [|intros].

Lemma wall_segs_alike (o : optic T) a b axis : alike a b -> forall k z i sn e, wall_segs o a axis k z i sn e = wall_segs o b axis k z i sn e.
Proof.
  intros [E1 E2]. induction k as [|k IH]; intros; cbn [wall_segs]; [reflexivity|]. rewrite E1, E2.
  do 4 (bx; [reflexivity|]). bx; [reflexivity|]. destruct a4. bx; [reflexivity|]. destruct a4. bx; [reflexivity|]. destruct a4 as [[? ?] ?].
  cbv zeta. match goal with |- (if ?c then _ else _) _ = _ => destruct c end; auto.
Qed.
Lemma wall_walk_alike (o : optic T) a b n z q r : alike a b -> forall k d i e, wall_walk o a n z q r k d i e = wall_walk o b n z q r k d i e.
Proof.
  intros [E1 E2]. induction k as [|k IH]; intros; cbn [wall_walk]; [reflexivity|]. rewrite E1, E2.
  bx; [reflexivity|]. do 3 (bx; [reflexivity|]). cbv zeta. destruct (hex_round _) as [? ?].
  destruct (_ && _)%bool; [reflexivity|]. destruct (_ && _)%bool; [apply IH|reflexivity].
Qed.
Lemma wall_exit_alike (o : optic T) a b z l r q e : alike a b -> wall_exit o a z l r q e = wall_exit o b z l r q e.
Proof. intros [E1 E2]. unfold wall_exit. now rewrite E1, E2. Qed.
Lemma wall_end_alike (o : optic T) a b z i n k r q e : alike a b -> wall_end o a z i n k r q e = wall_end o b z i n k r q e.
Proof. intros E. unfold wall_end. destruct negb; [apply wall_exit_alike; auto|]. destruct E as [E1 E2]. now rewrite E1. Qed.
Lemma wall_hex_alike (o : optic T) a b n z : alike a b -> forall k d i q r c e, wall_hex o a n z k d i q r c e = wall_hex o b n z k d i q r c e.
Proof.
  intros E. induction k as [|k IH]; intros; cbn [wall_hex]; [reflexivity|]. cbv zeta. bx; [apply wall_walk_alike; auto|].
  destruct a0 as [|dist zid pos qn rn]; [reflexivity|]. destruct (_ || _)%bool.
  - bx; [reflexivity|]. bx; [reflexivity|]. apply wall_exit_alike; auto.
  - bx; [destruct E as [E1 E2]; rewrite E1; apply wall_segs_alike; split; auto|]. destruct a0 as [[? ?] ?]. destruct (_ && _)%bool; [apply IH|].
    bx; [reflexivity|]. bx; [reflexivity|]. apply wall_end_alike; auto.
Qed.
Lemma trace_segs_alike (o : optic T) a b axes nsh : alike a b -> forall n i pc sn e, trace_segs o a axes nsh n i pc sn e = trace_segs o b axes nsh n i pc sn e.
Proof.
  intros [E1 E2]. induction n as [|n IH]; intros; cbn [trace_segs]; [reflexivity|]. rewrite E1, E2. cbv zeta.
  bx; [reflexivity|]. destruct a0. do 2 (bx; [reflexivity|]). bx; [reflexivity|]. destruct a2. do 4 (bx; [reflexivity|]).
  destruct (_ || _)%bool; [reflexivity|]. bx; [reflexivity|]. destruct a6 as [[? ?] ?]. destruct Z.eqb; [reflexivity|].
  bx; [reflexivity|]. destruct Z.eqb; [reflexivity|apply IH].
Qed.

(** How a result changes when the leaks are taken away. *)
Definition mapsnd {A} (r : out ((A * photon T) * slot)) : out ((A * photon T) * slot) :=
  match r with Ret ((a, ph), e) => Ret ((a, strip ph), e) | Ub => Ub | Fuel => Fuel end.
Lemma local_by {A} (f : photon T -> RM (A * photon T)) : (forall ph, sticky (f ph)) ->
  (forall ph e, f (strip ph) e = mapsnd (f ph e)) -> (forall ph, post (f ph) (fun r => fixed ph (snd r))) -> local f.
Proof.
  intros S E P. split; [exact S|]. intros ph e a ph' e' H. split; [rewrite E, H; reflexivity|]. exact (P _ _ _ _ H).
Qed.
Lemma mapsnd_bind {A B} (m m' : RM B) (k k' : B -> RM (A * photon T)) e : m' e = m e -> (forall b e, k' b e = mapsnd (k b e)) ->
  bind m' k' e = mapsnd (bind m k e).
Proof. intros E K. unfold bind. rewrite E. destruct (m e) as [[a e']| |]; cbn; auto. Qed.

Ltac fx := unfold fixed; cbn; repeat split; intros; auto.
Ltac mb := apply mapsnd_bind; [|intros].

Lemma local_trace_pre (o : optic T) junk ix axes : local (trace_pre o junk ix axes).
Proof.
  apply local_by; [intros; apply sticky_trace_pre| |].
  - intros ph e. unfold trace_pre. cbv zeta. mb; [apply trace_segs_alike; split; reflexivity|].
    destruct b; [reflexivity|reflexivity|]. destruct nltb; [reflexivity|]. do 3 (mb; [reflexivity|]). destruct Z.eqb; reflexivity.
  - intros ph. unfold trace_pre. cbv zeta. apply post_seq. intros [c| |i pc sn cosa]; try (apply post_ret; fx).
    destruct nltb; [apply post_ret; fx|]. do 3 (apply post_seq; intros ?). destruct Z.eqb; apply post_ret; fx.
Qed.
Lemma local_trace_post iesc (sn : vec3 T) cosa : local (trace_post iesc sn cosa).
Proof.
  apply local_by; [intros; apply sticky_trace_post| |].
  - intros ph e. unfold trace_post. destruct Z.eqb; [reflexivity|]. destruct (_ || _)%bool; reflexivity.
  - intros ph. unfold trace_post. destruct Z.eqb; [apply post_ret; fx|]. destruct (_ || _)%bool; apply post_ret; fx.
Qed.
Lemma local_reflect_alfa (sn : vec3 T) : local (reflect_alfa sn).
Proof.
  apply local_by; [intros; apply sticky_reflect_alfa| |].
  - intros ph e. unfold reflect_alfa. cbn [strip ph_edir set_edir]. destruct nltb; reflexivity.
  - intros ph. unfold reflect_alfa. cbv zeta. destruct nltb; [apply post_seq; intros _|]; apply post_ret; fx.
Qed.
Lemma local_trace_wall fuel (o : optic T) : local (trace_wall fuel o).
Proof.
  apply local_by; [intros; apply sticky_trace_wall| |].
  - intros ph e. unfold trace_wall. cbv zeta. mb; [reflexivity|]. cbn [strip ph_edir ph_exit set_edir]. destruct nleb; [reflexivity|].
    mb; [reflexivity|]. mb; [reflexivity|]. destruct neqb.
    + destruct nltb; [reflexivity|]. mb; [apply wall_segs_alike; split; reflexivity|]. destruct b2 as [[? ?] ?].
      mb; [apply wall_end_alike; split; reflexivity|]. reflexivity.
    + mb; [reflexivity|]. destruct Z.eqb; [reflexivity|]. destruct hex_round as [? ?]. mb; [apply wall_hex_alike; split; reflexivity|]. reflexivity.
  - intros ph. unfold trace_wall. cbv zeta. apply post_seq. intros zmax. destruct nleb; [apply post_ret; fx|].
    do 2 (apply post_seq; intros ?). destruct neqb.
    + destruct nltb; [apply post_seq; intros _; apply post_ret; fx|]. apply post_seq. intros [[? ?] ?]. apply post_seq. intros ?. apply post_ret; fx.
    + apply post_seq. intros ?. destruct Z.eqb; [apply post_ret; fx|]. destruct hex_round as [? ?]. apply post_seq. intros ?. apply post_ret; fx.
Qed.
Lemma local_reflect_energies (o : optic T) sn ev0 alfa wt dt : local (reflect_energies o sn ev0 alfa wt dt).
Proof.
  apply local_by; [intros; apply sticky_reflect_energies| |].
  - intros ph e. unfold reflect_energies. do 3 (mb; [reflexivity|]). cbv zeta. destruct rr_ok; reflexivity.
  - intros ph. unfold reflect_energies. apply post_seq. intros amu. apply post_seq. intros scatf.
    intros e r e' E. unfold bind at 1 in E. destruct (refl_loop _ _ _ _ _ _ _ _ _ _ _ _ e) as [[r0 e0]| |] eqn:ER; try discriminate.
    injection E as <- <-.
    assert (Lw : fit ph -> List.length (rr_w r0) = List.length (ph_w ph)).
    { intros (L1 & _). pose proof (refl_loop_len o (vnorm sn) (ph_edir ph) alfa (Z.ltb 0 wt) dt (ph_en ph) amu scatf (ph_w ph) (ph_eelec ph) ev0 L1 _ _ _ ER) as X. cbv beta in X. rewrite L1. tauto. }
    destruct (rr_ok r0); fx.
Qed.
Lemma local_wall_travel (dt : T) : local (wall_travel dt).
Proof.
  apply local_by; [intros; apply sticky_wall_travel| |].
  - intros ph e. unfold wall_travel. mb; [reflexivity|]. reflexivity.
  - intros ph. unfold wall_travel. eapply post_bind; [apply post_deref|]. intros amu Ea. apply post_ret. cbn. fx.
    destruct H as (L1 & L2 & _). rewrite Ea in L2. cbn in L2. rewrite map_length, combine_length. lia.
Qed.
Lemma local_wall_exit_plane (a b : T) : local (wall_exit_plane a b).
Proof.
  apply local_by; [intros; apply sticky_wall_exit_plane| |].
  - intros ph e. unfold wall_exit_plane. mb; [reflexivity|]. reflexivity.
  - intros ph. unfold wall_exit_plane. apply post_seq. intros. apply post_ret. fx.
Qed.
Lemma local_pure (f : photon T -> photon T) : (forall ph, f (strip ph) = strip (f ph)) -> (forall ph, fixed ph (f ph)) ->
  local (fun ph => RM.ret (tt, f ph)).
Proof.
  intros E P. apply local_by; [intros; apply sticky_ret| |].
  - intros ph e. cbn. now rewrite E.
  - intros ph. apply post_ret. apply P.
Qed.

(** ** Composition *)
Lemma bind_bind {A B C} (m : RM A) (f : A -> RM B) (g : B -> RM C) e : bind (bind m f) g e = bind m (fun a => bind (f a) g) e.
Proof. unfold bind. destruct (m e) as [[a e']| |]; auto. Qed.

Lemma bind_ret {A B} (a : A) (k : A -> RM B) e : bind (ret a) k e = k a e.
Proof. reflexivity. Qed.

Lemma trace_body_eq refl (o : optic T) junk ix ph axes e :
  trace_body refl o junk ix ph axes e =
  bind (trace_pre o junk ix axes ph) (fun r =>
    match fst r with
    | inl cix => ret (cix, snd r)
    | inr (ix, sn, cosa) => bind (refl (snd r) sn) (fun q => bind (trace_post (fst q) sn cosa (snd q)) (fun c => ret (fst c, ix, snd c)))
    end) e.
Proof.
  unfold trace_body, trace_pre. cbv zeta. rewrite bind_bind. bx; [reflexivity|]. destruct a as [c| |i pc sn cosa]; [reflexivity|reflexivity|].
  destruct nltb; [reflexivity|]. rewrite bind_bind. bx; [reflexivity|]. rewrite bind_bind. bx; [reflexivity|]. rewrite bind_bind.
  bx; [reflexivity|]. destruct Z.eqb; [reflexivity|].
  rewrite bind_ret. cbn [fst snd]. bx; [reflexivity|]. destruct a2 as [ie ph2]. cbn [fst snd]. unfold trace_post.
  destruct Z.eqb; [reflexivity|]. destruct (_ || _)%bool; reflexivity.
Qed.

Lemma reflect_eq x tr fuel (o : optic T) ph sn ev0 lc e :
  reflect x tr fuel o ph sn ev0 lc e =
  bind (reflect_alfa sn ph) (fun r =>
    match fst r with
    | None => ret ((-1)%Z, snd r)
    | Some alfa =>
        bind (if lc then trace_wall fuel o (snd r) else ret (((0%Z, (#0)%num, 0%Z, 0%Z) : wall_out), snd r)) (fun w =>
        let '(wt, dt, r_c, q_c) := fst w in
        if (lc && Z.leb wt 0)%bool then ret ((-1)%Z, snd w)
        else bind (reflect_energies o sn ev0 alfa wt dt (snd w)) (fun q =>
             if negb (rr_ok (fst q)) then ret ((-1)%Z, snd q)
             else let iesc := if rr_wf (fst q) then 1%Z else 0%Z in
                  if rr_lf (fst q) then
                    bind (reflect_leaks x tr o (snd q) (rr_leak (fst q)) wt dt r_c q_c) (fun z =>
                    ret (match fst z with Some c => c | None => iesc end, snd z))
                  else ret (iesc, snd q)))
    end) e.
Proof.
  unfold reflect, reflect_alfa. cbv zeta. destruct nltb; [reflexivity|]. rewrite bind_ret. cbn [fst snd].
  bx; [reflexivity|]. destruct a as [[[[wt dt] r_c] q_c] ph1]. cbn [fst snd]. destruct (_ && _)%bool; [reflexivity|].
  unfold reflect_energies. rewrite bind_bind. bx; [reflexivity|]. rewrite bind_bind. bx; [reflexivity|]. rewrite bind_bind. bx; [reflexivity|].
  rewrite bind_ret. cbn [fst snd]. destruct (rr_ok a1); [|reflexivity]. cbn [negb]. destruct (rr_lf a1); [|reflexivity].
  bx; [reflexivity|]. destruct a2 as [[c|] ph2]; reflexivity.
Qed.

Definition add_at (wt : Z) (d : leak_data T) (ph : photon T) : photon T :=
  let ph := if Z.eqb wt 3 then add_ext [d] ph else ph in if Z.eqb wt 2 then add_int [d] ph else ph.
Definition own_leak (ph : photon T) (c : vec3 T) (w : list T) : leak_data T := mkLeak c (ph_edir ph) (ph_eelec ph) (ph_irefl ph) w.

Lemma reflect_leaks_eq x tr (o : optic T) ph wl wt dt r_c q_c e :
  reflect_leaks x tr o ph wl wt dt r_c q_c e =
  bind (leak_place o ph wt dt) (fun pl =>
    let '(wt, lc, zmax) := pl in
    let ph := add_at wt (own_leak ph lc wl) ph in
    if (Z.eqb wt 1 && nltb (vz lc) zmax)%bool then
      match photon_fresh lc (ph_edir ph) (ph_eelec ph) with
      | None => ub
      | Some t =>
          let t := mkPhoton (ph_start t) (ph_sdir t) (ph_selec t) (ph_exit t) (ph_edir t) (ph_eelec t)
                     (ph_en ph) wl None None (ph_irefl ph) (nadd (ph_dtravel ph) dt) [] [] in
          bind (photon_scatf x o t) (fun t =>
          match ph_amu t, ph_scatf t with
          | Some _, Some _ =>
              bind (temp_axes o q_c r_c (vz (ph_exit t))) (fun ax =>
              bind (trace_many tr (fst ax) (S (p_nmax (o_prof o)) - snd ax) 0%Z (snd ax) t) (fun it =>
              if (Z.eqb (fst it) (-1) || Z.eqb (fst it) (-3))%bool then ret (Some (-2)%Z, ph)
              else
                let ph2 := add_int (ph_int (snd it)) (add_ext (ph_ext (snd it)) ph) in
                if (Z.eqb (fst it) 1 || Z.eqb (fst it) (-2))%bool then
                  bind (leak_end o (snd it) zmax) (fun w =>
                  ret (None, if Z.eqb (fst w) 0 then add_ext [own_leak ph (snd w) (ph_w (snd it))] ph2
                             else if Z.eqb (fst w) 1 then add_int [own_leak ph (snd w) (ph_w (snd it))] ph2 else ph2))
                else ret (None, ph2)))
          | _, _ => bind (report E_MEM) (fun _ => ret (Some (-1)%Z, ph))
          end)
      end
    else ret (None, ph)) e.
Proof.
  unfold reflect_leaks, leak_place. cbv zeta. rewrite bind_bind. bx; [reflexivity|]. rewrite bind_bind. bx; [reflexivity|].
  rewrite bind_ret. cbn [fst snd]. destruct (Z.eqb_spec a 1) as [->|]; cbn [andb]; [|reflexivity].
  destruct nltb; [|reflexivity]. cbn [add_at Z.eqb Pos.eqb]. destruct photon_fresh as [t|]; [|reflexivity].
  rewrite !bind_ret. cbn [fst snd]. bx; [reflexivity|]. match goal with |- context [ph_amu ?t] => destruct (ph_amu t), (ph_scatf t) end; try reflexivity.
  unfold temp_axes. rewrite bind_bind. bx; [reflexivity|]. rewrite bind_bind. bx; [reflexivity|].
  rewrite bind_ret. cbn [fst snd]. apply bind_ext; [reflexivity|]. intros [ie t1] e9. cbn [fst snd]. destruct (_ || _)%bool; [reflexivity|].
  destruct (_ || _)%bool; [|reflexivity]. unfold leak_end. cbv zeta. rewrite bind_bind. bx; [reflexivity|]. rewrite bind_bind. bx; [reflexivity|].
  reflexivity.
Qed.
End Sticky.
