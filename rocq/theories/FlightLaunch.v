(** * polycap_photon_launch in memory does what the functional model says *)
From Coq Require Import ZArith List Bool Lia String Permutation.
From Verif Require Import Num Mem SpecHeap HeapLib ErrorModel ProfileModel Geometry SpecPhoton ConsModel H5Model RM CapilModel TraceModel LaunchModel PhotProofs SrcProofs RMLogic LenProofs SepLib FlightMem FlightRep FlightPure FlightHeap FlightHeap2 FlightSim.
Import ListNotations.

Section Eqs.
Context {T : Type} {N : Num T}.
Local Notation bind := RM.bind.
Local Notation ret := RM.ret.

Definition own (ph : photon T) : leak_data T := own_leak ph (ph_exit ph) (ph_w ph).
Definition wall_on (x : xraylib T) (o : optic T) (junk : vec3 T) (lc : bool) (fuel : nat) (dt : T) (r_c q_c : Z) (zmax extmax : T) (ph : photon T) : RM (bool * photon T) :=
  let ph := set_dtravel (nadd (ph_dtravel ph) dt) ph in
  bind (wall_capillary o q_c r_c ph) (fun ax =>
  bind (trace_many (trace x o junk lc fuel) (fst ax) (S (p_nmax (o_prof o))) 0%Z (snd ax) ph) (fun it =>
  if (Z.eqb (fst it) (-1) || Z.eqb (fst it) (-3))%bool then ret (false, snd it)
  else if (Z.eqb (fst it) 1 || Z.eqb (fst it) (-2))%bool then
    bind (wall_exit_plane extmax zmax (snd it)) (fun w =>
    ret (true, if Z.eqb (fst w) 0 then add_ext [own (snd w)] (snd w) else if Z.eqb (fst w) 1 then add_int [own (snd w)] (snd w) else snd w))
  else ret (true, snd it))).
Definition wall_done (ze : T * T) (ph : photon T) : photon T :=
  set_w (List.map (fun _ => #0) (ph_w ph))%num (set_edir (vnorm (ph_sdir ph)) (set_exit (mkV (snd ze + #1) (snd ze + #1) (fst ze))%num ph)).

Lemma launch_wall_eq x (o : optic T) junk lc fuel ph e :
  launch_wall x o junk lc fuel ph e =
  bind (trace_wall fuel o ph) (fun wr =>
    let '(wt, dt, r_c, q_c) := fst wr in
    if Z.leb wt 0 then ret ((-1)%Z, release (snd wr))
    else
      bind (wall_travel dt (snd wr)) (fun r =>
      let ph := add_at wt (own (snd r)) (snd r) in
      bind (two_of o) (fun ze =>
      bind (if Z.eqb wt 1 then wall_on x o junk lc fuel dt r_c q_c (fst ze) (snd ze) ph else ret (true, ph)) (fun bp =>
      if negb (fst bp) then ret ((-1)%Z, release (snd bp)) else ret (1%Z, release (wall_done ze (snd bp))))))) e.
Proof.
  unfold launch_wall. cbv zeta. apply bind_ext; [reflexivity|]. intros [[[[wt dt] r_c] q_c] ph1] e1. cbn [fst snd]. destruct (Z.leb wt 0); [reflexivity|].
  unfold wall_travel. rewrite bind_bind. apply bind_ext; [reflexivity|]. intros amu e2. rewrite bind_ret. cbv zeta. cbn [fst snd].
  unfold two_of. rewrite bind_bind. apply bind_ext; [reflexivity|]. intros zmax e3. rewrite bind_bind. apply bind_ext; [reflexivity|]. intros extmax e4. rewrite bind_ret. cbn [fst snd].
  match goal with |- bind ?a ?b ?e = bind ?c ?d ?e => 
    transitivity (bind (bind c (fun bp : bool * photon T => ret (negb (fst bp), snd bp))) b e) end.
  - apply bind_ext; [|reflexivity]. destruct (Z.eqb_spec wt 1) as [->|]; cbn [Z.eqb Pos.eqb]; [|unfold add_at, own, own_leak; destruct (Z.eqb wt 3), (Z.eqb wt 2); reflexivity].
    unfold wall_on, wall_capillary. cbv zeta. rewrite !bind_bind. apply bind_ext; [reflexivity|]. intros axes e5. rewrite !bind_bind. apply bind_ext; [reflexivity|]. intros ix e6.
    rewrite !bind_ret. cbn [fst snd]. rewrite bind_bind. apply bind_ext; [reflexivity|]. intros [ie ph2] e7. cbn [fst snd]. destruct (_ || _)%bool; [reflexivity|].
    destruct (_ || _)%bool; [|reflexivity]. unfold wall_exit_plane. cbv zeta. rewrite !bind_bind. apply bind_ext; [reflexivity|]. intros w e8. reflexivity.
  - rewrite bind_bind. apply bind_ext; [reflexivity|]. intros [b ph2] e5. rewrite bind_ret. cbn [fst snd]. destruct b; reflexivity.
Qed.

Definition uninit (en : list T) : @weights_out T := Some (List.map (fun _ => None) en).
Definition launch_go (x : xraylib T) (o : optic T) (junk : vec3 T) (fuel : nat) (leak_calc : bool) (en : list T) (q r : T) (zid : nat) (ph : photon T) : RM (Z * photon T * @weights_out T) :=
  bind (launch_capillary o q r zid ph) (fun ax =>
    let '(axes, ix, in_glass) := ax in
    if in_glass then
      if (leak_calc && neqb (vz (ph_start ph)) (#0)%num)%bool then
        bind (quiet (reflect x (trace x o junk leak_calc fuel) fuel o ph (mkV (#0) (#0) (#1))%num junk leak_calc)) (fun cp => ret (2%Z, release (snd cp), uninit en))
      else if (leak_calc && nltb (#0)%num (vz (ph_start ph)))%bool then
        bind (launch_wall x o junk leak_calc fuel ph) (fun cp => ret (fst cp, snd cp, uninit en))
      else ret (2%Z, release ph, uninit en)
    else
      bind (trace_many (trace x o junk leak_calc fuel) axes (S (p_nmax (o_prof o))) 0%Z ix ph) (fun it =>
      ret (if (Z.eqb (fst it) (-1) || Z.eqb (fst it) (-3))%bool then (-1)%Z else if Z.eqb (fst it) 0 then 0%Z else 1%Z,
           release (snd it), Some (List.map Some (ph_w (snd it)))))).
Definition en_refused (en : list T) : bool :=
  (match en with [] => true | _ => false end || List.existsb (fun e => nltb e (#1)%num || nltb (#100)%num e) en)%bool.

Lemma launch_eq x (o : optic T) junk fuel ph en lc e :
  launch x o junk fuel ph (Some en) false lc e =
  if en_refused en then bind (report E_ARG) (fun _ => ret ((-1)%Z, ph, None)) e
  else
    bind (photon_scatf x o (launch_init ph en)) (fun ph =>
    bind (launch_place o (launch_reset ph)) (fun pl =>
    match snd pl with
    | None => ret ((-2)%Z, release (launch_reset ph), uninit en)
    | Some (q, r) => launch_go x o junk fuel lc en q r (fst pl) (launch_reset ph)
    end)) e.
Proof.
  unfold launch. cbv zeta. change (List.existsb _ en) with (List.existsb (fun e => (nltb e (#1)%num || nltb (#100)%num e)%bool) en). rewrite orb_false_r.
  unfold en_refused. destruct (_ || _)%bool; [reflexivity|]. apply bind_ext; [reflexivity|]. intros ph1 e1.
  unfold launch_place. cbv zeta. rewrite !bind_bind. apply bind_ext; [reflexivity|]. intros zid e2. rewrite !bind_bind. apply bind_ext; [reflexivity|]. intros ext e3.
  rewrite !bind_bind. apply bind_ext; [reflexivity|]. intros [[inside q] r] e4. destruct inside; cbn [negb]; [|reflexivity].
  rewrite bind_ret. cbn [fst snd]. unfold launch_go, launch_capillary. cbv zeta. rewrite !bind_bind. apply bind_ext; [reflexivity|]. intros axes e5.
  rewrite !bind_bind. apply bind_ext; [reflexivity|]. intros ix e6. rewrite !bind_bind.
  match goal with |- bind ?a ?b ?e = bind ?c ?d ?e => apply bind_ext end.
  - destruct nltb; [reflexivity|]. apply bind_ext; [reflexivity|]. intros rad e7. apply bind_ext; [reflexivity|]. intros [cx cy] e8. reflexivity.
  - intros [[rad cx] cy] e7. rewrite bind_ret. cbn [fst snd]. destruct nltb; [|apply bind_ext; [reflexivity|]; intros [ie ph2] e8; reflexivity].
    destruct (_ && _)%bool; [apply bind_ext; [reflexivity|]; intros [ie ph2] e8; reflexivity|].
    destruct (_ && _)%bool; [apply bind_ext; [reflexivity|]; intros [ie ph2] e8; reflexivity|reflexivity].
Qed.
End Eqs.

Section Heap.
Context {T : Type} {N : Num T}.
Local Notation M := (M T).
Local Notation bind := Mem.bind.
Local Notation blocks := (list (loc * @block T)).

(** A photon between two launches: no energies, weights and cross sections. *)
Definition rblock (d : loc) (src : vec3 T) (n : Z) (K : keys) (ph : photon T) : @block T :=
  photon_block (Some d) (lkp (kX K) (ph_ext ph)) (lkp (kI K) (ph_int ph)) (zlen (ph_ext ph)) (zlen (ph_int ph))
    (ph_start ph) (ph_sdir ph) (ph_selec ph) (ph_exit ph) (ph_edir ph) (ph_eelec ph) src
    n None None None None (ph_irefl ph) (ph_dtravel ph).
Definition restb (p d : loc) (src : vec3 T) (n : Z) (K : keys) (ph : photon T) : blocks := (p, rblock d src n K ph) :: leaksb K ph.

Lemma hs_release_field F R s p f k (b B : @block T) (Q : unit -> st T -> Prop) : hs F ((k, b) :: (p, B) :: R) s ->
  nth_error B f = Some (Vptr (Some k)) -> (forall s', hs F ((p, set_nth B f (Vptr NULL)) :: R) s' -> Q tt s') -> wp (release_field (Some p) f) Q s.
Proof.
  intros H E HQ. unfold release_field. apply wp_bind. eapply hs_load_ptr; [exact H|right; left; reflexivity|exact E|].
  apply wp_bind. eapply hs_free; [exact H|]. intros s1 H1. eapply hs_store; [exact H1|apply nth_error_Some; congruence|]. exact HQ.
Qed.
Lemma hs_release_opt F R s p f k (o : option (list T)) (B : @block T) (Q : unit -> st T -> Prop) : hs F (optb k o ++ (p, B) :: R) s ->
  nth_error B f = Some (Vptr (optp k o)) -> set_nth B f (Vptr (optp k o)) = B ->
  (forall s', hs F ((p, set_nth B f (Vptr NULL)) :: R) s' -> Q tt s') -> wp (release_field (Some p) f) Q s.
Proof.
  intros H E E2 HQ. destruct o as [xs|]; cbn [optb optp app] in *; [eapply hs_release_field; eauto|].
  unfold release_field. apply wp_bind. eapply hs_load_ptr; [exact H|left; reflexivity|exact E|]. apply wp_ret. apply HQ. change (@None loc) with NULL in E2. rewrite E2. exact H.
Qed.

Lemma hs_release_arrays F R s p d src K ph (Q : unit -> st T -> Prop) : hs F (flyb p d src K ph ++ R) s ->
  (forall s', hs F (restb p d src (zlen (ph_en ph)) K (release ph) ++ R) s' -> Q tt s') -> wp (release_arrays (Some p)) Q s.
Proof.
  intros H HQ. unfold release_arrays, flyb in *. cbn [app] in H.
  apply wp_bind. match type of H with hs _ (?a :: ?b :: ?L) _ => pose proof (hs_top b (a :: L) H ltac:(perm)) as H' end.
  eapply hs_release_field; [exact H'|reflexivity|]. cbn [set_nth].
  intros s1 H1. apply wp_bind. match type of H1 with hs _ (?a :: ?b :: ?L) _ => pose proof (hs_top b (a :: L) H1 ltac:(perm)) as H1' end.
  eapply hs_release_field; [exact H1'|reflexivity|].
  intros s2 H2. apply wp_bind. match type of H2 with hs _ ((_, ?B) :: _) _ => eapply (hs_release_opt F (optb (kS K) (ph_scatf ph) ++ leaksb K ph ++ R) s2 p _ (kA K) (ph_amu ph) B); [eapply hs_perm; [|exact H2]; unfold csb; perm|reflexivity|reflexivity|] end.
  intros s3 H3. match type of H3 with hs _ ((_, ?B) :: _) _ => eapply (hs_release_opt F (leaksb K ph ++ R) s3 p _ (kS K) (ph_scatf ph) B); [eapply hs_perm; [|exact H3]; perm|reflexivity|reflexivity|] end.
  intros s4 H4. apply HQ. exact H4.
Qed.

Lemma wp_finish {A} (a : A) F R s p d src K ph cx cy (bx by_ : @block T) e (Q : option (A * slot) -> st T -> Prop) :
  hs F (flyb p d src K ph ++ (cx, bx) :: (cy, by_) :: R) s ->
  (forall s', hs F (restb p d src (zlen (ph_en ph)) K (release ph) ++ R) s' -> Q (Some (a, e)) s') -> wp (finish (Some p) (Some cx) (Some cy) a e) Q s.
Proof.
  intros H HQ. unfold finish. apply wp_bindF, wp_inM. apply wp_bind. eapply (hs_free F (flyb p d src K ph ++ (cy, by_) :: R) cx bx); [eapply hs_perm; [|exact H]; perm|]. intros s1 H1.
  apply wp_bind. eapply (hs_free F (flyb p d src K ph ++ R) cy by_); [eapply hs_perm; [|exact H1]; perm|]. intros s2 H2.
  eapply hs_release_arrays; [exact H2|]. intros s3 H3. apply wp_retF. apply HQ. exact H3.
Qed.

(** Leaks with the photon's own weights. *)
Lemma wp_own_ext F R s p d src K ph err e (Q : option (bool * slot) -> st T -> Prop) : fit ph -> kok K ph -> hs F (flyb p d src K ph ++ R) s ->
  (forall K' s', kok K' (add_ext [own ph] ph) -> hs F (flyb p d src K' (add_ext [own ph] ph) ++ R) s' -> Q (Some (true, e)) s') ->
  wp (push_own F_EXTLEAK F_NEXT (Some p) err e) Q s.
Proof.
  intros Ft Ko H HQ. unfold push_own. apply wp_bindF, wp_inM. eapply hs_read_photon; [exact Ft|exact H|apply incl_appl, incl_refl|].
  apply wp_bindF, wp_inM. eapply (hs_load_ptr _ _ _ p (pblock d src K ph)); [exact H|left; reflexivity|reflexivity|].
  eapply (wp_push_ext F R s p d src K ph (kW K) (ph_w ph)); [exact Ft|exact Ko|exact H|left; reflexivity|apply Ft|]. intros K' s' Ko' _ _ H'. eapply HQ; eauto.
Qed.
Lemma wp_own_int F R s p d src K ph err e (Q : option (bool * slot) -> st T -> Prop) : fit ph -> kok K ph -> hs F (flyb p d src K ph ++ R) s ->
  (forall K' s', kok K' (add_int [own ph] ph) -> hs F (flyb p d src K' (add_int [own ph] ph) ++ R) s' -> Q (Some (true, e)) s') ->
  wp (push_own F_INTLEAK F_NINT (Some p) err e) Q s.
Proof.
  intros Ft Ko H HQ. unfold push_own. apply wp_bindF, wp_inM. eapply hs_read_photon; [exact Ft|exact H|apply incl_appl, incl_refl|].
  apply wp_bindF, wp_inM. eapply (hs_load_ptr _ _ _ p (pblock d src K ph)); [exact H|left; reflexivity|reflexivity|].
  eapply (wp_push_int F R s p d src K ph (kW K) (ph_w ph)); [exact Ft|exact Ko|exact H|left; reflexivity|apply Ft|]. intros K' s' Ko' _ _ H'. eapply HQ; eauto.
Qed.

Lemma launch_axes_len (o : optic T) nsh q r : forall n i e ax e', launch_axes o nsh q r n i e = Ret (ax, e') -> List.length ax = n.
Proof.
  induction n as [|n IH]; intros i e ax e' E; cbn [launch_axes] in E; [apply rret_inv in E; destruct E as [<- _]; reflexivity|].
  apply rbind_inv in E. destruct E as (ext & e1 & _ & E). cbv zeta in E. apply rbind_inv in E. destruct E as (l & e2 & E & E'). apply rret_inv in E'. destruct E' as [<- _]. cbn. f_equal. eauto.
Qed.

Lemma local_set_dtravel (dt : T) : local (fun ph : photon T => RM.ret (tt, set_dtravel (nadd (ph_dtravel ph) dt) ph)).
Proof. apply (local_pure (fun ph => set_dtravel (nadd (ph_dtravel ph) dt) ph)); [intros ph; destruct ph; reflexivity|]. intros ph. repeat split. Qed.
Lemma local_set_sdir : local (fun ph : photon T => RM.ret (tt, set_sdir (vnorm (ph_sdir ph)) ph)).
Proof. apply (local_pure (fun ph => set_sdir (vnorm (ph_sdir ph)) ph)); [intros ph; destruct ph; reflexivity|]. intros ph. repeat split. Qed.
Lemma local_reset : local (fun ph : photon T => RM.ret (tt, launch_reset ph)).
Proof. apply (local_pure launch_reset); [intros ph; destruct ph; reflexivity|]. intros ph. repeat split. Qed.
Lemma local_wall_done (ze : T * T) : local (fun ph : photon T => RM.ret (tt, wall_done ze ph)).
Proof. apply (local_pure (wall_done ze)); [intros ph; destruct ph; reflexivity|]. intros ph. repeat split. intros _. cbn. apply map_length. Qed.

Lemma wp_wall_onward err x (o : optic T) junk lc fuel dt r_c q_c zmax extmax ph e b ph' e' F R s p d src K cx cy (bx by_ : @block T) EB
    (Q : option (bool * slot) -> st T -> Prop) :
  wall_on x o junk lc fuel dt r_c q_c zmax extmax ph e = Ret ((b, ph'), e') -> fit ph -> kok K ph ->
  List.length bx = S (p_nmax (o_prof o)) -> List.length by_ = S (p_nmax (o_prof o)) -> errs err e EB ->
  hs F (flyb p d src K ph ++ (cx, bx) :: (cy, by_) :: EB ++ R) s ->
  (forall K' EB' bx' by' s', after ph ph' -> kok K' ph' -> errs err e' EB' -> hs F (flyb p d src K' ph' ++ (cx, bx') :: (cy, by') :: EB' ++ R) s' -> Q (Some (b, e')) s') ->
  wp (wall_onward x o junk lc fuel (Some p) (Some cx) (Some cy) dt r_c q_c zmax extmax err e) Q s.
Proof.
  intros E Ft Ko Lx Ly HE H HQ. unfold wall_on in E. cbv zeta in E. set (ph1 := set_dtravel (nadd (ph_dtravel ph) dt) ph) in *.
  apply rbind_inv in E. destruct E as ([axes ix] & e1 & E1 & E). cbn [fst snd] in E. apply rbind_inv in E. destruct E as ([ie ph2] & e2 & E2 & E). cbn [fst snd] in E.
  assert (La : List.length axes = S (p_nmax (o_prof o))).
  { unfold wall_capillary in E1. apply rbind_inv in E1. destruct E1 as (ax & e3 & E3 & E4). apply rbind_inv in E4. destruct E4 as (ix2 & e4 & _ & E5).
    apply rret_inv in E5. destruct E5 as [E5 _]. injection E5 as <- _. eapply launch_axes_len; eauto. }
  assert (A1 : after ph ph1) by (split; [exact Ft|reflexivity]). assert (Ko1 : kok K ph1) by exact Ko.
  unfold wall_onward. apply wp_bindF.
  eapply (wp_on_photon err p d src K ph _ e tt ph1 e F ((cx, bx) :: (cy, by_) :: R) EB); [apply local_set_dtravel|exact Ft|reflexivity|exact HE|eapply hs_perm; [|exact H]; perm|].
  intros EB1 s1 HE1 H1. apply wp_bindF, wp_inM. eapply (hs_read_photon _ _ _ p d src K ph1); [apply A1|exact H1|apply incl_appl, incl_refl|].
  apply wp_bindF. change (wall_capillary o q_c r_c (strip ph1)) with (wall_capillary o q_c r_c ph1).
  eapply (wp_calc err _ e (axes, ix) e1 F (flyb p d src K ph1 ++ (cx, bx) :: (cy, by_) :: R) EB1); [exact E1|apply sticky_wall_capillary|exact HE1|eapply hs_perm; [|exact H1]; perm|].
  intros EB2 s2 HE2 H2. cbn [fst snd]. apply wp_bindF, wp_inM.
  eapply (hs_write_axes F (flyb p d src K ph1 ++ EB2 ++ R) _ cx cy bx by_); [lia|lia|eapply hs_perm; [|exact H2]; perm|]. intros s3 H3. apply wp_bindF.
  eapply (wp_trace_many err (p_nmax (o_prof o)) _ _ (wp_trace err (p_nmax (o_prof o)) x o junk lc eq_refl fuel) _ _ _ _ _ _ _ _ _ E2 (proj1 A1) La F R s3 p d src K cx cy EB2 Ko1 HE2); [eapply hs_perm; [|exact H3]; perm|].
  intros K4 EB4 s4 A4 Ko4 HE4 H4. pose proof (after_trans _ _ _ A1 A4) as A14.
  destruct (_ || _)%bool.
  { apply rret_inv in E. destruct E as [E <-]. injection E as <- <-. apply wp_retF. eapply (HQ K4 EB4 (List.map Vdbl (List.map fst axes)) (List.map Vdbl (List.map snd axes))); [exact A14|exact Ko4|exact HE4|eapply hs_perm; [|exact H4]; unfold axb; perm]. }
  destruct (_ || _)%bool.
  2:{ apply rret_inv in E. destruct E as [E <-]. injection E as <- <-. apply wp_retF. eapply (HQ K4 EB4 (List.map Vdbl (List.map fst axes)) (List.map Vdbl (List.map snd axes))); [exact A14|exact Ko4|exact HE4|eapply hs_perm; [|exact H4]; unfold axb; perm]. }
  apply rbind_inv in E. destruct E as ([w ph5] & e5 & E5 & E). cbn [fst snd] in E. apply rret_inv in E. destruct E as [E <-]. injection E as <- <-.
  destruct (local_wall_exit_plane extmax zmax) as [_ Lo]. destruct (Lo _ _ _ _ _ E5) as [_ Fx5]. pose proof (after_fixed _ _ (proj1 A4) Fx5) as A5. pose proof (fixed_kok K4 _ _ Fx5 Ko4) as Ko5.
  pose proof (after_trans _ _ _ A14 A5) as A15.
  apply wp_bindF. eapply (wp_on_photon err p d src K4 ph2 _ e2 w ph5 e5 F (axb cx cy axes ++ R) EB4); [apply local_wall_exit_plane|apply A4|exact E5|exact HE4|eapply hs_perm; [|exact H4]; perm|].
  intros EB5 s5 HE5 H5. assert (Fl : full (List.length (ph_en ph5)) [own ph5]) by (constructor; [apply A5|constructor]).
  destruct (Z.eqb w 0); [|destruct (Z.eqb w 1)].
  - eapply wp_own_ext; [apply A5|exact Ko5|exact H5|]. intros K6 s6 Ko6 H6.
    eapply (HQ K6 EB5 (List.map Vdbl (List.map fst axes)) (List.map Vdbl (List.map snd axes))); [eapply after_trans; [exact A15|]; apply fit_add_ext; [apply A5|exact Fl]|exact Ko6|exact HE5|eapply hs_perm; [|exact H6]; unfold axb; perm].
  - eapply wp_own_int; [apply A5|exact Ko5|exact H5|]. intros K6 s6 Ko6 H6.
    eapply (HQ K6 EB5 (List.map Vdbl (List.map fst axes)) (List.map Vdbl (List.map snd axes))); [eapply after_trans; [exact A15|]; apply fit_add_int; [apply A5|exact Fl]|exact Ko6|exact HE5|eapply hs_perm; [|exact H6]; unfold axb; perm].
  - apply wp_retF. eapply (HQ K4 EB5 (List.map Vdbl (List.map fst axes)) (List.map Vdbl (List.map snd axes))); [exact A15|exact Ko5|exact HE5|eapply hs_perm; [|exact H5]; unfold axb; perm].
Qed.

Lemma wp_launch_wall err x (o : optic T) junk lc fuel ph e c phr e' F R s p d src K cx cy (bx by_ : @block T) EB
    (Q : option (Z * slot) -> st T -> Prop) :
  launch_wall x o junk lc fuel ph e = Ret ((c, phr), e') -> fit ph -> kok K ph ->
  List.length bx = S (p_nmax (o_prof o)) -> List.length by_ = S (p_nmax (o_prof o)) -> errs err e EB ->
  hs F (flyb p d src K ph ++ (cx, bx) :: (cy, by_) :: EB ++ R) s ->
  (forall ph' K' EB' bx' by' s', release ph' = phr -> after ph ph' -> kok K' ph' -> errs err e' EB' -> hs F (flyb p d src K' ph' ++ (cx, bx') :: (cy, by') :: EB' ++ R) s' -> Q (Some (c, e')) s') ->
  wp (launch_wallM x o junk lc fuel (Some p) (Some cx) (Some cy) err e) Q s.
Proof.
  intros E Ft Ko Lx Ly HE H HQ. rewrite launch_wall_eq in E. apply rbind_inv in E. destruct E as ([[[[wt dt] r_c] q_c] ph1] & e1 & E1 & E). cbn [fst snd] in E.
  unfold launch_wallM. destruct (local_trace_wall fuel o) as [_ Lo1]. destruct (Lo1 _ _ _ _ _ E1) as [_ Fx1]. pose proof (after_fixed _ _ Ft Fx1) as A1. pose proof (fixed_kok K _ _ Fx1 Ko) as Ko1.
  apply wp_bindF. eapply (wp_on_photon err p d src K ph _ e _ ph1 e1 F ((cx, bx) :: (cy, by_) :: R) EB); [apply local_trace_wall|exact Ft|exact E1|exact HE|eapply hs_perm; [|exact H]; perm|].
  intros EB1 s1 HE1 H1. cbv beta iota. destruct (Z.leb wt 0).
  { apply rret_inv in E. destruct E as [E <-]. injection E as <- <-. apply wp_retF. eapply (HQ ph1 K EB1 bx by_); eauto. eapply hs_perm; [|exact H1]. perm. }
  apply rbind_inv in E. destruct E as ([[] ph2] & e2 & E2 & E). cbn [fst snd] in E.
  destruct (local_wall_travel dt) as [_ Lo2]. destruct (Lo2 _ _ _ _ _ E2) as [_ Fx2]. pose proof (after_fixed _ _ (proj1 A1) Fx2) as A2. pose proof (fixed_kok K _ _ Fx2 Ko1) as Ko2.
  pose proof (after_trans _ _ _ A1 A2) as A12.
  apply wp_bindF. eapply (wp_on_photon err p d src K ph1 _ e1 tt ph2 e2 F ((cx, bx) :: (cy, by_) :: R) EB1); [apply local_wall_travel|apply A1|exact E2|exact HE1|exact H1|].
  intros EB2 s2 HE2 H2. assert (Fl : full (List.length (ph_en ph2)) [own ph2]) by (constructor; [apply A2|constructor]).
  assert (Rest : forall ph3 K3 s3, ph3 = add_at wt (own ph2) ph2 -> after ph2 ph3 -> kok K3 ph3 -> hs F (flyb p d src K3 ph3 ++ (cx, bx) :: (cy, by_) :: EB2 ++ R) s3 ->
    wp (bindF (calc err (two_of o)) (fun ze => bindF (if Z.eqb wt 1 then wall_onward x o junk lc fuel (Some p) (Some cx) (Some cy) dt r_c q_c (fst ze) (snd ze) err else retF true) (fun ok : bool =>
        if negb ok then retF (-1)%Z else bindF (on_photon err (Some p) (fun ph => RM.ret (tt, wall_done ze ph))) (fun _ => retF 1%Z))) e2) Q s3).
  { intros ph3 K3 s3 Eq A3 Ko3 H3. rewrite <- Eq in E. pose proof (after_trans _ _ _ A12 A3) as A13.
    apply rbind_inv in E. destruct E as (ze & e4 & E4 & E). apply rbind_inv in E. destruct E as ([b ph5] & e5 & E5 & E). cbn [fst snd] in E.
    apply wp_bindF. eapply (wp_calc err _ e2 ze e4 F (flyb p d src K3 ph3 ++ (cx, bx) :: (cy, by_) :: R) EB2); [exact E4|apply sticky_two_of|exact HE2|eapply hs_perm; [|exact H3]; perm|].
    intros EB4 s4 HE4 H4. apply wp_bindF.
    assert (Go : forall K5 EB5 bx5 by5 s5, after ph3 ph5 -> kok K5 ph5 -> errs err e5 EB5 -> hs F (flyb p d src K5 ph5 ++ (cx, bx5) :: (cy, by5) :: EB5 ++ R) s5 ->
      wp ((if negb b then retF (-1)%Z else bindF (on_photon err (Some p) (fun ph => RM.ret (tt, wall_done ze ph))) (fun _ => retF 1%Z)) e5) Q s5).
    { intros K5 EB5 bx5 by5 s5 A5 Ko5 HE5 H5. pose proof (after_trans _ _ _ A13 A5) as A15. destruct b; cbn [negb] in *; apply rret_inv in E; destruct E as [E <-]; injection E as <- <-.
      - destruct (local_wall_done ze) as [_ Lo6]. destruct (Lo6 ph5 e5 tt (wall_done ze ph5) e5 eq_refl) as [_ Fx6].
        apply wp_bindF. eapply (wp_on_photon err p d src K5 ph5 _ e5 tt (wall_done ze ph5) e5 F ((cx, bx5) :: (cy, by5) :: R) EB5); [apply local_wall_done|apply A5|reflexivity|exact HE5|eapply hs_perm; [|exact H5]; perm|].
        intros EB6 s6 HE6 H6. apply wp_retF. eapply (HQ _ K5 EB6 bx5 by5); [reflexivity|eapply after_trans; [exact A15|]; apply after_fixed; [apply A5|exact Fx6]|eapply fixed_kok; eauto|exact HE6|eapply hs_perm; [|exact H6]; perm].
      - apply wp_retF. eapply (HQ ph5 K5 EB5); eauto. }
    destruct (Z.eqb wt 1).
    - eapply (wp_wall_onward err x o junk lc fuel dt r_c q_c (fst ze) (snd ze) ph3 e4 b ph5 e5 F R s4 p d src K3 cx cy bx by_ EB4); [exact E5|apply A3|exact Ko3|exact Lx|exact Ly|exact HE4|eapply hs_perm; [|exact H4]; perm|].
      intros K5 EB5 bx5 by5 s5 A5 Ko5 HE5 H5. eapply Go; eauto.
    - apply rret_inv in E5. destruct E5 as [E5 <-]. injection E5 as <- <-. apply wp_retF. eapply (Go K3 EB4 bx by_); [split; [apply A3|reflexivity]|exact Ko3|exact HE4|eapply hs_perm; [|exact H4]; perm]. }
  assert (H2' : hs F (flyb p d src K ph2 ++ (cx, bx) :: (cy, by_) :: EB2 ++ R) s2) by (eapply hs_perm; [|exact H2]; perm).
  apply wp_bindF. destruct (Z.eqb_spec wt 3) as [->|N3].
  - eapply wp_own_ext; [apply A2|exact Ko2|exact H2'|]. intros K3 s3 Ko3 H3. cbn [negb]. apply wp_bindF. apply wp_retF. cbn [negb].
    eapply (Rest _ K3); [reflexivity|apply fit_add_ext; [apply A2|exact Fl]|exact Ko3|exact H3].
  - apply wp_retF. cbn [negb]. apply wp_bindF. destruct (Z.eqb_spec wt 2) as [->|N2].
    + eapply wp_own_int; [apply A2|exact Ko2|exact H2'|]. intros K3 s3 Ko3 H3. cbn [negb].
      eapply (Rest _ K3); [reflexivity|apply fit_add_int; [apply A2|exact Fl]|exact Ko3|exact H3].
    + apply wp_retF. cbn [negb]. eapply (Rest ph2 K); [|split; [apply A2|reflexivity]|exact Ko2|exact H2']. unfold add_at. destruct (Z.eqb_spec wt 3); [congruence|]. destruct (Z.eqb_spec wt 2); [congruence|reflexivity].
Qed.
End Heap.
