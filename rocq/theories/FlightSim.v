(** * polycap_capil_trace and polycap_capil_reflect in memory do what the functional model says and
      release everything they allocate, at every depth of the recursion *)
From Coq Require Import ZArith List Bool Lia String Permutation.
From Verif Require Import Num Mem SpecHeap HeapLib ErrorModel ProfileModel Geometry SpecPhoton ConsModel H5Model RM CapilModel TraceModel LaunchModel PhotProofs RMLogic LenProofs SepLib FlightMem FlightRep FlightPure FlightHeap FlightHeap2.
Import ListNotations.

Section Sim.
Context {T : Type} {N : Num T}.
Local Notation M := (M T).
Local Notation bind := Mem.bind.
Local Notation blocks := (list (loc * @block T)).

Lemma rbind_inv {A B} (m : RM A) (k : A -> RM B) e b e' : RM.bind m k e = Ret (b, e') -> exists a e1, m e = Ret (a, e1) /\ k a e1 = Ret (b, e').
Proof. unfold RM.bind. destruct (m e) as [[a e1]| |]; try discriminate. eauto. Qed.
Lemma rret_inv {A} (a b : A) e e' : RM.ret a e = Ret (b, e') -> a = b /\ e = e'.
Proof. intros E. injection E as <- <-. auto. Qed.

(** The photon [ph'] that a step made of [ph]. *)
Definition after (ph ph' : photon T) : Prop := fit ph' /\ ph_en ph' = ph_en ph.
Lemma after_fixed ph ph' : fit ph -> fixed ph ph' -> after ph ph'.
Proof. intros Ft Fx. split; [eapply fixed_fit; eauto|apply Fx]. Qed.
Lemma after_trans a b c : after a b -> after b c -> after a c.
Proof. intros [_ E1] [F2 E2]. split; [auto|congruence]. Qed.
Lemma fit_add_ext ph ds : fit ph -> full (List.length (ph_en ph)) ds -> after ph (add_ext ds ph).
Proof. intros (A & B & C & D & E) H. split; [|reflexivity]. unfold fit. cbn. repeat split; auto. unfold full in *. apply Forall_app; auto. Qed.
Lemma fit_add_int ph ds : fit ph -> full (List.length (ph_en ph)) ds -> after ph (add_int ds ph).
Proof. intros (A & B & C & D & E) H. split; [|reflexivity]. unfold fit. cbn. repeat split; auto. unfold full in *. apply Forall_app; auto. Qed.

Section With.
Context (err : eslot) (nm : nat).
Definition tspec (tr : tracer) (trM : tracerM) : Prop :=
  forall ix ph axes e c ix' ph' e', tr ix ph axes e = Ret ((c, ix', ph'), e') -> fit ph -> List.length axes = S nm ->
  forall F R s p d src K cx cy EB, kok K ph -> errs err e EB -> hs F (flyb p d src K ph ++ axb cx cy axes ++ EB ++ R) s ->
  forall Q : option ((Z * nat) * slot) -> st T -> Prop,
  (forall K' EB' s', after ph ph' -> kok K' ph' -> errs err e' EB' -> hs F (flyb p d src K' ph' ++ axb cx cy axes ++ EB' ++ R) s' -> Q (Some ((c, ix'), e')) s') ->
  wp (trM ix (Some p) (Some cx) (Some cy) e) Q s.

Lemma wp_trace_many tr trM : tspec tr trM -> forall n iesc ix ph axes e c ph' e', trace_many tr axes n iesc ix ph e = Ret ((c, ph'), e') -> fit ph -> List.length axes = S nm ->
  forall F R s p d src K cx cy EB, kok K ph -> errs err e EB -> hs F (flyb p d src K ph ++ axb cx cy axes ++ EB ++ R) s ->
  forall Q : option (Z * slot) -> st T -> Prop,
  (forall K' EB' s', after ph ph' -> kok K' ph' -> errs err e' EB' -> hs F (flyb p d src K' ph' ++ axb cx cy axes ++ EB' ++ R) s' -> Q (Some (c, e')) s') ->
  wp (trace_manyM trM (Some p) (Some cx) (Some cy) n iesc ix e) Q s.
Proof.
  intros TS. induction n as [|n IH]; intros iesc ix ph axes e c ph' e' E Ft La F R s p d src K cx cy EB Ko HE H Q HQ; cbn [trace_many trace_manyM] in *.
  - apply rret_inv in E. destruct E as [E <-]. injection E as <- <-. apply wp_retF. apply (HQ K EB); auto. split; auto.
  - apply rbind_inv in E. destruct E as ([[c1 ix1] ph1] & e1 & E1 & E2). apply wp_bindF. eapply TS; [exact E1|exact Ft|exact La|exact Ko|exact HE|exact H|].
    intros K1 EB1 s1 A1 Ko1 HE1 H1. cbn [fst snd]. destruct (Z.eqb c1 1).
    + eapply IH; [exact E2|apply A1|exact La|exact Ko1|exact HE1|exact H1|]. intros K2 EB2 s2 A2 Ko2 HE2 H2. eapply HQ; eauto. eapply after_trans; eauto.
    + apply rret_inv in E2. destruct E2 as [E2 <-]. injection E2 as <- <-. apply wp_retF. eapply HQ; eauto.
Qed.

(** The type of polycap_capil_reflect's specification. *)
Definition rspec (rf : photon T -> vec3 T -> RM (Z * photon T)) (rfM : ptr -> vec3 T -> MF Z) : Prop :=
  forall ph sn e c ph' e', rf ph sn e = Ret ((c, ph'), e') -> fit ph ->
  forall F R s p d src K EB, kok K ph -> errs err e EB -> hs F (flyb p d src K ph ++ EB ++ R) s ->
  forall Q : option (Z * slot) -> st T -> Prop,
  (forall K' EB' s', after ph ph' -> kok K' ph' -> errs err e' EB' -> hs F (flyb p d src K' ph' ++ EB' ++ R) s' -> Q (Some (c, e')) s') ->
  wp (rfM (Some p) sn e) Q s.

Lemma wp_trace_body rf rfM o junk : p_nmax (o_prof o) = nm -> rspec rf rfM -> tspec (trace_body rf o junk) (trace_bodyM rfM o junk err).
Proof.
  intros En RS ix ph axes e c ix' ph' e' E Ft La F R s p d src K cx cy EB Ko HE H Q HQ. rewrite trace_body_eq in E.
  apply rbind_inv in E. destruct E as ([r ph1] & e1 & E1 & E2). unfold trace_bodyM. cbn [fst snd] in E2.
  destruct (local_trace_pre o junk ix axes) as [_ Lo]. destruct (Lo _ _ _ _ _ E1) as [_ Fx1].
  pose proof (after_fixed _ _ Ft Fx1) as A1. pose proof (fixed_kok K _ _ Fx1 Ko) as Ko1.
  apply wp_bindF, wp_inM. rewrite En. eapply (hs_read_axes _ _ _ cx cy axes); [exact H|intros z Hz; rewrite !in_app_iff; tauto|auto|].
  apply wp_bindF. eapply (wp_on_photon err p d src K ph _ e r ph1 e1 F (axb cx cy axes ++ R) EB); [apply local_trace_pre|exact Ft|exact E1|exact HE|eapply hs_perm; [|exact H]; perm|].
  intros EB1 s1 HE1 H1. destruct r as [cix|[[ix1 sn] cosa]].
  - apply rret_inv in E2. destruct E2 as [E2 <-]. injection E2 as -> <-. apply wp_retF. eapply HQ; eauto. eapply hs_perm; [|exact H1]. perm.
  - apply rbind_inv in E2. destruct E2 as ([ie ph2] & e2 & E2 & E3). apply rbind_inv in E3. destruct E3 as ([c3 ph3] & e3 & E3 & E4). cbn [fst snd] in *.
    apply rret_inv in E4. destruct E4 as [E4 <-]. injection E4 as <- <- <-.
    apply wp_bindF. eapply (RS _ _ _ _ _ _ E2 (proj1 A1) F (axb cx cy axes ++ R)); [exact Ko1|exact HE1|exact H1|].
    intros K2 EB2 s2 A2 Ko2 HE2 H2. destruct (local_trace_post ie sn cosa) as [_ Lo3]. destruct (Lo3 _ _ _ _ _ E3) as [_ Fx3].
    apply wp_bindF. eapply (wp_on_photon err p d src K2 ph2 _ e2 c3 ph3 e3 F (axb cx cy axes ++ R) EB2); [apply local_trace_post|apply A2|exact E3|exact HE2|exact H2|].
    intros EB3 s3 HE3 H3. apply wp_retF. eapply (HQ K2 EB3); [eapply after_trans; [exact A1|]; eapply after_trans; [exact A2|]; apply after_fixed; [apply A2|exact Fx3]|eapply fixed_kok; eauto|exact HE3|].
    eapply hs_perm; [|exact H3]. perm.
Qed.

(** Giving up a temporary photon. *)
Lemma wp_drop_temp {A} (a : A) F R s t d src Kt tp cx cy (bx by_ : @block T) e (Q : option (A * slot) -> st T -> Prop) : kok Kt tp ->
  hs F (flyb t d src Kt tp ++ (cx, bx) :: (cy, by_) :: R) s -> (forall s', hs F R s' -> Q (Some (a, e)) s') -> wp (drop_temp (Some t) (Some cx) (Some cy) a e) Q s.
Proof.
  intros Ko H HQ. unfold drop_temp. apply wp_bindF, wp_inM. apply wp_bind. eapply hs_photon_free; [exact Ko|exact H|]. intros s1 H1.
  apply wp_bind. eapply hs_free; [exact H1|]. intros s2 H2. eapply hs_free; [exact H2|]. intros s3 H3. apply wp_retF. auto.
Qed.

(** No memory to report: only the report of a rejected cross section remains. *)
Lemma wp_no_memory e F R EB (Q : option (unit * slot) -> st T -> Prop) s : errs err e EB -> hs F (EB ++ R) s ->
  (forall EB' s', errs err (match e with None => Some E_MEM | Some c => Some c end) EB' -> hs F (EB' ++ R) s' ->
     Q (Some (tt, match e with None => Some E_MEM | Some c => Some c end)) s') -> wp (no_memory err e) Q s.
Proof.
  intros HE H HQ. unfold no_memory, mem_error. apply wp_bind. destruct err as [l|]; cbn [set_error errs] in *.
  2:{ apply wp_ret. apply wp_ret. eapply HQ; eauto. }
  unfold error_new, malloc, strdup. apply wp_bind. apply wp_bind. eapply hs_alloc; [exact H|]. cbn [repeat]. intros o s1 H1.
  apply wp_bind. eapply hs_store; [exact H1|cbn; lia|]. cbn [set_nth]. intros s2 H2.
  apply wp_bind. eapply hs_alloc; [exact H2|]. intros t s3 H3.
  apply wp_bind. match type of H3 with hs _ (?x :: ?a :: ?R) _ => pose proof (hs_top a (x :: R) H3 ltac:(perm)) as H4 end.
  eapply hs_store; [exact H4|cbn; lia|]. cbn [set_nth]. intros s5 H5. apply wp_ret. destruct e as [c|].
  - destruct HE as (o1 & t1 & m1 & ->). cbn [app] in H5. apply wp_bind. eapply hs_load_ptr; [exact H5|right; right; left; reflexivity|reflexivity|].
    apply wp_bind. eapply hs_load_ptr; [exact H5|left; reflexivity|reflexivity|]. unfold error_free.
    apply wp_bind. eapply hs_load_ptr; [exact H5|left; reflexivity|reflexivity|].
    match type of H5 with hs _ (?x :: ?a :: ?R) _ => pose proof (hs_top a (x :: R) H5 ltac:(perm)) as H6 end.
    apply wp_bind. eapply hs_free; [exact H6|]. intros s7 H7. eapply hs_free; [exact H7|]. intros s8 H8. apply wp_ret.
    eapply (HQ [(l, [Vptr (Some o1)]); (o1, [Vint c; Vptr (Some t1)]); (t1, [Vstr m1])]); [eauto|exact H8].
  - subst EB. cbn [app] in H5. apply wp_bind. eapply hs_load_ptr; [exact H5|right; right; left; reflexivity|reflexivity|].
    match type of H5 with hs _ (?x :: ?y :: ?a :: ?R) _ => pose proof (hs_top a (x :: y :: R) H5 ltac:(perm)) as H6 end.
    eapply hs_store; [exact H6|cbn; lia|]. cbn [set_nth]. intros s7 H7. apply wp_ret.
    eapply (HQ [(l, [Vptr (Some o)]); (o, [Vint E_MEM; Vptr (Some t)]); (t, [Vstr "could not allocate memory"%string])]); [eauto|exact H7].
Qed.

(** Following the temporary photon. *)
Lemma wp_follow_temp tr trM (o : optic T) p t d src src' K Kt ph tp q_c r_c zmax e z ph' e' F R EB cx cy (bx by_ : @block T)
    (Q : option (option Z * slot) -> st T -> Prop) s :
  p_nmax (o_prof o) = nm -> tspec tr trM ->
  RM.bind (temp_axes o q_c r_c (vz (ph_exit tp))) (fun ax =>
    RM.bind (trace_many tr (fst ax) (S (p_nmax (o_prof o)) - snd ax) 0%Z (snd ax) tp) (fun it =>
    if (Z.eqb (fst it) (-1) || Z.eqb (fst it) (-3))%bool then RM.ret (Some (-2)%Z, ph)
    else
      let ph2 := add_int (ph_int (snd it)) (add_ext (ph_ext (snd it)) ph) in
      if (Z.eqb (fst it) 1 || Z.eqb (fst it) (-2))%bool then
        RM.bind (leak_end o (snd it) zmax) (fun w =>
        RM.ret (None, if Z.eqb (fst w) 0 then add_ext [own_leak ph (snd w) (ph_w (snd it))] ph2
                   else if Z.eqb (fst w) 1 then add_int [own_leak ph (snd w) (ph_w (snd it))] ph2 else ph2))
      else RM.ret (None, ph2))) e = Ret ((z, ph'), e') ->
  fit ph -> kok K ph -> fit tp -> kok Kt tp -> ph_en tp = ph_en ph -> List.length bx = S nm -> List.length by_ = S nm ->
  errs err e EB -> hs F (flyb p d src K ph ++ flyb t d src' Kt tp ++ (cx, bx) :: (cy, by_) :: EB ++ R) s ->
  (forall K' EB' s', after ph ph' -> kok K' ph' -> errs err e' EB' -> hs F (flyb p d src K' ph' ++ EB' ++ R) s' -> Q (Some (z, e')) s') ->
  wp (follow_temp trM o (Some p) (Some t) (Some cx) (Some cy) q_c r_c zmax err e) Q s.
Proof.
  intros En TS E Ft Ko Ftt Kot Een Lx Ly HE H HQ. unfold follow_temp.
  apply rbind_inv in E. destruct E as ([axes ix] & e1 & E1 & E). cbn [fst snd] in E.
  apply rbind_inv in E. destruct E as ([ie tp2] & e2 & E2 & E). cbn [fst snd] in E.
  assert (La : List.length axes = S nm).
  { unfold temp_axes in E1. apply rbind_inv in E1. destruct E1 as (ax & e3 & E3 & E4). apply rbind_inv in E4. destruct E4 as (ix2 & e4 & _ & E5).
    apply rret_inv in E5. destruct E5 as [E5 _]. injection E5 as <- _. rewrite En in E3. revert E3. clear. generalize (S nm) as n, 0 as i. intros n. revert ax e e3.
    induction n as [|n IH]; intros ax e e3 i E; cbn [cap_axes] in E.
    - apply rret_inv in E. destruct E as [<- _]. reflexivity.
    - apply rbind_inv in E. destruct E as (xy & e1 & _ & E). apply rbind_inv in E. destruct E as (l & e2 & E & E'). apply rret_inv in E'. destruct E' as [<- _]. cbn. f_equal. eauto. }
  apply wp_bindF, wp_inM. eapply (hs_read_photon _ _ _ t d src' Kt tp); [exact Ftt|exact H|intros w Hw; rewrite !in_app_iff; tauto|].
  apply wp_bindF. change (vz (ph_exit (strip tp))) with (vz (ph_exit tp)).
  eapply (wp_calc err _ e (axes, ix) e1 F (flyb p d src K ph ++ flyb t d src' Kt tp ++ (cx, bx) :: (cy, by_) :: R) EB); [exact E1|apply sticky_temp_axes|exact HE|eapply hs_perm; [|exact H]; perm|].
  intros EB1 s1 HE1 H1. cbn [fst snd].
  apply wp_bindF, wp_inM. eapply (hs_write_axes F (flyb p d src K ph ++ flyb t d src' Kt tp ++ EB1 ++ R) _ cx cy bx by_); [lia|lia|eapply hs_perm; [|exact H1]; perm|].
  intros s2 H2. apply wp_bindF.
  eapply (wp_trace_many tr trM TS _ _ _ _ _ _ _ _ _ E2 Ftt La F (flyb p d src K ph ++ R) s2 t d src' Kt cx cy EB1 Kot HE1); [eapply hs_perm; [|exact H2]; perm|].
  intros Kt3 EB3 s3 [Ft3 Ee3] Ko3 HE3 H3.
  assert (Ene : List.length (ph_en tp2) = List.length (ph_en ph)) by congruence.
  assert (Drop : forall (r : option Z) ph4 K4 e4 EB4 s4, hs F (flyb p d src K4 ph4 ++ flyb t d src' Kt3 tp2 ++ axb cx cy axes ++ EB4 ++ R) s4 -> kok K4 ph4 -> errs err e4 EB4 ->
    (r, ph4, e4) = (z, ph', e') -> after ph ph4 -> wp (drop_temp (Some t) (Some cx) (Some cy) r e4) Q s4).
  { intros r ph4 K4 e4 EB4 s4 H4 Ko4 HE4 Eq A4. injection Eq as -> -> ->.
    eapply (wp_drop_temp _ F (flyb p d src K4 ph' ++ EB4 ++ R) s4 t d src' Kt3 tp2 cx cy (List.map Vdbl (List.map fst axes)) (List.map Vdbl (List.map snd axes))); [exact Ko3|eapply hs_perm; [|exact H4]; unfold axb; perm|]. intros s5 H5. eapply HQ; eauto. }
  destruct (_ || _)%bool.
  { apply rret_inv in E. destruct E as [E <-]. injection E as <- <-. eapply (Drop _ ph K _ EB3); [eapply hs_perm; [|exact H3]; perm|exact Ko|exact HE3|reflexivity|split; auto]. }
  cbv zeta in E. pose proof Ft3 as (W3 & _ & _ & X3 & I3). rewrite Ene in X3, I3, W3.
  apply wp_bindF. eapply (wp_merge_ext F (axb cx cy axes ++ EB3 ++ R) s3 p t d src src' K Kt3 ph tp2); [exact Ko|exact Ko3|exact X3|eapply hs_perm; [|exact H3]; perm|].
  intros K4 s4 Ko4 _ _ H4. cbn [negb]. pose proof (fit_add_ext ph _ Ft X3) as A4.
  apply wp_bindF. eapply (wp_merge_int F (axb cx cy axes ++ EB3 ++ R) s4 p t d src src' K4 Kt3 _ tp2); [exact Ko4|exact Ko3|exact I3|exact H4|].
  intros K5 s5 Ko5 _ _ H5. cbn [negb]. pose proof (fit_add_int (add_ext (ph_ext tp2) ph) (ph_int tp2) (proj1 A4) I3) as A5'. pose proof (after_trans _ _ _ A4 A5') as A5. clear A5'.
  set (ph2 := add_int (ph_int tp2) (add_ext (ph_ext tp2) ph)) in *.
  destruct (_ || _)%bool.
  2:{ apply rret_inv in E. destruct E as [E <-]. injection E as <- <-. eapply (Drop _ ph2 K5 _ EB3); [exact H5|exact Ko5|exact HE3|reflexivity|exact A5]. }
  apply rbind_inv in E. destruct E as ([w ec] & e6 & E6 & E). cbn [fst snd] in E. apply rret_inv in E. destruct E as [E <-]. injection E as <- E.
  apply wp_bindF, wp_inM. eapply (hs_read_photon _ _ _ t d src' Kt3 tp2); [exact Ft3|exact H5|intros y Hy; rewrite !in_app_iff; tauto|].
  apply wp_bindF, wp_inM. eapply (hs_read_photon _ _ _ p d src K5 ph2); [apply A5|exact H5|intros y Hy; rewrite !in_app_iff; tauto|].
  apply wp_bindF. change (leak_end o (strip tp2) zmax) with (leak_end o tp2 zmax).
  eapply (wp_calc err _ e2 (w, ec) e6 F (flyb p d src K5 ph2 ++ flyb t d src' Kt3 tp2 ++ axb cx cy axes ++ R) EB3); [exact E6|apply sticky_leak_end|exact HE3|eapply hs_perm; [|exact H5]; perm|].
  intros EB6 s6 HE6 H6. cbn [fst snd].
  apply wp_bindF, wp_inM. eapply (hs_load_ptr _ _ _ t (pblock d src' Kt3 tp2)); [exact H6|rewrite !in_app_iff; right; right; left; left; reflexivity|reflexivity|].
  apply wp_bindF. cbn [strip ph_edir ph_eelec ph_irefl].
  assert (Iw : In (kW Kt3, List.map Vdbl (ph_w tp2)) ((kW K5, List.map Vdbl (ph_w ph2)) :: flyb t d src' Kt3 tp2 ++ axb cx cy axes ++ EB6 ++ R)).
  { right. apply in_or_app. left. right. right. left. reflexivity. }
  assert (H7 : hs F (flyb p d src K5 ph2 ++ flyb t d src' Kt3 tp2 ++ axb cx cy axes ++ EB6 ++ R) s6) by (eapply hs_perm; [|exact H6]; perm).
  assert (Fl : full (List.length (ph_en ph)) [own_leak ph ec (ph_w tp2)]) by (constructor; [exact W3|constructor]).
  destruct (Z.eqb w 0); [|destruct (Z.eqb w 1)].
  - eapply (wp_push_ext F _ s6 p d src K5 ph2 (kW Kt3) (ph_w tp2)); [apply A5|exact Ko5|exact H7|exact Iw|exact W3|].
    intros K8 s8 Ko8 _ _ H8. eapply (Drop _ ph' K8 _ EB6); [subst ph'; exact H8|subst ph'; exact Ko8|exact HE6|reflexivity|].
    subst ph'. eapply after_trans; [exact A5|]. apply fit_add_ext; [apply A5|exact Fl].
  - eapply (wp_push_int F _ s6 p d src K5 ph2 (kW Kt3) (ph_w tp2)); [apply A5|exact Ko5|exact H7|exact Iw|exact W3|].
    intros K8 s8 Ko8 _ _ H8. eapply (Drop _ ph' K8 _ EB6); [subst ph'; exact H8|subst ph'; exact Ko8|exact HE6|reflexivity|].
    subst ph'. eapply after_trans; [exact A5|]. apply fit_add_int; [apply A5|exact Fl].
  - apply wp_retF. eapply (Drop _ ph' K5 _ EB6); [subst ph'; exact H7|subst ph'; exact Ko5|exact HE6|reflexivity|subst ph'; exact A5].
Qed.

Definition tk (e w : loc) : keys := {| kE := e; kW := w; kA := 0; kS := 0; kX := 0; kxl := []; kI := 0; kil := [] |}.

Lemma photon_scatf_kept x (o : optic T) ph e ph' e' : photon_scatf x o ph e = Ret (ph', e') -> fit ph -> after ph ph' /\ ph_ext ph' = ph_ext ph /\ ph_int ph' = ph_int ph.
Proof.
  intros E Ft. unfold photon_scatf in E. destruct (_ || _)%bool.
  - apply rbind_inv in E. destruct E as (? & e1 & _ & E). apply rret_inv in E. destruct E as [<- _]. repeat split; auto; apply Ft.
  - apply rret_inv in E. destruct E as [<- _]. destruct Ft as (A & B & C & D & E). unfold after, fit; cbn. rewrite !map_length. repeat split; auto.
Qed.

Lemma wp_make_temp x tr trM (o : optic T) p d src K ph wl (ws : list T) lc dt q_c r_c zmax e z ph' e' F R EB (Q : option (option Z * slot) -> st T -> Prop) s :
  p_nmax (o_prof o) = nm -> tspec tr trM ->
  match photon_fresh lc (ph_edir ph) (ph_eelec ph) with
  | None => RM.ub
  | Some t =>
      let t := mkPhoton (ph_start t) (ph_sdir t) (ph_selec t) (ph_exit t) (ph_edir t) (ph_eelec t)
                 (ph_en ph) ws None None (ph_irefl ph) (nadd (ph_dtravel ph) dt) [] [] in
      RM.bind (photon_scatf x o t) (fun t =>
      match ph_amu t, ph_scatf t with
      | Some _, Some _ =>
          RM.bind (temp_axes o q_c r_c (vz (ph_exit t))) (fun ax =>
          RM.bind (trace_many tr (fst ax) (S (p_nmax (o_prof o)) - snd ax) 0%Z (snd ax) t) (fun it =>
          if (Z.eqb (fst it) (-1) || Z.eqb (fst it) (-3))%bool then RM.ret (Some (-2)%Z, ph)
          else
            let ph2 := add_int (ph_int (snd it)) (add_ext (ph_ext (snd it)) ph) in
            if (Z.eqb (fst it) 1 || Z.eqb (fst it) (-2))%bool then
              RM.bind (leak_end o (snd it) zmax) (fun w =>
              RM.ret (None, if Z.eqb (fst w) 0 then add_ext [own_leak ph (snd w) (ph_w (snd it))] ph2
                         else if Z.eqb (fst w) 1 then add_int [own_leak ph (snd w) (ph_w (snd it))] ph2 else ph2))
            else RM.ret (None, ph2)))
      | _, _ => RM.bind (report E_MEM) (fun _ => RM.ret (Some (-1)%Z, ph))
      end)
  end e = Ret ((z, ph'), e') ->
  fit ph -> kok K ph -> List.length ws = List.length (ph_en ph) -> errs err e EB ->
  hs F (flyb p d src K ph ++ (wl, List.map Vdbl ws) :: EB ++ R) s ->
  (forall K' EB' s', after ph ph' -> kok K' ph' -> errs err e' EB' -> hs F (flyb p d src K' ph' ++ (wl, List.map Vdbl ws) :: EB' ++ R) s' -> Q (Some (z, e')) s') ->
  wp (make_temp x trM o (Some p) (Some wl) lc dt q_c r_c zmax err e) Q s.
Proof.
  intros En TS E Ft Ko Lws HE H HQ. destruct (photon_fresh _ _ _) as [t0|] eqn:Ef; [|discriminate]. unfold make_temp.
  assert (Et0 : t0 = mkPhoton lc (ph_edir ph) (ph_eelec ph) lc (ph_edir ph) (ph_eelec ph) [] [] None None 0%Z (#0)%num [] []).
  { unfold photon_fresh in Ef. destruct (_ || _)%bool; [discriminate|]. congruence. }
  cbv zeta in E. apply rbind_inv in E. destruct E as (tp & e1 & E1 & E). subst t0. cbn [ph_start ph_sdir ph_selec ph_exit ph_edir ph_eelec] in E1.
  set (tp0 := mkPhoton lc (ph_edir ph) (ph_eelec ph) lc (ph_edir ph) (ph_eelec ph) (ph_en ph) ws None None (ph_irefl ph) (nadd (ph_dtravel ph) dt) [] []) in *.
  assert (Ft0 : fit tp0) by (unfold fit; cbn; repeat split; auto; constructor).
  apply wp_bindF, wp_inM. eapply (hs_read_photon _ _ _ p d src K ph); [exact Ft|exact H|intros y Hy; rewrite !in_app_iff; tauto|].
  apply wp_bindF, wp_inM. eapply (hs_load_ptr _ _ _ p (pblock d src K ph)); [exact H|left; reflexivity|reflexivity|].
  apply wp_bindF, wp_inM. eapply (hs_load_int _ _ _ p (pblock d src K ph)); [exact H|left; reflexivity|reflexivity|]. rewrite zlen_nat. cbn [strip ph_edir ph_eelec ph_irefl ph_dtravel ph_en].
  apply wp_bindF, wp_inM. eapply hs_photon_new; [congruence|exact H|]. intros t s1 H1.
  apply wp_bindF, wp_inM. unfold photon_block in H1. cbn [app vcells] in H1.
  apply wp_bind. eapply hs_store; [exact H1|cbn; lia|]. cbn [set_nth]. intros s2 H2.
  apply wp_bind. eapply hs_store; [exact H2|cbn; lia|]. cbn [set_nth]. intros s3 H3.
  apply wp_bind. eapply hs_store; [exact H3|cbn; lia|]. cbn [set_nth]. intros s4 H4.
  apply wp_bind. eapply hs_store; [exact H4|cbn; lia|]. cbn [set_nth]. intros s5 H5.
  eapply hs_store; [exact H5|cbn; lia|]. cbn [set_nth]. intros s6 H6.
  apply wp_bindF, wp_inM. eapply hs_malloc; [exact H6|]. intros be s7 H7.
  match type of H7 with hs _ (?x :: ?a :: ?R) _ => pose proof (hs_top a (x :: R) H7 ltac:(perm)) as H8 end.
  apply wp_bindF, wp_inM. eapply hs_store; [exact H8|cbn; lia|]. cbn [set_nth]. intros s9 H9.
  apply wp_bindF, wp_inM. eapply hs_malloc; [exact H9|]. intros bw s10 H10.
  match type of H10 with hs _ (?x :: ?a :: ?R) _ => pose proof (hs_top a (x :: R) H10 ltac:(perm)) as H11 end.
  apply wp_bindF, wp_inM. eapply hs_store; [exact H11|cbn; lia|]. cbn [set_nth]. intros s12 H12.
  apply wp_bindF, wp_inM. apply wp_bind.
  eapply (hs_read_dbls _ _ _ wl ws); [exact H12|right; right; right; rewrite !in_app_iff; right; left; reflexivity|auto|].
  match type of H12 with hs _ (?x :: ?a :: ?R) _ => pose proof (hs_top a (x :: R) H12 ltac:(perm)) as H13 end.
  apply wp_bind. eapply hs_write_all; [|exact H13|]; [rewrite repeat_length; auto|]. intros s14 H14.
  match type of H14 with hs _ (?x :: ?y :: ?a :: ?R) _ => pose proof (hs_top a (x :: y :: R) H14 ltac:(perm)) as H15 end.
  eapply hs_write_all; [|exact H15|]; [rewrite repeat_length; auto|]. intros s16 H16.
  assert (H17 : hs F (flyb t d zero3 (tk be bw) tp0 ++ EB ++ flyb p d src K ph ++ (wl, List.map Vdbl ws) :: R) s16).
  { eapply hs_perm; [|exact H16]. unfold flyb at 2, csb, leaksb, pblock, photon_block, vcells. cbn. perm. }
  apply wp_bindF. eapply (wp_scatf err x o t d zero3 (tk be bw) tp0 e tp e1 F _ EB); [exact Ft0|split; reflexivity|reflexivity|reflexivity|exact E1|exact HE|exact H17|].
  intros Kt EB1 s18 Kot _ _ HE1 H18. destruct (photon_scatf_kept _ _ _ _ _ _ E1 Ft0) as ([Ftt Een] & _ & _). cbn in Een.
  assert (Give : forall (s : st T), hs F (flyb t d zero3 Kt tp ++ EB1 ++ flyb p d src K ph ++ (wl, List.map Vdbl ws) :: R) s ->
     RM.bind (report E_MEM) (fun _ => RM.ret (Some (-1)%Z, ph)) e1 = Ret ((z, ph'), e') -> wp (give_up (Some t) err e1) Q s).
  { intros sg Hg Eg. apply rbind_inv in Eg. destruct Eg as ([] & e2 & E2 & E3). apply rret_inv in E3. destruct E3 as [E3 <-]. injection E3 as <- <-.
    assert (X2 : match e1 with Some c => Some c | None => Some E_MEM end = e2) by (unfold report in E2; destruct e1; congruence). subst e2.
    unfold give_up. apply wp_bindF. eapply (wp_no_memory e1 F (flyb t d zero3 Kt tp ++ flyb p d src K ph ++ (wl, List.map Vdbl ws) :: R) EB1); [exact HE1|eapply hs_perm; [|exact Hg]; perm|].
    intros EB2 s2' HE2 H2'. apply wp_bindF, wp_inM.
    eapply (hs_photon_free F (flyb p d src K ph ++ (wl, List.map Vdbl ws) :: EB2 ++ R) s2' t d zero3 Kt tp); [exact Kot|eapply hs_perm; [|exact H2']; perm|].
    intros s3' H3'. apply wp_retF. eapply (HQ K EB2); [split; auto|exact Ko|exact HE2|exact H3']. }
  apply wp_bindF, wp_inM. eapply (hs_load_ptr _ _ _ t (pblock d zero3 Kt tp)); [exact H18|left; reflexivity|reflexivity|].
  destruct (ph_amu tp) as [amu|] eqn:Ea; cbn [optp]; [|eapply Give; [exact H18|exact E]].
  apply wp_bindF, wp_inM. eapply (hs_load_ptr _ _ _ t (pblock d zero3 Kt tp)); [exact H18|left; reflexivity|reflexivity|].
  destruct (ph_scatf tp) as [scf|] eqn:Es; cbn [optp]; [|eapply Give; [exact H18|exact E]].
  apply wp_bindF, wp_inM. eapply hs_malloc; [exact H18|]. intros cx s19 H19.
  apply wp_bindF, wp_inM. eapply hs_malloc; [exact H19|]. intros cy s20 H20.
  eapply (wp_follow_temp tr trM o p t d src zero3 K Kt ph tp q_c r_c zmax e1 z ph' e' F ((wl, List.map Vdbl ws) :: R) EB1 cx cy (repeat Vundef (S (p_nmax (o_prof o)))) (repeat Vundef (S (p_nmax (o_prof o)))) Q s20 En TS E Ft Ko Ftt Kot Een);
    [rewrite repeat_length, En; reflexivity|rewrite repeat_length, En; reflexivity|exact HE1|eapply hs_perm; [|exact H20]; perm|].
  intros K' EB' s21 A' Ko' HE' H21. eapply HQ; eauto. eapply hs_perm; [|exact H21]. perm.
Qed.

Lemma wp_reflect_leaks x tr trM (o : optic T) p d src K ph wl (ws : list T) wt dt r_c q_c e z ph' e' F R EB (Q : option (option Z * slot) -> st T -> Prop) s :
  p_nmax (o_prof o) = nm -> tspec tr trM -> reflect_leaks x tr o ph ws wt dt r_c q_c e = Ret ((z, ph'), e') ->
  fit ph -> kok K ph -> List.length ws = List.length (ph_en ph) -> errs err e EB ->
  hs F (flyb p d src K ph ++ (wl, List.map Vdbl ws) :: EB ++ R) s ->
  (forall K' EB' s', after ph ph' -> kok K' ph' -> errs err e' EB' -> hs F (flyb p d src K' ph' ++ (wl, List.map Vdbl ws) :: EB' ++ R) s' -> Q (Some (z, e')) s') ->
  wp (reflect_leaksM x trM o (Some p) (Some wl) wt dt r_c q_c err e) Q s.
Proof.
  intros En TS E Ft Ko Lws HE H HQ. rewrite reflect_leaks_eq in E. apply rbind_inv in E. destruct E as ([[wt1 lc] zmax] & e1 & E1 & E). unfold reflect_leaksM.
  apply wp_bindF, wp_inM. eapply (hs_read_photon _ _ _ p d src K ph); [exact Ft|exact H|intros y Hy; rewrite !in_app_iff; tauto|].
  apply wp_bindF. change (leak_place o (strip ph) wt dt) with (leak_place o ph wt dt).
  eapply (wp_calc err _ e (wt1, lc, zmax) e1 F (flyb p d src K ph ++ (wl, List.map Vdbl ws) :: R) EB); [exact E1|apply sticky_leak_place|exact HE|eapply hs_perm; [|exact H]; perm|].
  intros EB1 s1 HE1 H1. cbv zeta in E. cbn [strip ph_edir ph_eelec ph_irefl]. apply wp_bindF.
  assert (Fl : full (List.length (ph_en ph)) [own_leak ph lc ws]) by (constructor; [exact Lws|constructor]).
  assert (Rest : forall ph2 K2 s2, ph2 = add_at wt1 (own_leak ph lc ws) ph -> after ph ph2 -> kok K2 ph2 -> hs F (flyb p d src K2 ph2 ++ (wl, List.map Vdbl ws) :: EB1 ++ R) s2 ->
     wp ((if (Z.eqb wt1 1 && nltb (vz lc) zmax)%bool then make_temp x trM o (Some p) (Some wl) lc dt q_c r_c zmax err else retF None) e1) Q s2).
  { intros ph2 K2 s2 Eq A2 Ko2 H2. rewrite <- Eq in E. destruct (_ && _)%bool.
    - eapply (wp_make_temp x tr trM o p d src K2 ph2 wl ws lc dt q_c r_c zmax e1 z ph' e' F R EB1 Q s2 En TS E); [apply A2|exact Ko2|destruct A2 as [_ ->]; exact Lws|exact HE1|exact H2|].
      intros K3 EB3 s3 A3 Ko3 HE3 H3. eapply HQ; eauto. eapply after_trans; eauto.
    - apply rret_inv in E. destruct E as [E <-]. injection E as <- <-. apply wp_retF. eapply HQ; eauto. }
  assert (H1' : hs F (flyb p d src K ph ++ (wl, List.map Vdbl ws) :: EB1 ++ R) s1) by (eapply hs_perm; [|exact H1]; perm).
  destruct (Z.eqb_spec wt1 3) as [->|N3].
  - eapply (wp_push_ext F ((wl, List.map Vdbl ws) :: EB1 ++ R) s1 p d src K ph wl ws); [exact Ft|exact Ko|exact H1'|right; left; reflexivity|exact Lws|].
    intros K2 s2 Ko2 _ _ H2. cbn [negb]. apply wp_bindF. apply wp_retF. cbn [negb]. eapply (Rest _ K2); [reflexivity|apply fit_add_ext; auto|exact Ko2|exact H2].
  - apply wp_retF. cbn [negb]. apply wp_bindF. destruct (Z.eqb_spec wt1 2) as [->|N2].
    + eapply (wp_push_int F ((wl, List.map Vdbl ws) :: EB1 ++ R) s1 p d src K ph wl ws); [exact Ft|exact Ko|exact H1'|right; left; reflexivity|exact Lws|].
      intros K2 s2 Ko2 _ _ H2. cbn [negb]. eapply (Rest _ K2); [reflexivity|apply fit_add_int; auto|exact Ko2|exact H2].
    + apply wp_retF. cbn [negb]. eapply (Rest ph K); [|split; auto|exact Ko|exact H1']. unfold add_at. destruct (Z.eqb_spec wt1 3); [congruence|]. destruct (Z.eqb_spec wt1 2); [congruence|reflexivity].
Qed.

Lemma refl_loop_leak_le (o : optic T) sn dir alfa wt dt : forall en amu scatf w ev ev0,
  post (refl_loop o sn dir alfa wt dt en amu scatf w ev ev0) (fun r => List.length (rr_leak r) <= List.length en).
Proof.
  induction en as [|e en IH]; intros amu scatf w ev ev0; cbn [refl_loop]; [apply post_ret; cbn; lia|].
  apply post_seq. intros s0. apply post_seq. intros a. apply post_seq. intros [[rt ev1] ev2]. destruct (_ || _)%bool; [apply post_seq; intros _; apply post_ret; cbn; lia|].
  apply post_seq. intros w0. eapply post_bind; [apply IH|]. intros r Hr. apply post_ret. cbn -[Nat.leb] in *. destruct wt; cbn in *; lia.
Qed.

Lemma wp_reflect x tr trM fuel (o : optic T) ev0 lc : p_nmax (o_prof o) = nm -> tspec tr trM ->
  rspec (fun ph sn => reflect x tr fuel o ph sn ev0 lc) (fun p sn => reflectM x trM fuel o p sn ev0 lc err).
Proof.
  intros En TS ph sn e c ph' e' E Ft F R s p d src K EB Ko HE H Q HQ. rewrite reflect_eq in E.
  apply rbind_inv in E. destruct E as ([al ph1] & e1 & E1 & E). cbn [fst snd] in E. unfold reflectM.
  destruct (local_reflect_alfa sn) as [_ Lo1]. destruct (Lo1 _ _ _ _ _ E1) as [_ Fx1]. pose proof (after_fixed _ _ Ft Fx1) as A1. pose proof (fixed_kok K _ _ Fx1 Ko) as Ko1.
  apply wp_bindF. eapply (wp_on_photon err p d src K ph _ e al ph1 e1 F R EB); [apply local_reflect_alfa|exact Ft|exact E1|exact HE|exact H|].
  intros EB1 s1 HE1 H1. destruct al as [alfa|].
  2:{ apply rret_inv in E. destruct E as [E <-]. injection E as <- <-. apply wp_retF. eapply HQ; eauto. }
  apply wp_bindF, wp_inM. eapply (hs_load_int _ _ _ p (pblock d src K ph1)); [exact H1|left; reflexivity|reflexivity|]. rewrite zlen_nat.
  apply wp_bindF, wp_inM. eapply hs_malloc; [exact H1|]. intros wl s2 H2.
  apply rbind_inv in E. destruct E as ([[[[wt dt] r_c] q_c] ph2] & e2 & E2 & E). cbn [fst snd] in E.
  set (b := repeat Vundef (List.length (ph_en ph1))) in *.
  assert (W : exists A2 : after ph1 ph2, kok K ph2 /\ forall Q2 : option (wall_out * slot) -> st T -> Prop,
     (forall EB2 s3, errs err e2 EB2 -> hs F (flyb p d src K ph2 ++ EB2 ++ (wl, b) :: R) s3 -> Q2 (Some ((wt, dt, r_c, q_c), e2)) s3) ->
     wp ((if lc then on_photon err (Some p) (trace_wall fuel o) else retF (((0%Z, (#0)%num, 0%Z, 0%Z) : wall_out))) e1) Q2 s2).
  { destruct lc.
    - destruct (local_trace_wall fuel o) as [_ Lo2]. destruct (Lo2 _ _ _ _ _ E2) as [_ Fx2]. exists (after_fixed _ _ (proj1 A1) Fx2). split; [eapply fixed_kok; eauto|].
      intros Q2 HQ2. eapply (wp_on_photon err p d src K ph1 _ e1 _ ph2 e2 F ((wl, b) :: R) EB1); [apply local_trace_wall|apply A1|exact E2|exact HE1|eapply hs_perm; [|exact H2]; perm|]. exact HQ2.
    - apply rret_inv in E2. destruct E2 as [E2 <-]. injection E2 as <- <- <- <- <-. exists (conj (proj1 A1) eq_refl). split; [exact Ko1|].
      intros Q2 HQ2. apply wp_retF. eapply HQ2; [exact HE1|]. eapply hs_perm; [|exact H2]. perm. }
  destruct W as (A2 & Ko2 & W). apply wp_bindF. apply W. intros EB2 s3 HE2 H3. cbv beta iota.
  pose proof (after_trans _ _ _ A1 A2) as A12.
  assert (Done : forall cc phx Kx ex EBx bx sx, after ph phx -> kok Kx phx -> errs err ex EBx -> hs F (flyb p d src Kx phx ++ EBx ++ (wl, bx) :: R) sx -> (cc, phx, ex) = (c, ph', e') ->
     wp (bindF (inM (free (Some wl))) (fun _ => retF cc) ex) Q sx).
  { intros cc phx Kx ex EBx bx sx Ax Kox HEx Hx Eq. injection Eq as -> -> ->. apply wp_bindF, wp_inM.
    eapply (hs_free F (flyb p d src Kx ph' ++ EBx ++ R) wl bx); [eapply hs_perm; [|exact Hx]; perm|]. intros sy Hy. apply wp_retF. eapply HQ; eauto. }
  destruct (_ && _)%bool.
  { apply rret_inv in E. destruct E as [E <-]. injection E as <- <-. eapply (Done _ ph2 K e2 EB2); eauto. }
  apply rbind_inv in E. destruct E as ([r ph3] & e3 & E3 & E). cbn [fst snd] in E.
  destruct (local_reflect_energies o sn ev0 alfa wt dt) as [_ Lo3]. destruct (Lo3 _ _ _ _ _ E3) as [_ Fx3].
  pose proof (after_fixed _ _ (proj1 A2) Fx3) as A3. pose proof (after_trans _ _ _ A12 A3) as A13. pose proof (fixed_kok K _ _ Fx3 Ko2) as Ko3.
  apply wp_bindF. eapply (wp_on_photon err p d src K ph2 _ e2 r ph3 e3 F ((wl, b) :: R) EB2); [apply local_reflect_energies|apply A2|exact E3|exact HE2|exact H3|].
  intros EB3 s4 HE3 H4.
  assert (Lr : List.length (rr_leak r) <= List.length (ph_en ph2) /\ (rr_ok r = true -> Z.ltb 0 wt = true -> List.length (rr_leak r) = List.length (ph_en ph2)) /\ (Z.ltb 0 wt = false -> rr_lf r = false)).
  { unfold reflect_energies in E3. apply rbind_inv in E3. destruct E3 as (amu & ea & _ & E3). apply rbind_inv in E3. destruct E3 as (scf & eb & _ & E3).
    apply rbind_inv in E3. destruct E3 as (r0 & ec & E3 & E4). apply rret_inv in E4. destruct E4 as [E4 _]. injection E4 as <- _.
    pose proof (refl_loop_leak_le _ _ _ _ _ _ _ _ _ _ _ _ _ _ _ E3) as L1. split; [exact L1|].
    pose proof (refl_loop_len o (vnorm sn) (ph_edir ph2) alfa (Z.ltb 0 wt) dt (ph_en ph2) amu scf (ph_w ph2) (ph_eelec ph2) ev0 (proj1 (proj1 A2)) _ _ _ E3) as X. cbv beta in X. tauto. }
  destruct Lr as (Lr1 & Lr2 & Lr3). destruct A2 as [Ft2 Ee2]. rewrite Ee2 in *.
  apply wp_bindF, wp_inM. eapply (hs_write_dbls F (flyb p d src K ph3 ++ EB3 ++ R) wl (rr_leak r) [] b); [unfold b; rewrite repeat_length; lia|eapply hs_perm; [|exact H4]; cbn [app]; perm|].
  cbn [app]. intros s5 H5. destruct (rr_ok r) eqn:Eok; cbn [negb] in *.
  2:{ apply rret_inv in E. destruct E as [E <-]. injection E as <- <-. eapply (Done _ ph3 K e3 EB3 (List.map Vdbl (rr_leak r) ++ skipn (List.length (rr_leak r)) b)); [exact A13|exact Ko3|exact HE3|eapply hs_perm; [|exact H5]; perm|reflexivity]. }
  destruct (rr_lf r) eqn:Elf.
  2:{ apply rret_inv in E. destruct E as [E <-]. injection E as <- <-. eapply (Done _ ph3 K e3 EB3 (List.map Vdbl (rr_leak r) ++ skipn (List.length (rr_leak r)) b)); [exact A13|exact Ko3|exact HE3|eapply hs_perm; [|exact H5]; perm|reflexivity]. }
  assert (Lwt : Z.ltb 0 wt = true) by (destruct (Z.ltb 0 wt); [reflexivity|discriminate (Lr3 eq_refl)]). pose proof (Lr2 eq_refl Lwt) as Lr.
  rewrite skipn_all2 in H5 by (unfold b; rewrite repeat_length; lia). rewrite app_nil_r in H5.
  apply rbind_inv in E. destruct E as ([z ph4] & e4 & E4 & E). cbn [fst snd] in E. apply rret_inv in E. destruct E as [E <-]. injection E as <- <-.
  apply wp_bindF. eapply (wp_reflect_leaks x tr trM o p d src K ph3 wl (rr_leak r) wt dt r_c q_c e3 z ph4 e4 F R EB3); [exact En|exact TS|exact E4|apply A3|exact Ko3|destruct A3 as [_ ->]; rewrite Ee2; exact Lr|exact HE3|eapply hs_perm; [|exact H5]; perm|].
  intros K6 EB6 s6 A6 Ko6 HE6 H6. eapply (Done _ ph4 K6 e4 EB6 (List.map Vdbl (rr_leak r))); [eapply after_trans; eauto|exact Ko6|exact HE6|eapply hs_perm; [|exact H6]; perm|reflexivity].
Qed.

Theorem wp_trace x (o : optic T) junk lc : p_nmax (o_prof o) = nm -> forall fuel, tspec (trace x o junk lc fuel) (traceM x o junk lc err fuel).
Proof.
  intros En. induction fuel as [|fuel IH]; cbn [trace traceM].
  - intros ix ph axes e c ix' ph' e' E. discriminate.
  - apply wp_trace_body; [exact En|]. apply wp_reflect; auto.
Qed.
End With.
End Sim.
