(** * polycap_photon_launch in memory: the whole function *)
From Coq Require Import ZArith List Bool Lia String Permutation.
From Verif Require Import Num Mem SpecHeap HeapLib ErrorModel ProfileModel Geometry SpecPhoton ConsModel H5Model RM CapilModel TraceModel LaunchModel PhotProofs SrcProofs RMLogic LenProofs SepLib FlightMem FlightRep FlightPure FlightHeap FlightHeap2 FlightSim FlightLaunch.
Import ListNotations.

Section Heap.
Context {T : Type} {N : Num T}.
Local Notation M := (M T).
Local Notation bind := Mem.bind.
Local Notation blocks := (list (loc * @block T)).

Definition wcells (ws : list (option T)) : @block T := List.map (fun o => match o with Some x => Vdbl x | None => Vundef end) ws.
Lemma wcells_some (l : list T) : wcells (List.map Some l) = List.map Vdbl l.
Proof. unfold wcells. rewrite map_map. reflexivity. Qed.
Lemma wcells_uninit (l : list T) : wcells (List.map (fun _ => None) l) = repeat Vundef (List.length l).
Proof. unfold wcells. rewrite map_map. induction l; cbn; congruence. Qed.

Lemma wp_silently {A} (m : MF A) e (Q : option (A * slot) -> st T -> Prop) s :
  wp (m None) (fun o s' => Q (match o with Some (a, _) => Some (a, e) | None => None end) s') s -> wp (silently m e) Q s.
Proof. intros H. unfold silently. apply wp_bind. eapply wp_mono; [exact H|]. intros o s' H'. apply wp_ret. exact H'. Qed.

Lemma wp_launch_flight err x (o : optic T) junk lc fuel en q r zid ph e c phr ws e' F R s p d src K w EB
    (Q : option (Z * slot) -> st T -> Prop) :
  launch_go x o junk fuel lc en q r zid ph e = Ret ((c, phr, Some ws), e') -> fit ph -> kok K ph -> ph_en ph = en ->
  errs err e EB -> hs F (flyb p d src K ph ++ (w, repeat Vundef (List.length en)) :: EB ++ R) s ->
  (forall K' EB' s', kok K' phr -> full (List.length en) (ph_ext phr) -> full (List.length en) (ph_int phr) -> errs err e' EB' ->
     hs F (restb p d src (zlen en) K' phr ++ (w, wcells ws) :: EB' ++ R) s' -> Q (Some (c, e')) s') ->
  wp (launch_flight x o junk lc fuel (Some p) (Some w) (List.length en) q r zid err e) Q s.
Proof.
  intros E Ft Ko Een HE H HQ. unfold launch_go in E. apply rbind_inv in E. destruct E as ([[axes ix] gl] & e1 & E1 & E). cbv beta iota in E.
  assert (La : List.length axes = S (p_nmax (o_prof o))).
  { unfold launch_capillary in E1. cbv zeta in E1. apply rbind_inv in E1. destruct E1 as (ax & e3 & E3 & E4). apply rbind_inv in E4. destruct E4 as (ix2 & e4 & _ & E5).
    apply rbind_inv in E5. destruct E5 as ([[rad cx] cy] & e5 & _ & E6).
    apply rret_inv in E6. destruct E6 as [E6 _]. injection E6 as <- _ _. eapply launch_axes_len; eauto. }
  set (W := (w, repeat Vundef (List.length en))) in *.
  unfold launch_flight. apply wp_bindF, wp_inM. eapply hs_malloc; [exact H|]. intros cx s1 H1.
  apply wp_bindF, wp_inM. eapply hs_malloc; [exact H1|]. intros cy s2 H2.
  apply wp_bindF, wp_inM. eapply (hs_read_photon _ _ _ p d src K ph); [exact Ft|exact H2|intros y Hy; cbn [In]; rewrite !in_app_iff; tauto|].
  apply wp_bindF. change (launch_capillary o q r zid (strip ph)) with (launch_capillary o q r zid ph). set (Bu := repeat Vundef (S (p_nmax (o_prof o)))) in *.
  eapply (wp_calc err _ e (axes, ix, gl) e1 F (flyb p d src K ph ++ (cx, Bu) :: (cy, Bu) :: W :: R) EB); [exact E1|apply sticky_launch_capillary|exact HE|eapply hs_perm; [|exact H2]; perm|].
  intros EB3 s3 HE3 H3. cbv beta iota. apply wp_bindF, wp_inM.
  assert (LB : List.length Bu = S (p_nmax (o_prof o))) by apply repeat_length.
  eapply (hs_write_axes F (flyb p d src K ph ++ EB3 ++ W :: R) _ cx cy Bu Bu); [lia|lia|eapply hs_perm; [|exact H3]; perm|]. intros s4 H4. change (ph_start (strip ph)) with (ph_start ph).
  assert (Lax : List.length (@List.map T (val T) Vdbl (List.map fst axes)) = S (p_nmax (o_prof o))) by (rewrite !map_length; exact La).
  assert (Lay : List.length (@List.map T (val T) Vdbl (List.map snd axes)) = S (p_nmax (o_prof o))) by (rewrite !map_length; exact La).
  assert (Fin : forall cc phx Kx ex EBx bx by_ wsx sx, after ph phx -> kok Kx phx -> errs err ex EBx -> hs F (flyb p d src Kx phx ++ (cx, bx) :: (cy, by_) :: (w, wcells wsx) :: EBx ++ R) sx ->
    (cc, release phx, wsx, ex) = (c, phr, ws, e') -> wp (finish (Some p) (Some cx) (Some cy) cc ex) Q sx).
  { intros cc phx Kx ex EBx bx by_ wsx sx [Fx Ex] Kx' HEx Hx Eq. injection Eq as -> <- -> ->. eapply (wp_finish c F ((w, wcells ws) :: EBx ++ R)); [exact Hx|].
    intros s' H'. rewrite Ex, Een in H'. destruct Fx as (_ & _ & _ & X1 & X2). rewrite Ex, Een in X1, X2. eapply (HQ Kx EBx); [exact Kx'|exact X1|exact X2|exact HEx|exact H']. }
  assert (Wu : W = (w, wcells (List.map (fun _ => None) en))) by (unfold W; rewrite wcells_uninit; reflexivity).
  destruct gl; [destruct (lc && neqb (vz (ph_start ph)) (#0)%num)%bool; [|destruct (lc && nltb (#0)%num (vz (ph_start ph)))%bool]|].
  - apply rbind_inv in E. destruct E as ([cq ph5] & e5 & E5 & E). cbn [fst snd] in E. apply rret_inv in E. destruct E as [E <-]. injection E as <- <- <-.
    unfold quiet in E5. destruct (reflect x (trace x o junk lc fuel) fuel o ph _ junk lc None) as [[[cq' ph6] e6]| |] eqn:E6; try discriminate. injection E5 as <- <- <-.
    apply wp_bindF. apply wp_silently.
    eapply (wp_reflect None (p_nmax (o_prof o)) x (trace x o junk lc fuel) (traceM x o junk lc NULL fuel) fuel o junk lc eq_refl (wp_trace None (p_nmax (o_prof o)) x o junk lc eq_refl fuel)
              ph _ None _ _ _ E6 Ft F (axb cx cy axes ++ EB3 ++ W :: R) s4 p d src K []); [exact Ko|reflexivity|eapply hs_perm; [|exact H4]; perm|].
    intros K7 EB7 s7 A7 Ko7 HE7 H7. cbn [errs] in HE7. subst EB7. eapply (Fin _ ph6 K7 e1 EB3 (List.map Vdbl (List.map fst axes)) (List.map Vdbl (List.map snd axes)) (List.map (fun _ => None) en)); [exact A7|exact Ko7|exact HE3| |reflexivity].
    rewrite <- Wu. eapply hs_perm; [|exact H7]. unfold axb. perm.
  - apply rbind_inv in E. destruct E as ([cq ph5] & e5 & E5 & E). cbn [fst snd] in E. apply rret_inv in E. destruct E as [E <-]. injection E as <- <- <-.
    apply wp_bindF. eapply (wp_launch_wall err x o junk lc fuel ph e1 cq ph5 e5 F (W :: R) s4 p d src K cx cy _ _ EB3 _ E5 Ft Ko Lax Lay HE3); [eapply hs_perm; [|exact H4]; unfold axb; perm|].
    intros ph6 K6 EB6 bx6 by6 s6 Er A6 Ko6 HE6 H6. eapply (Fin _ ph6 K6 e5 EB6 bx6 by6 (List.map (fun _ => None) en)); [exact A6|exact Ko6|exact HE6| |rewrite Er; reflexivity].
    rewrite <- Wu. eapply hs_perm; [|exact H6]. perm.
  - apply rret_inv in E. destruct E as [E <-]. injection E as <- <- <-.
    eapply (Fin _ ph K e1 EB3 (List.map Vdbl (List.map fst axes)) (List.map Vdbl (List.map snd axes)) (List.map (fun _ => None) en)); [split; auto|exact Ko|exact HE3| |reflexivity].
    rewrite <- Wu. eapply hs_perm; [|exact H4]. unfold axb. perm.
  - apply rbind_inv in E. destruct E as ([ie ph5] & e5 & E5 & E). cbn [fst snd] in E. apply rret_inv in E. destruct E as [E <-]. injection E as <- <- <-.
    apply wp_bindF. eapply (wp_trace_many err (p_nmax (o_prof o)) _ _ (wp_trace err (p_nmax (o_prof o)) x o junk lc eq_refl fuel) _ _ _ _ _ _ _ _ _ E5 Ft La F (W :: R) s4 p d src K cx cy EB3 Ko HE3); [eapply hs_perm; [|exact H4]; perm|].
    intros K6 EB6 s6 A6 Ko6 HE6 H6. apply wp_bindF, wp_inM. eapply (hs_load_ptr _ _ _ p (pblock d src K6 ph5)); [exact H6|left; reflexivity|reflexivity|].
    assert (Lw : List.length (ph_w ph5) = List.length en) by (destruct A6 as [X6 Y6]; rewrite <- Een, <- Y6; apply X6).
    apply wp_bindF, wp_inM. eapply (hs_memcpy F (flyb p d src K6 ph5 ++ axb cx cy axes ++ EB6 ++ R) w (kW K6) (repeat Vundef (List.length en)) (List.map Vdbl (ph_w ph5))); 
      [eapply hs_perm; [|exact H6]; unfold W; perm|right; right; left; reflexivity|rewrite repeat_length; reflexivity|rewrite map_length; auto|].
    intros s7 H7. eapply (Fin _ ph5 K6 e5 EB6 (List.map Vdbl (List.map fst axes)) (List.map Vdbl (List.map snd axes)) (List.map Some (ph_w ph5))); [exact A6|exact Ko6|exact HE6| |reflexivity].
    rewrite wcells_some. eapply hs_perm; [|exact H7]. unfold axb. perm.
Qed.

(** ** Dropping the leaks of an earlier launch: the leak objects themselves are lost. *)
Fixpoint lostb (ls : list (loc * loc)) (ds : list (leak_data T)) : blocks :=
  match ls, ds with lw :: ls, d :: ds => (fst lw, leak_block (snd lw) d) :: lostb ls ds | _, _ => [] end.

Lemma hs_drop_loop F X : forall ls (ds : list (leak_data T)) lpre R (Q : unit -> st T -> Prop) s, List.length ls = List.length ds ->
  In (X, arrb (lpre ++ ls)) R -> hs F (leakb ls ds ++ R) s -> (forall s', hs F (lostb ls ds ++ R) s' -> Q tt s') ->
  wp (for_n (List.length ds) (List.length lpre) (fun i => bind (load_ptr (Some X) i) (fun l => bind (load_ptr l L_WEIGHT) free_if))) Q s.
Proof.
  induction ls as [|[l w] ls IH]; intros [|d ds] lpre R Q s El Ix H HQ; cbn [List.length] in El; try discriminate; cbn [List.length for_n].
  - apply wp_ret. apply HQ. exact H.
  - injection El as El. cbn [leakb fst snd app] in H. apply wp_bind. apply wp_bind.
    eapply hs_load_ptr; [exact H|right; right; apply in_or_app; right; exact Ix|unfold arrb; rewrite map_app, nth_error_app2 by (rewrite map_length; lia); rewrite map_length, Nat.sub_diag; reflexivity|].
    cbn [fst]. apply wp_bind. eapply hs_load_ptr; [exact H|left; reflexivity|reflexivity|].
    match type of H with hs _ (?x :: ?a :: ?R) _ => pose proof (hs_top a (x :: R) H ltac:(perm)) as H2 end.
    eapply hs_free_some; [exact H2|]. intros s3 H3.
    replace (S (List.length lpre)) with (List.length (lpre ++ [(l, w)])) by (rewrite app_length; cbn; lia).
    eapply (IH ds (lpre ++ [(l, w)]) ((l, leak_block w d) :: R)); [exact El|rewrite <- app_assoc; right; exact Ix|eapply hs_perm; [|exact H3]; perm|].
    intros s4 H4. apply HQ. cbn [lostb fst snd]. eapply hs_perm; [|exact H4]. perm.
Qed.

Lemma hs_drop_leaks F R s p f g X ls (ds : list (leak_data T)) (B : @block T) (Q : unit -> st T -> Prop) : List.length ls = List.length ds ->
  nth_error B f = Some (Vptr (lkp X ds)) -> nth_error B g = Some (Vint (zlen ds)) -> set_nth B f (Vptr (lkp X ds)) = B ->
  hs F ((p, B) :: lks X ls ds ++ R) s -> (forall s', hs F ((p, set_nth B f (Vptr NULL)) :: lostb ls ds ++ R) s' -> Q tt s') -> wp (drop_leaks f g (Some p)) Q s.
Proof.
  intros El Ef Eg E2 H HQ. unfold drop_leaks. apply wp_bind. eapply hs_load_ptr; [exact H|left; reflexivity|exact Ef|].
  destruct ds as [|d ds]; cbn [lkp lks app] in *.
  - apply wp_ret. apply HQ. change (@None loc) with NULL in E2. rewrite E2. destruct ls; [|discriminate]. exact H.
  - apply wp_bind. eapply hs_load_int; [exact H|left; reflexivity|exact Eg|]. rewrite zlen_nat.
    apply wp_bind. eapply (hs_drop_loop F X ls (d :: ds) [] ((X, arrb ls) :: (p, B) :: R)); [exact El|left; reflexivity|eapply hs_perm; [|exact H]; perm|].
    intros s1 H1. apply wp_bind. eapply (hs_free F ((p, B) :: lostb ls (d :: ds) ++ R) X (arrb ls)); [eapply hs_perm; [|exact H1]; perm|].
    intros s2 H2. eapply hs_store; [exact H2|apply nth_error_Some; congruence|]. exact HQ.
Qed.

(** ** The description *)
Lemma hs_read_ints F L s l : forall xs pre (Q : list Z -> st T -> Prop), hs F L s -> In (l, List.map Vint (pre ++ xs)) L ->
  Q xs s -> wp (read_ints (List.length xs) (List.length pre) (Some l)) Q s.
Proof.
  induction xs as [|x xs IH]; intros pre Q H I HQ; cbn [List.length read_ints]; [apply wp_ret; exact HQ|].
  apply wp_bind. eapply hs_load_int; [exact H|exact I|rewrite map_app, nth_error_app2 by (rewrite map_length; lia); rewrite map_length, Nat.sub_diag; reflexivity|].
  apply wp_bind. replace (S (List.length pre)) with (List.length (pre ++ [x])) by (rewrite app_length; cbn; lia).
  eapply IH; [exact H|rewrite <- app_assoc; exact I|]. apply wp_ret. exact HQ.
Qed.

Definition descb (d liz lwi lp lz lc le : loc) (open : T) (o : optic T) : blocks :=
  [(d, [Vdbl (o_rough o); Vint (o_ncap o); Vdbl open; Vint (zlen (o_iz o)); Vptr (Some liz); Vptr (Some lwi); Vdbl (o_dens o); Vptr (Some lp)]);
   (liz, List.map Vint (o_iz o)); (lwi, List.map Vdbl (o_wi o));
   (lp, [Vint (Z.of_nat (p_nmax (o_prof o))); Vptr (Some lz); Vptr (Some lc); Vptr (Some le)]);
   (lz, List.map Vdbl (p_z (o_prof o))); (lc, List.map Vdbl (p_cap (o_prof o))); (le, List.map Vdbl (p_ext (o_prof o)))].
Definition sized (o : optic T) : Prop :=
  List.length (o_wi o) = List.length (o_iz o) /\ List.length (p_z (o_prof o)) = S (p_nmax (o_prof o)) /\
  List.length (p_cap (o_prof o)) = S (p_nmax (o_prof o)) /\ List.length (p_ext (o_prof o)) = S (p_nmax (o_prof o)).

Lemma hs_read_optic F L s d liz lwi lp lz lc le open (o : optic T) (Q : optic T -> st T -> Prop) : sized o -> hs F L s ->
  incl (descb d liz lwi lp lz lc le open o) L -> Q o s -> wp (read_optic (Some d)) Q s.
Proof.
  intros (S1 & S2 & S3 & S4) H I HQ. unfold read_optic.
  assert (I1 := I _ (or_introl eq_refl)). assert (I2 := I _ (or_intror (or_introl eq_refl))). assert (I3 := I _ (or_intror (or_intror (or_introl eq_refl)))).
  assert (I4 := I _ (or_intror (or_intror (or_intror (or_introl eq_refl))))). assert (I5 := I _ (or_intror (or_intror (or_intror (or_intror (or_introl eq_refl)))))).
  assert (I6 := I _ (or_intror (or_intror (or_intror (or_intror (or_intror (or_introl eq_refl))))))). assert (I7 := I _ (or_intror (or_intror (or_intror (or_intror (or_intror (or_intror (or_introl eq_refl)))))))).
  clear I. cbv beta in *.
  apply wp_bind. eapply hs_load_dbl; [exact H|exact I1|reflexivity|].
  apply wp_bind. eapply hs_load_int; [exact H|exact I1|reflexivity|].
  apply wp_bind. eapply hs_load_int; [exact H|exact I1|reflexivity|].
  apply wp_bind. eapply hs_load_ptr; [exact H|exact I1|reflexivity|]. rewrite zlen_nat.
  apply wp_bind. eapply (hs_read_ints F L s liz (o_iz o) []); [exact H|exact I2|].
  apply wp_bind. eapply hs_load_ptr; [exact H|exact I1|reflexivity|].
  apply wp_bind. eapply hs_read_dbls; [exact H|exact I3|auto|].
  apply wp_bind. eapply hs_load_dbl; [exact H|exact I1|reflexivity|].
  apply wp_bind. eapply hs_load_ptr; [exact H|exact I1|reflexivity|].
  apply wp_bind. eapply hs_load_int; [exact H|exact I4|reflexivity|]. rewrite Nat2Z.id.
  apply wp_bind. eapply hs_load_ptr; [exact H|exact I4|reflexivity|].
  apply wp_bind. eapply hs_read_dbls; [exact H|exact I5|auto|].
  apply wp_bind. eapply hs_load_ptr; [exact H|exact I4|reflexivity|].
  apply wp_bind. eapply hs_read_dbls; [exact H|exact I6|auto|].
  apply wp_bind. eapply hs_load_ptr; [exact H|exact I4|reflexivity|].
  apply wp_bind. eapply hs_read_dbls; [exact H|exact I7|auto|].
  apply wp_ret. destruct o as [[n zs cs es] nc sg dn iz wi]. exact HQ.
Qed.

Lemma forallb_not (en : list T) : negb (forallb en_in_range en) = List.existsb (fun e => (nltb e (#1)%num || nltb (#100)%num e)%bool) en.
Proof. induction en as [|a en IH]; cbn; [reflexivity|]. unfold en_in_range at 1. rewrite <- IH. destruct (_ || _)%bool; reflexivity. Qed.

(** ** The whole function *)
Definition at_rest (ph : photon T) : Prop := ph_en ph = [] /\ ph_w ph = [] /\ ph_amu ph = None /\ ph_scatf ph = None.
Definition lost (K : keys) (ph : photon T) : blocks := lostb (kxl K) (ph_ext ph) ++ lostb (kil K) (ph_int ph).
Definition nk (e w : loc) : keys := {| kE := e; kW := w; kA := 0; kS := 0; kX := 0; kxl := []; kI := 0; kil := [] |}.

Lemma wp_launch_ok err x (o : optic T) junk lc fuel en ph e c phr ws e' F R s p d src n0 K liz lwi lp lz lc' le open we wv v EB
    (Q : option (Z * slot) -> st T -> Prop) :
  en_refused en = false -> launch x o junk fuel ph (Some en) false lc e = Ret ((c, phr, Some ws), e') -> at_rest ph -> kok K ph -> sized o -> errs err e EB ->
  hs F (restb p d src n0 K ph ++ (we, List.map Vdbl en) :: (wv, [v]) :: descb d liz lwi lp lz lc' le open o ++ EB ++ R) s ->
  (forall K' w EB' s', kok K' phr -> full (List.length en) (ph_ext phr) -> full (List.length en) (ph_int phr) -> errs err e' EB' ->
     hs F (restb p d src (zlen en) K' phr ++ (w, wcells ws) :: (we, List.map Vdbl en) :: (wv, [Vptr (Some w)]) :: descb d liz lwi lp lz lc' le open o ++ EB' ++ lost K ph ++ R) s' ->
     Q (Some (c, e')) s') ->
  wp (launchM x junk fuel (Some p) (List.length en) (Some we) (Some wv) lc err e) Q s.
Proof.
  intros Hr E (Re & Rw & Ra & Rs) Ko So HE H HQ. rewrite launch_eq, Hr in E. unfold en_refused in Hr. apply orb_false_iff in Hr. destruct Hr as [Hne Hen].
  unfold launchM, refuse_launch. cbn [is_null]. assert (Ln : Nat.ltb (List.length en) 1 = false) by (destruct en; [discriminate|reflexivity]). rewrite Ln.
  set (D := descb d liz lwi lp lz lc' le open o) in *. set (EN := (we, List.map Vdbl en)) in *.
  apply wp_bindF, wp_inM. eapply (wp_energy_loop we en en (List.length en) []); [auto|reflexivity|eapply hs_in; [exact H|unfold EN; rewrite !in_app_iff; cbn [In]; auto]|].
  rewrite firstn_all, forallb_not, Hen.
  apply wp_bindF, wp_inM. apply wp_bind. unfold restb in H. cbn [app] in H. destruct Ko as [Kx Ki].
  match type of H with hs _ ((_, ?B) :: _) _ => eapply (hs_drop_leaks F (lks (kI K) (kil K) (ph_int ph) ++ EN :: (wv, [v]) :: D ++ EB ++ R) s p _ _ (kX K) (kxl K) (ph_ext ph) B); [exact Kx|reflexivity|reflexivity|reflexivity|eapply hs_perm; [|exact H]; unfold leaksb; perm|] end.
  intros s1 H1. match type of H1 with hs _ ((_, ?B) :: _) _ => eapply (hs_drop_leaks F (lostb (kxl K) (ph_ext ph) ++ EN :: (wv, [v]) :: D ++ EB ++ R) s1 p _ _ (kI K) (kil K) (ph_int ph) B); [exact Ki|reflexivity|reflexivity|reflexivity|eapply hs_perm; [|exact H1]; perm|] end.
  intros s2 H2. apply wp_bindF, wp_inM. eapply hs_load_ptr; [exact H2|left; reflexivity|reflexivity|]. cbn [is_null].
  apply wp_bindF, wp_inM. eapply (hs_read_optic _ _ _ d liz lwi lp lz lc' le open o); [exact So|exact H2|fold D; intros y Hy; cbn [In]; rewrite !in_app_iff; cbn [In]; rewrite !in_app_iff; auto 10|].
  apply wp_bindF, wp_inM. eapply hs_malloc; [exact H2|]. intros w s3 H3. set (W := (w, repeat Vundef (List.length en))) in *.
  apply wp_bindF, wp_inM.
  match type of H3 with hs _ (W :: ?P :: _) _ => eapply (hs_store F (W :: P :: lostb (kil K) (ph_int ph) ++ lostb (kxl K) (ph_ext ph) ++ EN :: D ++ EB ++ R) wv [v] 0); [eapply hs_perm; [|exact H3]; perm|cbn; lia|] end.
  cbn [set_nth]. intros s4 H4. match type of H4 with hs _ (?a :: ?b :: ?P :: ?L) _ => pose proof (hs_top P (a :: b :: L) H4 ltac:(perm)) as H5 end.
  apply wp_bindF, wp_inM. eapply hs_store; [exact H5|cbn; lia|]. cbn [set_nth]. intros s6 H6.
  apply wp_bindF, wp_inM. eapply hs_malloc; [exact H6|]. intros be s7 H7.
  match type of H7 with hs _ (?x :: ?a :: ?R) _ => pose proof (hs_top a (x :: R) H7 ltac:(perm)) as H8 end.
  apply wp_bindF, wp_inM. eapply hs_store; [exact H8|cbn; lia|]. cbn [set_nth]. intros s9 H9.
  apply wp_bindF, wp_inM. eapply hs_malloc; [exact H9|]. intros bw s10 H10.
  match type of H10 with hs _ (?x :: ?a :: ?R) _ => pose proof (hs_top a (x :: R) H10 ltac:(perm)) as H11 end.
  apply wp_bindF, wp_inM. eapply hs_store; [exact H11|cbn; lia|]. cbn [set_nth]. intros s12 H12.
  apply wp_bindF, wp_inM. apply wp_bind.
  eapply (hs_read_dbls _ _ _ we en); [exact H12|fold EN; cbn [In]; rewrite !in_app_iff; cbn [In]; auto 10|reflexivity|].
  match type of H12 with hs _ (?x :: ?y :: ?a :: ?R) _ => pose proof (hs_top a (x :: y :: R) H12 ltac:(perm)) as H13 end.
  apply wp_bind. eapply hs_write_all; [|exact H13|]; [apply repeat_length|]. intros s14 H14.
  match type of H14 with hs _ (?x :: ?y :: ?a :: ?R) _ => pose proof (hs_top a (x :: y :: R) H14 ltac:(perm)) as H15 end.
  eapply hs_write_all; [|exact H15|]; [rewrite !repeat_length; reflexivity|]. intros s16 H16.
  match type of H16 with hs _ (?x :: ?y :: ?a :: ?R) _ => pose proof (hs_top a (x :: y :: R) H16 ltac:(perm)) as H17 end.
  apply wp_bindF, wp_inM. apply wp_bind. eapply hs_store; [exact H17|cbn; lia|]. cbn [set_nth]. intros s18 H18.
  apply wp_bind. eapply hs_store; [exact H18|cbn; lia|]. cbn [set_nth]. intros s19 H19.
  eapply hs_store; [exact H19|cbn; lia|]. cbn [set_nth]. intros s20 H20.
  set (ph0 := mkPhoton (ph_start ph) (ph_sdir ph) (ph_selec ph) (ph_exit ph) (ph_edir ph) (ph_eelec ph) en (List.map (fun _ => (#1)%num) en) None None 0%Z (ph_dtravel ph) [] []).
  assert (Ewr : repeat (#1)%num (List.length en) = List.map (fun _ : T => (#1)%num) en) by (clear; induction en; cbn; congruence).
  set (R1 := W :: EN :: (wv, [Vptr (Some w)]) :: D ++ lost K ph ++ R).
  assert (H21 : hs F (flyb p d src (nk be bw) ph0 ++ EB ++ R1) s20).
  { eapply hs_perm; [|exact H20]. unfold flyb, csb, leaksb, pblock, photon_block, vcells, R1, lost. rewrite Ewr. clearbody D EN W. clear R1. unfold zlen. cbn. perm. }
  assert (Ft0 : fit ph0) by (unfold fit; cbn; rewrite map_length; repeat split; auto; constructor).
  apply rbind_inv in E. destruct E as (ph2 & e2 & E2 & E). apply rbind_inv in E. destruct E as ([zid qr] & e3 & E3 & E). cbn [fst snd] in E.
  assert (El : launch_init ph en = set_sdir (vnorm (ph_sdir ph0)) ph0) by (unfold launch_init; rewrite Ra, Rs; reflexivity). rewrite El in E2. set (ph1 := set_sdir (vnorm (ph_sdir ph0)) ph0) in *.
  apply wp_bindF. eapply (wp_on_photon err p d src (nk be bw) ph0 _ e tt ph1 e F R1 EB); [apply local_set_sdir|exact Ft0|reflexivity|exact HE|exact H21|].
  intros EB1 s21 HE1 H22. assert (Ft1 : fit ph1) by exact Ft0.
  apply wp_bindF. eapply (wp_scatf err x o p d src (nk be bw) ph1 e ph2 e2 F R1 EB1); [exact Ft1|split; reflexivity|reflexivity|reflexivity|exact E2|exact HE1|exact H22|].
  intros K2 EB2 s22 Ko2 _ _ HE2 H23. destruct (photon_scatf_kept _ _ _ _ _ _ E2 Ft1) as ([Ft2 Een] & X2 & I2).
  destruct (@local_reset T N) as [_ Lo]. destruct (Lo ph2 e2 tt (launch_reset ph2) e2 eq_refl) as [_ Fx3].
  apply wp_bindF. eapply (wp_on_photon err p d src K2 ph2 _ e2 tt (launch_reset ph2) e2 F R1 EB2); [apply local_reset|exact Ft2|reflexivity|exact HE2|exact H23|].
  intros EB3 s23 HE3 H24. set (ph3 := launch_reset ph2) in *. assert (Ft3 : fit ph3) by (eapply fixed_fit; eauto). assert (Ko3 : kok K2 ph3) by (eapply fixed_kok; eauto).
  apply wp_bindF, wp_inM. eapply (hs_read_photon _ _ _ p d src K2 ph3); [exact Ft3|exact H24|apply incl_appl, incl_refl|].
  apply wp_bindF. change (launch_place o (strip ph3)) with (launch_place o ph3).
  eapply (wp_calc err _ e2 (zid, qr) e3 F (flyb p d src K2 ph3 ++ R1) EB3); [exact E3|apply sticky_launch_place|exact HE3|eapply hs_perm; [|exact H24]; perm|].
  intros EB4 s24 HE4 H25. cbv beta iota. assert (Een3 : ph_en ph3 = en) by exact Een.
  destruct qr as [[q r]|].
  - eapply (wp_launch_flight err x o junk lc fuel en q r zid ph3 e3 c phr ws e' F (EN :: (wv, [Vptr (Some w)]) :: D ++ lost K ph ++ R) s24 p d src K2 w EB4); [exact E|exact Ft3|exact Ko3|exact Een3|exact HE4|eapply hs_perm; [|exact H25]; unfold R1, W; perm|].
    intros K5 EB5 s25 Ko5 X5 I5 HE5 H26. eapply (HQ K5 w EB5); [exact Ko5|exact X5|exact I5|exact HE5|]. eapply hs_perm; [|exact H26]. perm.
  - apply rret_inv in E. destruct E as [E <-]. injection E as <- <- <-. apply wp_bindF, wp_inM. eapply (hs_release_arrays F (EB4 ++ R1) s24 p d src K2 ph3); [eapply hs_perm; [|exact H25]; perm|].
    intros s25 H26. apply wp_retF. rewrite Een3 in H26. destruct Ft3 as (_ & _ & _ & X3 & I3). rewrite Een3 in X3, I3.
    eapply (HQ K2 w EB4); [exact Ko3|exact X3|exact I3|exact HE4|]. rewrite wcells_uninit. eapply hs_perm; [|exact H26]. unfold R1, W. perm.
Qed.
End Heap.
