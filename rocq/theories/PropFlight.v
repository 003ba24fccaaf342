(** * Properties C78-C81: one photon in memory *)
From Coq Require Import ZArith List Bool Lia String Permutation Floats.
From Verif Require Import Num Mem SpecHeap HeapLib ErrorModel ProfileModel Geometry SpecPhoton ConsModel H5Model RM CapilModel TraceModel LaunchModel PhotProofs SrcProofs RMLogic LenProofs SepLib FlightMem FlightRep FlightPure FlightHeap FlightHeap2 FlightSim FlightLaunch FlightLaunch2 SpecFlight FlightProp ProfileFloat Libm PropLaunch PropLeak.
Import ListNotations.
Set Warnings "-inexact-float".

Section Life.
Context {T : Type} {N : Num T}.
Local Notation ret := Mem.ret.
Local Notation bind := Mem.bind.
Local Open Scope mem_scope.

Lemma hs_rest_free F R s p d src n K (ph : photon T) (Q : unit -> st T -> Prop) : kok K ph -> hs F (restb p d src n K ph ++ R) s ->
  (forall s', hs F R s' -> Q tt s') -> wp (photon_free (Some p)) Q s.
Proof.
  intros [Kx Ki] H HQ. unfold photon_free, restb in *. cbn [app] in H. set (B := (p, rblock d src n K ph)) in *.
  apply wp_bind. eapply hs_load_ptr; [exact H|left; reflexivity|reflexivity|]. apply wp_bind, wp_ret.
  apply wp_bind. eapply hs_load_ptr; [exact H|left; reflexivity|reflexivity|]. apply wp_bind, wp_ret.
  apply wp_bind. eapply hs_load_ptr; [exact H|left; reflexivity|reflexivity|]. apply wp_bind, wp_ret.
  apply wp_bind. eapply hs_load_ptr; [exact H|left; reflexivity|reflexivity|]. apply wp_bind, wp_ret.
  apply wp_bind. eapply hs_load_ptr; [exact H|left; reflexivity|reflexivity|].
  apply wp_bind. eapply hs_load_int; [exact H|left; reflexivity|reflexivity|]. rewrite zlen_nat.
  apply wp_bind. eapply (hs_free_leaks F (B :: lks (kI K) (kil K) (ph_int ph) ++ R)); [exact Kx|eapply hs_perm; [|exact H]; unfold leaksb; perm|]. intros s7 H7.
  apply wp_bind. eapply hs_load_ptr; [exact H7|left; reflexivity|reflexivity|].
  apply wp_bind. eapply hs_load_int; [exact H7|left; reflexivity|reflexivity|]. rewrite zlen_nat.
  apply wp_bind. eapply (hs_free_leaks F (B :: R)); [exact Ki|eapply hs_perm; [|exact H7]; perm|]. intros s8 H8.
  eapply hs_free; [exact H8|exact HQ].
Qed.

Lemma release_rest (ph : photon T) : at_rest (release ph).
Proof. repeat split. Qed.
Lemma launch_released x (o : optic T) junk fuel ph en lc e c phr ws e' : launch x o junk fuel ph (Some en) false lc e = Ret ((c, phr, Some ws), e') -> en_refused en = false /\ at_rest phr.
Proof.
  rewrite launch_eq. destruct (en_refused en).
  { intros E. apply rbind_inv in E. destruct E as (u & e1 & _ & E). apply rret_inv in E. destruct E as [E _]. discriminate. }
  intros E. split; [reflexivity|]. apply rbind_inv in E. destruct E as (ph2 & e2 & _ & E). apply rbind_inv in E. destruct E as ([zid qr] & e3 & _ & E). cbn [fst snd] in E.
  destruct qr as [[q r]|]; [|apply rret_inv in E; destruct E as [E _]; injection E as _ <- _; apply release_rest].
  unfold launch_go in E. apply rbind_inv in E. destruct E as ([[axes ix] gl] & e4 & _ & E). cbv beta iota in E. destruct gl; [destruct (_ && _)%bool; [|destruct (_ && _)%bool]|].
  - apply rbind_inv in E. destruct E as (a & e5 & _ & E). apply rret_inv in E. destruct E as [E _]. injection E as _ <- _. apply release_rest.
  - apply rbind_inv in E. destruct E as ([cc p5] & e5 & E5 & E). apply rret_inv in E. destruct E as [E _]. cbn [fst snd] in E. injection E as _ <- _.
    rewrite launch_wall_eq in E5. apply rbind_inv in E5. destruct E5 as ([[[[wt dt] rc] qc] p6] & e6 & _ & E). cbn [fst snd] in E. destruct (Z.leb wt 0); [apply rret_inv in E; destruct E as [E _]; injection E as _ <-; apply release_rest|].
    apply rbind_inv in E. destruct E as (? & ? & _ & E). apply rbind_inv in E. destruct E as (? & ? & _ & E). apply rbind_inv in E. destruct E as ([b p7] & ? & _ & E). cbn [fst snd] in E.
    destruct b; cbn [negb] in E; apply rret_inv in E; destruct E as [E _]; injection E as _ <-; apply release_rest.
  - apply rret_inv in E. destruct E as [E _]. injection E as _ <- _. apply release_rest.
  - apply rbind_inv in E. destruct E as (a & e5 & _ & E). apply rret_inv in E. destruct E as [E _]. injection E as _ <- _. apply release_rest.
Qed.

Lemma nodup_sub (A B C : list loc) : NoDup (A ++ B ++ C) -> NoDup B.
Proof. intros H. apply nodup_app_inv in H. destruct H as (_ & H & _). apply nodup_app_inv in H. apply H. Qed.

(** ** C78 *)
Theorem C78_launch_in_memory :
  forall (x : xraylib T) (o : optic T) junk fuel (lc : bool) s p d D src n L ph we en wv v err E c ph' ws e',
  wf s -> memory_available s ->
  photon_at s p d src n L ph -> optic_at s d D o -> dbl_array s we en -> mem s wv = Some [v] -> error_at s err None E ->
  NoDup ((p :: places_blocks L) ++ [we; wv] ++ D ++ E) ->
  launch x o junk fuel ph (Some en) false lc None = Ret ((c, ph', Some ws), e') ->
  exists s' w L' E',
    launchM x junk fuel (Some p) (List.length en) (Some we) (Some wv) lc err None s = Ok (Some (c, e'), s') /\
    wf s' /\
    (* the photon, its leaks, the weights, the error *)
    photon_at s' p d src (Z.of_nat (List.length en)) L' ph' /\
    Forall (fun lk => List.length (lk_weights lk) = List.length en) (ph_ext ph' ++ ph_int ph') /\
    mem s' wv = Some [Vptr (Some w)] /\ weights_at s' w ws /\ error_at s' err e' E' /\
    (* these are new blocks, apart from the caller's *)
    NoDup ((p :: places_blocks L') ++ [we; wv] ++ D ++ E' ++ [w]) /\
    (* the leaks of an earlier launch: arrays and weights released *)
    (forall l, In l (places_blocks L) -> ~ In l (leak_objects L) -> ~ In l (w :: places_blocks L' ++ E') -> mem s' l = None) /\
    (* nothing else *)
    (forall l, ~ In l (p :: wv :: w :: places_blocks L' ++ E') -> ~ (In l (places_blocks L) /\ ~ In l (leak_objects L)) -> mem s' l = mem s l).
Proof.
  intros x o junk fuel lc s p d D src n L ph we en wv v err E c ph' ws e' W A HP HO He Hv HEr ND K.
  destruct (launch_released _ _ _ _ _ _ _ _ _ _ _ _ K) as [Hr Rst].
  destruct (photon_restb _ _ _ _ _ _ _ HP) as (Ko & PL & R0 & HB). destruct (optic_descb _ _ _ _ HO) as (liz & lwi & lp & lz & lc' & le & open & So & -> & HD & _).
  destruct (error_errs _ _ _ _ HEr) as (EB & HE & -> & HEB). set (D := descb d liz lwi lp lz lc' le open o) in *.
  set (B := restb p d src n (unplace L) ph ++ (we, List.map Vdbl en) :: (wv, [v]) :: D ++ EB ++ []).
  assert (FB : map fst B = (p :: places_blocks L) ++ [we; wv] ++ map fst D ++ map fst EB).
  { unfold B. rewrite app_nil_r. rewrite !map_app. rewrite (restb_fst p d src n (unplace L) ph Ko), PL. cbn [map fst app]. rewrite !map_app. reflexivity. }
  assert (H : hs (without (map fst B) s) B s).
  { apply hs_intro; auto; [rewrite FB; exact ND|]. unfold B. rewrite app_nil_r. rewrite holds_app, !holds_cons, holds_app. auto. }
  pose proof (wp_launch_ok err x o junk lc fuel en ph None c ph' ws e' (without (map fst B) s) [] s p d src n (unplace L) liz lwi lp lz lc' le open we wv v EB
    (fun r s' => r = Some (c, e') /\ exists K' w EB', kok K' ph' /\ full (List.length en) (ph_ext ph') /\ full (List.length en) (ph_int ph') /\ errs err e' EB' /\
      hs (without (map fst B) s) (restb p d src (zlen en) K' ph' ++ (w, wcells ws) :: (we, List.map Vdbl en) :: (wv, [Vptr (Some w)]) :: D ++ EB' ++ lost (unplace L) ph ++ []) s')
    Hr K R0 Ko So HE H) as WP.
  specialize (WP ltac:(intros K' w EB' s' h1 h2 h3 h4 h5; split; [reflexivity|]; exists K', w, EB'; auto 8)).
  apply wp_run in WP. destruct WP as (r & s' & Er & -> & K' & w & EB' & Ko' & X1 & X2 & HE' & H').
  set (B' := restb p d src (zlen en) K' ph' ++ (w, wcells ws) :: (we, List.map Vdbl en) :: (wv, [Vptr (Some w)]) :: D ++ EB' ++ lost (unplace L) ph ++ []) in *.
  assert (FB' : map fst B' = (p :: places_blocks (places K' ph')) ++ w :: we :: wv :: map fst D ++ map fst EB' ++ leak_objects L).
  { unfold B'. rewrite app_nil_r. rewrite !map_app. rewrite (restb_fst p d src (zlen en) K' ph' Ko'). cbn [map fst]. rewrite !map_app. rewrite (lost_fst (unplace L) ph Ko), PL. reflexivity. }
  destruct H' as (W' & A' & ND' & H1' & H2' & H3'). rewrite FB' in ND', H2', H3'.
  assert (HB' : holds s' B') by exact H1'. unfold B' in HB'. rewrite app_nil_r in HB'. rewrite holds_app, !holds_cons, !holds_app in HB'. destruct HB' as (G1 & G2 & G3 & G4 & G5 & G6 & G7).
  assert (NDp : NoDup (p :: places_blocks (places K' ph'))) by (apply nodup_app_inv in ND'; apply ND').
  assert (NDe : NoDup (map fst EB')).
  { apply nodup_app_inv in ND'. destruct ND' as (_ & ND' & _). inversion ND' as [|? ? _ Y1]; subst. inversion Y1 as [|? ? _ Y2]; subst. inversion Y2 as [|? ? _ Y3]; subst. eapply (nodup_sub (map fst D)); exact Y3. }
  exists s', w, (places K' ph'), (map fst EB'). split; [exact Er|]. split; [exact W'|]. split; [apply restb_holds; auto|].
  split; [apply Forall_app; split; assumption|]. split; [exact G4|]. split; [exact G2|]. split; [apply errs_at; auto|].
  split.
  { rewrite (app_assoc _ _ (leak_objects L)) in ND'.
    assert (P : Permutation ((p :: places_blocks (places K' ph')) ++ w :: we :: wv :: (map fst D ++ map fst EB') ++ leak_objects L) (((p :: places_blocks (places K' ph')) ++ [we; wv] ++ map fst D ++ map fst EB' ++ [w]) ++ leak_objects L)) by perm.
    pose proof (Permutation_NoDup P ND') as Z. apply nodup_app_inv in Z. apply Z. }
  assert (Fr : forall l, In l (map fst B) -> without (map fst B) s l = None) by (intros; apply without_in; auto).
  split.
  - intros l I1 I2 I3. rewrite H2'; [apply Fr; rewrite FB; apply in_or_app; left; right; exact I1|].
    intros I4. apply nodup_app_inv in ND. destruct ND as (ND1 & ND2 & ND3).
    apply in_app_or in I4. destruct I4 as [[<-|I4]|I4].
    + inversion ND1; subst. contradiction.
    + apply I3. right. apply in_or_app. auto.
    + destruct I4 as [<-|[<-|[<-|I4]]].
      * apply I3. left. reflexivity.
      * apply (ND3 we); [right; exact I1|left; reflexivity].
      * apply (ND3 wv); [right; exact I1|right; left; reflexivity].
      * apply in_app_or in I4. destruct I4 as [I4|I4]; [apply (ND3 l); [right; exact I1|right; right; cbn [app]; apply in_or_app; auto]|].
                apply in_app_or in I4. destruct I4 as [I4|I4]; [apply I3; right; apply in_or_app; auto|contradiction].
  - intros l I1 I2. destruct (in_dec Nat.eq_dec l (map fst D ++ we :: leak_objects L)) as [I3|I3].
    + apply in_app_or in I3. destruct I3 as [I3|[<-|I3]].
      * apply in_map_iff in I3. destruct I3 as ([l0 b] & <- & I3). cbn [fst]. rewrite (G5 _ _ I3). symmetry. apply HD. exact I3.
      * rewrite G3. symmetry. exact He.
      * rewrite <- PL in I3. rewrite <- (lost_fst (unplace L) ph Ko) in I3. apply in_map_iff in I3. destruct I3 as ([l0 b] & <- & I3). cbn [fst]. rewrite (G7 _ _ I3). symmetry. apply HB. right. apply lost_in. exact I3.
    + assert (NB' : ~ In l ((p :: places_blocks (places K' ph')) ++ w :: we :: wv :: map fst D ++ map fst EB' ++ leak_objects L)).
      { intros I4. apply in_app_or in I4. destruct I4 as [[<-|I4]|I4]; [apply I1; left; reflexivity|apply I1; do 3 right; apply in_or_app; auto|].
        destruct I4 as [<-|[<-|[<-|I4]]]; [apply I1; auto 6 with datatypes|apply I3; auto with datatypes|apply I1; auto 6 with datatypes|].
        apply in_app_or in I4. destruct I4 as [I4|I4]; [apply I3; auto with datatypes|]. apply in_app_or in I4. destruct I4 as [I4|I4]; [apply I1; do 3 right; auto with datatypes|apply I3; auto with datatypes]. }
      rewrite H2' by exact NB'. destruct (in_dec Nat.eq_dec l (map fst B)) as [I4|I4]; [|apply without_nin; exact I4].
      exfalso. rewrite FB in I4. apply in_app_or in I4. destruct I4 as [[<-|I4]|I4]; [apply I1; auto with datatypes| |].
      * apply I2. split; [exact I4|]. intros I5. apply I3. auto with datatypes.
      * destruct I4 as [<-|[<-|I4]]; [apply I3; auto with datatypes|apply I1; auto with datatypes|]. cbn [app] in I4. apply in_app_or in I4. destruct I4 as [I4|I4]; [apply I3; auto with datatypes|].
        apply NB'. (* the error variable itself *)
        destruct err as [le0|]; cbn [errs] in HE, HE'; [|subst EB; destruct I4]. subst EB. destruct I4 as [<-|[]]. apply in_or_app. right. do 3 right. apply in_or_app. right. apply in_or_app. left.
        destruct e' as [ce|]; [destruct HE' as (? & ? & ? & ->)|subst EB']; left; reflexivity.
Qed.

(** Arguments it must reject: a report, -1, and no other change. *)
Definition bad_launch (p : ptr) (n : nat) (energies : ptr) (en : list T) (weights : ptr) : Prop :=
  p = NULL \/ energies = NULL \/ n = 0%nat \/ weights = NULL \/ exists e, In e en /\ (nltb e (#1)%num = true \/ nltb (#100)%num e = true).
Theorem C78_bad_arguments :
  forall (x : xraylib T) junk fuel (lc : bool) s p n energies en weights err E,
  wf s -> memory_available s -> error_at s err None E -> NoDup E ->
  (forall we, energies = Some we -> dbl_array s we en /\ n = List.length en) -> bad_launch p n energies en weights ->
  exists s' E', launchM x junk fuel p n energies weights lc err None s = Ok (Some ((-1)%Z, Some E_ARG), s') /\
    error_at s' err (Some E_ARG) E' /\ (forall l, ~ In l E' -> mem s' l = mem s l).
Proof.
  intros x junk fuel lc s p n energies en weights err E W A HEr NDE Hen Bad.
  destruct (error_errs _ _ _ _ HEr) as (EB & HE & -> & HEB).
  assert (H : hs (without (map fst EB) s) (EB ++ []) s) by (rewrite app_nil_r; apply hs_intro; auto).
  set (Q := fun (r : option (Z * slot)) s' => r = Some ((-1)%Z, Some E_ARG) /\ exists EB', errs err (Some E_ARG) EB' /\ hs (without (map fst EB) s) (EB' ++ []) s').
  assert (Ref : forall k, wp (refuse_launch true err k None) Q s).
  { intros k. unfold refuse_launch. apply wp_bindF. eapply (wp_calc err (report E_ARG) None tt (Some E_ARG)); [reflexivity|apply sticky_report|exact HE|exact H|].
    intros EB' s' HE' H'. apply wp_retF. split; [reflexivity|]. eauto. }
  assert (WP : wp (launchM x junk fuel p n energies weights lc err None) Q s).
  { unfold launchM. destruct p as [p|]; cbn [is_null]; [|apply Ref]. change (refuse_launch false err ?k None) with (k None). cbv beta. destruct energies as [we|]; cbn [is_null]; [|apply Ref].
    change (refuse_launch false err ?k None) with (k None). cbv beta. destruct (Hen we eq_refl) as [Ha ->].
    destruct (Nat.ltb_spec (List.length en) 1) as [|Hl]; [apply Ref|]. change (refuse_launch false err ?k None) with (k None). cbv beta.
    apply wp_bindF, wp_inM. eapply (wp_energy_loop we en en (List.length en) []); [auto|reflexivity|exact Ha|]. rewrite firstn_all, forallb_not.
    destruct (List.existsb _ en) eqn:Ex; [apply Ref|]. change (refuse_launch false err ?k None) with (k None). cbv beta.
    destruct weights as [wv|]; cbn [is_null]; [|apply Ref]. exfalso. destruct Bad as [B|[B|[B|[B|(e & I & B)]]]]; try discriminate; [lia|].
    assert (X : List.existsb (fun e => (nltb e (#1)%num || nltb (#100)%num e)%bool) en = true) by (apply existsb_exists; exists e; split; [exact I|apply orb_true_iff; exact B]). congruence. }
  apply wp_run in WP. destruct WP as (r & s' & Er & -> & EB' & HE' & H'). rewrite app_nil_r in H'. destruct H' as (W' & A' & ND' & H1' & H2' & H3').
  exists s', (map fst EB'). split; [exact Er|]. split; [apply errs_at; auto|]. intros l I. rewrite H2' by exact I. destruct (in_dec Nat.eq_dec l (map fst EB)) as [J|J]; [|apply without_nin; exact J].
  exfalso. apply I. destruct err as [le|]; cbn [errs] in HE, HE'; [|subst EB; destruct J]. subst EB. destruct J as [<-|[]]. destruct HE' as (? & ? & ? & ->). left. reflexivity.
Qed.

(** ** C79: a photon's whole life *)
(** The caller makes a photon, launches it, releases it and the weights. *)
Definition launch_once (x : xraylib T) junk fuel (p : ptr) (n : nat) (we wv : ptr) (lc : bool) (err : eslot) : M T (option (Z * slot)) :=
  r <- launchM x junk fuel p n we wv lc err None ;; w <- load_ptr wv 0 ;; free w ;;; ret r.
Definition photon_life (x : xraylib T) junk fuel (d : ptr) (start dir ev : vec3 T) (n : nat) (we wv : ptr) (lc : bool) (err : eslot) : M T (option (Z * slot)) :=
  p <- photon_new d start dir ev err ;; r <- launch_once x junk fuel p n we wv lc err ;; photon_free p ;;; ret r.

Lemma wp_launch_once err x (o : optic T) junk lc fuel en ph c phr ws e' F R s p d src n0 K liz lwi lp lz lc' le open we wv v EB
    (Q : option (Z * slot) -> st T -> Prop) :
  launch x o junk fuel ph (Some en) false lc None = Ret ((c, phr, Some ws), e') -> at_rest ph -> kok K ph -> sized o -> errs err None EB ->
  hs F (restb p d src n0 K ph ++ (we, List.map Vdbl en) :: (wv, [v]) :: descb d liz lwi lp lz lc' le open o ++ EB ++ R) s ->
  (forall K' v' EB' s', at_rest phr -> kok K' phr -> errs err e' EB' ->
     hs F (restb p d src (zlen en) K' phr ++ (we, List.map Vdbl en) :: (wv, [v']) :: descb d liz lwi lp lz lc' le open o ++ EB' ++ lost K ph ++ R) s' -> Q (Some (c, e')) s') ->
  wp (launch_once x junk fuel (Some p) (List.length en) (Some we) (Some wv) lc err) Q s.
Proof.
  intros E R0 Ko So HE H HQ. destruct (launch_released _ _ _ _ _ _ _ _ _ _ _ _ E) as [Hr Rst]. unfold launch_once. apply wp_bind.
  eapply (wp_launch_ok err x o junk lc fuel en ph None c phr ws e' F R s p d src n0 K liz lwi lp lz lc' le open we wv v EB); [exact Hr|exact E|exact R0|exact Ko|exact So|exact HE|exact H|].
  intros K' w EB' s' Ko' _ _ HE' H'. apply wp_bind. set (D := descb d liz lwi lp lz lc' le open o) in *. eapply (hs_load_ptr _ _ _ wv [Vptr (Some w)]); [exact H'|apply in_or_app; right; right; right; left; reflexivity|reflexivity|].
  apply wp_bind. eapply (hs_free F (restb p d src (zlen en) K' phr ++ (we, List.map Vdbl en) :: (wv, [Vptr (Some w)]) :: D ++ EB' ++ lost K ph ++ R) w (wcells ws)); [eapply hs_perm; [|exact H']; perm|].
  intros s2 H2. apply wp_ret. eapply (HQ K' (Vptr (Some w)) EB'); auto.
Qed.

Theorem C79_life_leaves_nothing :
  forall (x : xraylib T) (o : optic T) junk fuel (lc : bool) s d D we en wv v err E start dir ev ph c ph' ws e',
  wf s -> memory_available s ->
  optic_at s d D o -> dbl_array s we en -> mem s wv = Some [v] -> error_at s err None E -> NoDup ([we; wv] ++ D ++ E) ->
  photon_fresh start dir ev = Some ph -> launch x o junk fuel ph (Some en) false lc None = Ret ((c, ph', Some ws), e') ->
  exists s' E', photon_life x junk fuel (Some d) start dir ev (List.length en) (Some we) (Some wv) lc err s = Ok (Some (c, e'), s') /\
    error_at s' err e' E' /\ (forall l, ~ In l (wv :: E') -> mem s' l = mem s l).
Proof.
  intros x o junk fuel lc s d D we en wv v err E start dir ev ph c ph' ws e' W A HO He Hv HEr ND Hf K.
  destruct (optic_descb _ _ _ _ HO) as (liz & lwi & lp & lz & lc' & le & open & So & -> & HD & _).
  destruct (error_errs _ _ _ _ HEr) as (EB & HE & -> & HEB). set (D := descb d liz lwi lp lz lc' le open o) in *.
  set (B := ((we, List.map Vdbl en) :: (wv, [v]) :: D ++ EB) : list (loc * @block T)).
  assert (FB : map fst B = [we; wv] ++ map fst D ++ map fst EB) by (unfold B; cbn [map fst app]; rewrite map_app; reflexivity).
  assert (H : hs (without (map fst B) s) B s).
  { apply hs_intro; [exact W|exact A|exact (eq_ind_r (@NoDup _) ND FB)|]. unfold B. rewrite !holds_cons, holds_app. auto. }
  assert (Eph : ph = mkPhoton start dir ev start dir ev [] [] None None 0%Z (#0)%num [] []) by (unfold photon_fresh in Hf; destruct (_ || _)%bool; congruence).
  assert (WP : wp (photon_life x junk fuel (Some d) start dir ev (List.length en) (Some we) (Some wv) lc err)
    (fun r s' => r = Some (c, e') /\ exists v' EB', errs err e' EB' /\ hs (without (map fst B) s) ((we, List.map Vdbl en) :: (wv, [v']) :: D ++ EB') s') s).
  { unfold photon_life. apply wp_bind. eapply hs_photon_new; [rewrite Hf; discriminate|exact H|]. intros p s1 H1.
    apply wp_bind. eapply (wp_launch_once err x o junk lc fuel en ph c ph' ws e' (without (map fst B) s) [] s1 p d zero3 0%Z (nk 0 0) liz lwi lp lz lc' le open we wv v EB); [exact K|subst ph; repeat split|subst ph; split; reflexivity|exact So|exact HE| |].
    { eapply hs_perm; [|exact H1]. subst ph. unfold restb, rblock, leaksb, B. cbn [lkp lks ph_ext ph_int zlen List.length Z.of_nat nk kX kI kxl kil ph_start ph_sdir ph_selec ph_exit ph_edir ph_eelec ph_irefl ph_dtravel]. fold D. clearbody D. perm. }
    intros K' v' EB' s2 Rst Ko' HE' H2. fold D in H2. assert (Hl : lost (nk 0 0) ph = []) by (subst ph; reflexivity). rewrite Hl in H2.
    apply wp_bind. eapply (hs_rest_free (without (map fst B) s) ((we, List.map Vdbl en) :: (wv, [v']) :: D ++ EB') s2 p d zero3 (zlen en) K' ph'); [exact Ko'|eapply hs_perm; [|exact H2]; perm|]. intros s3 H3. apply wp_ret. split; [reflexivity|]. eauto. }
  clearbody D. apply wp_run in WP. destruct WP as (r & s' & Er & -> & v' & EB' & HE' & H'). destruct H' as (W' & A' & ND' & H1' & H2' & H3').
  assert (HB' : holds s' ((we, List.map Vdbl en) :: (wv, [v']) :: D ++ EB')) by exact H1'. rewrite !holds_cons, holds_app in HB'. destruct HB' as (G1 & G2 & G3 & G4).
  assert (FB' : map fst (((we, List.map Vdbl en) :: (wv, [v']) :: D ++ EB') : list (loc * @block T)) = [we; wv] ++ map fst D ++ map fst EB') by (cbn [map fst app]; rewrite map_app; reflexivity). rewrite FB' in *.
  exists s', (map fst EB'). split; [exact Er|]. split.
  { apply errs_at; auto. cbn [app] in ND'. inversion ND' as [|? ? _ Y1]; subst. inversion Y1 as [|? ? _ Y2]; subst. apply nodup_app_inv in Y2. apply Y2. }
  intros l I. destruct (in_dec Nat.eq_dec l (we :: map fst D)) as [J|J].
  { destruct J as [<-|J]; [rewrite G1; symmetry; exact He|]. apply in_map_iff in J. destruct J as ([l0 b] & <- & J). cbn [fst]. rewrite (G3 _ _ J). symmetry. apply HD. exact J. }
  rewrite H2'.
  - destruct (in_dec Nat.eq_dec l (map fst B)) as [I4|I4]; [|apply without_nin; exact I4]. exfalso. rewrite FB in I4. destruct I4 as [<-|[<-|I4]]; [apply J; left; reflexivity|apply I; left; reflexivity|]. cbn [app] in I4.
    apply in_app_or in I4. destruct I4 as [I4|I4]; [apply J; right; exact I4|].
    apply I. right. destruct err as [le0|]; cbn [errs] in HE, HE'; [|subst EB; destruct I4]. subst EB. destruct I4 as [<-|[]]. destruct e' as [ce|]; [destruct HE' as (? & ? & ? & ->)|subst EB']; left; reflexivity.
  - intros I4. destruct I4 as [<-|[<-|I4]]; [apply J; left; reflexivity|apply I; left; reflexivity|]. cbn [app] in I4. apply in_app_or in I4. destruct I4 as [I4|I4]; [apply J; right; exact I4|apply I; right; exact I4].
Qed.

(** ** C80: launching a photon again *)
(** The caller launches the photon a second time before releasing it. *)
Definition photon_two_lives (x : xraylib T) junk fuel (d : ptr) (start dir ev : vec3 T) (n : nat) (we wv : ptr) (lc : bool) : M T (option (Z * slot)) :=
  p <- photon_new d start dir ev NULL ;; launch_once x junk fuel p n we wv lc NULL ;;; r <- launch_once x junk fuel p n we wv lc NULL ;; photon_free p ;;; ret r.

(** Not all memory is given back: one object per leak of the first launch stays allocated, and
    nothing points to it any more. *)
Theorem C80_relaunch_loses_leaks_refuted :
  forall (x : xraylib T) (o : optic T) junk fuel (lc : bool) s d D we en wv v start dir ev ph c1 ph1 ws1 e1 c2 ph2 ws2 e2,
  wf s -> memory_available s ->
  optic_at s d D o -> dbl_array s we en -> mem s wv = Some [v] -> NoDup ([we; wv] ++ D) ->
  photon_fresh start dir ev = Some ph ->
  launch x o junk fuel ph (Some en) false lc None = Ret ((c1, ph1, Some ws1), e1) ->
  launch x o junk fuel ph1 (Some en) false lc None = Ret ((c2, ph2, Some ws2), e2) ->
  exists s' gone, photon_two_lives x junk fuel (Some d) start dir ev (List.length en) (Some we) (Some wv) lc s = Ok (Some (c2, e2), s') /\
    List.length gone = (List.length (ph_ext ph1) + List.length (ph_int ph1))%nat /\ NoDup gone /\
    (forall l, In l gone -> mem s l = None /\ mem s' l <> None) /\
    (forall l, ~ In l (wv :: gone) -> mem s' l = mem s l).
Proof.
  intros x o junk fuel lc s d D we en wv v start dir ev ph c1 ph1 ws1 e1 c2 ph2 ws2 e2 W A HO He Hv ND Hf K1 K2.
  destruct (optic_descb _ _ _ _ HO) as (liz & lwi & lp & lz & lc' & le & open & So & -> & HD & _). set (D := descb d liz lwi lp lz lc' le open o) in *.
  set (B := ((we, List.map Vdbl en) :: (wv, [v]) :: D) : list (loc * @block T)).
  assert (FB : map fst B = [we; wv] ++ map fst D) by reflexivity.
  assert (H : hs (without (map fst B) s) B s).
  { apply hs_intro; [exact W|exact A|exact (eq_ind_r (@NoDup _) ND FB)|]. unfold B. rewrite !holds_cons. auto. }
  assert (Eph : ph = mkPhoton start dir ev start dir ev [] [] None None 0%Z (#0)%num [] []) by (unfold photon_fresh in Hf; destruct (_ || _)%bool; congruence).
  assert (WP : wp (photon_two_lives x junk fuel (Some d) start dir ev (List.length en) (Some we) (Some wv) lc)
    (fun r s' => r = Some (c2, e2) /\ exists v' K', kok K' ph1 /\ hs (without (map fst B) s) ((we, List.map Vdbl en) :: (wv, [v']) :: D ++ lost K' ph1) s') s).
  { unfold photon_two_lives. apply wp_bind. eapply hs_photon_new; [rewrite Hf; discriminate|exact H|]. intros p s1 H1.
    apply wp_bind. eapply (wp_launch_once NULL x o junk lc fuel en ph c1 ph1 ws1 e1 (without (map fst B) s) [] s1 p d zero3 0%Z (nk 0 0) liz lwi lp lz lc' le open we wv v []); [exact K1|subst ph; repeat split|subst ph; split; reflexivity|exact So|reflexivity| |].
    { eapply hs_perm; [|exact H1]. subst ph. unfold restb, rblock, leaksb, B. cbn [lkp lks ph_ext ph_int zlen List.length Z.of_nat nk kX kI kxl kil ph_start ph_sdir ph_selec ph_exit ph_edir ph_eelec ph_irefl ph_dtravel]. fold D. clearbody D. perm. }
    intros K' v' EB' s2 Rst Ko' HE' H2. cbn [errs] in HE'. subst EB'. fold D in H2. assert (Hl : lost (nk 0 0) ph = []) by (subst ph; reflexivity). rewrite Hl in H2.
    apply wp_bind. eapply (wp_launch_once NULL x o junk lc fuel en ph1 c2 ph2 ws2 e2 (without (map fst B) s) [] s2 p d zero3 (zlen en) K' liz lwi lp lz lc' le open we wv v' []); [exact K2|exact Rst|exact Ko'|exact So|reflexivity|exact H2|].
    intros K3 v3 EB3 s3 Rst3 Ko3 HE3 H3. cbn [errs] in HE3. subst EB3. fold D in H3.
    apply wp_bind. eapply (hs_rest_free (without (map fst B) s) ((we, List.map Vdbl en) :: (wv, [v3]) :: D ++ lost K' ph1) s3 p d zero3 (zlen en) K3 ph2); [exact Ko3|eapply hs_perm; [|exact H3]; perm|]. intros s4 H4. apply wp_ret. split; [reflexivity|]. eauto. }
  clearbody D. apply wp_run in WP. destruct WP as (r & s' & Er & -> & v' & K' & Ko' & H'). destruct H' as (W' & A' & ND' & H1' & H2' & H3').
  assert (HB' : holds s' ((we, List.map Vdbl en) :: (wv, [v']) :: D ++ lost K' ph1)) by exact H1'. rewrite !holds_cons, holds_app in HB'. destruct HB' as (G1 & G2 & G3 & G4).
  set (gone := map fst (lost K' ph1)).
  assert (FB' : map fst (((we, List.map Vdbl en) :: (wv, [v']) :: D ++ lost K' ph1) : list (loc * @block T)) = [we; wv] ++ map fst D ++ gone) by (cbn [map fst app]; rewrite map_app; reflexivity). rewrite FB' in *.
  exists s', gone. split; [exact Er|].
  assert (NDg : NoDup gone /\ forall l, In l gone -> ~ In l ([we; wv] ++ map fst D)). { rewrite app_assoc in ND'. apply nodup_app_inv in ND'. destruct ND' as (_ & X & Y). split; [exact X|]. intros l I J. apply (Y l J I). }
  split; [unfold gone; rewrite lost_fst by exact Ko'; unfold leak_objects, places; cbn [lxs lis]; rewrite app_length, !map_length; destruct Ko' as [-> ->]; reflexivity|]. split; [apply NDg|]. split.
  - intros l I. split.
    + assert (X : without (map fst B) s l = None) by (apply H3'; apply in_or_app; right; apply in_or_app; right; exact I). rewrite without_nin in X; [exact X|]. rewrite FB. apply NDg. exact I.
    + apply in_map_iff in I. destruct I as ([l0 b] & <- & I). cbn [fst]. rewrite (G4 _ _ I). discriminate.
  - intros l I. destruct (in_dec Nat.eq_dec l (we :: map fst D)) as [J|J].
    { destruct J as [<-|J]; [rewrite G1; symmetry; exact He|]. apply in_map_iff in J. destruct J as ([l0 b] & <- & J). cbn [fst]. rewrite (G3 _ _ J). symmetry. apply HD. exact J. }
    assert (NB : ~ In l ([we; wv] ++ map fst D)) by (intros [<-|[<-|I4]]; [apply J; left; reflexivity|apply I; left; reflexivity|apply J; right; exact I4]).
    rewrite H2'; [apply without_nin; rewrite FB; exact NB|]. rewrite app_assoc. intros I4. apply in_app_or in I4. destruct I4 as [I4|I4]; [exact (NB I4)|apply I; right; exact I4].
Qed.
End Life.

(** ** A concrete memory: the photon and the optic of C70_example *)
Section Concrete.
Local Notation ret := Mem.ret.
Local Notation bind := Mem.bind.
Local Open Scope mem_scope.
Local Open Scope nat_scope.
Definition start7 : vec3 float := (mkV 0.55 0 0)%float.
Definition dir7 : vec3 float := (mkV (-0.004) 0 1)%float.
Definition ev7 : vec3 float := (mkV 1 0 0)%float.
Definition photon7 : photon float := new_photon start7 dir7.
Definition heap7 : list (@block float) :=
  [ [Vptr NULL];                                                                                    (* 0: error variable *)
    photon_block (Some 2) NULL NULL 0 0 start7 dir7 ev7 start7 dir7 ev7 nulls 0 NULL NULL NULL NULL 0 0%float; (* 1: photon *)
    [Vdbl 0%float; Vint 7; Vdbl 0.28%float; Vint 1; Vptr (Some 3); Vptr (Some 4); Vdbl 2%float; Vptr (Some 5)]; (* 2: description *)
    [Vint 14]; [Vdbl 1%float];                                                                      (* 3, 4: composition *)
    [Vint 2; Vptr (Some 6); Vptr (Some 7); Vptr (Some 8)];                                          (* 5: profile *)
    map Vdbl [0;100;200]%float; map Vdbl [0.2;0.2;0.2]%float; map Vdbl [1;1;1]%float;               (* 6-8 *)
    [Vdbl 10%float]; [Vundef] ].                                                                    (* 9: energies, 10: weights variable *)
(** [ok n]: does the n-th allocation succeed? *)
Definition state7 (ok : nat -> bool) : st float := mkSt (nth_error heap7) 11 ok 0.
Definition plenty : nat -> bool := fun _ => true.
Definition all_but (k : nat) : nat -> bool := fun n => negb (Nat.eqb n k).
Definition launch7 (lm : libm) : st float -> res (option (Z * slot) * st float) :=
  @launchM float (FNum lm) clear_glass nulls 4000 (Some 1) 1 (Some 9) (Some 10) true (Some 0) None.

(** The hypotheses of C78, C79 and C80 are met: a launch with three leaks, and a second one. *)
Lemma optic7_at : optic_at (state7 plenty) 2 [2;3;4;5;6;7;8] long7.
Proof. exists 3, 4, 5, 6, 7, 8, 0.28%float. split; [reflexivity|]. split; [|repeat split]. unfold description_object. repeat (split; [reflexivity|]). repeat constructor; cbn; lia. Qed.
Example C78_hypotheses_met :
  wf (state7 plenty) /\ memory_available (state7 plenty) /\
  @photon_at float (state7 plenty) 1 2 (mkV 0 0 0)%float 0 (mkPlaces NULL [] NULL []) photon7 /\ optic_at (state7 plenty) 2 [2;3;4;5;6;7;8] long7 /\
  dbl_array (state7 plenty) 9 [10%float] /\ mem (state7 plenty) 10 = Some [Vundef] /\ error_at (state7 plenty) (Some 0) None [0] /\
  NoDup ((1 :: places_blocks (mkPlaces NULL [] NULL [])) ++ [9; 10] ++ [2;3;4;5;6;7;8] ++ [0]) /\
  @photon_fresh float (FNum series) start7 dir7 ev7 = Some photon7 /\
  (exists ph1 ws, @launch float (FNum series) clear_glass long7 nulls 4000 photon7 (Some [10%float]) false true None = Ret ((1%Z, ph1, Some ws), None) /\
  List.length (ph_ext ph1) = 0 /\ List.length (ph_int ph1) = 3 /\
  exists ph2 ws2, @launch float (FNum series) clear_glass long7 nulls 4000 ph1 (Some [10%float]) false true None = Ret ((1%Z, ph2, Some ws2), None)).
Proof.
  split. { intros l Hl. cbn in *. apply nth_error_None. cbn. lia. }
  split; [intros n; reflexivity|]. split.
  { split; [reflexivity|]. cbn. repeat split; auto; repeat constructor; cbn; tauto. }
  split; [exact optic7_at|]. split; [reflexivity|]. split; [reflexivity|]. split; [split; reflexivity|]. split; [repeat constructor; cbn; lia|].
  split; [vm_compute; reflexivity|].
  let r := eval vm_compute in (run_clear long7 photon7) in match r with Ret (_, ?p, Some ?ws, _) => exists p, ws end.
  split; [vm_compute; reflexivity|]. split; [reflexivity|]. split; [reflexivity|].
  match goal with |- context [launch _ _ _ _ ?p _ _ _ _] => let r := eval vm_compute in (run_clear long7 p) in match r with Ret (_, ?p, Some ?ws, _) => exists p, ws end end.
  vm_compute. reflexivity.
Qed.

(** ** C81: a launch without memory *)
(** One failing allocation: *)
Theorem C81_out_of_memory_refuted :
  exists lm, libm_std lm /\
  (* for *weights: the launch writes through NULL *)
  launch7 lm (state7 (all_but 0)) = UB /\
  (* for the energies of the photon: the launch releases the caller's photon, who will release it again *)
  (exists s', launch7 lm (state7 (all_but 1)) = Ok (Some ((-1)%Z, Some POLYCAP_ERROR_MEMORY), s') /\ mem s' 1 = None /\ photon_free (Some 1) s' = UB) /\
  (* for its absorption coefficients: it releases the photon and goes on using it *)
  launch7 lm (state7 (all_but 3)) = UB /\
  (* for a leak: a launch that succeeds, with the error set, and a leak that is NULL, so that reading the leaks is undefined *)
  (exists s' e a x y z, launch7 lm (state7 (all_but 20)) = Ok (Some (1%Z, e), s') /\ mem s' 0 = Some [Vptr (Some x)] /\
  load_ptr (Some 1) F_INTLEAK s' = Ok (Some a, s') /\ mem s' a = Some [Vptr NULL; Vptr y; Vptr z] /\
  get_intleak_data (Some 1) (Some 10) (Some 9) NULL s' = UB) /\
  (* for a larger array of leaks: after releasing the photon, the leaks found before are still allocated (two of them, reachable only from their old array at 33) *)
  (exists s' s2, launch7 lm (state7 (all_but 26)) = Ok (Some ((-1)%Z, Some POLYCAP_ERROR_MEMORY), s') /\ photon_free (Some 1) s' = Ok (tt, s2) /\
  exists a b, mem s2 33 = Some [Vptr (Some a); Vptr (Some b)] /\ mem s2 a <> None /\ mem s2 b <> None).
Proof.
  exists series. split; [exact series_std|].
  split; [vm_compute; reflexivity|].
  split. { eexists. split; [vm_compute; reflexivity|]. split; vm_compute; reflexivity. }
  split; [vm_compute; reflexivity|].
  split. { do 6 eexists. split; [vm_compute; reflexivity|]. split; [vm_compute; reflexivity|]. split; [vm_compute; reflexivity|]. split; vm_compute; reflexivity. }
  do 2 eexists. split; [vm_compute; reflexivity|]. split; [vm_compute; reflexivity|]. do 2 eexists. split; [vm_compute; reflexivity|]. split; vm_compute; discriminate.
Qed.
End Concrete.

Print Assumptions C78_launch_in_memory.
Print Assumptions C78_bad_arguments.
Print Assumptions C79_life_leaves_nothing.
Print Assumptions C80_relaunch_loses_leaks_refuted.
Print Assumptions C81_out_of_memory_refuted.
