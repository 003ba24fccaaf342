(** * Properties of polycap_photon_launch (C29-C31, C35, C37, C38, C49, C58-C61)

    Theorems over R describe exact arithmetic; the refutations run the binary64 model,
    for every libm with the special values C prescribes ([libm_std], Libm.v). *)
From Coq Require Import ZArith List Bool Lia Reals Lra Psatz Floats.
From Verif Require Import Num Geometry SpecGeom SpecPhoton RM RMLogic CapilModel TraceModel LaunchModel SpecRay SpecPath
  RingProofs HexProofs CapilReal NormalReal FresnelReal WeightProofs TraceProofs SafeProofs PathProofs ProfileFloat Libm.
Import ListNotations.
Set Warnings "-inexact-float".

(** ** C29: return codes *)
Section Codes.
Context {T : Type} {N : Num T}.

Definition postS {A} (m : RM A) (Q : A -> slot -> Prop) : Prop := forall e a e', m e = Ret (a, e') -> Q a e'.
Lemma postS_seq {A B} (m : RM A) (f : A -> RM B) Q : (forall a, postS (f a) Q) -> postS (bind m f) Q.
Proof. intros H e b e' K. unfold bind in K. destruct (m e) as [[a e1]| |] eqn:E; try discriminate. exact (H a _ _ _ K). Qed.
Lemma postS_bind {A B} (m : RM A) (P : A -> Prop) (f : A -> RM B) Q : post m P -> (forall a, P a -> postS (f a) Q) -> postS (bind m f) Q.
Proof. intros Hm H e b e' K. unfold bind in K. destruct (m e) as [[a e1]| |] eqn:E; try discriminate. exact (H a (Hm _ _ _ E) _ _ _ K). Qed.
Lemma postS_ret {A} (a : A) (Q : A -> slot -> Prop) : (forall e, Q a e) -> postS (ret a) Q.
Proof. intros H e b e' K. unfold ret in K. injection K as <- <-. apply H. Qed.
Lemma postS_report {A} c (a : A) (Q : A -> slot -> Prop) : (forall k, Q a (Some k)) -> postS (bind (report c) (fun _ => ret a)) Q.
Proof. intros H e b e' K. unfold bind, report, ret in K. injection K as <- <-. destruct e; apply H. Qed.

Lemma launch_wall_code x (o : optic T) junk lc fuel ph : post (launch_wall x o junk lc fuel ph) (fun r => fst r = 1%Z \/ fst r = (-1)%Z).
Proof.
  unfold launch_wall. eapply post_seq; intros [[[[wt dt] rc] qc] ph1]. destruct (Z.leb wt 0); [apply post_ret; auto|].
  eapply post_seq; intros amu. eapply post_seq; intros zm. eapply post_seq; intros em. eapply post_seq; intros [err ph2].
  destruct err; apply post_ret; auto.
Qed.

(** Whatever the arithmetic (in particular in binary64), a returning launch gives one of the
    five documented codes; a photon that misses the optic and an unusable argument
    (no weights array handed out) are reported. *)
Theorem C91_codes :
  forall (x : xraylib T) (o : optic T) (junk : vec3 T) fuel (ph : photon T) en wnull lc e code ph' w e',
  launch x o junk fuel ph en wnull lc e = Ret (code, ph', w, e') ->
  In code [1; 0; 2; -1; -2]%Z /\ (code = (-2)%Z -> e' <> None) /\ (w = None -> code = (-1)%Z /\ ph' = ph /\ e' <> None).
Proof.
  intros x o junk fuel ph en wnull lc e code ph' w e' K.
  assert (P : postS (launch x o junk fuel ph en wnull lc) (fun r e' => let '(code, ph', w) := r in
     In code [1; 0; 2; -1; -2]%Z /\ (code = (-2)%Z -> e' <> None) /\ (w = None -> code = (-1)%Z /\ ph' = ph /\ e' <> None))).
  2:{ exact (P _ _ _ K). }
  clear. unfold launch. destruct en as [en|]; [|apply postS_report; intros k; cbn; repeat split; auto; discriminate].
  destruct (orb _ _); [apply postS_report; intros k; cbn; repeat split; auto; discriminate|].
  eapply postS_seq; intros ph1. eapply postS_seq; intros zid. eapply postS_seq; intros ext. eapply postS_seq; intros [[inside q] r].
  destruct inside; cbn [negb]; [|apply postS_report; intros k; cbn; repeat split; auto 6; discriminate].
  eapply postS_seq; intros axes. eapply postS_seq; intros ix. eapply postS_seq; intros [[rad cx] cy].
  destruct (nltb _ _).
  - destruct (andb _ _). { eapply postS_seq; intros [c p]. apply postS_ret. intros s. cbn; repeat split; auto; discriminate. }
    destruct (andb _ _); [|apply postS_ret; intros s; cbn; repeat split; auto; discriminate].
    eapply postS_bind; [apply launch_wall_code|]. intros [c p] H. cbn [fst] in H. apply postS_ret. intros s.
    destruct H as [-> | ->]; cbn; repeat split; auto; discriminate.
  - eapply postS_seq; intros [ie ph3]. apply postS_ret. intros s. destruct (orb _ _); [|destruct (Z.eqb _ _)]; cbn; repeat split; auto; discriminate.
Qed.

End Codes.

Local Open Scope R_scope.
(** Unusable arguments: code -1, an error, the photon untouched. *)
Theorem C91_bad_arguments :
  forall (x : xraylib R) (o : optic R) junk fuel (ph : photon R) en wnull lc,
  en = None \/ en = Some [] \/ (exists l v, en = Some l /\ In v l /\ (v < 1 \/ 100 < v)) \/ wnull = true ->
  launch x o junk fuel ph en wnull lc None = Ret ((-1)%Z, ph, None, Some E_ARG).
Proof.
  intros x o junk fuel ph en wnull lc H. unfold launch. destruct en as [l|]; [|reflexivity].
  match goal with |- context [if ?b then _ else _] => assert (B0 : b = true); [|rewrite B0; reflexivity] end. rnum.
  destruct H as [H|[H|[(l' & v & E & I & B)|H]]]; [discriminate|injection H as ->; reflexivity| |subst; apply orb_true_r].
  injection E as <-. apply orb_true_intro. left. apply orb_true_intro. right. apply existsb_exists. exists v. split; [exact I|].
  destruct B; [rewrite Rltb_true by assumption; reflexivity|]. rewrite (Rltb_true 100 v) by assumption. apply orb_true_r.
Qed.

Example C29_bad_arguments_example : forall (x : xraylib R) o junk fuel ph,
  launch x o junk fuel ph (Some [10; 0]) false false None = Ret ((-1)%Z, ph, None, Some E_ARG).
Proof. intros. apply C91_bad_arguments. right. right. left. exists [10; 0], 0. split; [reflexivity|]. split; [cbn; auto|left; lra]. Qed.

(** ** Concrete runs in binary64 *)
(** Constant optical tables (any would do), one energy of 10 keV. *)
Definition xl : xraylib float := {| cs_total := fun _ _ => 1%float; fi := fun _ _ => 0%float; atomic_weight := fun _ => 28%float |}.
Definition nulls : vec3 float := (mkV 0 0 0)%float.
(** The photon polycap_photon_new makes for these start coordinates and direction. *)
Definition new_photon (c d : vec3 float) : photon float :=
  mkPhoton c d (mkV 1 0 0)%float c d (mkV 1 0 0)%float [] [] None None 0 0%float [] [].
Definition run (lm : libm) (o : optic float) (fuel : nat) (ph : photon float) (lc : bool) :=
  @launch float (FNum lm) xl o nulls fuel ph (Some [10%float]) false lc None.

Definition wide : optic float := mkOptic (mkProfile 1 [0;1]%float [0.95;0.94]%float [1;1]%float) 1%Z 0%float 2%float [14%Z] [1%float].
Definition straight1 : optic float := mkOptic (mkProfile 1 [0;1]%float [0.5;0.5]%float [1;1]%float) 1%Z 0%float 2%float [14%Z] [1%float].
Definition straight2 : optic float := mkOptic (mkProfile 2 [0;1;2]%float [0.5;0.5;0.5]%float [1;1;1]%float) 1%Z 0%float 2%float [14%Z] [1%float].
Definition conical : optic float := mkOptic (mkProfile 2 [0;1;2]%float [0.5;0.4;0.3]%float [1;1;1]%float) 1%Z 0%float 2%float [14%Z] [1%float].
Definition seven : optic float := mkOptic (mkProfile 2 [0;1;2]%float [0.1;0.1;0.1]%float [1;1;1]%float) 7%Z 0%float 2%float [14%Z] [1%float].
(** Weight fractions 2 and -1: their sum is 1, polycap_description_new accepts them. *)
Definition odd_glass : optic float := mkOptic (mkProfile 2 [0;1;2]%float [0.1;0.1;0.1]%float [1;1;1]%float) 7%Z 0%float 2%float [14%Z; 8%Z] [2%float; (-1)%float].

(** The runs below compute with the special values filled in. *)
Ltac run_it L := unfold run; rewrite <- (libm_std_patch _ L); vm_compute.

(** C29 is false: -1 without any error.  A photon inside the channel of a mono-capillary
    (radius 0.95 in an optic of radius 1), parallel to the axis, at 0.9 from it: the tracer
    tests the photon against the hexagon (apothem 0.866) although the optic is round. *)
Theorem C29_silent_failure_refuted :
  forall lm, libm_std lm ->
  exists ph' w, run lm wide 10 (new_photon (mkV 0 0.9 0)%float (mkV 0 0 1)%float) false = Ret ((-1)%Z, ph', w, None).
Proof. intros lm L. run_it L. eauto. Qed.

(** ** C30: weights are delivered *)
Lemma launch_delivers (x : xraylib R) o junk fuel ph en wnull lc :
  (lc = false \/ vz (ph_start ph) <= 0) ->
  post (launch x o junk fuel ph en wnull lc) (fun r => let '(code, ph', w) := r in
    code = 1%Z \/ code = 0%Z -> exists ws, w = Some (map Some ws)).
Proof.
  intros Hl. unfold launch. destruct en as [en|]; [|apply post_seq; intros _; apply post_ret; intros [? | ?]; discriminate].
  destruct (orb _ _). { apply post_seq; intros _; apply post_ret; intros [? | ?]; discriminate. }
  eapply post_bind with (P := fun ph1 => ph_start ph1 = ph_start ph). { unfold photon_scatf. destruct (orb _ _); [eapply post_seq; intros _|]; apply post_ret; reflexivity. }
  intros ph1 P1. assert (Q1 : ph_start (launch_reset ph1) = ph_start ph) by exact P1. rewrite Q1.
  eapply post_seq; intros zid. eapply post_seq; intros ext. eapply post_seq; intros [[inside q] r].
  destruct inside; cbn [negb]; [|apply post_seq; intros _; apply post_ret; intros [? | ?]; discriminate].
  eapply post_seq; intros axes. eapply post_seq; intros ix. eapply post_seq; intros [[rad cx] cy]. rnum.
  destruct (Rltb rad _).
  - destruct Hl as [-> |Hl]; cbn [andb]; [apply post_ret; intros [? | ?]; discriminate|].
    destruct (andb lc _). { eapply post_seq; intros [cc pp]. apply post_ret. intros [? | ?]; discriminate. }
    rewrite (Rltb_false 0) by lra. rewrite andb_false_r. apply post_ret; intros [? | ?]; discriminate.
  - eapply post_seq; intros [ie ph3]. apply post_ret. intros _. eauto.
Qed.

(** Without leak calculation, and with it for photons that start on the entrance plane,
    a transmitted or absorbed photon comes with a weight for every energy.  (Missing:
    leak calculation with a start inside the glass; there it is false, see below.) *)
Theorem C92_weights_delivered :
  forall (x : xraylib R) (o : optic R) junk fuel (ph : photon R) en wnull lc e code ph' w e',
  (forall z en, 0 <= cs_total x z en) -> ph_amu ph = None ->
  (lc = false \/ vz (ph_start ph) <= 0) ->
  launch x o junk fuel ph (Some en) wnull lc e = Ret (code, ph', w, e') ->
  code = 1%Z \/ code = 0%Z ->
  exists ws, w = Some (map Some ws) /\ length ws = length en.
Proof.
  intros x o junk fuel ph en wnull lc e code ph' w e' Cs A Hl K Hc.
  destruct (launch_delivers x o junk fuel ph (Some en) wnull lc Hl _ _ _ K Hc) as (ws & E). exists ws. split; [exact E|].
  destruct (launch_conserves x o junk fuel ph en wnull lc Cs A _ _ _ K) as [[_ E']|H]; [rewrite E in E'; discriminate|].
  destruct (H O) as (_ & _ & H1). subst w. destruct H1 as [H1 _]. rewrite map_length in H1. exact H1.
Qed.

(** C30 is false with leak calculation: a photon that starts in the glass between two
    capillaries and leaves through the exit window is reported as transmitted, with a
    weights array nobody has written. *)
Theorem C30_uninitialised_weights_refuted :
  forall lm, libm_std lm ->
  exists ph', run lm seven 200 (new_photon (mkV 0.2 0 0.5)%float (mkV 0 0 1)%float) true = Ret (1%Z, ph', Some [None], None).
Proof. intros lm L. run_it L. eauto. Qed.

(** ** C31: weights are probabilities *)
Theorem C31_weights_are_probabilities :
  forall (x : xraylib R) (o : optic R) junk fuel (ph : photon R) en wnull lc e code ph' ws e' i v,
  (forall z en, 0 <= cs_total x z en) -> ph_amu ph = None ->
  launch x o junk fuel ph (Some en) wnull lc e = Ret (code, ph', Some ws, e') ->
  nth_error ws i = Some (Some v) -> 0 <= v <= 1.
Proof.
  intros x o junk fuel ph en wnull lc e code ph' ws e' i v Cs A K E.
  destruct (launch_conserves x o junk fuel ph en wnull lc Cs A _ _ _ K) as [[_ E']|H]; [discriminate|].
  destruct (H i) as (_ & _ & _ & H1). rewrite (nth_error_nth _ _ None E) in H1. tauto.
Qed.

(** ** C37: weight and leaks together never exceed what came in *)
(** Sum of the weights at energy [i] of a list of leak records. *)
Definition leaked (i : nat) (l : list (leak_data R)) : R := fold_right Rplus 0 (map (fun d => nth i (lk_weights d) 0) l).

Theorem C37_conservation :
  forall (x : xraylib R) (o : optic R) junk fuel (ph : photon R) en wnull lc e code ph' ws e' i,
  (forall z en, 0 <= cs_total x z en) -> ph_amu ph = None ->
  launch x o junk fuel ph (Some en) wnull lc e = Ret (code, ph', Some ws, e') ->
  0 <= leaked i (ph_ext ph') /\ 0 <= leaked i (ph_int ph') /\
  match nth_error ws i with Some (Some v) => v | _ => 0 end + leaked i (ph_ext ph') + leaked i (ph_int ph') <= 1.
Proof.
  intros x o junk fuel ph en wnull lc e code ph' ws e' i Cs A K.
  destruct (launch_conserves x o junk fuel ph en wnull lc Cs A _ _ _ K) as [[_ E']|H]; [discriminate|].
  destruct (H i) as (H1 & H2 & _ & H3). split; [exact H1|]. split; [exact H2|].
  change leaks_i with leaked in H3. destruct (nth_error ws i) as [v|] eqn:E.
  - rewrite (nth_error_nth _ _ None E) in H3. destruct v; lra.
  - apply nth_error_None in E. rewrite nth_overflow in H3 by exact E. lra.
Qed.

(** One wall interaction: per energy, what is reflected and what goes through the wall
    share the incoming weight, whatever the Fresnel coefficients and the roughness. *)
Theorem C37_one_interaction :
  forall (o : optic R) sn dir alfa wt dt en amu scatf w ev ev0 e r e',
  0 <= dt -> length w = length en -> (forall i, 0 <= nth i w 0) ->
  refl_loop o sn dir alfa wt dt en amu scatf w ev ev0 e = Ret (r, e') ->
  length (rr_w r) = length w /\
  forall i, 0 <= nth i (rr_w r) 0 <= nth i w 0 /\ 0 <= nth i (rr_leak r) 0 /\
            nth i (rr_w r) 0 + nth i (rr_leak r) 0 <= nth i w 0.
Proof.
  intros o sn dir alfa wt dt en amu scatf w ev ev0 e r e' Hd Hl Hw K.
  destruct (refl_loop_w o sn dir alfa wt dt Hd en amu scatf w ev ev0 Hl Hw _ _ _ K) as (A & _ & _ & B). split; [exact A|exact B].
Qed.

(** ** C35: the path is a chain of specular reflections *)
(** A photon reported as transmitted (1) or absorbed (0) by a launch that starts in the open
    part of a capillary of the stacking has followed, from its start point along its start
    direction, a chain of specular reflections on the wall of that capillary, as long as the
    ray was never parallel to the wall of a segment; its exit coordinates, exit direction,
    number of reflections and travelled distance are those of the end of that chain
    (transmitted: the state after the last reflection; absorbed: the next wall point).
    At most nmax+1 reflections are followed. *)
Theorem C35_specular_path :
  forall (x : xraylib R) (o : optic R) junk fuel (ph : photon R) en wnull lc e code ph' w e',
  wf_optic o -> (1 <= o_ncap o)%Z -> (lc = false \/ vz (ph_start ph) <= 0) -> dot (ph_sdir ph) (ph_sdir ph) <> 0 ->
  launch x o junk fuel ph en wnull lc e = Ret (code, ph', w, e') -> code = 1%Z \/ code = 0%Z ->
  exists q r, let c := capillary_of (o_prof o) (n_shells (o_ncap o)) q r in
    in_channel c (ph_start ph) /\
    exists k s, bounces c k (mkRay (ph_start ph) (along (ph_sdir ph)) 0 (ph_dtravel ph)) s /\
      (~ regular c (r_dir s) \/
       ((k <= S (p_nmax (o_prof o)))%nat /\
        (code = 1%Z -> s = mkRay (ph_exit ph') (ph_edir ph') (ph_irefl ph') (ph_dtravel ph')) /\
        (code = 0%Z -> meets c s (ph_exit ph') /\ ph_edir ph' = r_dir s /\ ph_irefl ph' = r_bounces s /\
           ph_dtravel ph' = r_travel s + distance (ph_exit ph') (r_pos s)))).
Proof.
  intros x o junk fuel ph en wnull lc e code ph' w e' W Hn Hl Hd K Hc.
  destruct (launch_path x o junk fuel ph en wnull lc W Hn Hl Hd _ _ _ K Hc) as (q & r & I & k & s & B & H).
  exists q, r. split; [exact I|]. exists k, s. split; [exact B|]. destruct H as [H|(H1 & H2 & H3)]; [left; exact H|right]. split; [exact H1|]. split; [exact H2|]. intros Z. apply H3. exact Z.
Qed.

(** The mirror image is determined by the normal: incoming and outgoing direction make the
    same angle with the wall. *)
Theorem C35_mirror_unique : forall n d d1 d2, unit n -> mirrored n d d1 -> mirrored n d d2 -> d1 = d2.
Proof. exact mirrored_unique. Qed.

(** ** C38: array accesses *)
(** Without leak calculation and in exact arithmetic, launching any photon into an optic
    with at least two profile points and a usable glass composition accesses no array out of
    bounds and always returns. *)
Theorem C94_launch_returns :
  forall (x : xraylib R) (o : optic R) junk fuel (ph : photon R) en wnull e,
  wf_optic o -> wf_material o ->
  exists code ph' w e', launch x o junk (S fuel) ph en wnull false e = Ret (code, ph', w, e').
Proof.
  intros x o junk fuel ph en wnull e W M.
  destruct (safe_returns _ _ e (launch_safe x o junk fuel ph en wnull W M)) as ([[code ph'] w] & e' & K & _). eauto.
Qed.

(** In binary64 it is false even so: in a straight capillary a photon parallel to the axis
    makes the hit a NaN, and the index search then reads the profile beyond its end. *)
Theorem C38_parallel_photon_refuted :
  forall lm, libm_std lm ->
  run lm straight1 10 (new_photon (mkV 0 0.2 0)%float (mkV 0 0 1)%float) false = Ub.
Proof. intros lm L. run_it L. reflexivity. Qed.
(** With leak calculation: a steep photon in the glass near the outer surface makes the
    search for the exit point run below index 0. *)
Theorem C38_steep_photon_refuted :
  forall lm, libm_std lm ->
  run lm seven 200 (new_photon (mkV 0.8 0 0.5)%float (mkV 8 0 1)%float) true = Ub.
Proof. intros lm L. run_it L. reflexivity. Qed.

(** ** C59: a photon parallel to a straight capillary is transmitted -- false *)
(** With one more profile point it is not out of bounds, but absorbed: code 0, and its
    coordinates are NaN. *)
Theorem C59_parallel_photon_absorbed_refuted :
  forall lm, libm_std lm ->
  exists ph' w, run lm straight2 10 (new_photon (mkV 0 0.2 0)%float (mkV 0 0 1)%float) false = Ret (0%Z, ph', w, None) /\
    PrimFloat.is_nan (vz (ph_exit ph')) = true.
Proof. intros lm L. run_it L. do 2 eexists. split; reflexivity. Qed.

(** ** C58: the exit coordinates are on the exit window -- false *)
(** In a tapered capillary the same photon is transmitted without touching the wall; the
    exit coordinates are its start coordinates. *)
Theorem C58_exit_coordinates_refuted :
  forall lm, libm_std lm ->
  exists ph' w, run lm conical 10 (new_photon (mkV 0 0.2 0)%float (mkV 0 0 1)%float) false = Ret (1%Z, ph', w, None) /\
    ph_exit ph' = (mkV 0 0.2 0)%float.
Proof. intros lm L. run_it L. do 2 eexists. split; reflexivity. Qed.

(** ** C60: an unusable glass composition is reported -- false *)
Theorem C60_bad_composition_refuted :
  forall lm, libm_std lm ->
  run lm odd_glass 200 (new_photon (mkV 0.2 0 0)%float (mkV 0 0 1)%float) true = Ub.
Proof. intros lm L. run_it L. reflexivity. Qed.

(** ** C49: launching again *)
(** A launch with usable arguments depends on the photon only through its start point,
    start direction, start electric vector -- and its exit electric vector and travelled
    distance, which a launch changes and never resets. *)
Theorem C103_depends :
  forall (x : xraylib R) (o : optic R) junk fuel (ph ph2 : photon R) e0 en lc e,
  ph_start ph = ph_start ph2 -> ph_sdir ph = ph_sdir ph2 -> ph_selec ph = ph_selec ph2 ->
  ph_eelec ph = ph_eelec ph2 -> ph_dtravel ph = ph_dtravel ph2 -> ph_amu ph = ph_amu ph2 -> ph_scatf ph = ph_scatf ph2 ->
  Forall (fun v => 1 <= v <= 100) (e0 :: en) ->
  launch x o junk fuel ph (Some (e0 :: en)) false lc e = launch x o junk fuel ph2 (Some (e0 :: en)) false lc e.
Proof.
  intros x o junk fuel ph ph2 e0 en lc e H1 H2 H3 H4 H5 H6 H7 F.
  assert (B : existsb (fun v : R => (Rltb v 1 || Rltb 100 v)%bool) (e0 :: en) = false).
  { clear - F. induction F; [reflexivity|]. cbn [existsb]. rewrite IHF, !Rltb_false by lra. reflexivity. }
  unfold launch. rnum. rewrite B. cbn [orb].
  assert (S : forall (f : photon R -> RM (Z * photon R * @weights_out R)) a b, ph_en a = ph_en b -> launch_reset a = launch_reset b ->
    (forall p q e, launch_reset p = launch_reset q -> f p e = f q e) ->
    bind (photon_scatf x o a) f e = bind (photon_scatf x o b) f e).
  { intros f a b E1 E2 Ef. unfold photon_scatf. rewrite E1. destruct (orb _ _); unfold bind, report, ret; apply Ef; [exact E2|].
    assert (C : forall am sc (q : photon R), launch_reset (set_cs am sc q) = set_cs am sc (launch_reset q)) by reflexivity.
    rewrite !C, E2. reflexivity. }
  apply S; [reflexivity| |intros p q e' E; rewrite E; reflexivity]. clear S. unfold launch_reset, set_edir, set_exit, launch_init. cbn. congruence.
Qed.

(** C49 is false: relaunching the photon a launch returned doubles its travelled distance
    (and starts with the electric vector the first launch left). *)
Theorem C49_relaunch_refuted :
  forall lm, libm_std lm ->
  exists ph1 w1 ph2 w2,
    run lm seven 200 (new_photon (mkV 0.12 0 1.7)%float (mkV (-0.1) 0 1)%float) true = Ret (1%Z, ph1, w1, None) /\
    run lm seven 200 ph1 true = Ret (1%Z, ph2, w2, None) /\
    ph_start ph1 = ph_start ph2 /\ ph_sdir ph1 = ph_sdir ph2 /\
    PrimFloat.ltb (ph_dtravel ph1) (ph_dtravel ph2) = true.
Proof.
  intros lm L. rewrite <- (libm_std_patch _ L).
  let r := eval vm_compute in (run (patch lm) seven 200 (new_photon (mkV 0.12 0 1.7)%float (mkV (-0.1) 0 1)%float) true) in
  match r with Ret (_, ?p, ?w, _) => exists p, w;
    let r2 := eval vm_compute in (run (patch lm) seven 200 p true) in
    match r2 with Ret (_, ?p2, ?w2, _) => exists p2, w2 end end.
  split; [vm_compute; reflexivity|]. split; [vm_compute; reflexivity|]. repeat split.
Qed.

(** ** The hypotheses are met *)
(** A tapered mono-capillary with a photon in its channel, in exact arithmetic. *)
Definition taperR : optic R := mkOptic (mkProfile 2 [0;1;2] [1/2;2/5;3/10] [1;1;1]) 1%Z 0 2 [14%Z] [1].
Definition photonR : photon R := mkPhoton (mkV 0 (1/5) 0) (mkV 0 (1/4) 1) (mkV 1 0 0) (mkV 0 (1/5) 0) (mkV 0 (1/4) 1) (mkV 1 0 0) [] [] None None 0 0 [] [].
Lemma taperR_wf : wf_optic taperR /\ wf_material taperR /\ (1 <= o_ncap taperR)%Z /\ dot (ph_sdir photonR) (ph_sdir photonR) <> 0.
Proof.
  split; [repeat split; cbn; lia|]. split; [|split; [cbn; lia|unfold dot; cbn; lra]].
  split; [cbn; lra|]. split; [discriminate|]. cbn. constructor; [|constructor]. cbn. split; [lra|lia].
Qed.
Example launch_example : forall (x : xraylib R) junk fuel, (forall z en, 0 <= cs_total x z en) ->
  exists code ph' v e', launch x taperR junk (S fuel) photonR (Some [10]) false false None = Ret (code, ph', Some [Some v], e').
Proof.
  intros x junk fuel Cs. destruct taperR_wf as (W & M & _).
  destruct (C94_launch_returns x taperR junk fuel photonR (Some [10]) false None W M) as (code & ph' & w & e' & K).
  exists code, ph'. assert (P : exists ws, w = Some (map Some ws)).
  { revert K. generalize (@None Z). revert e' code ph' w. 
    enough (P : post (launch x taperR junk (S fuel) photonR (Some [10]) false false) (fun r => exists ws, snd r = Some (map Some ws))).
    { intros e' code ph' w e K. exact (P _ _ _ K). }
    unfold launch. rnum. cbn [existsb]. rewrite !Rltb_false by lra. cbn [orb].
    assert (N1 : (n_shells (o_ncap taperR) : R) = 0) by (cbn; change 0 with (IZR 0); apply n_shells_char; lia). rewrite N1.
    eapply post_bind with (P := fun ph1 => ph_start ph1 = mkV 0 (1/5) 0). { unfold photon_scatf. destruct (orb _ _); [eapply post_seq; intros _|]; apply post_ret; reflexivity. }
    intros ph1 P1. assert (Q1 : ph_start (launch_reset ph1) = mkV 0 (1/5) 0) by exact P1. rewrite Q1. cbn [vx vy vz].
    rewrite (Rltb_false 0 0) by lra. eapply post_bind with (P := fun z => z = O); [apply post_ret; reflexivity|]. intros ? ->.
    eapply post_bind with (P := fun e => e = 1).
    { unfold launch_ext. cbn [p_ext p_z o_prof taperR]. rnum. intros e a e' K. unfold bind, rd, ret in K. cbn [nth_error] in K. injection K as <- <-. field. }
    intros ? ->. destruct (Reqb_spec 0 0) as [_|N]; [|contradiction].
    assert (S1 : R_sqrt.sqrt (0 * 0 + 1 / 5 * (1 / 5)) = 1 / 5) by (replace (0 * 0 + 1 / 5 * (1 / 5)) with (1 / 5 * (1 / 5)) by ring; apply sqrt_square; lra).
    rewrite S1. rewrite (Rltb_false 1) by lra. cbn [negb].
    eapply post_bind with (P := fun t => t = (true, 0, 0)); [apply post_ret; reflexivity|]. intros ? ->. cbn [negb].
    eapply post_bind; [apply launch_axes_nth|]. intros axes (Lx & Hx). eapply post_seq; intros ix.
    eapply post_bind with (P := fun t => t = (1 / 2, 0, 0)).
    { intros e a e' K. destruct (Hx O ltac:(cbn; lia)) as (ex & Ex & Nx). unfold bind, rd, ret in K. cbn [nth_error p_cap o_prof taperR] in K.
      destruct axes as [|[ax ay] axes]; [discriminate|]. cbn [nth_error] in K. cbn [nth] in Nx. injection K as <- <-. injection Nx as -> ->.
      unfold axis_x, axis_y. rnum. f_equal; [f_equal|]; ring. }
    intros ? ->. replace ((0 - 0) * (0 - 0) + (1 / 5 - 0) * (1 / 5 - 0)) with (0 * 0 + 1 / 5 * (1 / 5)) by ring. rewrite S1. rewrite (Rltb_false (1 / 2)) by lra.
    eapply post_seq; intros [ie ph3]. apply post_ret. cbn [snd]. eauto. }
  destruct P as (ws & ->).
  destruct (launch_conserves x taperR junk (S fuel) photonR [10] false false Cs eq_refl _ _ _ K) as [[_ E']|H]; [discriminate|].
  destruct (H O) as (_ & _ & H1 & _). rewrite map_length in H1. destruct ws as [|v [|? ?]]; try discriminate. exists v, e'. exact K.
Qed.

(** A reflection in a concrete run (a toy libm; the real one is not computable here). *)
Definition toy : libm := patch {| f_exp := fun _ => 1%float; f_sin := fun x => x; f_cos := fun _ => 1%float; f_tan := fun x => x;
                                  f_atan := fun x => x; f_acos := fun _ => 1%float |}.
Example C35_bounce_example :
  exists ph' v, run toy conical 50 (new_photon (mkV 0 0.2 0)%float (mkV 0 0.25 1)%float) false = Ret (1%Z, ph', Some [Some v], None) /\
    ph_irefl ph' = 1%Z /\ PrimFloat.ltb (vy (ph_edir ph')) 0 = true /\ PrimFloat.ltb (ph_dtravel ph') 0.89 = true /\ PrimFloat.ltb 0.88 (ph_dtravel ph') = true.
Proof.
  let r := eval vm_compute in (run toy conical 50 (new_photon (mkV 0 0.2 0)%float (mkV 0 0.25 1)%float) false) in
  match r with Ret (_, ?p, Some [Some ?v], _) => exists p, v end.
  split; [vm_compute; reflexivity|]. vm_compute. repeat split.
Qed.

Print Assumptions C91_codes.
Print Assumptions C91_bad_arguments.
Print Assumptions C29_silent_failure_refuted.
Print Assumptions C92_weights_delivered.
Print Assumptions C30_uninitialised_weights_refuted.
Print Assumptions C31_weights_are_probabilities.
Print Assumptions C37_conservation.
Print Assumptions C37_one_interaction.
Print Assumptions C35_specular_path.
Print Assumptions C35_mirror_unique.
Print Assumptions C94_launch_returns.
Print Assumptions C38_parallel_photon_refuted.
Print Assumptions C38_steep_photon_refuted.
Print Assumptions C59_parallel_photon_absorbed_refuted.
Print Assumptions C58_exit_coordinates_refuted.
Print Assumptions C60_bad_composition_refuted.
Print Assumptions C103_depends.
Print Assumptions C49_relaunch_refuted.
