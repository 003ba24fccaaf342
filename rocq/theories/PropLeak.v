(** * Properties of the leaks (C29, C49, C70-C73)

    Theorems over R describe exact arithmetic; the refutations run the binary64 model. *)
From Coq Require Import ZArith List Bool Lia Reals Lra Psatz Floats.
From Verif Require Import Num Geometry SpecGeom SpecPhoton RM RMLogic CapilModel TraceModel LaunchModel SpecRay SpecPath SpecLeak
  RingProofs HexProofs CapilReal NormalReal FresnelReal WeightProofs TraceProofs SafeProofs PathProofs LeakProofs LeakProofs2 LeakProofs3 LeakProofs4
  ProfileFloat Libm PropLaunch.
Import ListNotations.
Set Warnings "-inexact-float".
Local Open Scope R_scope.

(** ** C29: a photon that misses the optic *)
(** With usable arguments, a launch returns -2 exactly for the photons that start outside the
    outline of the optic at their height: the circle (mono-capillary, zero shells) or the
    hexagon of the interpolated outer radius [e]. *)
Theorem C91_outside_the_optic :
  forall (x : xraylib R) (o : optic R) junk fuel (ph : photon R) en lc er code ph' w er' e,
  wf_optic o -> (forall k zk, (0 < k)%nat -> nth_error (p_z (o_prof o)) k = Some zk -> 0 < zk) ->
  en <> [] -> Forall (fun v => 1 <= v <= 100) en ->
  launch x o junk fuel ph (Some en) false lc er = Ret (code, ph', w, er') ->
  outline_at (o_prof o) (vz (ph_start ph)) e -> 0 < e ->
  code = (-2)%Z <->
  (if Req_EM_T (n_shells (o_ncap o)) 0 then e < len2 (vx (ph_start ph)) (vy (ph_start ph))
   else ~ in_hexagon e (vx (ph_start ph)) (vy (ph_start ph))).
Proof. intros x o junk fuel ph en lc er code ph' w er' e W Ab Ne Fe K Oe Pe. exact (launch_start_test x o junk fuel ph en lc W Ab Ne Fe _ _ _ K e Oe Pe). Qed.

(** The height of an outline: one value for each height. *)
Theorem C91_outline_determined : forall p z e e', outline_at p z e -> outline_at p z e' -> e = e'.
Proof. exact outline_unique. Qed.

(** ** C49: what a photon keeps after a launch *)
Theorem C103_released :
  forall (x : xraylib R) (o : optic R) junk fuel (ph : photon R) en wnull lc er code ph' w er',
  launch x o junk fuel ph en wnull lc er = Ret (code, ph', w, er') -> w <> None ->
  ph_en ph' = [] /\ ph_w ph' = [] /\ ph_amu ph' = None /\ ph_scatf ph' = None.
Proof. intros x o junk fuel ph en wnull lc er code ph' w er' K. exact (launch_releases x o junk fuel ph en wnull lc _ _ _ K). Qed.

(** ** C70: where the light goes *)
(** Everything a launch reports about the intensities follows the optics of SpecLeak:
    - transmitted (1): the photon started in a capillary and the delivered weights are what
      is left of it after its reflections, the recorded leaks are those of the light that
      entered the glass at each of them (and of its offspring); or it started inside the
      glass (leak calculation, beyond the entrance), and the leaks are where it came out;
    - absorbed (0): the same, until the reflected light became insignificant;
    - hit the glass of the entrance (2): the part not reflected there leaked, or nothing
      was recorded. *)
Theorem C70_light_is_accounted_for_partial :
  forall (x : xraylib R) (o : optic R) junk fuel (ph : photon R) en wnull lc er code ph' w er',
  wf_optic o -> positive o -> (1 <= o_ncap o)%Z -> dot (ph_sdir ph) (ph_sdir ph) <> 0 -> ph_amu ph = None ->
  launch x o junk fuel ph (Some en) wnull lc er = Ret (code, ph', w, er') ->
  let p := o_prof o in let sh := n_shells (o_ncap o) in let mu := map (xl_amu x o) en in
  let u := along (ph_sdir ph) in let full := map (fun _ => 1) en in
  let s0 := mkRay (ph_start ph) u 0 (ph_dtravel ph) in
  (code = 1%Z ->
     (exists q r ws, let c := capillary_of p sh q r in in_channel c (ph_start ph) /\ w = Some (map Some ws) /\
        shines p sh mu lc c s0 full (ph_ext ph') (ph_int ph') (mkRay (ph_exit ph') (ph_edir ph') (ph_irefl ph') (ph_dtravel ph')) ws) \/
     (lc = true /\ 0 < vz (ph_start ph) /\ w = Some (map (fun _ => None) en) /\
        emerges p sh mu lc (ph_start ph) u (ph_dtravel ph) full (ph_ext ph') (ph_int ph'))) /\
  (code = 0%Z -> exists q r, let c := capillary_of p sh q r in in_channel c (ph_start ph) /\ fades p sh mu lc c s0 full (ph_ext ph') (ph_int ph')) /\
  (code = 2%Z -> (ph_ext ph' = [] /\ ph_int ph' = []) \/
     (lc = true /\ vz (ph_start ph) = 0 /\ exists r g, splits full r g /\ spills p sh mu lc (ph_start ph) u 0 (ph_dtravel ph) g (ph_ext ph') (ph_int ph'))).
Proof.
  intros x o junk fuel ph en wnull lc er code ph' w er' W Ps Hc Hd Am K.
  destruct (launch_light x o junk fuel ph en wnull lc W Ps Hc Hd Am _ _ _ K) as (H0 & H1 & H2). split; [exact H1|]. split; [exact H0|exact H2].
Qed.

(** *** Concrete runs *)
(** A libm computed with power series (about 1e-14 accurate for the arguments used here). *)
Section Series.
Local Open Scope float_scope.
Fixpoint alt (n : nat) (k t x2 : float) : float := match n with O => 0 | S n => t + alt n (k + 2) (0 - t * x2 / ((k + 1) * (k + 2))) x2 end.
Fixpoint exps (n : nat) (k t x : float) : float := match n with O => 0 | S n => t + exps n (k + 1) (t * x / (k + 1)) x end.
Fixpoint exp2 (k : nat) (x : float) : float := match k with O => exps 25 0 1 x | S k => let y := exp2 k (x / 2) in y * y end.
Fixpoint atans (n : nat) (k t x2 : float) : float := match n with O => 0 | S n => t / k + atans n (k + 2) (0 - t * x2) x2 end.
Fixpoint atan2 (k : nat) (x : float) : float := match k with O => atans 25 1 x (x * x) | S k => 2 * atan2 k (x / (1 + PrimFloat.sqrt (1 + x * x))) end.
Definition series : libm := patch
  {| f_exp := exp2 8; f_sin := fun x => alt 20 1 x (x * x); f_cos := fun x => alt 20 0 1 (x * x);
     f_tan := fun x => alt 20 1 x (x * x) / alt 20 0 1 (x * x); f_atan := atan2 4;
     f_acos := fun x => 2 * atan2 4 (PrimFloat.sqrt ((1 - x) / (1 + x))) |}.
End Series.
Lemma series_std : libm_std series.
Proof. apply patch_std. Qed.

(** Little absorption. *)
Definition clear_glass : xraylib float := {| cs_total := fun _ _ => 0.001%float; fi := fun _ _ => 0%float; atomic_weight := fun _ => 28%float |}.
Definition run_clear (o : optic float) (ph : photon float) := @launch float (FNum series) clear_glass o nulls 4000 ph (Some [10%float]) false true None.
(** Seven straight capillaries of radius 0.2, pitch 0.5, length 200, outer radius 1. *)
Definition long7 : optic float := mkOptic (mkProfile 2 [0;100;200]%float [0.2;0.2;0.2]%float [1;1;1]%float) 7%Z 0%float 2%float [14%Z] [1%float].
Definition thick1 : optic float := mkOptic (mkProfile 2 [0;1;2]%float [0.2;0.2;0.2]%float [1;1;1]%float) 1%Z 0%float 2%float [14%Z] [1%float].

Definition flt (a b : float) : Prop := PrimFloat.ltb a b = true.

(** C70 is not vacuous: a photon reflected twice, with three leaks. *)
Example C70_example :
  exists ph' v l1 l2 l3, run_clear long7 (new_photon (mkV 0.55 0 0)%float (mkV (-0.004) 0 1)%float) = Ret (1%Z, ph', Some [Some v], None) /\
    ph_irefl ph' = 2%Z /\ ph_ext ph' = [] /\ ph_int ph' = [l1; l2; l3].
Proof.
  let r := eval vm_compute in (run_clear long7 (new_photon (mkV 0.55 0 0)%float (mkV (-0.004) 0 1)%float)) in
  match r with Ret (_, ?p, Some [Some ?v], _) => exists p, v; let l := eval vm_compute in (ph_int p) in match l with [?a; ?b; ?c] => exists a, b, c end end.
  split; [vm_compute; reflexivity|]. vm_compute. repeat split.
Qed.

(** ** C71: a leak records the direction in which, and the number of reflections after which, its light leaves *)
(** False for light that leaves through another capillary.  In the run of C70_example the
    light that entered the glass at the first reflection (x = 0.3) crosses the central
    capillary, is reflected at its far wall (x = -0.2, height 187.5) and leaves the exit at
    x = -0.15, to the right of that wall: it travels to the right, after one reflection.
    What is recorded for it: a direction to the left, no reflection. *)
Theorem C71_leak_direction_refuted :
  exists lm, libm_std lm /\
  exists ph' w l1 l l3, @launch float (FNum lm) clear_glass long7 nulls 4000 (new_photon (mkV 0.55 0 0)%float (mkV (-0.004) 0 1)%float) (Some [10%float]) false true None
      = Ret (1%Z, ph', w, None) /\
    ph_int ph' = [l1; l; l3] /\
    (* it left at the exit, right of the wall of the central capillary *)
    PrimFloat.eqb (vz (lk_coords l)) 200 = true /\ flt (-0.151) (vx (lk_coords l)) /\ flt (vx (lk_coords l)) (-0.149) /\
    (* the straight line from the first reflection along the recorded direction ends at x = -0.25 *)
    flt (0.3 + vx (lk_dir l) / vz (lk_dir l) * (200 - 62.5)) (-0.249) /\
    flt (vx (lk_dir l)) 0 /\ lk_nrefl l = 0%Z.
Proof.
  exists series. split; [exact series_std|].
  let r := eval vm_compute in (run_clear long7 (new_photon (mkV 0.55 0 0)%float (mkV (-0.004) 0 1)%float)) in
  match r with Ret (_, ?p, ?w, _) => exists p, w; let l := eval vm_compute in (ph_int p) in match l with [?a; ?b; ?c] => exists a, b, c end end.
  split; [vm_compute; reflexivity|]. unfold flt. vm_compute. repeat split.
Qed.

(** ** C72: leaks through the side lie on the outer surface *)
(** What holds of the function that is to find the point: it lies on the ray, and its height
    lies in a segment of the profile. *)
Theorem C72_point_on_the_ray_partial :
  forall (p : profile R) (a u : vec3 R) er v er',
  (forall i z0 z1, nth_error (p_z p) i = Some z0 -> nth_error (p_z p) (S i) = Some z1 -> z0 <= z1) ->
  pc_intersect a u p er = Ret (Some v, er') ->
  on_line a u v /\ exists i z0 z1, nth_error (p_z p) i = Some z0 /\ nth_error (p_z p) (S i) = Some z1 /\ z0 <= vz v <= z1.
Proof. intros p a u er v er' Cl K. exact (pc_intersect_fact p a u Cl _ _ _ K). Qed.

(** False: a straight optic whose hexagon has apothem 0.866.  A photon starts in its glass,
    at y = 0.2, and goes up with slope 1: it reaches the surface at y = 0.866, height
    0.766.  The leak is recorded at y = 1.1, height 1: outside of the optic.  (The height is
    interpolated in the outer radii instead of the heights: for a straight optic the
    "height" found is always its outer radius.) *)
Theorem C72_side_leak_position_refuted :
  forall lm, libm_std lm ->
  exists ph' w l, run lm seven 200 (new_photon (mkV 0 0.2 0.1)%float (mkV 0 1 1)%float) true = Ret (1%Z, ph', w, None) /\
    ph_ext ph' = [l] /\ ph_int ph' = [] /\ flt 1.09 (vy (lk_coords l)) /\ flt 0.99 (vz (lk_coords l)).
Proof. intros lm L. unfold flt. run_it L. do 3 eexists. split; [reflexivity|]. repeat split. Qed.

(** And a leak recorded in the middle of the optic (y = 0.5): light from the central
    capillary through its wall at y = 0.2, towards the side at y = 0.866. *)
Theorem C72_side_leak_inside_refuted :
  exists lm, libm_std lm /\
  exists ph' w l, @launch float (FNum lm) xl (mkOptic (mkProfile 4 [0;1;2;3;4] [0.2;0.2;0.2;0.2;0.2] [1;1;1;1;1])%float 7%Z 0%float 2%float [14%Z] [1%float]) nulls 400
      (new_photon (mkV 0 0.1 0)%float (mkV 0 0.4 1)%float) (Some [10%float]) false true None = Ret (0%Z, ph', w, None) /\
    ph_ext ph' = [l] /\ ph_int ph' = [] /\ PrimFloat.eqb (vy (lk_coords l)) 0.5 = true /\ PrimFloat.eqb (vz (lk_coords l)) 1 = true.
Proof.
  exists series. split; [exact series_std|].
  match goal with |- exists ph' w l, ?t = _ /\ _ => let r := eval vm_compute in t in
    match r with Ret (_, ?p, ?w, _) => exists p, w; let l := eval vm_compute in (ph_ext p) in match l with [?a] => exists a end end end.
  split; [vm_compute; reflexivity|]. vm_compute. repeat split.
Qed.

(** ** C73: leaks through the exit lie in the exit plane *)
(** False: seven capillaries, exit at height 2.  A photon in the glass outside of the outermost
    ring of capillaries, at x = 0.74, going outwards slowly, is recorded at height 0.61:
    where it left the hexagonal cell of its capillary. *)
Theorem C73_exit_leak_position_refuted :
  forall lm, libm_std lm ->
  exists ph' w l, run lm seven 200 (new_photon (mkV 0.74 0 0.1)%float (mkV 0.02 0 1)%float) true = Ret (1%Z, ph', w, None) /\
    ph_ext ph' = [] /\ ph_int ph' = [l] /\ flt (vz (lk_coords l)) 0.62.
Proof. intros lm L. unfold flt. run_it L. do 3 eexists. split; [reflexivity|]. repeat split. Qed.

(** Also for a mono-capillary: a photon in the glass beside the last segment, heading for the
    channel, is recorded as leaving the exit (height 2) where it enters the channel, at
    height 1.5. *)
Theorem C73_mono_exit_leak_refuted :
  forall lm, libm_std lm ->
  exists ph' w l, run lm thick1 200 (new_photon (mkV 0.5 0 1.2)%float (mkV (-1) 0 1)%float) true = Ret (1%Z, ph', w, None) /\
    ph_ext ph' = [] /\ ph_int ph' = [l] /\ PrimFloat.eqb (vz (lk_coords l)) 1.5 = true.
Proof. intros lm L. run_it L. do 3 eexists. split; [reflexivity|]. repeat split. Qed.

(** ** The hypotheses are met *)
Lemma taperR_positive : positive taperR.
Proof. split; cbn; repeat constructor; lra. Qed.
Lemma taperR_outline : outline_at (o_prof taperR) (vz (ph_start photonR)) 1.
Proof.
  exists O, 0, 1, 1, 1. cbn. repeat split; auto; try lia.
  - intros k zk [K1 K2] E. assert (k = 1%nat) by lia. subst k. cbn in E. injection E as <-. lra.
  - unfold lin. field.
Qed.
Example C29_outside_example : forall (x : xraylib R) junk fuel,
  exists code ph' w er', launch x taperR junk (S fuel) photonR (Some [10]) false false None = Ret (code, ph', w, er') /\ code <> (-2)%Z.
Proof.
  intros x junk fuel. destruct taperR_wf as (W & M & _).
  destruct (C94_launch_returns x taperR junk fuel photonR (Some [10]) false None W M) as (code & ph' & w & e' & K).
  exists code, ph', w, e'. split; [exact K|]. intros C.
  assert (Fe : Forall (fun v => 1 <= v <= 100) [10]) by (constructor; [lra|constructor]).
  apply (C91_outside_the_optic x taperR junk (S fuel) photonR [10] false None code ph' w e' 1 W) in K; [| |discriminate|exact Fe|exact taperR_outline|lra].
  - apply K in C. revert C. destruct (Req_EM_T _ 0) as [_|N].
    + unfold len2. cbn. intros C. replace (0 * 0 + 1 / 5 * (1 / 5)) with (1 / 5 * (1 / 5)) in C by ring. rewrite sqrt_square in C; lra.
    + exfalso. apply N. cbn [o_ncap taperR]. change 0 with (IZR 0). apply n_shells_char; lia.
  - intros k zk Hk E. cbn in E. destruct k as [|[|[|k]]]; cbn in E; [lia|injection E as <-; lra|injection E as <-; lra|destruct k; discriminate].
Qed.
Example C70_hypotheses : wf_optic taperR /\ positive taperR /\ (1 <= o_ncap taperR)%Z /\ dot (ph_sdir photonR) (ph_sdir photonR) <> 0 /\ ph_amu photonR = None.
Proof. destruct taperR_wf as (A & _ & B & C). split; [exact A|]. split; [exact taperR_positive|]. split; [exact B|]. split; [exact C|reflexivity]. Qed.
(** A profile on which the intersection with the outer surface is computed: binary64. *)
Example C72_example : exists v, @pc_intersect float (FNum series) (mkV 0 2 2)%float (mkV 0 0.6 1)%float (mkProfile 2 [0;1;2]%float [0.2;0.2;0.2]%float [1;1;1]%float) None = Ret (Some v, None).
Proof. eexists. vm_compute. reflexivity. Qed.

Print Assumptions C91_outside_the_optic.
Print Assumptions C103_released.
Print Assumptions C70_light_is_accounted_for_partial.
Print Assumptions C71_leak_direction_refuted.
Print Assumptions C72_point_on_the_ray_partial.
Print Assumptions C72_side_leak_position_refuted.
Print Assumptions C73_exit_leak_position_refuted.
Print Assumptions C73_mono_exit_leak_refuted.
