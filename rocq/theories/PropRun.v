(** * Theorems about polycap_source_get_transmission_efficiencies *)
From Coq Require Import Reals ZArith List Bool Lia Lra Permutation.
From Verif Require Import Num Geometry SpecPhoton RM CapilModel TraceModel LaunchModel SourceModel RunModel
  TeamProofs RunProofs EffectProofs FinalProofs SpecRun SimProofs WeightProofs PropLaunch.
Import ListNotations.

Definition field_eq_dec (f g : field) : {f = g} + {f <> g}.
Proof. decide equality. apply Nat.eq_dec. Defined.

(** ** C41 *)
Section C41.
Context {T : Type} {N : Num T}.

Lemma weight_action_in j (w : list T) : forall k i v, nth_error w i = Some v -> In (AStore (FWeight (k + i)) j (ED v)) (weight_actions j k w).
Proof.
  induction w as [|u w IH]; intros k i v E; destruct i as [|i]; cbn in E; try discriminate.
  - injection E as ->. rewrite Nat.add_0_r. left. auto.
  - right. rewrite Nat.add_succ_r, <- Nat.add_succ_l. auto.
Qed.

Lemma job_w_last ne (l fs : list (attempt T * Z)) a i : l = fs ++ [(a, i)] -> length (job_w ne l) = ne ->
  firstn ne (at_w a) = map Some (job_w ne l).
Proof.
  intros -> L. unfold job_w in *. rewrite rev_app_distr in *. cbn [rev app] in *.
  assert (H : forall u : list (option T), length (flat_map (fun x => match x with Some v => [v] | None => [] end) u) = length u ->
     u = map Some (flat_map (fun x => match x with Some v => [v] | None => [] end) u)).
  { assert (Le : forall u : list (option T), length (flat_map (fun x => match x with Some v => [v] | None => [] end) u) <= length u).
    { induction u as [|[v|] u IH]; cbn in *; lia. }
    induction u as [|[v|] u IH]; cbn; intros E; auto.
    - f_equal. apply IH. cbn in E. lia.
    - specialize (Le u). lia. }
  apply H. 
  assert (Le : forall u : list (option T), length (flat_map (fun x => match x with Some v => [v] | None => [] end) u) <= length u).
  { induction u as [|[v|] u IH]; cbn in *; lia. }
  specialize (Le (firstn ne (at_w a))). pose proof (firstn_le_length ne (at_w a)). lia.
Qed.

Lemma nth_firstn {A} n : forall (l : list A) i, i < n -> nth_error (firstn n l) i = nth_error l i.
Proof. induction n as [|n IH]; intros [|a l] [|i] H; cbn; auto; try lia. apply IH. lia. Qed.

Lemma tallied_code c code (l : list (attempt T * Z)) :
  (c, code) = (CNotEntered, 2%Z) \/ (c, code) = (CNotTransmitted, 0%Z) -> length (filter (tallied c) l) = with_code code l.
Proof. intros [E|E]; injection E as -> ->; reflexivity. Qed.

Lemma launched_exit x o src en junk lc n (jobs : nat -> list (attempt T * Z)) :
  (forall j, j < n -> job_ok x o src en junk lc (jobs j)) -> length (filter (tallied CExit) (launched jobs n)) = n.
Proof.
  intros H. unfold launched. assert (G : forall l, (forall j, In j l -> j < n) -> length (filter (tallied CExit) (flat_map jobs l)) = length l).
  { induction l as [|j l IH]; intros Hl; cbn; auto. rewrite filter_app, app_length, IH by (intros; apply Hl; right; auto).
    destruct (job_exit _ _ _ _ _ _ _ (H j (Hl j (or_introl eq_refl)))) as (_ & _ & _ & _ & _ & ->). auto. }
  rewrite G; [apply seq_length|]. intros j Ij. apply in_seq in Ij. lia.
Qed.

(** On success exactly n exit records exist: slot j holds the data of the transmitted photon
    of iteration j, no other slot is written; exits and starts are counted. *)
Theorem C41_every_photon_recorded :
  forall (x : xraylib T) (o : optic T) (src : source_nums T) en junk lc n dist streams jobs open_before r,
  simulation x o src en junk lc n dist streams jobs open_before r ->
  re_exit r = Z.of_nat n /\
  re_start r = (Z.of_nat n + Z.of_nat (with_code 2 (launched jobs n)) + Z.of_nat (with_code 0 (launched jobs n)))%Z /\
  (exists zmax, nth_error (p_z (o_prof o)) (p_nmax (o_prof o)) = Some zmax /\
     forall j, j < n -> exists fs a, jobs j = fs ++ [(a, 1%Z)] /\ at_code a = 1%Z /\
       Forall (fun y => snd y <> 1%Z) fs /\ recorded (re_img r) (length en) zmax j a) /\
  (forall f j, n <= j -> re_img r f j = None) /\
  re_irefl r = fold_right Z.add 0%Z (map (fun j => match re_img r FNrefl j with Some (EI k) => k | _ => 0%Z end) (seq 0 n)).
Proof.
  intros x o src en junk lc n dist streams jobs ob r Sim.
  pose proof (simulation_jobs _ _ _ _ _ _ _ _ _ _ _ _ Sim) as Ok.
  destruct Sim as (Hn & Pd & Ls & Hj & progs & ths & s & Kt & St & D & ->).
  destruct (core _ _ _ _ _ _ _ _ _ Hn Pd Kt St D) as (z & sumw & Ez & Fj & Tot & Irefl & Img & NoImg & Psum & Esum & Leaks).
  unfold finish. cbn [re_exit re_start re_img re_irefl].
  rewrite !Tot, (launched_exit x o src en junk lc n jobs Ok).
  rewrite (tallied_code CNotEntered 2) by auto. rewrite (tallied_code CNotTransmitted 0) by auto.
  split; [auto|]. split; [auto|]. split; [|split].
  - exists z. split; [exact Ez|]. intros j Lj.
    destruct (job_exit _ _ _ _ _ _ _ (Ok j Lj)) as (fs & a & Ejob & Ec & Fs & _).
    exists fs, a. split; [auto|]. split; [auto|]. split.
    { eapply Forall_impl; [|exact Fs]. intros y Hy E. cbv beta in Hy. rewrite E in Hy. discriminate. }
    assert (Er : rev (jobs j) = (a, 1%Z) :: rev fs) by (rewrite Ejob, rev_app_distr; auto).
    specialize (Img j a 1%Z (rev fs) Lj Er).
    destruct (Fj j Lj) as [Lw _]. pose proof (job_w_last _ _ _ _ _ Ejob Lw) as Fw.
    assert (Img' : forall f e, In (AStore f j e) (stores z j a (job_w (length en) (jobs j))) -> sh_img s f j = Some e) by exact Img.
    unfold stores, exit_actions in Img'. cbn [bind rd nth_error ret o_prof p_z p_nmax app start_actions] in Img'.
    unfold recorded. 
    spl; try (apply Img'; cbn; rewrite in_app_iff; cbn; tauto).
    + exists (turned (ph_selec (at_ph a)) (ph_sdir (at_ph a)) (ph_selec (at_ph a)) (ph_sdir (at_ph a))).
      split; apply Img'; cbn; rewrite in_app_iff; cbn; tauto.
    + exists (turned (ph_selec (at_ph a)) (ph_sdir (at_ph a)) (ph_eelec (at_ph a)) (ph_edir (at_ph a))).
      split; apply Img'; cbn; rewrite in_app_iff; cbn; tauto.
    + intros i Li. assert (Hi : nth_error (job_w (length en) (jobs j)) i <> None) by (apply nth_error_Some; lia).
      destruct (nth_error (job_w (length en) (jobs j)) i) as [v|] eqn:Ev; [|congruence]. exists v. split.
      * rewrite <- (nth_firstn (length en)) by auto. rewrite Fw, nth_error_map, Ev. auto.
      * apply Img'. cbn. rewrite in_app_iff. do 8 right. left. apply (weight_action_in j _ 0 i v Ev).
  - intros f j Lj. apply NoImg. lia.
  - rewrite Irefl. f_equal. apply map_ext_in. intros j Ij. apply in_seq in Ij.
    destruct (job_exit _ _ _ _ _ _ _ (Ok j (proj2 Ij))) as (fs & a & Ejob & _).
    assert (Er : rev (jobs j) = (a, 1%Z) :: rev fs) by (rewrite Ejob, rev_app_distr; auto).
    rewrite (Img j a 1%Z (rev fs) (proj2 Ij) Er FNrefl (EI (ph_irefl (at_ph a)))).
    + unfold job_refl. rewrite Er. auto.
    + unfold stores, exit_actions. cbn. rewrite in_app_iff. cbn. tauto.
Qed.

(** ** C43 *)
(** Every leak event of a photon that was launched with outcome 0, 1 or 2 is in the result
    exactly once, and nothing else is; without leak calculation there is none. *)
Definition leaks_of (ls : photon T -> list (leak_data T)) (l : list (attempt T * Z)) : list (leak_data T) :=
  flat_map (fun y => if (Z.eqb (snd y) 0 || Z.eqb (snd y) 1 || Z.eqb (snd y) 2)%bool then ls (at_ph (fst y)) else []) l.

Lemma job_leaks_all ls (l fs : list (attempt T * Z)) a : l = fs ++ [(a, 1%Z)] -> Forall (fun y => again (snd y) = true) fs ->
  Permutation (leaks_of ls l) (job_leaks ls l).
Proof.
  intros -> F. unfold leaks_of, job_leaks. rewrite rev_app_distr. cbn [rev app]. rewrite rev_involutive, flat_map_app. cbn. rewrite app_nil_r.
  rewrite Permutation_app_comm. apply Permutation_app_head.
  induction F as [|[b i] fs Hb _ IH]; cbn; auto. apply Permutation_app; [|exact IH].
  unfold left_over. cbn in *. rewrite (again_not1 _ Hb), orb_false_r. auto.
Qed.

Theorem C43_no_leak_lost :
  forall (x : xraylib T) (o : optic T) (src : source_nums T) en junk lc n dist streams jobs open_before r,
  simulation x o src en junk lc n dist streams jobs open_before r ->
  (lc = true -> Permutation (re_ext r) (map Some (leaks_of ph_ext (launched jobs n))) /\
                Permutation (re_int r) (map Some (leaks_of ph_int (launched jobs n)))) /\
  (lc = false -> re_ext r = [] /\ re_int r = []) /\
  re_iext r = Z.of_nat (length (re_ext r)) /\ re_iint r = Z.of_nat (length (re_int r)).
Proof.
  intros x o src en junk lc n dist streams jobs ob r Sim.
  pose proof (simulation_jobs _ _ _ _ _ _ _ _ _ _ _ _ Sim) as Ok.
  destruct Sim as (Hn & Pd & Ls & Hj & progs & ths & s & Kt & St & D & ->).
  destruct (core _ _ _ _ _ _ _ _ _ Hn Pd Kt St D) as (z & sumw & Ez & Fj & Tot & Irefl & Img & NoImg & Psum & Esum & el & il & Pe & Ee & Le & Pi & Ei & Li).
  unfold finish. cbn [re_ext re_int re_iext re_iint]. rewrite Ee, Ei, Le, Li, !map_length.
  assert (Q : forall ls, Permutation (flat_map (job_leaks ls) (map jobs (seq 0 n))) (leaks_of ls (launched jobs n))).
  { intros ls. unfold launched. assert (G : forall l, (forall j, In j l -> j < n) -> Permutation (flat_map (job_leaks ls) (map jobs l)) (leaks_of ls (flat_map jobs l))).
    { induction l as [|j l IH]; intros Hl; cbn; auto. unfold leaks_of in *. rewrite flat_map_app. apply Permutation_app; [|apply IH; intros; apply Hl; right; auto].
      destruct (job_exit _ _ _ _ _ _ _ (Ok j (Hl j (or_introl eq_refl)))) as (fs & a & Ejob & _ & Fs & _).
      symmetry. eapply job_leaks_all; eauto. }
    apply G. intros j Ij. apply in_seq in Ij. lia. }
  split; [|split; [|auto]].
  - intros ->. split; apply Permutation_map; [rewrite <- Pe|rewrite <- Pi]; apply Q.
  - intros ->. apply Permutation_nil in Pe. apply Permutation_nil in Pi. subst. auto.
Qed.

(** Which attempts those are: every photon launched with return code 0, 1 or 2, provided the
    exit radius is positive.  (Photons with code -1 or -2 contribute nothing.) *)
Theorem C43_which_photons :
  forall (x : xraylib T) (o : optic T) (src : source_nums T) en junk lc n dist streams jobs open_before r,
  simulation x o src en junk lc n dist streams jobs open_before r ->
  (forall e, nth_error (p_ext (o_prof o)) (p_nmax (o_prof o)) = Some e -> nleb e (nofZ 0) = false) ->
  forall y, In y (launched jobs n) ->
  (In (at_code (fst y)) [0; 1; 2]%Z <-> In (snd y) [0; 1; 2]%Z).
Proof.
  intros x o src en junk lc n dist streams jobs ob r Sim Hpos y Iy.
  pose proof (simulation_jobs _ _ _ _ _ _ _ _ _ _ _ _ Sim) as Ok.
  unfold launched in Iy. apply in_flat_map in Iy. destruct Iy as (j & Ij & Iy). apply in_seq in Ij.
  destruct (Ok j (proj2 Ij)) as (F & _). rewrite Forall_forall in F. destruct (F y Iy) as (_ & Kc). clear -Kc Hpos.
  destruct y as [a i]. cbn [fst snd] in *. unfold classify in Kc. destruct (Z.eqb_spec (at_code a) 1) as [E|E].
  - rewrite E. split; [intros _|intros _; cbn; auto]. unfold bind, rd in Kc.
    destruct (nth_error (p_z _) _); [|discriminate]. destruct (nth_error (p_ext _) _) as [ex|] eqn:Ex; [|discriminate]. cbn in Kc.
    destruct (neqb _ _).
    + injection Kc as <-. destruct (nltb _ _); cbn; auto.
    + unfold quiet, within_e, bind in Kc. rewrite (Hpos ex eq_refl) in Kc. cbn in Kc. injection Kc as <-.
      unfold within_pc_boundary. rewrite (Hpos ex eq_refl). repeat destruct (nltb _ _); cbn; auto.
  - injection Kc as <-. tauto.
Qed.

(** ** C44 *)
(** The open area stored in the description by an earlier run has no influence. *)
Theorem C44_earlier_runs_do_not_matter :
  forall (x : xraylib T) (o : optic T) (src : source_nums T) en junk lc n dist streams jobs before before' r,
  simulation x o src en junk lc n dist streams jobs before r ->
  simulation x o src en junk lc n dist streams jobs before' r.
Proof.
  intros x o src en junk lc n dist streams jobs b b' r (Hn & Pd & Ls & Hj & progs & ths & s & Kt & St & D & ->).
  split; [auto|]. split; [auto|]. split; [auto|]. split; [auto|]. exists progs, ths, s. auto.
Qed.
End C41.

(** ** Sums over the reals *)
Local Open Scope R_scope.
Definition rsum {A} (f : A -> R) (l : list A) : R := fold_right Rplus 0 (map f l).
Lemma rsum_app {A} (f : A -> R) l l' : rsum f (l ++ l') = rsum f l + rsum f l'.
Proof. unfold rsum. induction l as [|a l IH]; cbn; [lra|]. rewrite IH. lra. Qed.
Lemma rsum_perm {A} (f : A -> R) l l' : Permutation l l' -> rsum f l = rsum f l'.
Proof. unfold rsum. induction 1; cbn; lra. Qed.
Lemma rsum_ext {A} (f g : A -> R) l : (forall a, In a l -> f a = g a) -> rsum f l = rsum g l.
Proof. unfold rsum. intros H. f_equal. apply map_ext_in. auto. Qed.

Lemma vec_add_nth (a b : list R) i : length b = length a -> nth i (vec_add a b) 0 = nth i a 0 + nth i b 0 /\ length (vec_add a b) = length a.
Proof.
  revert b i. induction a as [|x a IH]; intros [|y b] i L; cbn in *; try discriminate.
  - destruct i; split; auto; lra.
  - destruct (IH b (pred i) (eq_add_S _ _ L)) as [H1 H2]. split; [|now rewrite H2]. destruct i; [auto|]. exact H1.
Qed.
Lemma fold_vec_add_nth ws : forall (a : list R) i, Forall (fun w => length w = length a) ws ->
  nth i (fold_left vec_add ws a) 0 = nth i a 0 + rsum (fun w => nth i w 0) ws /\ length (fold_left vec_add ws a) = length a.
Proof.
  unfold rsum. induction ws as [|w ws IH]; intros a i F; cbn; [split; auto; lra|].
  inversion F as [|? ? Lw Fw]; subst. destruct (vec_add_nth a w i Lw) as [E1 E2].
  destruct (IH (vec_add a w) i) as [H1 H2]; [rewrite E2; auto|]. rewrite H1, H2, E1, E2. split; [lra|auto].
Qed.
Lemma nth_zeros i n : nth i (repeat 0 n) 0 = 0.
Proof. revert i. induction n; intros [|i]; cbn; auto. Qed.

(** The weight sums do not depend on distribution or schedule. *)
Lemma sumw_closed ne (jobs : nat -> list (attempt R * Z)) dist n sumw i :
  Permutation (concat dist) (seq 0 n) ->
  (forall j, (j < n)%nat -> length (job_w ne (jobs j)) = ne) ->
  Permutation (map (t_w ne jobs) dist) sumw ->
  nth i (fold_left vec_add sumw (repeat 0 ne)) 0 = rsum (fun j => nth i (job_w ne (jobs j)) 0) (seq 0 n) /\
  length (fold_left vec_add sumw (repeat 0 ne)) = ne.
Proof.
  intros Pd Lw Ps.
  assert (Fd : Forall (Forall (fun j => length (job_w ne (jobs j)) = ne)) dist).
  { apply Forall_forall. intros js Ijs. apply Forall_forall. intros j Ij. apply Lw.
    assert (In j (concat dist)) by (apply in_concat; eauto). apply (Permutation_in _ Pd) in H. apply in_seq in H. lia. }
  assert (Ht : forall js, Forall (fun j => length (job_w ne (jobs j)) = ne) js ->
     length (t_w ne jobs js) = ne /\ nth i (t_w ne jobs js) 0 = rsum (fun j => nth i (job_w ne (jobs j)) 0) js).
  { intros js F. unfold t_w. destruct (fold_vec_add_nth (map (fun j => job_w ne (jobs j)) js) (repeat (nofZ 0) ne) i) as [H1 H2].
    - rewrite repeat_length. apply Forall_map. auto.
    - rewrite H1, H2, repeat_length. split; [auto|]. cbn. rewrite nth_zeros, Rplus_0_l. unfold rsum. now rewrite map_map. }
  destruct (fold_vec_add_nth sumw (repeat 0 ne) i) as [H1 H2].
  - rewrite repeat_length. eapply Permutation_Forall; [exact Ps|]. apply Forall_map. eapply Forall_impl; [|exact Fd]. intros js F. apply Ht. auto.
  - rewrite H1, H2, repeat_length, nth_zeros, Rplus_0_l. split; [|auto].
    rewrite <- (rsum_perm _ _ _ Ps), <- (rsum_perm _ _ _ Pd). clear -Fd Ht. induction Fd as [|js dist F _ IH]; cbn [map concat]; auto.
    rewrite rsum_app, <- IH, <- (proj2 (Ht js F)). reflexivity.
Qed.

Lemma list_eq_nth (l l' : list R) : length l = length l' -> (forall i, nth i l 0 = nth i l' 0) -> l = l'.
Proof. intros L H. apply (nth_ext _ _ 0 0); auto. Qed.

(** ** C40 *)
(** Whatever the number of threads, the distribution of the photons over the threads and the
    schedule: the same attempts give the same result (exact arithmetic). *)
Theorem C40_schedule_independent :
  forall (x : xraylib R) (o : optic R) (src : source_nums R) en junk lc n jobs
         dist streams before r dist' streams' before' r',
  simulation x o src en junk lc n dist streams jobs before r ->
  simulation x o src en junk lc n dist' streams' jobs before' r' ->
  same_result r r'.
Proof.
  intros x o src en junk lc n jobs dist streams b r dist' streams' b' r' S1 S2.
  pose proof (C43_no_leak_lost _ _ _ _ _ _ _ _ _ _ _ _ S1) as (L1 & L2 & L3 & L4).
  pose proof (C43_no_leak_lost _ _ _ _ _ _ _ _ _ _ _ _ S2) as (L1' & L2' & L3' & L4').
  assert (Pext : Permutation (re_ext r) (re_ext r')).
  { destruct lc; [rewrite (proj1 (L1 eq_refl)), (proj1 (L1' eq_refl)); auto|rewrite (proj1 (L2 eq_refl)), (proj1 (L2' eq_refl)); auto]. }
  assert (Pint : Permutation (re_int r) (re_int r')).
  { destruct lc; [rewrite (proj2 (L1 eq_refl)), (proj2 (L1' eq_refl)); auto|rewrite (proj2 (L2 eq_refl)), (proj2 (L2' eq_refl)); auto]. }
  destruct S1 as (Hn & Pd & Ls & Hj & progs & ths & s & Kt & St & D & ->).
  destruct S2 as (Hn' & Pd' & Ls' & Hj' & progs' & ths' & s' & Kt' & St' & D' & ->).
  destruct (core _ _ _ _ _ _ _ _ _ Hn Pd Kt St D) as (z & sumw & Ez & Fj & Tot & Irefl & Img & NoImg & Psum & Esum & _).
  destruct (core _ _ _ _ _ _ _ _ _ Hn' Pd' Kt' St' D') as (z' & sumw' & Ez' & Fj' & Tot' & Irefl' & Img' & NoImg' & Psum' & Esum' & _).
  rewrite Ez in Ez'. injection Ez' as <-.
  assert (Ew : sh_sumw s = sh_sumw s').
  { rewrite Esum, Esum'. assert (Lw : forall j, (j < n)%nat -> length (job_w (length en) (jobs j)) = length en) by (intros j Lj; apply Fj; auto).
    destruct (sumw_closed _ _ _ _ _ O Pd Lw Psum) as [_ E1]. destruct (sumw_closed _ _ _ _ _ O Pd' Lw Psum') as [_ E1'].
    apply list_eq_nth; [cbn in *; congruence|]. intros i. cbn [nofZ RNum].
    rewrite (proj1 (sumw_closed _ _ _ _ _ i Pd Lw Psum)), (proj1 (sumw_closed _ _ _ _ _ i Pd' Lw Psum')). auto. }
  unfold same_result, finish in *. cbn [re_start re_exit re_irefl re_energies re_eff re_open re_img re_iext re_ext re_iint re_int] in *.
  rewrite !Tot, !Tot', Irefl, Irefl', Ew, L3, L3', L4, L4', (Permutation_length Pext), (Permutation_length Pint). spl; auto.
  intros f j. destruct (Nat.lt_ge_cases j n) as [Lj|Lj]; [|rewrite NoImg, NoImg' by lia; auto].
  destruct (in_dec field_eq_dec f (fields (length en))) as [If|If]; [|rewrite NoImg, NoImg' by tauto; auto].
  destruct (rev (jobs j)) as [|[a i] before] eqn:Er.
  { destruct (proj2 (Fj j Lj)). rewrite <- (rev_involutive (jobs j)), Er. auto. }
  specialize (Img j a i before Lj Er f). specialize (Img' j a i before Lj Er f).
  assert (Il : In (f, j) (flat_map locs (stores z j a (job_w (length en) (jobs j))))).
  { rewrite locs_stores, (proj1 (Fj j Lj)). apply in_map_iff. eauto. }
  apply in_flat_map in Il. destruct Il as (b0 & Ib & Il). destruct (in_stores _ _ _ _ _ Ib) as (f' & e & ->).
  cbn in Il. destruct Il as [E|[]]. injection E as ->. rewrite (Img e Ib), (Img' e Ib). auto.
Qed.

Print Assumptions C41_every_photon_recorded.
Print Assumptions C43_no_leak_lost.
Print Assumptions C40_schedule_independent.
