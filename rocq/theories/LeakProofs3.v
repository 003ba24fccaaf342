(** * Where the light goes: proofs, part 3 (polycap_photon_launch) *)
From Coq Require Import ZArith List Bool Lia Reals Lra Psatz Classical_Prop.
From Verif Require Import Num Geometry SpecGeom SpecPhoton RM RMLogic CapilModel TraceModel LaunchModel SpecRay SpecPath SpecLeak
  RingProofs HexProofs PackProofs SourceReal CapilReal NormalReal FresnelReal WeightProofs TraceProofs SafeProofs PathProofs LeakProofs LeakProofs2.
Import ListNotations.
Local Open Scope R_scope.

(** A failing polycap_capil_reflect records nothing. *)
Lemma reflect_leaks_early x tr (o : optic R) ph wl wt dt r_c q_c :
  post (reflect_leaks x tr o ph wl wt dt r_c q_c) (fun r => fst r <> None -> ph_ext (snd r) = ph_ext ph /\ ph_int (snd r) = ph_int ph).
Proof.
  unfold reflect_leaks. eapply post_seq; intros wt'. eapply post_seq; intros zmax. set (lc := vgo _ _ _). clearbody lc.
  destruct (andb _ _) eqn:E. 2:{ apply post_ret. intros H. contradiction. }
  apply andb_prop in E. destruct E as [E _]. apply Z.eqb_eq in E. subst wt'. cbn [Z.eqb Pos.eqb].
  eapply post_seq; intros t. eapply post_seq; intros t'. destruct (ph_amu t'); [|eapply post_seq; intros _; apply post_ret; auto].
  destruct (ph_scatf t'); [|eapply post_seq; intros _; apply post_ret; auto].
  eapply post_seq; intros axes. eapply post_seq; intros ix. eapply post_seq; intros [ie t2].
  destruct (orb _ _); [apply post_ret; auto|]. destruct (orb _ _).
  - eapply post_seq; intros em. eapply post_seq; intros w. apply post_ret. intros H. contradiction.
  - apply post_ret. intros H. contradiction.
Qed.
Lemma reflect_fails x tr fuel (o : optic R) ph sn ev0 lc :
  post (reflect x tr fuel o ph sn ev0 lc) (fun r => fst r <> 1%Z -> fst r <> 0%Z -> ph_ext (snd r) = ph_ext ph /\ ph_int (snd r) = ph_int ph).
Proof.
  unfold reflect. destruct (nltb _ _). { apply post_seq; intros _. apply post_ret. intros _ _. split; reflexivity. }
  eapply post_bind with (P := fun wp => ph_ext (snd wp) = ph_ext ph /\ ph_int (snd wp) = ph_int ph).
  { destruct lc; [|apply post_ret; split; reflexivity]. unfold trace_wall. eapply post_seq; intros zmax.
    destruct (nleb _ _); [apply post_ret; split; reflexivity|]. eapply post_seq; intros zid. eapply post_seq; intros ext. destruct (neqb _ _).
    - destruct (nltb _ _); [eapply post_seq; intros _; apply post_ret; split; reflexivity|]. eapply post_seq; intros [[? ?] ?]. eapply post_seq; intros w. apply post_ret; split; reflexivity.
    - eapply post_seq; intros w. destruct (Z.eqb w 0); [apply post_ret; split; reflexivity|]. destruct (hex_round _). eapply post_seq; intros w'. apply post_ret; split; reflexivity. }
  intros [[[[wt dt] r_c] q_c] ph1]. cbn [snd]. intros [E1 E2]. destruct (andb _ _); [apply post_ret; auto|].
  eapply post_seq; intros amu. eapply post_seq; intros scatf. eapply post_seq; intros r.
  destruct (rr_ok r); cbn [negb]; [|apply post_ret; auto].
  destruct (rr_lf r). 2:{ apply post_ret. destruct (rr_wf r); cbn [fst]; congruence. }
  eapply post_bind; [apply reflect_leaks_early|]. intros [early ph2]. cbn [fst snd]. intros H. apply post_ret. cbn [fst snd]. intros N1 N0.
  destruct early as [c|]; [|destruct (rr_wf r); congruence]. destruct H as [A B]; [discriminate|]. rewrite A, B. split; assumption.
Qed.

Section Launch.
Variables (x : xraylib R) (o : optic R) (W : wf_optic o) (Pos : positive o) (Hn : 0 <= n_shells (o_ncap o)) (lc : bool) (en : list R).
Local Notation p := (o_prof o).
Local Notation nsh := (n_shells (o_ncap o)).
Local Notation material := (material x o en).
Local Notation mu := (mu x o en).
Local Notation spills := (spills p nsh mu lc).
Local Notation shines := (shines p nsh mu lc).
Local Notation fades := (fades p nsh mu lc).
Local Notation emerges := (emerges p nsh mu lc).

Lemma attenuated_launch dt : forall w m, map (fun wa : R * R => fst wa * exp (- (1) * dt * snd wa)) (combine w m) = attenuated m dt w.
Proof.
  unfold attenuated. induction w as [|v w IH]; intros [|a m]; cbn [combine map]; try reflexivity. cbn [fst snd]. rewrite IH. f_equal. f_equal. f_equal. ring.
Qed.

Lemma launch_wall_light junk fuel ph : material ph -> unit (ph_edir ph) -> ph_ext ph = [] -> ph_int ph = [] -> ph_irefl ph = 0%Z ->
  post (launch_wall x o junk lc fuel ph) (fun r => fst r = 1%Z ->
    emerges (ph_exit ph) (ph_edir ph) (ph_dtravel ph) (ph_w ph) (ph_ext (snd r)) (ph_int (snd r))).
Proof.
  intros Mt U Ex In Ir. pose proof W as (W1 & W2 & W3 & W4). assert (Un : vnorm (ph_edir ph) = ph_edir ph) by (apply vnorm_of_unit; exact U).
  assert (Es : set_edir (ph_edir ph) ph = ph) by (destruct ph; reflexivity). unfold launch_wall.
  eapply post_bind. { apply (trace_wall_fact o W Pos Hn fuel ph). rewrite Un. exact U. }
  intros [[[[wt dt] r] q] ph1]. cbn [fst snd]. rewrite Un, Es. intros [-> F]. destruct (Z.leb_spec wt 0) as [L|L]. { apply post_ret. discriminate. }
  destruct (F L) as [Wf H0]. clear F. destruct Mt as (Me & Mw & Ma).
  eapply post_bind; [apply post_deref|]. intros amu Ea. assert (amu = mu) by (destruct Ma; congruence). subst amu. rnum.
  set (phw := set_w _ ph). set (ph2 := set_exit _ phw).
  assert (A0 : ph_exit ph2 = vgo (ph_exit ph) (dt / sqrt (vscalar (ph_edir ph) (ph_edir ph))) (ph_edir ph)) by reflexivity.
  rewrite (unit_sqrt _ U) in A0. replace (dt / 1) with dt in A0 by field.
  assert (A1 : ph_exit ph2 = ahead (ph_exit ph) (ph_edir ph) dt) by exact A0.
  assert (A2 : ph_w ph2 = attenuated mu dt (ph_w ph)) by (apply attenuated_launch).
  assert (A3 : ph_edir ph2 = ph_edir ph) by reflexivity. assert (A4 : ph_irefl ph2 = 0%Z) by exact Ir.
  assert (A5 : ph_ext ph2 = []) by exact Ex. assert (A6 : ph_int ph2 = []) by exact In. assert (A7 : ph_dtravel ph2 = ph_dtravel ph) by reflexivity.
  assert (Mt2 : LeakProofs2.material x o en ph2). { split; [exact Me|]. split; [rewrite A2, attenuated_len, Mw; unfold LeakProofs2.mu; rewrite map_length; lia|exact Ma]. }
  clear A0. clearbody ph2. clear phw.
  eapply post_bind; [apply post_rd|]. intros zmax Ez. eapply post_bind; [apply post_rd|]. intros em Ee. assert (Xp : exit_plane p zmax em) by (split; assumption).
  destruct Wf as [[-> G]|[[-> G]|[-> G]]]; cbn [Z.eqb Pos.eqb].
  2:{ eapply post_bind with (P := fun ep => fst ep = false /\ ph_ext (snd ep) = [] /\ ph_int (snd ep) = [mkLeak (ph_exit ph2) (ph_edir ph2) (ph_eelec ph2) (ph_irefl ph2) (ph_w ph2)]).
      { apply post_ret. cbn [fst snd add_int ph_ext ph_int]. rewrite A5, A6. repeat split. }
      intros [err ph3]. cbn [fst snd]. intros (-> & X & Y). apply post_ret. cbn [fst snd release set_edir set_exit ph_ext ph_int]. intros _. rewrite X, Y.
      eapply emerges_exit; [exact G|]. unfold records. cbn. rewrite A1, A2, A3, A4. repeat split. }
  2:{ eapply post_bind with (P := fun ep => fst ep = false /\ ph_int (snd ep) = [] /\ ph_ext (snd ep) = [mkLeak (ph_exit ph2) (ph_edir ph2) (ph_eelec ph2) (ph_irefl ph2) (ph_w ph2)]).
      { apply post_ret. cbn [fst snd add_ext ph_ext ph_int]. rewrite A5, A6. repeat split. }
      intros [err ph3]. cbn [fst snd]. intros (-> & X & Y). apply post_ret. cbn [fst snd release set_edir set_exit ph_ext ph_int]. intros _. rewrite X, Y.
      eapply emerges_side; [exact G|]. unfold records. cbn. rewrite A1, A2, A3, A4. repeat split. }
  eapply post_bind with (P := fun ep => fst ep = false -> emerges (ph_exit ph) (ph_edir ph) (ph_dtravel ph) (ph_w ph) (ph_ext (snd ep)) (ph_int (snd ep))).
  2:{ intros [[|] ph3] H; apply post_ret; [discriminate|]. intros _. exact (H eq_refl). }
  set (ph3 := set_dtravel _ ph2).
  eapply post_bind; [apply launch_axes_same; [exact W|exact Hn]|]. intros axes Sx. eapply post_seq; intros ix.
  set (c := capillary_of p nsh q r) in *.
  eapply post_bind.
  { apply (trace_many_light x o lc en (trace x o junk lc fuel) axes c (tracks_trace x o W Pos Hn lc en junk fuel) Sx (S (p_nmax p)) 0%Z ix ph3 (state_of ph3) (ph_w ph3)).
    - right. lia.
    - change (ph_edir ph3) with (ph_edir ph2). rewrite A3. exact U.
    - exact Mt2.
    - change (ph_ext ph3) with (ph_ext ph2). change (ph_int ph3) with (ph_int ph2). rewrite A5, A6. constructor. }
  assert (St : state_of ph3 = mkRay (ahead (ph_exit ph) (ph_edir ph) dt) (ph_edir ph) 0 (ph_dtravel ph + dt)).
  { unfold state_of. cbn [ph3 set_dtravel ph_exit ph_edir ph_irefl ph_dtravel]. rewrite A1, A3, A4, A7. reflexivity. }
  rewrite St. change (ph_w ph3) with (ph_w ph2). rewrite A2. intros [ie t2] [F S].
  destruct (Z.eqb_spec ie (-1)) as [E1|E1]; cbn [orb]. { apply post_ret. discriminate. }
  destruct (Z.eqb_spec ie (-3)) as [E3|E3]; cbn [orb]. { apply post_ret. discriminate. }
  assert (Pe := positive_nth _ _ _ (proj2 Pos) Ee).
  assert (Go : ie <> 0%Z -> post (w <- within_e em (to_exit (ph_exit t2) (ph_edir t2) zmax) ;;
      ret (false, if Z.eqb w 0 then add_ext [mkLeak (to_exit (ph_exit t2) (ph_edir t2) zmax) (ph_edir t2) (ph_eelec t2) (ph_irefl t2) (ph_w t2)] (set_exit (to_exit (ph_exit t2) (ph_edir t2) zmax) t2)
        else if Z.eqb w 1 then add_int [mkLeak (to_exit (ph_exit t2) (ph_edir t2) zmax) (ph_edir t2) (ph_eelec t2) (ph_irefl t2) (ph_w t2)] (set_exit (to_exit (ph_exit t2) (ph_edir t2) zmax) t2) else set_exit (to_exit (ph_exit t2) (ph_edir t2) zmax) t2))%rm
     (fun ep => fst ep = false -> emerges (ph_exit ph) (ph_edir ph) (ph_dtravel ph) (ph_w ph) (ph_ext (snd ep)) (ph_int (snd ep)))).
  { intros N0. assert (Sh := S N0 E1 E3). rewrite to_exit_at. eapply post_bind; [apply within_e_post; exact Pe|]. intros w Hw. apply post_ret. intros _. cbn [fst snd].
    destruct Hw as [[-> I]|[-> I]]; cbn [Z.eqb Pos.eqb add_ext add_int set_exit ph_ext ph_int].
    - eapply emerges_through_side; [exact G|exact Sh|exact Xp|exact I|]. repeat split.
    - eapply emerges_through_exit; [exact G|exact Sh|exact Xp|exact I|]. repeat split. }
  destruct (Z.eqb_spec ie 1) as [E|E]; [|destruct (Z.eqb_spec ie (-2)) as [E'|E']]; cbn [orb].
  - apply Go. lia.
  - apply Go. lia.
  - apply post_ret. intros _. cbn [fst snd]. eapply emerges_absorbed; [exact G|]. exact (F E E1 E' E3).
Qed.

End Launch.

(** The outer radius at the start point. *)
Lemma launch_ext_lin (p : profile R) zc id : post (launch_ext p zc id) (fun v => exists z0 z1 e0 e1, nth_error (p_z p) id = Some z0 /\ nth_error (p_z p) (S id) = Some z1 /\
    nth_error (p_ext p) id = Some e0 /\ nth_error (p_ext p) (S id) = Some e1 /\ v = lin z0 z1 e0 e1 zc).
Proof.
  unfold launch_ext. eapply post_bind; [apply post_rd|]. intros e0 E0. eapply post_bind; [apply post_rd|]. intros e1 E1.
  eapply post_bind; [apply post_rd|]. intros z0 F0. eapply post_bind; [apply post_rd|]. intros z1 F1. apply post_ret.
  exists z0, z1, e0, e1. repeat split; auto. unfold lin. rnum. replace (z1 - z0) with (- (z0 - z1)) by ring. unfold Rdiv. rewrite Rinv_opp. ring.
Qed.

Lemma launch_wall_codes x (o : optic R) junk lc fuel ph : post (launch_wall x o junk lc fuel ph) (fun r => fst r = 1%Z \/ fst r = (-1)%Z).
Proof.
  unfold launch_wall. eapply post_seq; intros [[[[wt dt] rc] qc] ph1]. destruct (Z.leb wt 0); [apply post_ret; auto|].
  eapply post_seq; intros amu. eapply post_seq; intros zm. eapply post_seq; intros em. eapply post_seq; intros [err ph2].
  destruct err; apply post_ret; auto.
Qed.

Lemma launch_light x (o : optic R) junk fuel ph en wnull lc : wf_optic o -> positive o -> (1 <= o_ncap o)%Z ->
  dot (ph_sdir ph) (ph_sdir ph) <> 0 -> ph_amu ph = None ->
  let sh := n_shells (o_ncap o) in let mu := map (xl_amu x o) en in
  let s0 := mkRay (ph_start ph) (along (ph_sdir ph)) 0 (ph_dtravel ph) in let full := map (fun _ => 1) en in
  post (launch x o junk fuel ph (Some en) wnull lc) (fun r => let '(code, ph', w) := r in
    (code = 0%Z -> exists q r, let c := capillary_of (o_prof o) sh q r in in_channel c (ph_start ph) /\ fades (o_prof o) sh mu lc c s0 full (ph_ext ph') (ph_int ph')) /\
    (code = 1%Z -> (exists q r ws, let c := capillary_of (o_prof o) sh q r in in_channel c (ph_start ph) /\ w = Some (map Some ws) /\
          shines (o_prof o) sh mu lc c s0 full (ph_ext ph') (ph_int ph') (mkRay (ph_exit ph') (ph_edir ph') (ph_irefl ph') (ph_dtravel ph')) ws) \/
        (lc = true /\ 0 < vz (ph_start ph) /\ w = Some (map (fun _ => None) en) /\
          emerges (o_prof o) sh mu lc (ph_start ph) (along (ph_sdir ph)) (ph_dtravel ph) full (ph_ext ph') (ph_int ph'))) /\
    (code = 2%Z -> (ph_ext ph' = [] /\ ph_int ph' = []) \/
        (lc = true /\ vz (ph_start ph) = 0 /\ exists r g, splits full r g /\
          spills (o_prof o) sh mu lc (ph_start ph) (along (ph_sdir ph)) 0 (ph_dtravel ph) g (ph_ext ph') (ph_int ph')))).
Proof.
  intros W Ps Hc Hd Am sh mu0 s0 full. pose proof W as (W1 & W2 & W3 & W4).
  pose proof (n_shells_ex (o_ncap o) Hc) as Hn.
  destruct Hn as (k0 & Hk0 & Ek0). assert (Hn : 0 <= n_shells (o_ncap o)) by (rewrite Ek0; apply IZR_le; exact Hk0).
  unfold launch.
  destruct (orb _ _). { apply post_seq; intros _; apply post_ret; (repeat split; discriminate). }
  eapply post_bind with (P := fun ph1 => ph_start ph1 = ph_start ph /\ ph_sdir ph1 = vnorm (ph_sdir ph) /\ ph_dtravel ph1 = ph_dtravel ph /\ ph_irefl ph1 = 0%Z /\ material x o en ph1 /\ ph_ext ph1 = [] /\ ph_int ph1 = [] /\ ph_w ph1 = map (fun _ => 1) en).
  { unfold photon_scatf. destruct (orb _ _); [eapply post_seq; intros _|]; apply post_ret; (repeat split; cbn -[mu]; try apply map_length; auto). }
  intros ph1 (P1 & P2 & P3 & P4 & P5 & P6 & P7 & P8). set (ph2 := launch_reset ph1).
  assert (Ua : unit (vnorm (ph_sdir ph))) by (apply (vnorm_unit (ph_sdir ph)); exact Hd).
  assert (Q1 : ph_start ph2 = ph_start ph) by exact P1.
  assert (Q2 : state_of ph2 = mkRay (ph_start ph) (along (ph_sdir ph)) 0 (ph_dtravel ph)).
  { unfold state_of, ph2, launch_reset. cbn [ph_exit ph_edir ph_irefl ph_dtravel set_edir set_exit]. rewrite P1, P2, P3, P4. rewrite (vnorm_of_unit _ Ua). reflexivity. }
  assert (Q3 : unit (ph_edir ph2)). { change (unit (r_dir (state_of ph2))). rewrite Q2. exact Ua. }
  assert (Q5 : material x o en ph2) by exact P5. assert (Q6 : ph_ext ph2 = []) by exact P6. assert (Q7 : ph_int ph2 = []) by exact P7. assert (Q8 : ph_w ph2 = map (fun _ => 1) en) by exact P8.
  clearbody ph2. rewrite Q1.
  eapply post_bind with (P := fun zid => 0 < vz (ph_start ph) -> (zid < p_nmax (o_prof o))%nat).
  { rnum. destruct (Rltb_spec 0 (vz (ph_start ph))).
    - eapply post_imp; [apply last_le_bound|]. intros z [-> |H]; intros; lia.
    - apply post_ret. intros; lra. }
  intros zid Hz. eapply post_seq; intros ext.
  eapply post_bind with (P := fun iqr => exists q r : Z, snd (fst iqr) = IZR q /\ snd iqr = IZR r).
  { destruct (neqb _ _); [apply post_ret; exists 0%Z, 0%Z; split; reflexivity|].
    destruct (hex_round_int (hex_frac (vx (ph_start ph)) (vy (ph_start ph)) (hex_unit ext (n_shells (o_ncap o))))) as (q & r & E). rewrite E.
    eapply post_seq; intros w. apply post_ret. exists q, r. split; reflexivity. }
  intros [[inside qr] rr] (q & r & Eq & Er). cbn [fst snd] in Eq, Er. subst qr rr.
  destruct inside; cbn [negb]; [|apply post_seq; intros _; apply post_ret; (repeat split; discriminate)].
  eapply post_bind; [apply launch_axes_same; [exact W|exact Hn]|]. intros axes Sx. eapply post_seq; intros ix.
  set (c := capillary_of _ _ q r) in *.
  eapply post_bind with (P := fun t => let '(rad, cx, cy) := t in dist2 (vx (ph_start ph)) (vy (ph_start ph)) cx cy <= rad -> in_channel c (ph_start ph)).
  { destruct Sx as (Lx & Lc & Sx). rnum. destruct (Rltb_spec 0 (vz (ph_start ph))) as [Z|Z].
    - specialize (Hz Z).
      eapply post_bind; [apply interp_lin|]. intros rad (z0 & z1 & c0 & c1 & Ez0 & Ez1 & Ec0 & Ec1 & ->).
      eapply post_bind; [apply interp_lin|]. intros cx (z0' & z1' & x0 & x1 & Ez0' & Ez1' & Ex0 & Ex1 & ->).
      eapply post_bind; [apply interp_lin|]. intros cy (z0'' & z1'' & y0 & y1 & Ez0'' & Ez1'' & Ey0 & Ey1 & ->).
      apply post_ret. intros H. right. exists zid, (seg_c0 o axes zid), (seg_r0 o zid), (seg_c0 o axes (S zid)), (seg_r0 o (S zid)).
      split; [split; apply Sx; lia|].
      assert (V0 : forall A B (f : A -> B) l j b d, nth_error (map f l) j = Some b -> f (nth j l d) = b).
      { clear. intros A B f l j b d E. rewrite nth_error_map in E. destruct (nth_error l j) eqn:F; [|discriminate]. injection E as <-. f_equal. now apply nth_error_nth. }
      unfold seg_axis_x, seg_axis_y, seg_radius, seg_c0, seg_r0. cbn [vx vy vz].
      rewrite (V0 _ _ _ _ _ _ (0, 0) Ex0), (V0 _ _ _ _ _ _ (0, 0) Ex1), (V0 _ _ _ _ _ _ (0, 0) Ey0), (V0 _ _ _ _ _ _ (0, 0) Ey1).
      rewrite (nth_rd _ _ _ _ Ez0), (nth_rd _ _ _ _ Ez1), (nth_rd _ _ _ _ Ec0), (nth_rd _ _ _ _ Ec1). congruence.
    - eapply post_bind; [apply post_rd|]. intros rad Er. eapply post_bind; [apply post_rd|]. intros [cx cy] Ec. apply post_ret. intros H.
      left. split; [lra|]. exists (seg_c0 o axes 0), (seg_r0 o 0). split; [apply Sx; lia|].
      unfold seg_c0, seg_r0. cbn [vx vy]. rewrite (nth_rd _ _ _ _ Er), (nth_rd _ _ _ _ Ec). exact H. }
  intros [[rad cx] cy] Hin. rnum.
  assert (Q9 : ph_exit ph2 = ph_start ph /\ ph_edir ph2 = along (ph_sdir ph) /\ ph_irefl ph2 = 0%Z /\ ph_dtravel ph2 = ph_dtravel ph) by (unfold state_of in Q2; injection Q2; auto).
  destruct Q9 as (Qe & Qd & Qi & Qt).
  match goal with |- context [Rltb rad ?d] => destruct (Rltb_spec rad d) as [O|O] end.
  - destruct lc; cbn [andb]. 2:{ apply post_ret. split; [discriminate|]. split; [discriminate|]. intros _. left. split; assumption. }
    destruct (Reqb_spec (vz (ph_start ph)) 0) as [Z0|Z0].
    + eapply post_bind; [apply post_quiet; apply post_and; [apply reflect_light; [exact W|exact Ps|exact Hn|apply tracks_trace; [exact W|exact Ps|exact Hn]|exact Q5|exact Q3]|apply reflect_fails]|].
      intros [cc ph3]. cbn [fst snd]. intros [Rl Rf]. apply post_ret. cbn [release ph_ext ph_int]. split; [discriminate|]. split; [discriminate|]. intros _.
      destruct (Z.eq_dec cc 1) as [E1|E1]; [|destruct (Z.eq_dec cc 0) as [E0|E0]].
      * destruct (Rl (or_introl E1)) as (g & xs & ys & Sp & _ & X & Y & Sl). right. split; [reflexivity|]. split; [exact Z0|]. exists (ph_w ph3), g. rewrite Q8 in Sp. split; [exact Sp|].
        rewrite Q6 in X. rewrite Q7 in Y. rewrite X, Y. rewrite Qe, Qd, Qi, Qt in Sl. exact Sl.
      * destruct (Rl (or_intror E0)) as (g & xs & ys & Sp & _ & X & Y & Sl). right. split; [reflexivity|]. split; [exact Z0|]. exists (ph_w ph3), g. rewrite Q8 in Sp. split; [exact Sp|].
        rewrite Q6 in X. rewrite Q7 in Y. rewrite X, Y. rewrite Qe, Qd, Qi, Qt in Sl. exact Sl.
      * left. destruct (Rf E1 E0) as [X Y]. rewrite X, Y. split; assumption.
    + destruct (Rltb_spec 0 (vz (ph_start ph))) as [Zp|Zp]. 2:{ apply post_ret. split; [discriminate|]. split; [discriminate|]. intros _. left. split; assumption. }
      eapply post_bind; [apply post_and; [apply (launch_wall_light x o W Ps Hn true en junk fuel ph2 Q5 Q3 Q6 Q7 Qi)|apply launch_wall_codes]|].
      intros [cc ph3]. cbn [fst snd]. intros [Hw Hcd]. apply post_ret. split; [intros ->; destruct Hcd; discriminate|]. split; [|intros ->; destruct Hcd; discriminate].
      intros E. right. split; [reflexivity|]. split; [exact Zp|]. split; [reflexivity|]. specialize (Hw E). rewrite Qe, Qd, Qt, Q8 in Hw. exact Hw.
  - assert (In0 : in_channel c (ph_start ph)) by (apply Hin; unfold dist2, len2; lra).
    eapply post_bind.
    { apply (trace_many_light x o lc en (trace x o junk lc fuel) axes c (tracks_trace x o W Ps Hn lc en junk fuel) Sx (S (p_nmax (o_prof o))) 0%Z ix ph2 (state_of ph2) (ph_w ph2)).
      - right. lia.
      - exact Q3.
      - exact Q5.
      - rewrite Q6, Q7. constructor. }
    rewrite Q2, Q8. intros [ie ph3] [F S]. apply post_ret. cbn [release ph_ext ph_int ph_exit ph_edir ph_irefl ph_dtravel].
    destruct (Z.eqb_spec ie (-1)) as [E1|E1]; cbn [orb]. { split; [discriminate|split; discriminate]. }
    destruct (Z.eqb_spec ie (-3)) as [E3|E3]; cbn [orb]. { split; [discriminate|split; discriminate]. }
    destruct (Z.eqb_spec ie 0) as [E0|E0].
    + split; [|split; discriminate]. intros _. exists q, r. split; [exact In0|]. apply F; lia.
    + split; [discriminate|]. split; [|discriminate]. intros _. left. exists q, r, (ph_w ph3). split; [exact In0|]. split; [reflexivity|]. apply S; assumption.
Qed.
