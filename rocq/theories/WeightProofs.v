(** * Weights along a path: bounds and conservation (over the reals) *)
From Coq Require Import ZArith List Bool Lia Reals Lra Psatz.
From Verif Require Import Num Geometry SpecPhoton RM RMLogic CapilModel TraceModel LaunchModel SpecRay CapilReal FresnelReal.
Import ListNotations.
Local Open Scope R_scope.

Definition wi (i : nat) (l : list R) : R := nth i l 0.
Arguments wi : simpl never.
Definition leaks_i (i : nat) (l : list (leak_data R)) : R := fold_right Rplus 0 (map (fun d => wi i (lk_weights d)) l).
Definition nonneg (l : list R) : Prop := forall i, 0 <= wi i l.

Lemma leaks_i_app i a b : leaks_i i (a ++ b) = leaks_i i a + leaks_i i b.
Proof. unfold leaks_i. rewrite map_app, fold_right_app. induction (map _ a); cbn; lra. Qed.
Lemma leaks_i_one i d : leaks_i i [d] = wi i (lk_weights d).
Proof. unfold leaks_i. cbn. lra. Qed.
Lemma wi_cons i x l : wi i (x :: l) = match i with O => x | S i => wi i l end.
Proof. destruct i; reflexivity. Qed.
Lemma wi_nil i : wi i [] = 0.
Proof. destruct i; reflexivity. Qed.

Lemma dist3_nonneg (a b : vec3 R) : 0 <= dist3 a b.
Proof. unfold dist3. rnum. apply sqrt_pos. Qed.

Lemma exp_le_1 x : x <= 0 -> 0 < exp x <= 1.
Proof. intros H. split; [apply exp_pos|]. rewrite <- exp_0. destruct H; [left; now apply exp_increasing|right; now subst]. Qed.

(** A reflectivity that passes the check of the code comes with a non-negative absorption. *)
Lemma refl_polar_mu e density scatf mu sn dir ev ev0 :
  post (refl_polar e density scatf mu sn dir ev ev0) (fun r => 0 <= fst (fst r) -> 0 <= mu).
Proof.
  intros err [[rt e1] e2] err' K P. cbn [fst] in P.
  destruct (refl_polar_args e density scatf mu sn dir ev ev0 err) as [[A E]|[(_ & _ & _ & A) E]]; [|exact A].
  rewrite E in K. apply ret4 in K. destruct K as (K & _). lra.
Qed.

Lemma refl_loop_w (o : optic R) sn dir alfa wt dt : 0 <= dt -> forall en amu scatf w ev ev0,
  length w = length en -> nonneg w ->
  post (refl_loop o sn dir alfa wt dt en amu scatf w ev ev0)
    (fun r => length (rr_w r) = length w /\ (rr_ok r = true -> wt = true -> length (rr_leak r) = length en) /\ (wt = false -> rr_lf r = false) /\ forall i, 0 <= wi i (rr_w r) <= wi i w /\
       0 <= wi i (rr_leak r) /\ wi i (rr_w r) + wi i (rr_leak r) <= wi i w).
Proof.
  intros Hdt. induction en as [|e en IH]; intros amu scatf w ev ev0 L P; cbn [refl_loop].
  { destruct w; [|discriminate]. apply post_ret. cbn [rr_w rr_leak rr_ok rr_lf length]. split; [reflexivity|]. split; [auto|]. split; [auto|]. intros i. rewrite wi_nil. lra. }
  destruct w as [|w0 w]; [discriminate|].
  eapply post_seq; intros s. eapply post_seq; intros a.
  eapply post_bind; [apply refl_polar_mu|]. intros [[rt ev1] ev2] Mu. cbn [fst] in Mu. rnum.
  destruct (Rltb_spec rt 0) as [A|A]; cbn [orb].
  { apply post_seq; intros _. apply post_ret. cbn [rr_w rr_leak rr_ok rr_lf]. split; [reflexivity|]. split; [discriminate|]. split; [auto|]. intros i. specialize (P i). rewrite wi_nil. lra. }
  destruct (Rltb_spec 1 rt) as [B|B]; cbn [orb].
  { apply post_seq; intros _. apply post_ret. cbn [rr_w rr_leak rr_ok rr_lf]. split; [reflexivity|]. split; [discriminate|]. split; [auto|]. intros i. specialize (P i). rewrite wi_nil. lra. }
  eapply post_bind; [apply post_rd|]. intros w0' E. cbn in E. injection E as <-.
  eapply post_bind; [apply (IH (tl amu) (tl scatf) w ev1 ev2); [cbn in L; lia|intros i; apply (P (S i))]|].
  intros r (Lr & Lk & Lf & Hr). apply post_ret. cbn [rr_w rr_leak rr_ok rr_lf length]. split; [cbn [length]; lia|].
  split; [intros Ok Wt; rewrite Wt; cbn [length]; rewrite (Lk Ok Wt); reflexivity|]. split; [intros Wt; rewrite Wt; cbn [andb orb]; apply Lf; exact Wt|]. intros i.
  specialize (Mu ltac:(lra)). pose proof (P O) as P0. unfold wi in P0. cbn [nth] in P0.
  set (c := 101358 / 100000 * e * alfa * o_rough o) in *.
  assert (Q : 0 < exp (- (1) * c * c) <= 1). { apply exp_le_1. pose proof (Rle_0_sqr c) as H. unfold Rsqr in H. lra. }
  assert (Q2 : 0 < exp (- (1) * dt * a) <= 1). { apply exp_le_1. pose proof (Rmult_le_pos dt a Hdt Mu). lra. }
  set (k := exp (- (1) * c * c)) in *. set (k2 := exp (- (1) * dt * a)) in *. clearbody k k2.
  assert (F : 0 <= rt * k <= 1) by nra.
  assert (G : 0 <= w0 * rt * k <= w0). { replace (w0 * rt * k) with (w0 * (rt * k)) by ring. nra. }
  assert (H1 : 0 <= (1 - rt * k) * w0 <= w0) by nra.
  assert (H2 : 0 <= (1 - rt * k) * w0 * k2 <= (1 - rt * k) * w0) by nra.
  rewrite !wi_cons. destruct i as [|i].
  - assert (E : w0 * rt * k + (1 - rt * k) * w0 = w0) by ring.
    destruct wt; rewrite ?wi_cons, ?wi_nil; lra.
  - specialize (Hr i). destruct wt; rewrite ?wi_cons, ?wi_nil; lra.
Qed.

(** ** trace_wall: the distance is not negative, only the direction of the photon changes *)
Lemma wall_exit_d (o : optic R) ph zmax last r q : post (wall_exit o ph zmax last r q) (fun w => 0 <= snd (fst (fst w))).
Proof.
  unfold wall_exit. eapply post_seq; intros em. eapply post_seq; intros w. destruct (Z.eqb w 0).
  - eapply post_seq; intros i. apply post_ret. cbn [fst snd]. apply dist3_nonneg.
  - apply post_ret. cbn [fst snd]. apply dist3_nonneg.
Qed.
Lemma wall_end_d (o : optic R) ph zmax iesc inter zid r q : post (wall_end o ph zmax iesc inter zid r q) (fun w => 0 <= snd (fst (fst w))).
Proof. unfold wall_end. destruct (negb _); [apply wall_exit_d|]. apply post_ret. cbn [fst snd]. apply dist3_nonneg. Qed.
Lemma wall_walk_d (o : optic R) ph nsh zmax q r : forall fuel dist zid,
  post (wall_walk o ph nsh zmax q r fuel dist zid) (fun w => match w with Stumbled d => 0 <= d | _ => True end).
Proof.
  induction fuel; intros dist zid; cbn [wall_walk]; [apply post_nofuel|].
  eapply post_seq; intros cap. eapply post_seq; intros zid'. eapply post_seq; intros ext. eapply post_seq; intros rad.
  destruct (hex_round _) as [q' r']. destruct (andb _ _); [apply post_ret; apply dist3_nonneg|].
  destruct (andb _ _); [apply IHfuel|]. apply post_ret. exact I.
Qed.
Lemma wall_hex_d (o : optic R) ph nsh zmax : forall fuel dist zid q r inter,
  post (wall_hex o ph nsh zmax fuel dist zid q r inter) (fun w => 0 <= snd (fst (fst w))).
Proof.
  induction fuel; intros dist zid q r inter; cbn [wall_hex]; [apply post_nofuel|].
  eapply post_bind; [apply wall_walk_d|]. intros [d|d' z' pos q' r'] P.
  - eapply post_seq; intros r'. eapply post_seq; intros q'. apply post_ret. exact P.
  - destruct (orb _ _).
    + eapply post_seq; intros r''. eapply post_seq; intros q''. apply wall_exit_d.
    + eapply post_seq; intros [[iesc it] zz]. destruct (andb _ _); [apply IHfuel|].
      eapply post_seq; intros r''. eapply post_seq; intros q''. apply wall_end_d.
Qed.
Lemma trace_wall_d fuel (o : optic R) ph :
  post (trace_wall fuel o ph) (fun wp => snd wp = set_edir (vnorm (ph_edir ph)) ph /\ 0 <= snd (fst (fst (fst wp)))).
Proof.
  unfold trace_wall. eapply post_seq; intros zmax.
  destruct (nleb _ _). { apply post_ret. split; [reflexivity|]. cbn [fst snd]. rnum. lra. }
  eapply post_seq; intros zid. eapply post_seq; intros ext. destruct (neqb _ _).
  - destruct (nltb _ _). { eapply post_seq; intros _. apply post_ret. split; [reflexivity|]. cbn [fst snd]. rnum. lra. }
    eapply post_seq; intros [[iesc it] zz]. eapply post_bind; [apply wall_end_d|]. intros w P. apply post_ret. split; [reflexivity|exact P].
  - eapply post_seq; intros pos. destruct (Z.eqb pos 0). { apply post_ret. split; [reflexivity|]. cbn [fst snd]. rnum. lra. }
    destruct (hex_round _) as [q r]. eapply post_bind; [apply wall_hex_d|]. intros w P. apply post_ret. split; [reflexivity|exact P].
Qed.

(** ** Conservation *)

(** What every step of the tracer keeps: the weights do not increase, stay non-negative,
    and weight plus leaks does not increase; leaks are only appended. *)
Definition steps (ph ph' : photon R) : Prop :=
  ph_start ph' = ph_start ph /\ ph_selec ph' = ph_selec ph /\ ph_en ph' = ph_en ph /\ ph_amu ph' = ph_amu ph /\
  ph_scatf ph' = ph_scatf ph /\
  length (ph_w ph') = length (ph_w ph) /\
  (exists xs ys, ph_ext ph' = ph_ext ph ++ xs /\ ph_int ph' = ph_int ph ++ ys /\
     forall i, 0 <= wi i (ph_w ph') <= wi i (ph_w ph) /\ 0 <= leaks_i i xs /\ 0 <= leaks_i i ys /\
               wi i (ph_w ph') + leaks_i i xs + leaks_i i ys <= wi i (ph_w ph)).
Definition good (ph : photon R) : Prop := length (ph_w ph) = length (ph_en ph) /\ nonneg (ph_w ph).

Lemma steps_good ph ph' : good ph -> steps ph ph' -> good ph'.
Proof.
  intros [L P] (_ & _ & E & _ & _ & L' & xs & ys & _ & _ & H). split; [congruence|]. intros i. apply (H i).
Qed.
Lemma steps_w_same ph ph' : nonneg (ph_w ph) ->
  ph_start ph' = ph_start ph -> ph_selec ph' = ph_selec ph -> ph_en ph' = ph_en ph -> ph_amu ph' = ph_amu ph ->
  ph_scatf ph' = ph_scatf ph -> ph_w ph' = ph_w ph -> ph_ext ph' = ph_ext ph -> ph_int ph' = ph_int ph -> steps ph ph'.
Proof.
  intros P A1 A2 A3 A4 A5 A6 A7 A8. repeat split; auto; try congruence.
  exists [], []. rewrite !app_nil_r. split; [auto|]. split; [auto|]. intros i. specialize (P i). rewrite A6. unfold leaks_i. cbn. lra.
Qed.
Lemma steps_trans a b c : steps a b -> steps b c -> steps a c.
Proof.
  intros (A1 & A2 & A3 & A4 & A5 & A6 & xs & ys & A7 & A8 & A9) (B1 & B2 & B3 & B4 & B5 & B6 & xs' & ys' & B7 & B8 & B9).
  repeat split; try congruence. exists (xs ++ xs'), (ys ++ ys'). rewrite B7, B8, A7, A8, !app_assoc. split; [auto|]. split; [auto|].
  intros i. specialize (A9 i). specialize (B9 i). rewrite !leaks_i_app. lra.
Qed.

Definition tracer_ok (tr : tracer) : Prop :=
  forall ix ph axes, good ph -> post (tr ix ph axes) (fun r => steps ph (snd r)).

Lemma trace_many_ok tr axes : tracer_ok tr -> forall n iesc ix ph, good ph ->
  post (trace_many tr axes n iesc ix ph) (fun r => steps ph (snd r)).
Proof.
  intros T. induction n; intros iesc ix ph G; cbn [trace_many].
  - apply post_ret. cbn [snd]. destruct G. apply steps_w_same; auto.
  - eapply post_bind; [apply T; exact G|]. intros [[ie ix'] ph'] S. cbn [snd] in S. destruct (Z.eqb ie 1).
    + eapply post_imp; [apply IHn; eapply steps_good; eauto|]. intros [ie' ph''] S'. cbn [snd] in *. eapply steps_trans; eauto.
    + apply post_ret. exact S.
Qed.

(** The sub-photon of polycap_capil_reflect, with weights [wl]: everything it produces is
    bounded by [wl]. *)
Lemma reflect_leaks_ok x tr (o : optic R) ph wl wt dt r_c q_c : tracer_ok tr -> good ph ->
  length wl = length (ph_en ph) -> nonneg wl ->
  post (reflect_leaks x tr o ph wl wt dt r_c q_c)
    (fun r => let ph' := snd r in
       ph_start ph' = ph_start ph /\ ph_selec ph' = ph_selec ph /\ ph_en ph' = ph_en ph /\ ph_amu ph' = ph_amu ph /\
       ph_scatf ph' = ph_scatf ph /\ ph_w ph' = ph_w ph /\ ph_edir ph' = ph_edir ph /\ ph_exit ph' = ph_exit ph /\
       ph_sdir ph' = ph_sdir ph /\ ph_irefl ph' = ph_irefl ph /\ ph_dtravel ph' = ph_dtravel ph /\ ph_eelec ph' = ph_eelec ph /\
       exists xs ys, ph_ext ph' = ph_ext ph ++ xs /\ ph_int ph' = ph_int ph ++ ys /\
         forall i, 0 <= leaks_i i xs /\ 0 <= leaks_i i ys /\ leaks_i i xs + leaks_i i ys <= wi i wl).
Proof.
  intros T G L P. unfold reflect_leaks.
  eapply post_seq; intros wt'.
  set (lc := vgo _ _ _). set (lk := mkLeak lc (ph_edir ph) (ph_eelec ph) (ph_irefl ph) wl).
  clearbody lc.
  (* the two direct records exclude each other *)
  assert (D : exists xs ys, (if Z.eqb wt' 2 then add_int [lk] (if Z.eqb wt' 3 then add_ext [lk] ph else ph)
                            else (if Z.eqb wt' 3 then add_ext [lk] ph else ph)) = add_int ys (add_ext xs ph) /\
              (forall i, 0 <= leaks_i i xs /\ 0 <= leaks_i i ys /\ leaks_i i xs + leaks_i i ys <= wi i wl) /\
              (wt' = 1%Z -> xs = [] /\ ys = [])).
  { destruct (Z.eqb_spec wt' 2) as [E2|E2]; destruct (Z.eqb_spec wt' 3) as [E3|E3]; try lia.
    - exists [], [lk]. split; [unfold add_int, add_ext; cbn; f_equal; rewrite app_nil_r; reflexivity|]. split; [|lia].
      intros i. rewrite leaks_i_one. unfold lk, leaks_i. cbn. specialize (P i). lra.
    - exists [lk], []. split; [unfold add_int, add_ext; cbn; f_equal; rewrite app_nil_r; reflexivity|]. split; [|lia].
      intros i. rewrite leaks_i_one. unfold lk, leaks_i. cbn. specialize (P i). lra.
    - exists [], []. split; [destruct ph; unfold add_int, add_ext; cbn; f_equal; rewrite app_nil_r; reflexivity|]. split; [|auto].
      intros i. unfold leaks_i. cbn. specialize (P i). lra. }
  destruct D as (xs & ys & -> & D & D1). set (ph1 := add_int ys (add_ext xs ph)).
  eapply post_seq; intros zmax.
  assert (Done : forall c, post (ret (c : option Z, ph1)) (fun r => let ph' := snd r in
       ph_start ph' = ph_start ph /\ ph_selec ph' = ph_selec ph /\ ph_en ph' = ph_en ph /\ ph_amu ph' = ph_amu ph /\
       ph_scatf ph' = ph_scatf ph /\ ph_w ph' = ph_w ph /\ ph_edir ph' = ph_edir ph /\ ph_exit ph' = ph_exit ph /\
       ph_sdir ph' = ph_sdir ph /\ ph_irefl ph' = ph_irefl ph /\ ph_dtravel ph' = ph_dtravel ph /\ ph_eelec ph' = ph_eelec ph /\
       exists xs ys, ph_ext ph' = ph_ext ph ++ xs /\ ph_int ph' = ph_int ph ++ ys /\
         forall i, 0 <= leaks_i i xs /\ 0 <= leaks_i i ys /\ leaks_i i xs + leaks_i i ys <= wi i wl)).
  { intros c. apply post_ret. cbn [snd]. repeat split. exists xs, ys. auto. }
  destruct (Z.eqb_spec wt' 1) as [E1|E1]; [|apply Done]. destruct (nltb (vz lc) zmax); [|apply Done]. cbn [andb].
  destruct (D1 E1) as [-> ->].
  eapply post_seq; intros t0. eapply post_bind with (P := fun t => good t /\ ph_en t = ph_en ph /\ ph_w t = wl /\ ph_ext t = [] /\ ph_int t = []).
  { unfold photon_scatf. destruct (orb _ _).
    - eapply post_seq; intros _. apply post_ret. unfold good. cbn. auto.
    - apply post_ret. unfold good. cbn. auto. }
  intros t (Gt & _ & Wt & Xt & It).
  destruct (ph_amu t) as [amu|]; [|eapply post_seq; intros _; apply Done]. destruct (ph_scatf t) as [sc|]; [|eapply post_seq; intros _; apply Done].
  eapply post_seq; intros axes. eapply post_seq; intros ix.
  eapply post_bind; [apply trace_many_ok; [exact T|exact Gt]|]. intros [ie t'] S. cbn [snd] in S.
  destruct (orb _ _); [apply Done|].
  destruct S as (_ & _ & _ & _ & _ & _ & ex & it & S1 & S2 & S3). rewrite Xt in S1. rewrite It in S2. cbn [app] in S1, S2.
  rewrite Wt in S3.
  assert (Done2 : forall c xs ys, (forall i, 0 <= leaks_i i xs /\ 0 <= leaks_i i ys /\ leaks_i i xs + leaks_i i ys <= wi i wl) ->
     post (ret (c : option Z, add_int ys (add_ext xs ph1))) (fun r => let ph' := snd r in
       ph_start ph' = ph_start ph /\ ph_selec ph' = ph_selec ph /\ ph_en ph' = ph_en ph /\ ph_amu ph' = ph_amu ph /\
       ph_scatf ph' = ph_scatf ph /\ ph_w ph' = ph_w ph /\ ph_edir ph' = ph_edir ph /\ ph_exit ph' = ph_exit ph /\
       ph_sdir ph' = ph_sdir ph /\ ph_irefl ph' = ph_irefl ph /\ ph_dtravel ph' = ph_dtravel ph /\ ph_eelec ph' = ph_eelec ph /\
       exists xs ys, ph_ext ph' = ph_ext ph ++ xs /\ ph_int ph' = ph_int ph ++ ys /\
         forall i, 0 <= leaks_i i xs /\ 0 <= leaks_i i ys /\ leaks_i i xs + leaks_i i ys <= wi i wl)).
  { intros c xs ys H. apply post_ret. cbn [snd]. repeat split. exists xs, ys. unfold ph1. cbn [ph_ext ph_int add_int add_ext]. rewrite !app_nil_r. auto. }
  rewrite S1, S2.
  destruct (orb _ _).
  2:{ apply Done2. intros i. specialize (S3 i). lra. }
  eapply post_seq; intros em. eapply post_seq; intros w.
  destruct (Z.eqb w 0).
  { set (l2 := mkLeak _ _ _ _ _).
    replace (add_ext [l2] (add_int it (add_ext ex ph1))) with (add_int it (add_ext (ex ++ [l2]) ph1)).
    2:{ unfold add_int, add_ext; cbn. f_equal. now rewrite app_assoc. }
    apply Done2. intros i. specialize (S3 i). rewrite leaks_i_app, leaks_i_one. unfold l2. cbn [lk_weights]. lra. }
  destruct (Z.eqb w 1).
  { set (l2 := mkLeak _ _ _ _ _).
    replace (add_int [l2] (add_int it (add_ext ex ph1))) with (add_int (it ++ [l2]) (add_ext ex ph1)).
    2:{ unfold add_int, add_ext; cbn. f_equal. now rewrite app_assoc. }
    apply Done2. intros i. specialize (S3 i). rewrite leaks_i_app, leaks_i_one. unfold l2. cbn [lk_weights]. lra. }
  apply Done2. intros i. specialize (S3 i). lra.
Qed.

Lemma reflect_ok x tr fuel (o : optic R) ph sn ev0 lc : tracer_ok tr -> good ph ->
  post (reflect x tr fuel o ph sn ev0 lc)
    (fun r => steps ph (snd r) /\ ph_edir (snd r) = vnorm (ph_edir ph) \/ 
              steps ph (snd r) /\ ph_edir (snd r) = vnorm (vnorm (ph_edir ph))).
Proof.
  intros T G. unfold reflect. set (ph0 := set_edir (vnorm (ph_edir ph)) ph).
  assert (S0 : steps ph ph0) by (destruct G; apply steps_w_same; auto).
  destruct (nltb _ _). { apply post_seq; intros _. apply post_ret. left. split; [exact S0|reflexivity]. }
  eapply post_bind with (P := fun wp => 0 <= snd (fst (fst (fst wp))) /\ (snd wp = ph0 \/ snd wp = set_edir (vnorm (vnorm (ph_edir ph))) ph)).
  { destruct lc; [|apply post_ret; cbn [fst snd]; rnum; split; [lra|auto]].
    eapply post_imp; [apply trace_wall_d|]. intros wp [E D]. split; [exact D|]. right. exact E. }
  intros [[[[wt dt] r_c] q_c] ph1] [D E]. cbn [fst snd] in D, E.
  assert (S1 : steps ph ph1 /\ good ph1 /\ (ph_edir ph1 = vnorm (ph_edir ph) \/ ph_edir ph1 = vnorm (vnorm (ph_edir ph)))).
  { destruct E as [-> | ->]; (split; [destruct G; apply steps_w_same; auto|split; [exact G|auto]]). }
  clear E. destruct S1 as (S1 & G1 & E1).
  assert (Fin : forall (r : Z * photon R), steps ph1 (snd r) -> ph_edir (snd r) = ph_edir ph1 ->
      steps ph (snd r) /\ ph_edir (snd r) = vnorm (ph_edir ph) \/ steps ph (snd r) /\ ph_edir (snd r) = vnorm (vnorm (ph_edir ph))).
  { intros r S Ed. rewrite Ed. destruct E1 as [-> | ->]; [left|right]; (split; [eapply steps_trans; eauto|reflexivity]). }
  destruct (andb _ _). { apply post_ret. apply Fin; [|reflexivity]. destruct G1; apply steps_w_same; auto. }
  eapply post_seq; intros amu. eapply post_seq; intros scatf.
  destruct G1 as [L1 P1].
  eapply post_bind; [apply refl_loop_w; [exact D|exact L1|exact P1]|].
  intros r (Lr & Lk & Lf & Hr).
  assert (SW : forall ev, steps ph1 (set_w (rr_w r) (set_eelec ev ph1)) /\ steps ph1 (set_eelec ev (set_w (rr_w r) (set_eelec (rr_ev r) ph1)))).
  { intros ev. split; (repeat split; auto; exists [], []; cbn; rewrite !app_nil_r; split; [auto|]; split; [auto|];
    intros i; specialize (Hr i); unfold leaks_i; cbn; lra). }
  destruct (rr_ok r) eqn:Ok; cbn [negb].
  2:{ apply post_ret. apply Fin; [apply SW|reflexivity]. }
  destruct (rr_lf r) eqn:Elf.
  2:{ apply post_ret. apply Fin; [apply SW|reflexivity]. }
  assert (Wt : Z.ltb 0 wt = true) by (destruct (Z.ltb 0 wt); [reflexivity|]; specialize (Lf eq_refl); congruence).
  specialize (Lk eq_refl Wt).
  eapply post_bind; [apply reflect_leaks_ok; [exact T| | |]|].
  - split; [cbn; congruence|]. intros i. cbn. apply (Hr i).
  - exact Lk.
  - intros i. apply (Hr i).
  - intros [early ph2] K. cbn [snd] in K. cbv zeta in K. cbn [ph_start ph_selec ph_en ph_amu ph_scatf ph_w ph_edir ph_ext ph_int set_eelec set_w] in K.
    destruct K as (K1 & K2 & K3 & K4 & K5 & K6 & K7 & _ & _ & _ & _ & _ & xs & ys & K8 & K9 & K10).
    apply post_ret. apply Fin; cbn [snd]; [|exact K7].
    repeat split; auto; [congruence|]. exists xs, ys. split; [auto|]. split; [auto|].
    intros i. specialize (K10 i). specialize (Hr i). rewrite K6. lra.
Qed.

Lemma trace_body_ok refl (o : optic R) junk :
  (forall ph sn, good ph -> post (refl ph sn) (fun r => steps ph (snd r))) -> tracer_ok (trace_body refl o junk).
Proof.
  intros H ix ph axes G. unfold trace_body.
  set (ph0 := set_sdir _ _).
  assert (S0 : steps ph ph0) by (destruct G; apply steps_w_same; auto).
  eapply post_seq; intros [c| |i pc sn cosa]; try (apply post_ret; exact S0).
  set (ph1 := set_exit _ _).
  assert (S1 : steps ph ph1) by (destruct G; apply steps_w_same; auto).
  destruct (nltb _ _); [apply post_ret; exact S1|].
  eapply post_seq; intros ix'. eapply post_seq; intros ext. eapply post_seq; intros w. destruct (Z.eqb w 0); [apply post_ret; exact S1|].
  eapply post_bind; [apply H; eapply steps_good; eauto|]. intros [iesc ph2] S2. cbn [snd] in S2.
  pose proof (steps_trans _ _ _ S1 S2) as S3.
  destruct (Z.eqb iesc 1). { apply post_ret. cbn [snd]. eapply steps_trans; [exact S3|]. pose proof (steps_good _ _ G S3) as [_ ?]. apply steps_w_same; auto. }
  destruct (orb _ _); apply post_ret; exact S3.
Qed.

Lemma trace_ok x (o : optic R) junk lc : forall fuel, tracer_ok (trace x o junk lc fuel).
Proof.
  induction fuel; cbn [trace]; [intros ix ph axes G; apply post_nofuel|].
  apply trace_body_ok. intros ph sn G. eapply post_imp; [apply reflect_ok; [exact IHfuel|exact G]|]. intros r [[H _]|[H _]]; exact H.
Qed.

(** ** polycap_photon_launch *)
Definition delivered (w : @weights_out R) (ws : list R) : Prop := w = Some (map Some ws).

Lemma photon_scatf_ok x (o : optic R) ph : post (photon_scatf x o ph) (fun ph' =>
  ph_start ph' = ph_start ph /\ ph_sdir ph' = ph_sdir ph /\ ph_selec ph' = ph_selec ph /\ ph_eelec ph' = ph_eelec ph /\
  ph_en ph' = ph_en ph /\ ph_w ph' = ph_w ph /\
  ph_ext ph' = ph_ext ph /\ ph_int ph' = ph_int ph /\ ph_irefl ph' = ph_irefl ph /\ ph_dtravel ph' = ph_dtravel ph /\
  ((ph_amu ph' = ph_amu ph /\ ph_scatf ph' = ph_scatf ph) \/
   (0 < o_dens o /\ Forall (fun zw => 0 <= snd zw) (combine (o_iz o) (o_wi o)) /\
    ph_amu ph' = Some (map (xl_amu x o) (ph_en ph)) /\ ph_scatf ph' = Some (map (xl_scatf x o) (ph_en ph))))).
Proof.
  unfold photon_scatf. rnum. destruct (Rleb_spec (o_dens o) 0) as [A|A]; cbn [orb]; [apply post_seq; intros _; apply post_ret; repeat split; auto|].
  destruct (match o_iz o with [] => true | _ => false end); cbn [orb]; [apply post_seq; intros _; apply post_ret; repeat split; auto|].
  destruct (match ph_en ph with [] => true | _ => false end); cbn [orb]; [apply post_seq; intros _; apply post_ret; repeat split; auto|].
  destruct (existsb _ (ph_en ph)); cbn [orb]; [apply post_seq; intros _; apply post_ret; repeat split; auto|].
  destruct (existsb _ (combine _ _)) eqn:E; [apply post_seq; intros _; apply post_ret; repeat split; auto|].
  apply post_ret. cbn. repeat split; auto. right. split; [lra|]. split; [|auto]. apply Forall_forall. intros zw I.
  destruct (Rle_or_lt 0 (snd zw)) as [|K]; [assumption|exfalso].
  assert (T : existsb (fun zw => (Rltb (snd zw) 0 || Rltb 1 (snd zw) || (fst zw <? 1)%Z || (111 <? fst zw)%Z)%bool) (combine (o_iz o) (o_wi o)) = true).
  { apply existsb_exists. exists zw. split; [exact I|]. rewrite Rltb_true by exact K. reflexivity. }
  rewrite E in T. discriminate.
Qed.

Lemma xl_amu_nonneg (x : xraylib R) o e : 0 < o_dens o -> Forall (fun zw => 0 <= snd zw) (combine (o_iz o) (o_wi o)) ->
  (forall z e, 0 <= cs_total x z e) -> 0 <= xl_amu x o e.
Proof.
  intros D F C. unfold xl_amu. rnum. apply Rmult_le_pos; [|lra].
  assert (H : forall l a, 0 <= a -> Forall (fun zw : Z * R => 0 <= snd zw) l -> 0 <= fold_left (fun t zw => t + cs_total x (fst zw) e * snd zw) l a).
  { induction l; cbn; intros a0 Ha Fl; [exact Ha|]. inversion Fl; subst. apply IHl; auto. pose proof (Rmult_le_pos _ _ (C (fst a) e) H1). lra. }
  apply H; [lra|exact F].
Qed.

Lemma launch_wall_ok x (o : optic R) junk lc fuel ph : good ph -> ph_ext ph = [] -> ph_int ph = [] ->
  (forall i, wi i (ph_w ph) <= 1) ->
  (forall amu, ph_amu ph = Some amu -> length amu = length (ph_en ph) /\ forall a, In a amu -> 0 <= a) ->
  post (launch_wall x o junk lc fuel ph) (fun r => forall i, 0 <= leaks_i i (ph_ext (snd r)) /\ 0 <= leaks_i i (ph_int (snd r)) /\
     leaks_i i (ph_ext (snd r)) + leaks_i i (ph_int (snd r)) <= 1).
Proof.
  intros G X I W1 A. unfold launch_wall.
  eapply post_bind; [apply trace_wall_d|]. intros [[[[wt dt] r_c] q_c] ph1] [E D]. cbn [fst snd] in E, D. subst ph1.
  set (ph1 := set_edir _ ph).
  destruct (Z.leb wt 0). { apply post_ret. cbn. intros i. rewrite X, I. unfold leaks_i. cbn. lra. }
  eapply post_bind; [apply post_deref|]. intros amu Ea. cbn in Ea. destruct (A _ Ea) as [La Pa].
  cbv zeta. set (w2 := map _ _).
  assert (N2 : length w2 = length (ph_en ph)).
  { unfold w2. rewrite map_length, combine_length. cbn [ph_w ph1 set_edir]. destruct G. lia. }
  assert (W2 : forall i, 0 <= wi i w2 <= 1).
  { unfold w2. rnum. clear Ea N2 w2 La A. revert amu Pa. cbn [ph_w ph1 set_edir]. destruct G as [_ P]. revert P W1. generalize (ph_w ph).
    induction l as [|w l IH]; intros P W1 amu A i; [cbn; rewrite wi_nil; lra|]. destruct amu as [|a amu]; [cbn; rewrite wi_nil; lra|].
    cbn [combine map fst snd]. rewrite wi_cons. destruct i as [|i].
    - pose proof (P O) as P0. pose proof (W1 O) as W0. unfold wi in P0, W0. cbn [nth] in P0, W0.
      assert (Q2 : 0 < exp (- (1) * dt * a) <= 1). { apply exp_le_1. pose proof (Rmult_le_pos dt a D (A a (or_introl eq_refl))). lra. } nra.
    - apply IH; [intros j; apply (P (S j))|intros j; apply (W1 (S j))|intros b Hb; apply A; now right]. }
  set (ph2 := set_exit _ _).
  assert (B2 : ph_ext ph2 = [] /\ ph_int ph2 = [] /\ ph_w ph2 = w2 /\ good ph2).
  { cbn. repeat split; auto. intros i. cbn. apply W2. }
  clearbody w2. destruct B2 as (X2 & I2 & Wp2 & G2). clearbody ph2.
  set (lk := fun ph : photon R => mkLeak (ph_exit ph) (ph_edir ph) (ph_eelec ph) (ph_irefl ph) (ph_w ph)).
  eapply post_seq; intros zmax. eapply post_seq; intros extmax.
  set (Q := fun ph : photon R => forall i, 0 <= leaks_i i (ph_ext ph) /\ 0 <= leaks_i i (ph_int ph) /\ leaks_i i (ph_ext ph) + leaks_i i (ph_int ph) <= 1).
  eapply post_bind with (P := fun r => Q (snd r)).
  2:{ intros [err ph3] H. cbn [snd] in H. destruct err; apply post_ret; exact H. }
  destruct (Z.eqb_spec wt 1) as [E1|E1].
  - destruct (Z.eqb_spec wt 3); [lia|]. destruct (Z.eqb_spec wt 2); [lia|].
    eapply post_seq; intros axes. eapply post_seq; intros ix.
    eapply post_bind; [apply trace_many_ok; [apply trace_ok|exact G2]|]. intros [ie ph3] S. cbn [snd] in S.
    destruct S as (_ & _ & _ & _ & _ & _ & xs & ys & S1 & S2 & S3). cbn in S1, S2, S3. rewrite X2 in S1. rewrite I2 in S2. cbn [app] in S1, S2.
    rewrite Wp2 in S3.
    assert (Q3 : Q ph3). { intros i. rewrite S1, S2. specialize (S3 i). specialize (W2 i). lra. }
    destruct (orb _ _); [apply post_ret; exact Q3|]. destruct (orb _ _); [|apply post_ret; exact Q3].
    eapply post_seq; intros w. apply post_ret. cbn [snd].
    destruct (Z.eqb w 0); [|destruct (Z.eqb w 1); [|exact Q3]]; intros i; cbn [ph_ext ph_int add_ext add_int set_exit]; rewrite leaks_i_app, leaks_i_one;
      unfold lk; cbn [lk_weights ph_w set_exit]; rewrite S1, S2; specialize (S3 i); specialize (W2 i); lra.
  - apply post_ret. cbn [snd].
    destruct (Z.eqb_spec wt 3) as [E3|E3]; destruct (Z.eqb_spec wt 2) as [E2|E2]; try lia; intros i; cbn [ph_ext ph_int add_ext add_int];
      rewrite X2, I2; cbn [app]; rewrite ?leaks_i_one; unfold lk; cbn [lk_weights]; rewrite ?Wp2; specialize (W2 i); unfold leaks_i; cbn; lra.
Qed.

(** Every launch: the delivered weights are in [0,1] and, with everything recorded as
    leaking, at most 1 per energy. *)
Lemma launch_conserves (x : xraylib R) o junk fuel ph en wnull lc :
  (forall z e, 0 <= cs_total x z e) -> ph_amu ph = None ->
  post (launch x o junk fuel ph (Some en) wnull lc)
    (fun r => let '(code, ph', w) := r in
       (ph' = ph /\ w = None) \/
       (forall i, 0 <= leaks_i i (ph_ext ph') /\ 0 <= leaks_i i (ph_int ph') /\
        match w with
        | Some ws => length ws = length en /\
            match nth i ws None with
            | Some v => 0 <= v <= 1 /\ v + leaks_i i (ph_ext ph') + leaks_i i (ph_int ph') <= 1
            | None => leaks_i i (ph_ext ph') + leaks_i i (ph_int ph') <= 1
            end
        | None => False
        end)).
Proof.
  intros C Na. unfold launch. destruct (orb _ _).
  { apply post_seq; intros _. apply post_ret. auto. }
  eapply post_bind; [apply photon_scatf_ok|]. intros ph1 (P1 & P2 & P3 & _ & P4 & P5 & P6 & P7 & _ & _ & P8).
  cbn [ph_en ph_w ph_ext ph_int launch_init] in P4, P5, P6, P7.
  set (ph2 := launch_reset ph1).
  assert (G2 : good ph2 /\ ph_ext ph2 = [] /\ ph_int ph2 = [] /\ (forall i, wi i (ph_w ph2) <= 1) /\ ph_en ph2 = en).
  { unfold ph2, launch_reset, set_edir, set_exit, good. cbn. rewrite P4, P5, P6, P7. rnum. repeat split; auto.
    - now rewrite map_length.
    - intros i. unfold wi. clear. revert i. induction en; intros [|i]; cbn; try lra. apply IHen.
    - intros i. unfold wi. clear. revert i. induction en; intros [|i]; cbn; try lra. apply IHen. }
  destruct G2 as (G2 & X2 & I2 & W2 & En2).
  assert (Un : forall i, nth i (map (fun _ : R => @None R) en) None = None) by (clear; induction en; intros [|i]; cbn; auto).
  (* a result without delivered weights *)
  assert (Q0 : forall code (ph' : photon R), (forall i, 0 <= leaks_i i (ph_ext ph') /\ 0 <= leaks_i i (ph_int ph') /\ leaks_i i (ph_ext ph') + leaks_i i (ph_int ph') <= 1) ->
     post (ret (code : Z, ph', Some (map (fun _ : R => @None R) en))) (fun r => let '(code, ph', w) := r in
       (ph' = ph /\ w = None) \/
       (forall i, 0 <= leaks_i i (ph_ext ph') /\ 0 <= leaks_i i (ph_int ph') /\
        match w with
        | Some ws => length ws = length en /\
            match nth i ws None with
            | Some v => 0 <= v <= 1 /\ v + leaks_i i (ph_ext ph') + leaks_i i (ph_int ph') <= 1
            | None => leaks_i i (ph_ext ph') + leaks_i i (ph_int ph') <= 1
            end
        | None => False
        end))).
  { intros code ph' H. apply post_ret. right. intros i. rewrite Un, map_length. specialize (H i). repeat split; try apply H. }
  assert (Qn : forall ph', ph_ext ph' = [] -> ph_int ph' = [] -> forall i, 0 <= leaks_i i (ph_ext (release ph')) /\ 0 <= leaks_i i (ph_int (release ph')) /\ leaks_i i (ph_ext (release ph')) + leaks_i i (ph_int (release ph')) <= 1).
  { intros ph' E1 E2 i. unfold release. cbn. rewrite E1, E2. unfold leaks_i. cbn. lra. }
  eapply post_seq; intros zid. eapply post_seq; intros ext. eapply post_seq; intros [[inside q] r].
  destruct inside; cbn [negb]; [|apply post_seq; intros _; apply Q0, Qn; assumption].
  eapply post_seq; intros axes. eapply post_seq; intros ix. eapply post_seq; intros [[rad cx] cy].
  destruct (nltb rad _).
  - destruct (andb _ _).
    + eapply post_bind; [apply post_quiet, reflect_ok; [apply trace_ok|exact G2]|]. intros [c ph3] S.
      assert (S' : steps ph2 ph3) by (destruct S as [[S _]|[S _]]; exact S). clear S.
      destruct S' as (_ & _ & _ & _ & _ & _ & xs & ys & S1 & S2 & S3). rewrite X2 in S1. rewrite I2 in S2. cbn [app] in S1, S2.
      apply Q0. intros i. unfold release. cbn [ph_ext ph_int]. rewrite S1, S2. specialize (S3 i). specialize (W2 i). lra.
    + destruct (andb _ _); [|apply Q0, Qn; assumption].
      eapply post_bind; [apply launch_wall_ok; auto|].
      * intros amu Ea. unfold ph2, launch_reset, set_edir, set_exit in Ea |- *. cbn in Ea |- *. destruct P8 as [[K _]|(Dn & Fw & K & _)].
        -- cbn in K. congruence.
        -- rewrite K in Ea. injection Ea as <-. rewrite map_length, P4. split; [reflexivity|]. intros a Ha. apply in_map_iff in Ha. destruct Ha as (e & <- & _). apply xl_amu_nonneg; auto.
      * intros [c ph3] H. apply Q0. exact H.
  - eapply post_bind; [apply trace_many_ok; [apply trace_ok|exact G2]|]. intros [ie ph3] S. cbn [snd] in S.
    destruct S as (_ & _ & _ & _ & _ & L3 & xs & ys & S1 & S2 & S3). rewrite X2 in S1. rewrite I2 in S2. cbn [app] in S1, S2.
    apply post_ret. right. intros i. unfold release. cbn [ph_ext ph_int]. rewrite S1, S2. specialize (S3 i). specialize (W2 i).
    split; [lra|]. split; [lra|]. split; [rewrite map_length; destruct G2; congruence|].
    destruct (nth_in_or_default i (map Some (ph_w ph3)) None) as [I|E].
    + assert (Hl : (i < length (ph_w ph3))%nat).
      { destruct (Nat.lt_ge_cases i (length (ph_w ph3))) as [|Hge]; [assumption|exfalso].
        rewrite nth_overflow in I by (rewrite map_length; exact Hge). apply in_map_iff in I. destruct I as (? & ? & _). discriminate. }
      rewrite (nth_indep _ None (Some 0)) by (rewrite map_length; exact Hl). rewrite map_nth. fold (wi i (ph_w ph3)). lra.
    + rewrite E. lra.
Qed.
