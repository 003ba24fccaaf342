(** * The path of a launched photon *)
From Coq Require Import ZArith List Bool Lia Reals Lra Psatz Classical_Prop.
From Verif Require Import Num Geometry SpecGeom SpecPhoton RM RMLogic CapilModel TraceModel LaunchModel SpecRay SpecPath
  RingProofs HexProofs PackProofs SourceReal CapilReal NormalReal FresnelReal WeightProofs TraceProofs SafeProofs.
Import ListNotations.
Local Open Scope R_scope.

Definition state_of (ph : photon R) : ray := mkRay (ph_exit ph) (ph_edir ph) (ph_irefl ph) (ph_dtravel ph).

(** The axes the code computes are those of the capillary. *)
Definition same_axes (o : optic R) (axes : list (R * R)) (c : capillary) : Prop :=
  length axes = S (p_nmax (o_prof o)) /\ length c = S (p_nmax (o_prof o)) /\
  forall j, (j <= p_nmax (o_prof o))%nat -> nth_error c j = Some (seg_c0 o axes j, seg_r0 o j).

Lemma launch_axes_nth (o : optic R) nsh q r : forall n i,
  post (launch_axes o nsh q r n i) (fun l => length l = n /\ forall j, (j < n)%nat ->
    exists e, nth_error (p_ext (o_prof o)) (i + j) = Some e /\ nth j l (0, 0) = (axis_x q r (hex_unit e nsh), axis_y r (hex_unit e nsh))).
Proof.
  induction n as [|n IH]; intros i; cbn [launch_axes]; [apply post_ret; split; [reflexivity|intros; lia]|].
  eapply post_bind; [apply post_rd|]. intros e Ee. eapply post_bind; [apply IH|]. intros l [L H]. apply post_ret.
  split; [cbn; congruence|]. intros [|j] Hj.
  - exists e. rewrite Nat.add_0_r. auto.
  - destruct (H j ltac:(lia)) as (e' & E1 & E2). exists e'. cbn [nth]. replace (i + S j)%nat with (S i + j)%nat by lia. auto.
Qed.

Lemma capillary_nth (p : profile R) n q r j z c e : nth_error (p_z p) j = Some z -> nth_error (p_cap p) j = Some c -> nth_error (p_ext p) j = Some e ->
  nth_error (capillary_of p n q r) j = Some (mkV (fst (cap_axis e n q r)) (snd (cap_axis e n q r)) z, c).
Proof.
  intros A B C. unfold capillary_of. rewrite nth_error_map.
  assert (N : forall X Y (l : list X) (l' : list Y) k a b, nth_error l k = Some a -> nth_error l' k = Some b -> nth_error (combine l l') k = Some (a, b)).
  { clear. intros X Y. induction l as [|x l IH]; intros [|y l'] [|k] a b; cbn; try discriminate; [congruence|apply IH]. }
  rewrite (N _ _ _ _ j _ _ (N _ _ _ _ _ _ _ A B) C). reflexivity.
Qed.
Lemma capillary_len (p : profile R) n q r m : length (p_z p) = m -> length (p_cap p) = m -> length (p_ext p) = m -> length (capillary_of p n q r) = m.
Proof. intros A B C. unfold capillary_of. rewrite map_length, !combine_length. lia. Qed.

Lemma nth_ex {A} (l : list A) j : (j < length l)%nat -> exists a, nth_error l j = Some a.
Proof. intros H. destruct (nth_error l j) eqn:E; [eauto|]. apply nth_error_None in E. lia. Qed.

Lemma launch_axes_same (o : optic R) q r : wf_optic o -> 0 <= n_shells (o_ncap o) ->
  post (launch_axes o (n_shells (o_ncap o)) (IZR q) (IZR r) (S (p_nmax (o_prof o))) 0)
       (fun axes => same_axes o axes (capillary_of (o_prof o) (n_shells (o_ncap o)) q r)).
Proof.
  intros (W1 & W2 & W3 & W4) Hn. eapply post_imp; [apply launch_axes_nth|]. intros axes [L H]. split; [exact L|].
  split; [apply capillary_len; assumption|]. intros j Hj. destruct (H j ltac:(lia)) as (e & Ee & En). cbn [Nat.add] in Ee.
  destruct (nth_ex (p_z (o_prof o)) j ltac:(lia)) as [z Ez]. destruct (nth_ex (p_cap (o_prof o)) j ltac:(lia)) as [c Ec].
  rewrite (capillary_nth _ _ _ _ _ _ _ _ Ez Ec Ee). unfold seg_c0, seg_r0. rewrite En, (nth_rd _ _ _ _ Ez), (nth_rd _ _ _ _ Ec).
  rewrite <- (axis_model e _ q r Hn). reflexivity.
Qed.

Lemma regular_nice (o : optic R) axes c d : same_axes o axes c -> regular c d -> forall j, (j < p_nmax (o_prof o))%nat -> nice o axes d j.
Proof.
  intros (_ & _ & S) [_ H] j Hj.
  destruct (H j _ _ _ _ (conj (S j ltac:(lia)) (S (Datatypes.S j) ltac:(lia)))) as (A & B & C & D). repeat split; assumption.
Qed.

Lemma distance_dist p q : distance p q = sqrt (dot (mkV (vx p - vx q) (vy p - vy q) (vz p - vz q)) (mkV (vx p - vx q) (vy p - vy q) (vz p - vz q))).
Proof. unfold distance, dot. cbn [vx vy vz]. f_equal. ring. Qed.

Lemma hit_meets (o : optic R) axes c ix ph ph' : same_axes o axes c -> hit_at o axes ix ph ph' ->
  meets c (state_of ph) (ph_exit ph') /\ ph_dtravel ph' = ph_dtravel ph + distance (ph_exit ph') (ph_exit ph).
Proof.
  intros (_ & _ & S) (j & J & L & Z & W & T). split; [|rewrite distance_dist; exact T].
  exists j, (seg_c0 o axes j), (seg_r0 o j), (seg_c0 o axes (Datatypes.S j)), (seg_r0 o (Datatypes.S j)).
  split; [split; apply S; lia|]. cbn [state_of r_pos r_dir]. split; [exact W|]. split; [exact L|]. lra.
Qed.

Lemma classic_reg (c : capillary) d : regular c d \/ ~ regular c d.
Proof. apply Classical_Prop.classic. Qed.

(** The chain of calls of polycap_capil_trace. *)
Lemma trace_many_path x (o : optic R) junk lc fuel axes c : same_axes o axes c ->
  forall n iesc ix ph m s0, unit (ph_edir ph) -> bounces c m s0 (state_of ph) ->
  post (trace_many (trace x o junk lc fuel) axes n iesc ix ph) (fun r => let '(ie, ph') := r in
    (exists k s, bounces c k s0 s /\ ~ regular c (r_dir s)) \/
    (exists k s, (k <= m + n)%nat /\ bounces c k s0 s /\
       (((ie = 1%Z \/ ie = (-2)%Z \/ (ie = iesc /\ n = O)) /\ s = state_of ph') \/
        (ie = 0%Z /\ meets c s (ph_exit ph') /\ ph_edir ph' = r_dir s /\ ph_irefl ph' = r_bounces s /\
           ph_dtravel ph' = r_travel s + distance (ph_exit ph') (r_pos s)) \/
        ie = (-1)%Z \/ ie = (-3)%Z))).
Proof.
  intros S. induction n as [|n IH]; intros iesc ix ph m s0 U B; cbn [trace_many].
  { apply post_ret. right. exists m, (state_of ph). split; [lia|]. split; [exact B|]. left. auto. }
  destruct (classic_reg c (ph_edir ph)) as [Rg|Rg].
  2:{ eapply post_imp; [apply post_any|]. intros [ie ph'] _. left. exists m, (state_of ph). auto. }
  eapply post_bind.
  { apply trace_stepped; [apply Rg|]. intros j Hj. rewrite (vnorm_of_unit _ U). eapply regular_nice; [exact S|exact Rg|lia]. }
  intros [[ie ix'] ph'] (H1 & H0 & H2 & Hc). rewrite (vnorm_of_unit _ U) in H1, H0, H2.
  destruct (Z.eqb_spec ie 1) as [E|E].
  - destruct (H1 E) as (Hh & Hi & Hu & nn & Un & Mi). destruct (hit_meets _ _ _ _ _ _ S Hh) as [Me Tr].
    eapply post_imp; [apply (IH ie ix' ph' (Datatypes.S m) s0 Hu)|].
    + econstructor; [exact B|]. split; [exact Me|]. split; [exists nn; split; [exact Un|exact Mi]|]. split; [exact Hu|]. split; [exact Hi|exact Tr].
    + intros [ie2 ph2] [K|(k & s & Lk & Bk & K)]; [left; exact K|]. right. exists k, s. split; [lia|]. split; [exact Bk|].
      destruct K as [[[K|[K|[K _]]] K']|[K|K]]; [left..|right; left; exact K|right; right; exact K]; subst; auto.
  - apply post_ret. right. exists m, (state_of ph). split; [lia|]. split; [exact B|].
    destruct Hc as [Hc|[Hc|[Hc|[Hc|[Hc|[]]]]]]; subst ie.
    + congruence.
    + right. left. destruct (H0 eq_refl) as (Hh & Hi & Hd). destruct (hit_meets _ _ _ _ _ _ S Hh) as [Me Tr]. auto.
    + left. destruct (H2 eq_refl) as (A1 & A2 & A3 & A4). split; [auto|]. unfold state_of. congruence.
    + right. right. auto.
    + right. right. auto.
Qed.

Lemma interp_lin (zs vs : list R) zc id :
  post (interp zs vs zc id) (fun v => exists z0 z1 v0 v1, nth_error zs id = Some z0 /\ nth_error zs (S id) = Some z1 /\
    nth_error vs id = Some v0 /\ nth_error vs (S id) = Some v1 /\ v = lin z0 z1 v0 v1 zc).
Proof.
  unfold interp. eapply post_bind; [apply post_rd|]. intros v1 E1. eapply post_bind; [apply post_rd|]. intros v0 E0.
  eapply post_bind; [apply post_rd|]. intros z1 F1. eapply post_bind; [apply post_rd|]. intros z0 F0. apply post_ret.
  exists z0, z1, v0, v1. repeat split; auto. unfold lin. rnum. unfold Rdiv. ring.
Qed.

Lemma last_le_bound (zs : list R) zc : forall n i id, post (last_le zs zc n i id) (fun k => k = id \/ (i <= k < i + n)%nat).
Proof.
  induction n as [|n IH]; intros i id; cbn [last_le]; [apply post_ret; auto|].
  eapply post_seq; intros z. eapply post_imp; [apply IH|]. intros k [-> |K]; [destruct (nleb _ _); [right; lia|auto]|right; lia].
Qed.

Lemma hex_round_int (p : R * R) : exists q r : Z, hex_round p = (IZR q, IZR r).
Proof. destruct p as [a b]. destruct (hex_round_voronoi a b) as (q & r & E & _). eauto. Qed.

Lemma launch_path x (o : optic R) junk fuel ph en wnull lc : wf_optic o -> (1 <= o_ncap o)%Z ->
  (lc = false \/ vz (ph_start ph) <= 0) -> dot (ph_sdir ph) (ph_sdir ph) <> 0 ->
  post (launch x o junk fuel ph en wnull lc) (fun r => let '(code, ph', w) := r in
    (code = 1%Z \/ code = 0%Z) -> exists q r, let c := capillary_of (o_prof o) (n_shells (o_ncap o)) q r in
      in_channel c (ph_start ph) /\ exists k s, bounces c k (mkRay (ph_start ph) (along (ph_sdir ph)) 0 (ph_dtravel ph)) s /\
      (~ regular c (r_dir s) \/
       ((k <= S (p_nmax (o_prof o)))%nat /\
        (code = 1%Z -> s = mkRay (ph_exit ph') (ph_edir ph') (ph_irefl ph') (ph_dtravel ph')) /\
        (code = 0%Z -> (k <= S (p_nmax (o_prof o)))%nat /\ meets c s (ph_exit ph') /\ ph_edir ph' = r_dir s /\ ph_irefl ph' = r_bounces s /\
           ph_dtravel ph' = r_travel s + distance (ph_exit ph') (r_pos s))))).
Proof.
  intros W Hc Hl Hd. pose proof W as (W1 & W2 & W3 & W4).
  pose proof (n_shells_ex (o_ncap o) Hc) as Hn.
  destruct Hn as (k0 & Hk0 & Ek0). assert (Hn : 0 <= n_shells (o_ncap o)) by (rewrite Ek0; apply IZR_le; exact Hk0).
  unfold launch. destruct en as [en|]; [|apply post_seq; intros _; apply post_ret; intros [? | ?]; discriminate].
  destruct (orb _ _). { apply post_seq; intros _; apply post_ret; intros [? | ?]; discriminate. }
  eapply post_bind with (P := fun ph1 => ph_start ph1 = ph_start ph /\ ph_sdir ph1 = vnorm (ph_sdir ph) /\ ph_dtravel ph1 = ph_dtravel ph /\ ph_irefl ph1 = 0%Z).
  { unfold photon_scatf. destruct (orb _ _); [eapply post_seq; intros _|]; apply post_ret; repeat split. }
  intros ph1 (P1 & P2 & P3 & P4). set (ph2 := launch_reset ph1).
  assert (Ua : unit (vnorm (ph_sdir ph))) by (apply (vnorm_unit (ph_sdir ph)); exact Hd).
  assert (Q1 : ph_start ph2 = ph_start ph) by exact P1.
  assert (Q2 : state_of ph2 = mkRay (ph_start ph) (along (ph_sdir ph)) 0 (ph_dtravel ph)).
  { unfold state_of, ph2, launch_reset. cbn [ph_exit ph_edir ph_irefl ph_dtravel set_edir set_exit]. rewrite P1, P2, P3, P4. rewrite (vnorm_of_unit _ Ua). reflexivity. }
  assert (Q3 : unit (ph_edir ph2)). { change (unit (r_dir (state_of ph2))). rewrite Q2. exact Ua. }
  clearbody ph2. rewrite Q1.
  eapply post_bind with (P := fun zid => 0 < vz (ph_start ph) -> (zid < p_nmax (o_prof o))%nat).
  { rnum. destruct (Rltb_spec 0 (vz (ph_start ph))).
    - eapply post_imp; [apply last_le_bound|]. intros z [-> |H]; intros; lia.
    - apply post_ret. intros; lra. }
  intros zid Hz. eapply post_seq; intros ext.
  eapply post_bind with (P := fun iqr => exists q r : Z, snd (fst iqr) = IZR q /\ snd iqr = IZR r).
  { destruct (neqb _ _); [apply post_ret; exists 0%Z, 0%Z; split; reflexivity|].
    destruct (hex_round_int (hex_frac (vx (ph_start ph)) (vy (ph_start ph)) (hex_unit ext (n_shells (o_ncap o))))) as (q & r & E). rewrite E.
    eapply post_seq; intros w. apply post_ret. exists q, r. split; reflexivity. }
  intros [[inside qr] rr] (q & r & Eq & Er). cbn [fst snd] in Eq, Er. subst qr rr.
  destruct inside; cbn [negb]; [|apply post_seq; intros _; apply post_ret; intros [? | ?]; discriminate].
  eapply post_bind; [apply launch_axes_same; [exact W|exact Hn]|]. intros axes Sx. eapply post_seq; intros ix.
  set (c := capillary_of _ _ q r) in *.
  eapply post_bind with (P := fun t => let '(rad, cx, cy) := t in dist2 (vx (ph_start ph)) (vy (ph_start ph)) cx cy <= rad -> in_channel c (ph_start ph)).
  { destruct Sx as (Lx & Lc & Sx). rnum. destruct (Rltb_spec 0 (vz (ph_start ph))) as [Z|Z].
    - specialize (Hz Z).
      eapply post_bind; [apply interp_lin|]. intros rad (z0 & z1 & c0 & c1 & Ez0 & Ez1 & Ec0 & Ec1 & ->).
      eapply post_bind; [apply interp_lin|]. intros cx (z0' & z1' & x0 & x1 & Ez0' & Ez1' & Ex0 & Ex1 & ->).
      eapply post_bind; [apply interp_lin|]. intros cy (z0'' & z1'' & y0 & y1 & Ez0'' & Ez1'' & Ey0 & Ey1 & ->).
      apply post_ret. intros H. right. exists zid, (seg_c0 o axes zid), (seg_r0 o zid), (seg_c0 o axes (S zid)), (seg_r0 o (S zid)).
      split; [split; apply Sx; lia|].
      assert (V0 : forall A B (f : A -> B) l j b d, nth_error (map f l) j = Some b -> f (nth j l d) = b).
      { clear. intros A B f l j b d E. rewrite nth_error_map in E. destruct (nth_error l j) eqn:F; [|discriminate]. injection E as <-. f_equal. now apply nth_error_nth. }
      unfold seg_axis_x, seg_axis_y, seg_radius, seg_c0, seg_r0. cbn [vx vy vz].
      rewrite (V0 _ _ _ _ _ _ (0, 0) Ex0), (V0 _ _ _ _ _ _ (0, 0) Ex1), (V0 _ _ _ _ _ _ (0, 0) Ey0), (V0 _ _ _ _ _ _ (0, 0) Ey1).
      rewrite (nth_rd _ _ _ _ Ez0), (nth_rd _ _ _ _ Ez1), (nth_rd _ _ _ _ Ec0), (nth_rd _ _ _ _ Ec1). congruence.
    - eapply post_bind; [apply post_rd|]. intros rad Er. eapply post_bind; [apply post_rd|]. intros [cx cy] Ec. apply post_ret. intros H.
      left. split; [lra|]. exists (seg_c0 o axes 0), (seg_r0 o 0). split; [apply Sx; lia|].
      unfold seg_c0, seg_r0. cbn [vx vy]. rewrite (nth_rd _ _ _ _ Er), (nth_rd _ _ _ _ Ec). exact H. }
  intros [[rad cx] cy] Hin. rnum.
  match goal with |- context [Rltb rad ?d] => destruct (Rltb_spec rad d) as [O|O] end.
  - rnum. destruct Hl as [-> |Hl]; cbn [andb]; [apply post_ret; intros [? | ?]; discriminate|].
    destruct (andb lc _). { eapply post_seq; intros [cc pp]. apply post_ret. intros [? | ?]; discriminate. }
    rewrite (Rltb_false 0) by lra. rewrite andb_false_r. apply post_ret; intros [? | ?]; discriminate.
  - assert (In0 : in_channel c (ph_start ph)) by (apply Hin; unfold dist2, len2; lra).
    eapply post_bind. { apply (trace_many_path x o junk lc fuel axes c Sx _ 0%Z ix ph2 0%nat (state_of ph2) Q3). constructor. }
    intros [ie ph3] H. apply post_ret. intros Hcode. exists q, r. split; [exact In0|]. rewrite Q2 in H.
    destruct H as [(k & s & B & N)|(k & s & Lk & B & H)]; [exists k, s; auto|]. exists k, s. split; [exact B|]. right. fold c. split; [exact Lk|].
    cbn [ph_exit ph_edir ph_irefl ph_dtravel release].
    destruct H as [[H ->]|[(-> & H)|[-> | ->]]].
    + split; [reflexivity|]. intros Z0. exfalso. destruct H as [-> |[-> |[_ H]]]; discriminate.
    + split; [discriminate|]. intros _. split; [exact Lk|exact H].
    + destruct Hcode; discriminate.
    + destruct Hcode; discriminate.
Qed.
