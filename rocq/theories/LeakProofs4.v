(** * polycap_photon_pc_intersect and the test of the start point *)
From Coq Require Import ZArith List Bool Lia Reals Lra Psatz Classical_Prop.
From Verif Require Import Num Geometry SpecGeom SpecPhoton RM RMLogic CapilModel TraceModel LaunchModel SpecRay SpecPath SpecLeak
  RingProofs HexProofs PackProofs SourceReal CapilReal NormalReal FresnelReal WeightProofs TraceProofs SafeProofs PathProofs LeakProofs LeakProofs2 LeakProofs3.
Import ListNotations.
Local Open Scope R_scope.

Lemma between_R lo z hi : between lo z hi = true <-> lo <= z <= hi.
Proof. unfold between. rnum. destruct (Rleb_spec lo z), (Rleb_spec z hi); cbn; intuition (try discriminate; lra). Qed.

Lemma choose_viable better sbetter lo hi z1 z2 z3 z : pci_choose (T := R) better sbetter lo hi z1 z2 z3 = Some (Some z) -> lo <= z <= hi.
Proof.
  unfold pci_choose. pose proof (between_R lo z1 hi) as B1. pose proof (between_R lo z2 hi) as B2. pose proof (between_R lo z3 hi) as B3.
  destruct (between lo z1 hi), (between lo z2 hi), (between lo z3 hi); cbn [andb];
    repeat match goal with |- context [if ?b then _ else _] => destruct b end; intros H; try discriminate; injection H as <-; intuition.
Qed.
(** The best of the viable solutions. *)
Lemma choose_best_down lo hi z1 z2 z3 r : pci_choose (T := R) (fun a b => nleb b a) (fun a b => nltb b a) lo hi z1 z2 z3 = r ->
  match r with
  | None => False
  | Some None => forall v, In v [z1; z2; z3] -> ~ lo <= v <= hi
  | Some (Some z) => In z [z1; z2; z3] /\ lo <= z <= hi /\ forall v, In v [z1; z2; z3] -> lo <= v <= hi -> v <= z end.
Proof.
  intros <-. unfold pci_choose. rnum. pose proof (between_R lo z1 hi) as B1. pose proof (between_R lo z2 hi) as B2. pose proof (between_R lo z3 hi) as B3.
  destruct (between lo z1 hi), (between lo z2 hi), (between lo z3 hi); cbn [andb];
    repeat match goal with
           | |- context [Rleb ?a ?b] => destruct (Rleb_spec a b); cbn [andb]
           | |- context [Rltb ?a ?b] => destruct (Rltb_spec a b); cbn [andb] end; cbn [In]; try lra;
    (split; [tauto|split; [tauto|]] || idtac); intros v Hv; intuition (subst; try discriminate; try lra).
Qed.
Lemma choose_best_up lo hi z1 z2 z3 r : pci_choose (T := R) (fun a b => nleb a b) (fun a b => nltb a b) lo hi z1 z2 z3 = r ->
  match r with
  | None => False
  | Some None => forall v, In v [z1; z2; z3] -> ~ lo <= v <= hi
  | Some (Some z) => In z [z1; z2; z3] /\ lo <= z <= hi /\ forall v, In v [z1; z2; z3] -> lo <= v <= hi -> z <= v end.
Proof.
  intros <-. unfold pci_choose. rnum. pose proof (between_R lo z1 hi) as B1. pose proof (between_R lo z2 hi) as B2. pose proof (between_R lo z3 hi) as B3.
  destruct (between lo z1 hi), (between lo z2 hi), (between lo z3 hi); cbn [andb];
    repeat match goal with
           | |- context [Rleb ?a ?b] => destruct (Rleb_spec a b); cbn [andb]
           | |- context [Rltb ?a ?b] => destruct (Rltb_spec a b); cbn [andb] end; cbn [In]; try lra;
    (split; [tauto|split; [tauto|]] || idtac); intros v Hv; intuition (subst; try discriminate; try lra).
Qed.

Lemma post_rdZ' {A} (l : list A) i : post (rdZ l i) (fun a => (0 <= i)%Z /\ nth_error l (Z.to_nat i) = Some a).
Proof. unfold rdZ. destruct (Z.ltb_spec i 0); [apply post_ub|]. eapply post_imp; [apply post_rd|]. auto. Qed.

Definition climbs (p : profile R) : Prop := forall i z0 z1, nth_error (p_z p) i = Some z0 -> nth_error (p_z p) (S i) = Some z1 -> z0 <= z1.

Lemma ray_at3_z c d z : vz d <> 0 -> vz (ray_at3 c d z) = z.
Proof. intros H. unfold ray_at3. rnum. cbn [vz]. field. exact H. Qed.
Lemma neg_norm_line (pd : vec3 R) : vz pd <> 0 -> exists k, k <> 0 /\ vnorm (mkV (- (1) * vx pd) (- (1) * vy pd) (- (1) * vz pd)) = mkV (k * vx pd) (k * vy pd) (k * vz pd).
Proof.
  intros H. set (v := mkV _ _ _). assert (Hv : 0 < dot v v). { unfold v, dot. cbn [vx vy vz]. assert (0 < vz pd * vz pd) by (apply Rsqr_pos_lt; exact H). nra. }
  destruct (vnorm_R v (Rgt_not_eq _ _ Hv)) as (s & Ps & _ & ->). exists (- / s). split; [apply Ropp_neq_0_compat, Rinv_neq_0_compat; lra|]. unfold v. cbn [vx vy vz]. f_equal; field; lra.
Qed.
Lemma ray_at3_line c d u k z : k <> 0 -> vz u <> 0 -> d = mkV (k * vx u) (k * vy u) (k * vz u) -> on_line c u (ray_at3 c d z).
Proof. intros Hk Hu ->. exists ((z - vz c) / vz u). unfold ray_at3. rnum. cbn [vx vy vz]. repeat split; field; auto. Qed.

Lemma pc_intersect_fact (p : profile R) pc pdir : climbs p ->
  post (pc_intersect pc pdir p) (fun r => match r with None => True | Some v => on_line pc pdir v /\
     exists i z0 z1, nth_error (p_z p) i = Some z0 /\ nth_error (p_z p) (S i) = Some z1 /\ z0 <= vz v <= z1 end).
Proof.
  intros Cl. unfold pc_intersect. rnum. destruct (Reqb_spec (vz pdir) 0) as [Z0|Z0]. { eapply post_seq; intros _. apply post_ret. exact I. }
  destruct (neg_norm_line pdir Z0) as (k & Hk & Ek). rewrite Ek. set (pd := mkV (k * vx pdir) _ _) in *.
  assert (Hz : vz pd <> 0) by (apply Rmult_integral_contrapositive_currified; assumption).
  assert (Ln : forall z, on_line pc pdir (ray_at3 pc pd z)) by (intros z; apply (ray_at3_line pc pd pdir k z Hk Z0); reflexivity).
  eapply post_seq; intros zid. eapply post_seq; intros ext0. destruct (Z.eqb _ 1). { eapply post_seq; intros _. apply post_ret. exact I. }
  eapply post_seq; intros [zz|]; [|apply post_ret; exact I].
  eapply post_bind; [apply post_rdZ'|]. intros zb [Hb Eb]. eapply post_bind; [apply post_rdZ'|]. intros ze [He Ee].
  eapply post_seq; intros eb. eapply post_seq; intros ee.
  destruct (Rltb (vz pd) 0).
  - replace (Z.to_nat (zz - -1)) with (S (Z.to_nat zz)) in Ee by lia. pose proof (Cl _ _ _ Eb Ee) as Le.
    destruct (pci_choose _ _ _ _ _ _ _) as [[zf|]|] eqn:Ch; [| |apply post_ret; exact I].
    + apply post_ret. split; [apply Ln|]. exists (Z.to_nat zz), zb, ze. rewrite ray_at3_z by exact Hz. split; [exact Eb|]. split; [exact Ee|]. exact (choose_viable _ _ _ _ _ _ _ _ Ch).
    + apply post_ret. split; [apply Ln|]. exists (Z.to_nat zz), zb, ze. rewrite ray_at3_z by exact Hz. split; [exact Eb|]. split; [exact Ee|]. lra.
  - replace (Z.to_nat zz) with (S (Z.to_nat (zz - 1))) in Eb by lia. pose proof (Cl _ _ _ Ee Eb) as Le.
    destruct (pci_choose _ _ _ _ _ _ _) as [[zf|]|] eqn:Ch; [| |apply post_ret; exact I].
    + apply post_ret. split; [apply Ln|]. exists (Z.to_nat (zz - 1)), ze, zb. rewrite ray_at3_z by exact Hz. split; [exact Ee|]. split; [exact Eb|]. exact (choose_viable _ _ _ _ _ _ _ _ Ch).
    + apply post_ret. split; [apply Ln|]. exists (Z.to_nat (zz - 1)), ze, zb. rewrite ray_at3_z by exact Hz. split; [exact Ee|]. split; [exact Eb|]. lra.
Qed.

Lemma outline_unique (p : profile R) z e e' : outline_at p z e -> outline_at p z e' -> e = e'.
Proof.
  intros (j & z0 & z1 & e0 & e1 & J & A & B & C & D & L & U & ->) (j' & z0' & z1' & e0' & e1' & J' & A' & B' & C' & D' & L' & U' & ->).
  assert (j = j'). { destruct (Nat.lt_trichotomy j j') as [H|[H|H]]; [|exact H|].
    - destruct L' as [-> |L']; [lia|]. pose proof (U j' z0' ltac:(lia) A'). lra.
    - destruct L as [-> |L]; [lia|]. pose proof (U' j z0 ltac:(lia) A). lra. }
  subst j'. congruence.
Qed.

Definition above_entrance (p : profile R) : Prop := forall k zk, (0 < k)%nat -> nth_error (p_z p) k = Some zk -> 0 < zk.

Definition start_index (p : profile R) (z : R) (k : nat) : Prop := (k < p_nmax p)%nat /\ (k = O \/ forall zk, nth_error (p_z p) k = Some zk -> zk <= z) /\
    forall j zj, (k < j < p_nmax p)%nat -> nth_error (p_z p) j = Some zj -> z < zj.
Lemma start_index_post (p : profile R) z : (1 <= p_nmax p)%nat -> above_entrance p ->
  post (if Rltb 0 z then last_le (p_z p) z (p_nmax p) 0 0 else ret O) (start_index p z).
Proof.
  intros Hn Ab. destruct (Rltb_spec 0 z) as [L|L].
  - eapply post_imp; [apply last_le_spec|]. intros k [K1 K2]. split; [destruct K1 as [[-> _]|[K1 _]]; lia|]. split.
    + destruct K1 as [[-> _]|[_ K1]]; auto.
    + intros j zj [J1 J2] E. destruct (K2 j zj ltac:(lia) J1 E) as [Q|(_ & _ & Q)]; exact Q.
  - apply post_ret. split; [lia|]. split; [auto|]. intros j zj [J1 J2] E. pose proof (Ab j zj J1 E). lra.
Qed.
Lemma start_outline (p : profile R) z k : start_index p z k -> post (launch_ext p z k) (outline_at p z).
Proof.
  intros (K1 & K2 & K3). eapply post_imp; [apply launch_ext_lin|]. intros e (z0 & z1 & e0 & e1 & Ez0 & Ez1 & Ee0 & Ee1 & ->).
  exists k, z0, z1, e0, e1. repeat split; auto. destruct K2 as [K2|K2]; auto.
Qed.

Definition misses (n e : R) (a : vec3 R) : Prop := if Req_EM_T n 0 then e < len2 (vx a) (vy a) else ~ in_hexagon e (vx a) (vy a).

Lemma launch_start_test x (o : optic R) junk fuel ph en lc : wf_optic o -> above_entrance (o_prof o) ->
  en <> [] -> Forall (fun v => 1 <= v <= 100) en ->
  post (launch x o junk fuel ph (Some en) false lc) (fun r => let '(code, ph', w) := r in
    forall e, outline_at (o_prof o) (vz (ph_start ph)) e -> 0 < e -> (code = (-2)%Z <-> misses (n_shells (o_ncap o)) e (ph_start ph))).
Proof.
  intros (W1 & _) Ab Ne Fe. unfold launch.
  match goal with |- context [if ?b then _ else _] => replace b with false end.
  2:{ destruct en as [|v en]; [contradiction|]. symmetry. rewrite orb_false_r. cbn [orb]. apply not_true_iff_false. intros H. apply existsb_exists in H. destruct H as (u & I & H).
      rewrite Forall_forall in Fe. specialize (Fe u I). revert H. rnum. rewrite Rltb_false, Rltb_false by lra. discriminate. }
  eapply post_bind with (P := fun ph1 => ph_start ph1 = ph_start ph). { unfold photon_scatf. destruct (orb _ _); [eapply post_seq; intros _|]; apply post_ret; reflexivity. }
  intros ph1 P1. assert (Q1 : ph_start (launch_reset ph1) = ph_start ph) by exact P1. rewrite Q1. rnum.
  eapply post_bind; [apply start_index_post; assumption|]. intros zid Hz. eapply post_bind; [apply start_outline; exact Hz|]. intros ext Oe.
  eapply post_bind with (P := fun iqr => 0 < ext -> (fst (fst iqr) = false <-> misses (n_shells (o_ncap o)) ext (ph_start ph))).
  { unfold misses. destruct (Reqb_spec (n_shells (o_ncap o)) 0) as [N|N].
    - apply post_ret. cbn [fst]. intros _. destruct (Req_EM_T _ 0) as [_|C]; [|contradiction].
      match goal with |- context [Rltb ext ?d] => destruct (Rltb_spec ext d) as [L|L] end; cbn [negb]; unfold len2; intuition (try discriminate; lra).
    - destruct (Req_EM_T _ 0) as [C|_]; [contradiction|]. destruct (hex_round _) as [q r].
      intros e a e' K Pe. unfold bind in K. destruct (within_e ext (ph_start ph) e) as [[w e1]| |] eqn:E; try discriminate. unfold ret in K. injection K as <- _. cbn [fst].
      destruct (within_e_post ext (ph_start ph) Pe _ _ _ E) as [[-> I]|[-> I]]; cbn [Z.eqb Pos.eqb negb]; intuition discriminate. }
  intros [[inside q] r]. cbn [fst]. intros Hin.
  assert (G : forall e, outline_at (o_prof o) (vz (ph_start ph)) e -> 0 < e -> (inside = false <-> misses (n_shells (o_ncap o)) e (ph_start ph))).
  { intros e Oe' Pe. rewrite (outline_unique _ _ _ _ Oe' Oe) in *. apply Hin. exact Pe. }
  clear Hin. destruct inside; cbn [negb].
  2:{ eapply post_seq; intros _. apply post_ret. intros e A B. split; [intros _; apply (G e A B); reflexivity|reflexivity]. }
  eapply post_seq; intros axes. eapply post_seq; intros ix. eapply post_seq; intros [[rad cx] cy].
  assert (K : forall code, code <> (-2)%Z -> forall e, outline_at (o_prof o) (vz (ph_start ph)) e -> 0 < e -> (code = (-2)%Z <-> misses (n_shells (o_ncap o)) e (ph_start ph))).
  { intros code N e A B. split; [contradiction|]. intros M. apply (G e A B) in M. discriminate. }
  destruct (Rltb rad _).
  - destruct (andb _ _). { eapply post_seq; intros [cc pp]. apply post_ret. apply K. discriminate. }
    destruct (andb _ _); [|apply post_ret; apply K; discriminate].
    eapply post_bind; [apply launch_wall_codes|]. intros [cc pp] H. cbn [fst] in H. apply post_ret. apply K. destruct H; subst; discriminate.
  - eapply post_seq; intros [ie ph3]. apply post_ret. apply K. destruct (orb _ _); [discriminate|destruct (Z.eqb _ _); discriminate].
Qed.

(** After a launch that allocated the weights the photon holds no energy-dependent data. *)
Lemma launch_releases x (o : optic R) junk fuel ph en wnull lc :
  post (launch x o junk fuel ph en wnull lc) (fun r => let '(code, ph', w) := r in w <> None ->
    ph_en ph' = [] /\ ph_w ph' = [] /\ ph_amu ph' = None /\ ph_scatf ph' = None).
Proof.
  unfold launch. destruct en as [en|]; [|apply post_seq; intros _; apply post_ret; intros H; contradiction].
  destruct (orb _ _). { apply post_seq; intros _; apply post_ret; intros H; contradiction. }
  eapply post_seq; intros ph1. eapply post_seq; intros zid. eapply post_seq; intros ext. eapply post_seq; intros [[inside q] r].
  destruct inside; cbn [negb]; [|apply post_seq; intros _; apply post_ret; repeat split].
  eapply post_seq; intros axes. eapply post_seq; intros ix. eapply post_seq; intros [[rad cx] cy].
  destruct (nltb _ _).
  - destruct (andb _ _). { eapply post_seq; intros [c p]. apply post_ret. repeat split. }
    destruct (andb _ _); [|apply post_ret; repeat split].
    eapply post_bind with (P := fun r => ph_en (snd r) = [] /\ ph_w (snd r) = [] /\ ph_amu (snd r) = None /\ ph_scatf (snd r) = None).
    + unfold launch_wall. eapply post_seq; intros [[[[wt dt] rc] qc] ph3]. destruct (Z.leb wt 0); [apply post_ret; repeat split|].
      eapply post_seq; intros amu. eapply post_seq; intros zm. eapply post_seq; intros em. eapply post_seq; intros [err ph2]. destruct err; apply post_ret; repeat split.
    + intros [cc pp] H. apply post_ret. intros _. exact H.
  - eapply post_seq; intros [ie ph3]. apply post_ret. repeat split.
Qed.
