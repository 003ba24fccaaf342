(** * No out-of-bounds access while following a photon (leak calculation off) *)
From Coq Require Import ZArith List Bool Lia Reals Lra Psatz.
From Verif Require Import Num Geometry SpecPhoton RM RMLogic CapilModel TraceModel LaunchModel SpecRay CapilReal FresnelReal WeightProofs TraceProofs.
Import ListNotations.
Local Open Scope R_scope.

Lemma safe_true_imp {A} (m : RM A) (Q : A -> Prop) : safe m Q -> safe m (fun _ => True).
Proof. intros H. eapply safe_imp; [exact H|auto]. Qed.

Lemma last_le_safe (zs : list R) zc : forall n i id, (i + n <= length zs)%nat ->
  safe (last_le zs zc n i id) (fun k => (k = id /\ forall j z, (i <= j < i + n)%nat -> nth_error zs j = Some z -> zc < z) \/
                                       ((i <= k < i + n)%nat /\ exists z, nth_error zs k = Some z /\ z <= zc)).
Proof.
  induction n as [|n IH]; intros i id H; cbn [last_le].
  { apply safe_ret. left. split; [reflexivity|]. intros; lia. }
  eapply safe_bind; [apply safe_rd; lia|]. intros z Ez. rnum.
  eapply safe_imp; [apply IH; lia|]. intros k [[-> N]|(Hk & z' & E' & L')].
  - destruct (Rleb_spec z zc) as [L|L].
    + right. split; [lia|]. exists z. auto.
    + left. split; [reflexivity|]. intros j z' Hj E'. destruct (Nat.eq_dec j i) as [->|Nj]; [rewrite Ez in E'; injection E' as <-; lra|]. apply (N j z'); [lia|exact E'].
  - right. split; [lia|]. exists z'. auto.
Qed.
Lemma interp_safe (zs vs : list R) zc id : (S id < length zs)%nat -> (S id < length vs)%nat -> safe (interp zs vs zc id) (fun _ => True).
Proof.
  intros H K. unfold interp. eapply safe_bind; [apply safe_rd; lia|]. intros v1 _. eapply safe_bind; [apply safe_rd; lia|]. intros v0 _.
  eapply safe_bind; [apply safe_rd; lia|]. intros z1 _. eapply safe_bind; [apply safe_rd; lia|]. intros z0 _. apply safe_ret. exact I.
Qed.
Lemma within_e_safe (r : R) c : safe (within_e r c) (fun _ => True).
Proof. unfold within_e. eapply safe_seq; [destruct (nleb _ _); [apply safe_report|apply safe_ret; exact I]|]. intros _. apply safe_ret. exact I. Qed.

(** The height of a hit, without any hypothesis on the ray. *)
Lemma segment_z c0 c1 r0 r1 p0 p1 dir pc sn :
  safe (segment c0 c1 r0 r1 p0 p1 dir pc sn) (fun r => let '(code, pc', _) := r in
    (code <> 1%Z -> pc' = pc) /\ (code = 1%Z -> vz c0 <= vz pc' <= vz c1 /\ vz pc + 1 / 100000 <= vz pc' /\ 0 <= vz dir)).
Proof.
  intros e. destruct (segment_args c0 c1 r0 r1 p0 p1 dir pc sn e) as [[A ->]|[A ->]]; [split; [auto|discriminate]|]. cbv zeta.
  destruct (seg_pick _ _ _ _ _ _ _) as [code|z] eqn:E.
  { split; [auto|]. intros ->. exfalso. revert E. unfold seg_pick. rnum. repeat match goal with |- context [if ?b then _ else _] => destruct b end; discriminate. }
  destruct (Rltb_spec (vz c1) z); [split; [auto|discriminate]|].
  destruct (Rltb_spec z (vz c0)); cbn [orb]; [split; [auto|discriminate]|].
  destruct (Rltb_spec (z - vz pc) (1 / 100000)); cbn [orb]; [split; [auto|discriminate]|].
  match goal with |- context [Rltb ?x ?y] => destruct (Rltb x y) end; (split; [auto; congruence|]); [discriminate|]. intros _. cbn [vz]. destruct A. lra.
Qed.

Definition wf_optic (o : optic R) : Prop :=
  (1 <= p_nmax (o_prof o))%nat /\ length (p_z (o_prof o)) = S (p_nmax (o_prof o)) /\
  length (p_cap (o_prof o)) = S (p_nmax (o_prof o)) /\ length (p_ext (o_prof o)) = S (p_nmax (o_prof o)).

Lemma refl_polar_safe e d s a (sn dir ev ev0 : vec3 R) : safe (refl_polar e d s a sn dir ev ev0) (fun _ => True).
Proof. intros err. destruct (refl_polar_args e d s a sn dir ev ev0 err) as [[_ ->]|[_ ->]]; cbv zeta; exact I. Qed.

Lemma refl_loop_safe (o : optic R) sn dir alfa wt dt : forall en amu scatf w ev ev0,
  length amu = length en -> length scatf = length en -> length w = length en ->
  safe (refl_loop o sn dir alfa wt dt en amu scatf w ev ev0) (fun r => length (rr_w r) = length w).
Proof.
  induction en as [|e en IH]; intros amu scatf w ev ev0 La Ls Lw; cbn [refl_loop]; [apply safe_ret; cbn in *; congruence|].
  destruct amu as [|a amu]; [discriminate|]. destruct scatf as [|s scatf]; [discriminate|]. destruct w as [|w0 w]; [discriminate|].
  eapply safe_bind; [apply safe_rd; cbn; lia|]. intros s' _. eapply safe_bind; [apply safe_rd; cbn; lia|]. intros a' _.
  eapply safe_bind; [apply refl_polar_safe|]. intros [[rt ev1] ev2] _. destruct (orb _ _).
  { eapply safe_bind; [apply safe_report|]. intros _ _. apply safe_ret. reflexivity. }
  eapply safe_bind; [apply safe_rd; cbn; lia|]. intros w0' _. cbn [tl].
  eapply safe_bind; [apply IH; cbn in *; lia|]. intros r Lr. apply safe_ret. cbn [rr_w length] in *. cbn in *. congruence.
Qed.

(** A photon whose per-energy arrays exist and agree. *)
Definition ready (ph : photon R) : Prop :=
  length (ph_w ph) = length (ph_en ph) /\
  (exists a s, ph_amu ph = Some a /\ ph_scatf ph = Some s /\ length a = length (ph_en ph) /\ length s = length (ph_en ph)).

Lemma reflect_safe x tr fuel (o : optic R) ph sn ev0 : ready ph ->
  safe (reflect x tr fuel o ph sn ev0 false) (fun r => ready (snd r)).
Proof.
  intros (Lw & a & s & Ea & Es & La & Ls). unfold reflect.
  assert (R0 : forall v, ready (set_edir v ph)) by (intros v; split; [exact Lw|exists a, s; auto]).
  destruct (nltb _ _). { eapply safe_bind; [apply safe_report|]. intros _ _. apply safe_ret. apply R0. }
  eapply safe_bind with (P := fun wp => wp = (((0%Z, 0, 0%Z, 0%Z) : wall_out), set_edir (vnorm (ph_edir ph)) ph)); [apply safe_ret; reflexivity|].
  intros wp ->. cbn [andb]. cbn [ph_amu ph_scatf ph_en ph_w set_edir]. rewrite Ea, Es. cbn [deref].
  eapply safe_bind with (P := fun l => l = a); [apply safe_ret; reflexivity|]. intros ? ->.
  eapply safe_bind with (P := fun l => l = s); [apply safe_ret; reflexivity|]. intros ? ->.
  eapply safe_bind with (P := fun r => length (rr_w r) = length (ph_w ph) /\ rr_lf r = false).
  { eapply safe_imp; [apply safe_post; [apply refl_loop_safe; assumption|]|].
    - instantiate (1 := fun r => rr_lf r = false). change (Z.ltb 0 0) with false. generalize (vscalar (ph_edir (set_edir (vnorm (ph_edir ph)) ph)) (vnorm sn)) as al.
      generalize (ph_eelec (set_edir (vnorm (ph_edir ph)) ph)) as ev. generalize (ph_edir (set_edir (vnorm (ph_edir ph)) ph)) as dd. clear. intros dd ev al.
      generalize (ph_w ph) as w. revert a s ev ev0. induction (ph_en ph) as [|e en IH]; intros amu scatf ev ev0 w; cbn [refl_loop]; [apply post_ret; reflexivity|].
      eapply post_seq; intros s'. eapply post_seq; intros a'. eapply post_seq; intros [[rt ev1] ev2]. destruct (orb _ _).
      { eapply post_seq; intros _. apply post_ret. reflexivity. }
      eapply post_seq; intros w0. eapply post_bind; [apply IH|]. intros r Hr. apply post_ret. cbn [rr_lf andb orb]. exact Hr.
    - intros r [H1 H2]. auto. }
  intros r [Lr Lf]. destruct (rr_ok r); cbn [negb].
  - rewrite Lf. apply safe_ret. cbn [snd]. split; [cbn; congruence|]. exists a, s. auto.
  - apply safe_ret. cbn [snd]. split; [cbn; congruence|]. exists a, s. auto.
Qed.

Lemma trace_segs_safe (o : optic R) ph axes nsh : length axes = S (p_nmax (o_prof o)) -> wf_optic o ->
  forall n i pc sn, (i + n <= p_nmax (o_prof o))%nat ->
  safe (trace_segs o ph axes nsh n i pc sn) (fun s => match s with
    | Hit j pc' _ _ => (i <= j < i + n)%nat /\ (exists z, nth_error (p_z (o_prof o)) j = Some z /\ z <= vz pc') | _ => True end).
Proof.
  intros La (W1 & W2 & W3 & W4). induction n as [|n IH]; intros i pc sn H; cbn [trace_segs]; [apply safe_ret; exact I|].
  eapply safe_bind; [apply safe_rd; lia|]. intros [x0 y0] _.
  eapply safe_bind; [apply safe_rd; lia|]. intros z0 E2.
  eapply safe_bind; [apply safe_rd; lia|]. intros rad0 _.
  eapply safe_bind; [apply safe_rd; lia|]. intros [x1 y1] _.
  eapply safe_bind; [apply safe_rd; lia|]. intros z1 _.
  eapply safe_bind; [apply safe_rd; lia|]. intros rad1 _.
  eapply safe_bind; [apply safe_rd; lia|]. intros e0 _. eapply safe_bind; [apply safe_rd; lia|]. intros e1 _.
  destruct (orb _ _). { eapply safe_bind; [apply safe_report|]. intros _ _. apply safe_ret. exact I. }
  eapply safe_bind; [apply segment_z|]. intros [[code pc'] sn'] [_ K]. cbv zeta. cbn [vz] in K.
  set (code' := if (nltb _ _ || _)%bool then (-5)%Z else code).
  assert (Hc : code' = 1%Z -> code = 1%Z) by (unfold code'; destruct (orb _ _); [discriminate|auto]).
  destruct (Z.eqb_spec code' 1) as [E|E].
  - destruct (K (Hc E)) as (Hz & _ & _).
    assert (Q : (i <= i < i + S n)%nat /\ (exists z, nth_error (p_z (o_prof o)) i = Some z /\ z <= vz pc')) by (split; [lia|exists z0; split; [exact E2|lra]]).
    destruct (neqb _ _).
    + destruct (nleb _ _); apply safe_ret; [exact I|exact Q].
    + eapply safe_bind; [apply within_e_safe|]. intros w _. destruct (Z.eqb w 0); apply safe_ret; [exact I|exact Q].
  - eapply safe_bind; [apply within_e_safe|]. intros w _. destruct (Z.eqb w 0); [apply safe_ret; exact I|].
    eapply safe_imp; [apply IH; lia|]. intros [c| |j pc2 sn2 cosa]; auto. intros (J & Q). split; [lia|exact Q].
Qed.

Lemma trace_body_safe refl (o : optic R) junk ix ph axes : length axes = S (p_nmax (o_prof o)) -> wf_optic o -> ready ph ->
  (forall ph sn, ready ph -> safe (refl ph sn) (fun r => ready (snd r))) ->
  safe (trace_body refl o junk ix ph axes) (fun r => ready (snd r)).
Proof.
  intros La W R H. unfold trace_body. set (ph0 := set_sdir _ _). assert (R0 : ready ph0) by exact R.
  destruct (Nat.le_gt_cases ix (p_nmax (o_prof o))) as [Hix|Hix].
  2:{ replace (p_nmax (o_prof o) - ix)%nat with O by lia. cbn [trace_segs]. eapply safe_bind with (P := fun s => s = Miss); [apply safe_ret; reflexivity|]. intros s ->. apply safe_ret. exact R0. }
  eapply safe_bind; [apply (trace_segs_safe o ph0 axes); [exact La|exact W|lia]|].
  intros [c| |i pc sn cosa] Q; try (apply safe_ret; exact R0).
  destruct Q as (Hi & z & Ez & Lz). destruct W as (W1 & W2 & W3 & W4).
  set (ph1 := set_exit _ _). assert (R1 : ready ph1) by exact R. destruct (nltb _ _); [apply safe_ret; exact R1|].
  eapply safe_bind; [apply last_le_safe; lia|]. intros ix' K.
  assert (Kx : (ix' < p_nmax (o_prof o))%nat).
  { destruct K as [[_ N]|[K _]]; [|lia]. exfalso. specialize (N i z ltac:(lia) Ez). lra. }
  eapply safe_bind; [apply interp_safe; lia|]. intros ext _.
  eapply safe_bind with (P := fun _ => True).
  { destruct (neqb _ _); [apply safe_ret; exact I|]. destruct (nltb _ _); [apply within_e_safe|apply safe_ret; exact I]. }
  intros w _. destruct (Z.eqb w 0); [apply safe_ret; exact R1|].
  eapply safe_bind; [apply H; exact R1|]. intros [iesc ph2] R2. cbn [snd] in R2. destruct (Z.eqb iesc 1); [apply safe_ret; exact R2|].
  destruct (orb _ _); apply safe_ret; exact R2.
Qed.

Lemma trace_safe x (o : optic R) junk fuel ix ph axes : length axes = S (p_nmax (o_prof o)) -> wf_optic o -> ready ph ->
  safe (trace x o junk false (S fuel) ix ph axes) (fun r => ready (snd r)).
Proof.
  intros La W R. cbn [trace]. apply trace_body_safe; auto. intros ph' sn R'. apply reflect_safe. exact R'.
Qed.
Lemma trace_many_safe x (o : optic R) junk fuel axes : length axes = S (p_nmax (o_prof o)) -> wf_optic o ->
  forall n iesc ix ph, ready ph -> safe (trace_many (trace x o junk false (S fuel)) axes n iesc ix ph) (fun r => ready (snd r)).
Proof.
  intros La W. induction n; intros iesc ix ph R; cbn [trace_many]; [apply safe_ret; exact R|].
  eapply safe_bind; [apply trace_safe; auto|]. intros [[ie ix'] ph'] R'. cbn [snd] in R'. destruct (Z.eqb ie 1); [apply IHn; exact R'|apply safe_ret; exact R'].
Qed.

Lemma launch_axes_safe (o : optic R) nsh q r : forall n i, (i + n <= length (p_ext (o_prof o)))%nat ->
  safe (launch_axes o nsh q r n i) (fun l => length l = n).
Proof.
  induction n; intros i H; cbn [launch_axes]; [apply safe_ret; reflexivity|].
  eapply safe_bind; [apply safe_rd; lia|]. intros ext _. eapply safe_bind; [apply IHn; lia|]. intros l Hl. apply safe_ret. cbn. congruence.
Qed.

(** The material description is usable. *)
Definition wf_material (o : optic R) : Prop :=
  0 < o_dens o /\ o_iz o <> [] /\
  Forall (fun zw => 0 <= snd zw <= 1 /\ (1 <= fst zw <= 111)%Z) (combine (o_iz o) (o_wi o)).

Lemma photon_scatf_ready x (o : optic R) ph : wf_material o -> ph_en ph <> [] -> Forall (fun e => 1 <= e <= 100) (ph_en ph) ->
  safe (photon_scatf x o ph) (fun ph' => ph' = set_cs (Some (map (xl_amu x o) (ph_en ph))) (Some (map (xl_scatf x o) (ph_en ph))) ph).
Proof.
  intros (D & NZ & F) Ne Fe. unfold photon_scatf. rnum. rewrite Rleb_false by lra. cbn [orb].
  destruct (o_iz o) as [|iz0 izs]; [contradiction|]. cbn [orb]. destruct (ph_en ph) as [|e0 es] eqn:Ee; [contradiction|]. cbn [orb].
  rewrite <- Ee in *.
  assert (E1 : existsb (fun e => (Rltb e 1 || Rltb 100 e)%bool) (ph_en ph) = false).
  { clear - Fe. induction (ph_en ph); [reflexivity|]. inversion Fe; subst. cbn [existsb]. rewrite IHl by assumption. rewrite !Rltb_false by lra. reflexivity. }
  rewrite E1. cbn [orb].
  assert (E2 : existsb (fun zw : Z * R => (Rltb (snd zw) 0 || Rltb 1 (snd zw) || (fst zw <? 1)%Z || (111 <? fst zw)%Z)%bool) (combine (iz0 :: izs) (o_wi o)) = false).
  { clear - F. induction (combine _ _) as [|a l IHl]; [reflexivity|]. inversion F; subst. cbn [existsb]. rewrite IHl by assumption. destruct H1 as [H1 H1'].
    rewrite !Rltb_false by lra. destruct (Z.ltb_spec (fst a) 1); [lia|]. destruct (Z.ltb_spec 111 (fst a)); [lia|]. reflexivity. }
  rewrite E2. apply safe_ret. reflexivity.
Qed.

Lemma existsb_energies en : existsb (fun e : R => (Rltb e 1 || Rltb 100 e)%bool) en = false -> Forall (fun e => 1 <= e <= 100) en.
Proof.
  induction en; cbn [existsb]; intros H; constructor.
  - apply orb_false_elim in H. destruct H as [H _]. destruct (Rltb_spec a 1), (Rltb_spec 100 a); try discriminate. lra.
  - apply IHen. apply orb_false_elim in H. tauto.
Qed.

Lemma launch_safe x (o : optic R) junk fuel ph en wnull : wf_optic o -> wf_material o ->
  safe (launch x o junk (S fuel) ph en wnull false) (fun _ => True).
Proof.
  intros W M. pose proof W as (W1 & W2 & W3 & W4). unfold launch. destruct en as [en|]; [|eapply safe_bind; [apply safe_report|]; intros _ _; apply safe_ret; exact I].
  rnum. destruct en as [|e0 es]; cbn [orb]; [eapply safe_bind; [apply safe_report|]; intros _ _; apply safe_ret; exact I|].
  set (en := e0 :: es).
  destruct (existsb _ en) eqn:Ex; cbn [orb]; [eapply safe_bind; [apply safe_report|]; intros _ _; apply safe_ret; exact I|].
  destruct wnull; [eapply safe_bind; [apply safe_report|]; intros _ _; apply safe_ret; exact I|].
  apply existsb_energies in Ex.
  eapply safe_bind; [apply photon_scatf_ready; [exact M|discriminate|exact Ex]|]. intros ph1 ->.
  set (ph2 := launch_reset _).
  assert (R2 : ready ph2).
  { unfold ready, ph2, launch_reset, launch_init, set_cs, set_edir, set_exit. cbn [ph_w ph_en ph_amu ph_scatf]. split; [now rewrite map_length|].
    do 2 eexists. repeat split; now rewrite map_length. }
  eapply safe_bind with (P := fun zid => (zid < p_nmax (o_prof o))%nat).
  { match goal with |- context [if ?b then _ else _] => destruct b end; [|apply safe_ret; lia].
    eapply safe_imp; [apply last_le_safe; lia|]. intros k [[-> _]|[K _]]; lia. }
  intros zid Hz. eapply safe_bind with (P := fun _ => True).
  { unfold launch_ext. eapply safe_bind; [apply safe_rd; lia|]. intros ? _. eapply safe_bind; [apply safe_rd; lia|]. intros ? _.
    eapply safe_bind; [apply safe_rd; lia|]. intros ? _. eapply safe_bind; [apply safe_rd; lia|]. intros ? _. apply safe_ret. exact I. }
  intros ext _. eapply safe_bind with (P := fun _ => True).
  { match goal with |- context [if ?b then _ else _] => destruct b end; [apply safe_ret; exact I|].
    destruct (hex_round _) as [q r]. eapply safe_bind; [apply within_e_safe|]. intros w _. apply safe_ret. exact I. }
  intros [[inside q] r] _. destruct inside; cbn [negb]; [|eapply safe_bind; [apply safe_report|]; intros _ _; apply safe_ret; exact I].
  eapply safe_bind; [apply launch_axes_safe; lia|]. intros axes La.
  eapply safe_bind; [eapply safe_true_imp, last_le_safe; lia|]. intros ix _.
  eapply safe_bind with (P := fun _ => True).
  { match goal with |- context [if ?b then _ else _] => destruct b end.
    - eapply safe_bind; [apply interp_safe; lia|]. intros rad _. eapply safe_bind; [apply interp_safe; [lia|rewrite map_length, La; lia]|]. intros cx _.
      eapply safe_bind; [apply interp_safe; [lia|rewrite map_length, La; lia]|]. intros cy _. apply safe_ret. exact I.
    - eapply safe_bind; [apply safe_rd; lia|]. intros rad _. eapply safe_bind; [apply safe_rd; rewrite La; lia|]. intros [cx cy] _. apply safe_ret. exact I. }
  intros [[rad cx] cy] _.
  match goal with |- context [if ?b then _ else _] => destruct b end.
  - cbn [andb]. apply safe_ret. exact I.
  - eapply safe_bind; [apply trace_many_safe; assumption|]. intros [ie ph3] _. apply safe_ret. exact I.
Qed.

