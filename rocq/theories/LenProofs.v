(** * Every leak has one weight per energy (any number type) *)
From Coq Require Import ZArith List Bool Lia.
From Verif Require Import Num Geometry SpecPhoton RM RMLogic CapilModel TraceModel LaunchModel SourceModel RunModel.
Import ListNotations.

Section Len.
Context {T : Type} {N : Num T}.
Variable ne : nat.
Definition full (l : list (leak_data T)) : Prop := Forall (fun d => length (lk_weights d) = ne) l.
Definition good (ph : photon T) : Prop :=
  length (ph_en ph) = ne /\ length (ph_w ph) = ne /\ match ph_amu ph with Some a => length a = ne | None => True end /\
  full (ph_ext ph) /\ full (ph_int ph).

Ltac gd := unfold good, full in *; cbn [ph_en ph_w ph_amu ph_ext ph_int set_sdir set_exit set_edir set_eelec set_w set_irefl set_dtravel add_ext add_int set_cs lk_weights] in *;
  repeat split; try tauto; try (apply Forall_app; split; [tauto|]); try (repeat constructor; tauto); auto.

(** Leaks of a loop that went through. *)
Lemma refl_loop_len o (sn dir : vec3 T) alfa wt dt : forall en amu scatf w ev ev0, length w = length en ->
  post (refl_loop o sn dir alfa wt dt en amu scatf w ev ev0)
    (fun r => length (rr_w r) = length en /\ (rr_ok r = true -> wt = true -> length (rr_leak r) = length en) /\ (wt = false -> rr_lf r = false)).
Proof.
  induction en as [|e en IH]; intros amu scatf w ev ev0 L; cbn [refl_loop].
  { destruct w; [|discriminate]. apply post_ret. cbn. auto. }
  destruct w as [|w0 w]; [discriminate|].
  eapply post_seq; intros s. eapply post_seq; intros a. eapply post_seq; intros [[rt ev1] ev2].
  match goal with |- post (if ?b then _ else _) _ => destruct b end.
  { apply post_seq; intros _. apply post_ret. cbn [rr_w rr_ok rr_lf]. repeat split; auto. discriminate. }
  eapply post_seq; intros w0'. eapply post_bind; [apply IH; cbn in *; lia|]. intros r (A & B & C). apply post_ret.
  cbn [rr_w rr_ok rr_lf rr_leak length]. split; [lia|]. destruct wt; cbn [andb orb].
  - split; [|discriminate]. intros Ok _. cbn [length]. f_equal. auto.
  - split; [discriminate|auto].
Qed.

Definition keeps (tr : tracer) : Prop := forall ix ph axes, good ph -> post (tr ix ph axes) (fun r => good (snd r)).

Lemma trace_many_len (tr : tracer) axes : keeps tr -> forall n iesc ix ph, good ph ->
  post (trace_many tr axes n iesc ix ph) (fun r => good (snd r)).
Proof.
  intros Tr. induction n as [|n IH]; intros iesc ix ph G; cbn [trace_many]; [apply post_ret; exact G|].
  eapply post_bind; [apply Tr; exact G|]. intros [[ie i] ph'] G'. cbn [snd] in G'.
  destruct (Z.eqb ie 1); [apply IH; exact G'|apply post_ret; exact G'].
Qed.

Lemma photon_scatf_len x o (ph : photon T) : good ph -> post (photon_scatf x o ph) good.
Proof.
  intros G. unfold photon_scatf. match goal with |- post (if ?b then _ else _) _ => destruct b end.
  - apply post_seq; intros _. apply post_ret. exact G.
  - apply post_ret. gd. rewrite map_length. tauto.
Qed.

Lemma reflect_leaks_len x (tr : tracer) o ph wl wt dt r q : keeps tr -> good ph -> length wl = ne ->
  post (reflect_leaks x tr o ph wl wt dt r q) (fun p => good (snd p)).
Proof.
  intros Tr G Lw. unfold reflect_leaks. eapply post_seq; intros wt1.
  set (lc := vgo _ _ _). set (lk := mkLeak lc (ph_edir ph) (ph_eelec ph) (ph_irefl ph) wl).
  set (ph1 := if Z.eqb wt1 3 then add_ext [lk] ph else ph).
  assert (G1 : good ph1) by (unfold ph1; destruct (Z.eqb wt1 3); [gd; constructor; auto|exact G]).
  set (ph2 := if Z.eqb wt1 2 then add_int [lk] ph1 else ph1).
  assert (G2 : good ph2).
  { unfold ph2; destruct (Z.eqb wt1 2); [|exact G1]. clearbody ph1. gd; constructor; auto. }
  eapply post_seq; intros zmax. cbv zeta.
  match goal with |- post (if ?b then _ else _) _ => destruct b end; [|apply post_ret; exact G2].
  eapply post_bind with (P := fun t => True); [apply post_any|]. intros t _.
  match goal with |- post (bind (photon_scatf x o ?p) _) _ => set (t0 := p) end.
  assert (G0 : good t0).
  { unfold t0. clear -G2 Lw. unfold good, full in *. cbn [ph_en ph_w ph_amu ph_ext ph_int]. repeat split; try tauto; constructor. }
  eapply post_bind; [apply photon_scatf_len; exact G0|]. intros t1 G1'.
  destruct (ph_amu t1); [|apply post_seq; intros _; apply post_ret; exact G2].
  destruct (ph_scatf t1); [|apply post_seq; intros _; apply post_ret; exact G2].
  eapply post_seq; intros axes. eapply post_seq; intros ix.
  eapply post_bind; [apply trace_many_len; [exact Tr|exact G1']|]. intros [ie t2] Gt. cbn [snd] in Gt.
  destruct (Z.eqb ie (-1) || Z.eqb ie (-3))%bool; [apply post_ret; exact G2|].
  assert (G3 : good (add_int (ph_int t2) (add_ext (ph_ext t2) ph2))).
  { clearbody ph2. clear -G2 Gt. unfold good, full in *. cbn. repeat split; try tauto; apply Forall_app; tauto. }
  set (ph3 := add_int _ _) in *. clearbody ph3.
  destruct (Z.eqb ie 1 || Z.eqb ie (-2))%bool; [|apply post_ret; exact G3].
  eapply post_seq; intros em. eapply post_seq; intros w. apply post_ret. cbn [snd].
  assert (Lt : length (ph_w t2) = ne) by apply Gt.
  destruct (Z.eqb w 0); [clear -G3 Lt; gd; constructor; auto|]. destruct (Z.eqb w 1); [clear -G3 Lt; gd; constructor; auto|exact G3].
Qed.

Lemma trace_wall_len fuel o (ph : photon T) : good ph -> post (trace_wall fuel o ph) (fun r => good (snd r)).
Proof.
  intros G. unfold trace_wall. assert (G' : good (set_edir (vnorm (ph_edir ph)) ph)) by gd.
  set (ph' := set_edir _ _) in *. clearbody ph'.
  eapply post_seq; intros zmax. destruct (_ >=? _)%num; [apply post_ret; exact G'|].
  eapply post_seq; intros zid. eapply post_seq; intros ext. destruct (neqb _ _).
  - destruct (_ >? _)%num; [apply post_seq; intros _; apply post_ret; exact G'|].
    eapply post_seq; intros [[ie it] zi]. eapply post_seq; intros w. apply post_ret; exact G'.
  - eapply post_seq; intros pos. destruct (Z.eqb pos 0); [apply post_ret; exact G'|].
    destruct (hex_round _) as [q r]. eapply post_seq; intros w. apply post_ret; exact G'.
Qed.

Lemma reflect_len x (tr : tracer) fuel o ph sn ev0 lc : keeps tr -> good ph ->
  post (reflect x tr fuel o ph sn ev0 lc) (fun r => good (snd r)).
Proof.
  intros Tr G. unfold reflect. cbv zeta. assert (G' : good (set_edir (vnorm (ph_edir ph)) ph)) by gd.
  set (ph' := set_edir _ _) in *. clearbody ph'. clear G ph.
  destruct (nltb _ _); [apply post_seq; intros _; apply post_ret; exact G'|].
  eapply post_bind with (P := fun r => good (snd r) /\ (lc = false -> fst (fst (fst (fst r))) = 0%Z)).
  { destruct lc; [|apply post_ret; split; auto]. eapply post_imp; [apply trace_wall_len; exact G'|]. intros; split; auto. discriminate. }
  intros [[[[wt dt] rc] qc] ph] [G _]. cbn [snd] in G.
  destruct (lc && Z.leb wt 0)%bool; [apply post_ret; exact G|].
  eapply post_seq; intros amu. eapply post_seq; intros scatf.
  assert (Gl : length (ph_w ph) = length (ph_en ph)) by (destruct G as (A & B & _); lia).
  eapply post_bind; [apply refl_loop_len; exact Gl|]. intros r (R1 & R2 & R3).
  assert (Gr : forall e, good (set_w (rr_w r) (set_eelec e ph))).
  { intros e. destruct G as (A & B & C & D). unfold good, full in *. cbn. repeat split; try tauto. lia. }
  destruct (negb (rr_ok r)) eqn:Ok; [apply post_ret; apply Gr|]. apply negb_false_iff in Ok.
  assert (Gs : good (set_eelec (rr_new r) (set_w (rr_w r) (set_eelec (rr_ev r) ph)))) by exact (Gr (rr_new r)).
  set (ph2 := set_eelec _ _) in *. clearbody ph2.
  destruct (rr_lf r) eqn:Lf; [|apply post_ret; exact Gs].
  eapply post_bind; [apply reflect_leaks_len; [exact Tr|exact Gs|]|].
  - rewrite R2; auto; [apply G|]. destruct (Z.ltb 0 wt) eqn:W; auto. specialize (R3 eq_refl). congruence.
  - intros [early p] Gp. apply post_ret. exact Gp.
Qed.

Lemma trace_len x o junk lc fuel : keeps (trace x o junk lc fuel).
Proof.
  induction fuel as [|fuel IH]; intros ix ph axes G; cbn [trace]; [apply post_nofuel|].
  unfold trace_body. cbv zeta. assert (G1 : good (set_sdir (vnorm (ph_sdir ph)) (set_edir (vnorm (ph_edir ph)) ph))) by gd.
  set (ph1 := set_sdir _ _) in *. clearbody ph1. clear G ph.
  eapply post_seq; intros s. destruct s as [c| |i pc sn cosa]; [apply post_ret; exact G1|apply post_ret; exact G1|].
  assert (G2 : good (set_exit pc (set_dtravel (ph_dtravel ph1 + dist3 pc (ph_exit ph1))%num ph1))) by gd.
  set (ph2 := set_exit _ _) in *. clearbody ph2. clear G1.
  destruct (_ >? _)%num; [apply post_ret; exact G2|].
  eapply post_seq; intros ix'. eapply post_seq; intros ext. eapply post_seq; intros w.
  destruct (Z.eqb w 0); [apply post_ret; exact G2|].
  eapply post_bind; [apply reflect_len; [exact IH|exact G2]|]. intros [ie ph3] G3. cbn [snd] in G3.
  destruct (Z.eqb ie 1); [apply post_ret; cbn [snd]; clear -G3; gd|].
  destruct (_ || _)%bool; apply post_ret; exact G3.
Qed.

Definition fullp (ph : photon T) : Prop := full (ph_ext ph) /\ full (ph_int ph).
Lemma good_fullp ph : good ph -> fullp (release ph).
Proof. intros G. unfold fullp, release. cbn. destruct G as (_ & _ & _ & A). exact A. Qed.

Lemma launch_wall_len x o junk lc fuel ph : good ph -> post (launch_wall x o junk lc fuel ph) (fun r => fullp (snd r)).
Proof.
  intros G. unfold launch_wall. cbv zeta. eapply post_bind; [apply trace_wall_len; exact G|]. intros [[[[wt dt] rc] qc] ph1] G1. cbn [snd] in G1. clear G ph.
  destruct (Z.leb wt 0); [apply post_ret; apply good_fullp; exact G1|].
  eapply post_bind; [apply post_deref|]. intros amu Ea.
  match goal with |- context [set_w ?w ph1] => set (w1 := w) end.
  assert (L1 : length w1 = ne).
  { unfold w1. rewrite map_length, combine_length. destruct G1 as (_ & B & C & _). rewrite Ea in C. lia. }
  match goal with |- context [set_exit ?e (set_w w1 ph1)] => set (e1 := e) end.
  assert (G2 : good (set_exit e1 (set_w w1 ph1))) by (clear -G1 L1; gd).
  set (ph2 := set_exit e1 (set_w w1 ph1)) in *. 
  assert (Lw2 : length (ph_w ph2) = ne) by apply G2. clearbody ph2.
  set (lk := mkLeak (ph_exit ph2) (ph_edir ph2) (ph_eelec ph2) (ph_irefl ph2) (ph_w ph2)).
  set (ph3 := if Z.eqb wt 3 then add_ext [lk] ph2 else ph2).
  assert (G3 : good ph3 /\ length (ph_w ph3) = ne) by (unfold ph3; destruct (Z.eqb wt 3); split; try assumption; clear -G2 Lw2; gd; constructor; auto).
  destruct G3 as [G3 Lw3]. clearbody ph3.
  match goal with |- context [if Z.eqb wt 2 then ?a else ?b] => set (ph4 := if Z.eqb wt 2 then a else b) end.
  assert (G4 : good ph4) by (unfold ph4; destruct (Z.eqb wt 2); [clear -G3 Lw3; gd; constructor; auto|exact G3]).
  clearbody ph4.
  eapply post_seq; intros zmax. eapply post_seq; intros em.
  eapply post_bind with (P := fun r => good (snd r)).
  { destruct (Z.eqb wt 1); [|apply post_ret; exact G4].
    eapply post_seq; intros axes. eapply post_seq; intros ix.
    eapply post_bind; [apply trace_many_len; [apply trace_len|clear -G4; gd]|]. intros [ie ph5] G5. cbn [snd] in G5.
    destruct (_ || _)%bool; [apply post_ret; exact G5|]. destruct (_ || _)%bool; [|apply post_ret; exact G5].
    eapply post_seq; intros w. apply post_ret. cbn [snd].
    assert (Lw5 : length (ph_w ph5) = ne) by apply G5.
    destruct (Z.eqb w 0); [clear -G5 Lw5; gd; constructor; auto|]. destruct (Z.eqb w 1); [clear -G5 Lw5; gd; constructor; auto|clear -G5; gd]. }
  intros [err ph5] G5. cbn [snd] in G5. destruct err; apply post_ret; apply good_fullp; [exact G5|clear -G5; gd].
Qed.

End Len.

Section Launch.
Context {T : Type} {N : Num T}.

Lemma launch_len x o (junk : vec3 T) fuel ph en lc : match ph_amu ph with None => True | Some _ => False end ->
  post (launch x o junk fuel ph (Some en) false lc) (fun r => snd r <> None -> fullp (length en) (snd (fst r))).
Proof.
  intros A. unfold launch. destruct (_ || _)%bool; [apply post_seq; intros _; apply post_ret; cbn; congruence|]. cbv zeta.
  eapply post_bind; [apply (photon_scatf_len (length en))|].
  { unfold good, full, launch_init. cbn. rewrite map_length. destruct (ph_amu ph); [contradiction|]. repeat split; auto. }
  intros ph1 G1. assert (G2 : good (length en) (launch_reset ph1)).
  { clear -G1. unfold good, full, launch_reset in *. cbn. tauto. }
  set (ph2 := launch_reset ph1) in *. clearbody ph2. clear G1 ph1.
  eapply post_seq; intros zid. eapply post_seq; intros ext. eapply post_seq; intros [[ins q] r].
  destruct (negb ins); [apply post_seq; intros _; apply post_ret; intros _; apply good_fullp; exact G2|].
  eapply post_seq; intros axes. eapply post_seq; intros ix. eapply post_seq; intros [[rad cx] cy].
  destruct (_ >? _)%num.
  - destruct (_ && _)%bool.
    + eapply post_bind; [apply post_quiet; apply (reflect_len (length en)); [apply trace_len|exact G2]|]. intros [c ph3] G3. apply post_ret. intros _. apply good_fullp; exact G3.
    + destruct (_ && _)%bool.
      * eapply post_bind; [apply (launch_wall_len (length en)); exact G2|]. intros [c ph3] G3. apply post_ret. intros _. exact G3.
      * apply post_ret. intros _. apply good_fullp; exact G2.
  - eapply post_bind; [apply (trace_many_len (length en)); [apply trace_len|exact G2]|]. intros [c ph3] G3. apply post_ret. intros _. apply good_fullp; exact G3.
Qed.

Lemma attempt_len x o s (en : list T) junk lc fuel rs a rs' e :
  attempt_run x o s en junk lc fuel rs None = Ret (Some (a, rs'), e) -> fullp (length en) (at_ph a).
Proof.
  unfold attempt_run. intros K. unfold bind, rd in K. destruct (nth_error _ 0); [|discriminate]. destruct (nth_error (p_ext _) 0); [|discriminate].
  unfold ret in K; cbv beta iota in K. destruct (draw_photon _ _ _ _ _) as [[d rs1]|]; [|discriminate].
  unfold fresh_photon in K. destruct (_ || _)%bool; [discriminate|]. unfold ret in K; cbv beta iota in K.
  unfold quiet in K.
  match type of K with context [launch x o junk fuel ?p ?q ?w lc None] => destruct (launch x o junk fuel p q w lc None) as [[[[c ph] w'] e1]| |] eqn:E end; try discriminate.
  cbv beta iota in K. destruct w' as [w'|]; [|discriminate]. injection K as <- _ _. cbn [at_ph].
  match type of E with launch x o junk fuel ?p _ _ _ _ = _ => set (p0 := p) in E end.
  assert (A : match ph_amu p0 with None => True | Some _ => False end) by exact I.
  pose proof (launch_len x o junk fuel p0 en lc A _ _ _ E) as H. apply H. discriminate.
Qed.

End Launch.
