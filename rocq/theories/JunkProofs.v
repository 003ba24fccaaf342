(** * Uninitialised locals do not influence a launch

    The model's [junk] stands for the contents of the uninitialised locals surface_norm
    (src/polycap-capil.c:1202, src/polycap-photon.c) and electric_vector
    (src/polycap-capil.c:571). *)
From Coq Require Import ZArith List Bool Lia.
From Verif Require Import Num Geometry SpecPhoton RM CapilModel TraceModel LaunchModel SourceModel RunModel FlightRep FlightPure.
Import ListNotations.
Local Notation ret := RM.ret.
Local Notation bind := RM.bind.

(** [m] and [m'] end in the same way, always with a value in [P]. *)
Definition same {A} (P : A -> Prop) (m m' : RM A) : Prop := forall e, m' e = m e /\ forall a e', m e = Ret (a, e') -> P a.
Lemma same_ret {A} (P : A -> Prop) a : P a -> same P (ret a) (ret a).
Proof. intros H e. split; [reflexivity|]. intros b e' E. injection E as <- _. exact H. Qed.
Lemma same_any {A} (m : RM A) : same (fun _ => True) m m.
Proof. intros e. auto. Qed.
Lemma same_nofuel {A} (P : A -> Prop) : same P nofuel nofuel.
Proof. intros e. split; [reflexivity|discriminate]. Qed.
Lemma same_ub {A} (P : A -> Prop) : same P ub ub.
Proof. intros e. split; [reflexivity|discriminate]. Qed.
Lemma same_bind {A B} (P : A -> Prop) (Q : B -> Prop) (m m' : RM A) (f f' : A -> RM B) : same P m m' -> (forall a, P a -> same Q (f a) (f' a)) -> same Q (bind m f) (bind m' f').
Proof.
  intros H G e. destruct (H e) as [E Ha]. unfold bind. rewrite E. destruct (m e) as [[a e1]| |]; [apply G, (Ha a e1 eq_refl)|split; [reflexivity|discriminate]|split; [reflexivity|discriminate]].
Qed.
Lemma same_any_bind {A B} (Q : B -> Prop) (m : RM A) (f f' : A -> RM B) : (forall a, same Q (f a) (f' a)) -> same Q (bind m f) (bind m f').
Proof. intros H. eapply same_bind; [apply same_any|intros a _; apply H]. Qed.
Lemma same_quiet {A} (P : A -> Prop) (m m' : RM A) : same P m m' -> same P (quiet m) (quiet m').
Proof.
  intros H e. destruct (H None) as [E Ha]. unfold quiet. rewrite E. split; [reflexivity|]. intros a e' K. destruct (m None) as [[b e1]| |]; try discriminate. injection K as <- _. exact (Ha b e1 eq_refl).
Qed.
Lemma same_weak {A} (P Q : A -> Prop) (m m' : RM A) : (forall a, P a -> Q a) -> same P m m' -> same Q m m'.
Proof. intros H G e. destruct (G e) as [E Ha]. split; [exact E|]. intros a e' K. eapply H, Ha, K. Qed.

Lemma bind_def {A B} (m : RM A) (f : A -> RM B) e : bind m f e = match m e with Ret (a, e') => f a e' | Ub => Ub | Fuel => Fuel end.
Proof. reflexivity. Qed.

Ltac alike := repeat match goal with
  | |- same _ nofuel nofuel => apply same_nofuel
  | |- same _ ub ub => apply same_ub
  | |- same _ (ret _) (ret _) => apply same_ret
  | |- same _ (bind ?m _) (bind ?m _) => apply same_any_bind; intros ?
  | |- same _ (if ?b then _ else _) _ => destruct b
  | |- same _ (match ?b with _ => _ end) _ => destruct b
  end.

Ltac cif := match goal with |- same _ (if ?b then _ else _) _ => destruct b end.

Section Junk.
Context {T : Type} {N : Num T}.
Hypothesis neg1 : nltb (nopp (nofZ 1)) (nofZ 0) = true.
Variable E : list T.
Hypothesis E0 : E <> [].
Definition keepsE (r : Z * photon T) : Prop := ph_en (snd r) = E.
Definition keepsT (r : Z * nat * photon T) : Prop := ph_en (snd r) = E.
Definition tsame (tr tr' : tracer (T := T)) : Prop := forall ix ph axes, ph_en ph = E -> same keepsT (tr ix ph axes) (tr' ix ph axes).

(** segment gives back the surface normal it was called with only together with a code that is not 1. *)
Lemma segment_junk (c0 c1 : vec3 T) r0 r1 p0 p1 dir pc sn sn' e :
  segment c0 c1 r0 r1 p0 p1 dir pc sn e = segment c0 c1 r0 r1 p0 p1 dir pc sn' e \/
  exists e', segment c0 c1 r0 r1 p0 p1 dir pc sn e = Ret ((-1)%Z, pc, sn, e') /\ segment c0 c1 r0 r1 p0 p1 dir pc sn' e = Ret ((-1)%Z, pc, sn', e').
Proof. unfold segment. destruct (orb _ _); [right|left; reflexivity]. unfold bind, report. eexists. split; reflexivity. Qed.

Lemma trace_segs_junk (o : optic T) ph axes nsh n : forall i pc sn sn' e, trace_segs o ph axes nsh n i pc sn' e = trace_segs o ph axes nsh n i pc sn e.
Proof.
  induction n as [|n IH]; intros i pc sn sn' e; cbn [trace_segs]; [reflexivity|].
  assert (C : forall {A B} (m : RM A) (f f' : A -> RM B), (forall a e, f' a e = f a e) -> forall e, bind m f' e = bind m f e).
  { intros A B m f f' H e1. unfold bind. destruct (m e1) as [[a e2]| |]; auto. }
  apply C. clear e. intros [x0 y0] e. revert e. apply C. intros z0 e. revert e. apply C. intros rad0 e. revert e. apply C. intros [x1 y1] e. revert e. apply C. intros z1 e. revert e. apply C. intros rad1 e. revert e.
  apply C. intros e0 e. revert e. apply C. intros e1 e. destruct (orb _ _); [reflexivity|].
  rewrite 2!bind_def. match goal with |- context [segment ?a ?b ?c ?d ?f ?g ?h ?k sn' e] => destruct (segment_junk a b c d f g h k sn' sn e) as [S|(e' & S & S')] end.
  - rewrite S. match goal with |- match ?m with _ => _ end = _ => destruct m as [[[[c p] s] e2]| |] end; reflexivity.
  - rewrite S, S'. cbv beta iota zeta. assert (Hc : forall b : bool, Z.eqb (if b then -5 else -1) 1 = false) by (intros []; reflexivity). rewrite !Hc.
    rewrite 2!bind_def. destruct (within_e _ _ _) as [[w e3]| |]; [|reflexivity|reflexivity]. destruct (Z.eqb w 0); [reflexivity|]. apply IH.
Qed.

Lemma trace_wall_keeps fuel (o : optic T) ph : ph_en ph = E -> same (fun r => ph_en (snd r) = E) (trace_wall fuel o ph) (trace_wall fuel o ph).
Proof.
  intros H e. split; [reflexivity|]. intros [a p] e' K. destruct (local_trace_wall fuel o) as [_ L]. destruct (L _ _ _ _ _ K) as (_ & _ & _ & En & _). cbn [snd]. congruence.
Qed.

Lemma refl_loop_junk (o : optic T) sn dir alfa wt dt en : forall amu scatf w ev ev0 ev0' e, en <> [] ->
  match refl_loop o sn dir alfa wt dt en amu scatf w ev ev0 e with
  | Ret (r, e1) => exists r', refl_loop o sn dir alfa wt dt en amu scatf w ev ev0' e = Ret (r', e1) /\ rr_ok r' = rr_ok r /\ rr_ev r' = rr_ev r /\ rr_w r' = rr_w r /\ (rr_ok r = true -> r' = r)
  | Ub => refl_loop o sn dir alfa wt dt en amu scatf w ev ev0' e = Ub
  | Fuel => refl_loop o sn dir alfa wt dt en amu scatf w ev ev0' e = Fuel
  end.
Proof.
  destruct en as [|e0 en]; [contradiction|]. intros amu scatf w ev ev0 ev0' e _. cbn [refl_loop].
  rewrite 2!bind_def. destruct (rd scatf 0 e) as [[s e1]| |]; [|reflexivity|reflexivity].
  rewrite 2!bind_def. destruct (rd amu 0 e1) as [[a e2]| |]; [|reflexivity|reflexivity].
  cbv zeta. rewrite 2!bind_def. unfold refl_polar.
  destruct (orb (orb _ _) _).
  { unfold bind, report, ret. rewrite neg1. cbn [orb]. eexists. split; [reflexivity|]. cbn. repeat split; discriminate. }
  cbv zeta. destruct (nltb (nacos _) _).
  { unfold bind, report, ret. rewrite neg1. cbn [orb]. eexists. split; [reflexivity|]. cbn. repeat split; discriminate. }
  unfold ret at 1 4. cbv beta iota zeta.
  match goal with |- match ?m with _ => _ end => destruct m as [[r e3]| |] eqn:Er end; [|exact Er|exact Er]. exists r. auto.
Qed.

Lemma trace_many_same tr tr' : tsame tr tr' -> forall axes n iesc ix ph, ph_en ph = E -> same keepsE (trace_many tr axes n iesc ix ph) (trace_many tr' axes n iesc ix ph).
Proof.
  intros H axes n. induction n as [|n IH]; intros iesc ix ph K; cbn [trace_many]; [apply same_ret; exact K|].
  eapply same_bind; [apply H; exact K|]. intros [[c i] p] Kp. destruct (Z.eqb c 1); [apply IH; exact Kp|apply same_ret; exact Kp].
Qed.


Lemma photon_scatf_keeps x (o : optic T) ph : same (fun p => ph_en p = ph_en ph) (photon_scatf x o ph) (photon_scatf x o ph).
Proof. unfold photon_scatf. destruct (orb _ _); [apply same_any_bind; intros _|]; apply same_ret; reflexivity. Qed.

Lemma reflect_leaks_same x tr tr' (o : optic T) ph wl wt dt r q : tsame tr tr' -> ph_en ph = E ->
  same (fun a : option Z * photon T => ph_en (snd a) = E) (reflect_leaks x tr o ph wl wt dt r q) (reflect_leaks x tr' o ph wl wt dt r q).
Proof.
  intros H K. unfold reflect_leaks. apply same_any_bind. intros wt2. cbv zeta.
  match goal with |- context [if Z.eqb wt2 2 then add_int ?l ?p else ?p] => set (ph1 := if Z.eqb wt2 2 then add_int l p else p) end.
  assert (K1 : ph_en ph1 = E) by (unfold ph1; destruct (Z.eqb wt2 2); destruct (Z.eqb wt2 3); exact K). clearbody ph1.
  apply same_any_bind. intros zmax. destruct (andb _ _); [|apply same_ret; exact K1].
  apply same_any_bind. intros t0. eapply same_bind; [apply photon_scatf_keeps|]. intros t Kt. cbn [ph_en] in Kt. rewrite K1 in Kt.
  destruct (ph_amu t); [destruct (ph_scatf t)|].
  - apply same_any_bind. intros axes. apply same_any_bind. intros ix. eapply same_bind; [apply trace_many_same; [exact H|exact Kt]|]. intros [ie t2] Kt2. unfold keepsE in Kt2. cbn [snd] in Kt2.
    destruct (orb _ _); [apply same_ret; exact K1|]. destruct (orb _ _); [|apply same_ret; exact K1].
    apply same_any_bind. intros extmax. apply same_any_bind. intros w. apply same_ret. cbn [snd]. destruct (Z.eqb w 0); [exact K1|]. destruct (Z.eqb w 1); exact K1.
  - apply same_any_bind. intros _. apply same_ret. exact K1.
  - apply same_any_bind. intros _. apply same_ret. exact K1.
Qed.

Lemma reflect_same x tr tr' fuel (o : optic T) ph sn ev0 ev0' lc : tsame tr tr' -> ph_en ph = E ->
  same keepsE (reflect x tr fuel o ph sn ev0 lc) (reflect x tr' fuel o ph sn ev0' lc).
Proof.
  intros H K. unfold reflect. cbv zeta. set (p1 := set_edir (vnorm (ph_edir ph)) ph). assert (K1 : ph_en p1 = E) by exact K. clearbody p1.
  cif; [apply same_any_bind; intros _; apply same_ret; exact K1|].
  eapply (same_bind (fun r => ph_en (snd r) = E)).
  { destruct lc; [apply trace_wall_keeps; exact K1|apply same_ret; exact K1]. }
  intros [[[[wt dt] r_c] q_c] p2] K2. cbn [snd] in K2. destruct (andb _ _); [apply same_ret; exact K2|].
  apply same_any_bind. intros amu. apply same_any_bind. intros scatf. intros e. rewrite 2!bind_def.
  pose proof (refl_loop_junk o (vnorm sn) (ph_edir p2) (vscalar (ph_edir p1) (vnorm sn)) (Z.ltb 0 wt) dt (ph_en p2) amu scatf (ph_w p2) (ph_eelec p2) ev0 ev0' e ltac:(rewrite K2; exact E0)) as J.
  match type of J with match ?m with _ => _ end => destruct m as [[r e1]| |] end.
  2,3: rewrite J; split; [reflexivity|discriminate].
  destruct J as (r' & -> & Jo & Je & Jw & Jr). rewrite Jo, Je, Jw. destruct (rr_ok r) eqn:Er; cbn [negb].
  - rewrite (Jr eq_refl). assert (G : same keepsE
      (if rr_lf r then '(early, p) <- reflect_leaks x tr o (set_eelec (rr_new r) (set_w (rr_w r) (set_eelec (rr_ev r) p2))) (rr_leak r) wt dt r_c q_c ;;
          ret (match early with Some c => c | None => if rr_wf r then 1%Z else 0%Z end, p) else ret (if rr_wf r then 1%Z else 0%Z, set_eelec (rr_new r) (set_w (rr_w r) (set_eelec (rr_ev r) p2))))%rm
      (if rr_lf r then '(early, p) <- reflect_leaks x tr' o (set_eelec (rr_new r) (set_w (rr_w r) (set_eelec (rr_ev r) p2))) (rr_leak r) wt dt r_c q_c ;;
          ret (match early with Some c => c | None => if rr_wf r then 1%Z else 0%Z end, p) else ret (if rr_wf r then 1%Z else 0%Z, set_eelec (rr_new r) (set_w (rr_w r) (set_eelec (rr_ev r) p2))))%rm).
    { destruct (rr_lf r); [|apply same_ret; exact K2]. eapply same_bind; [apply reflect_leaks_same; [exact H|exact K2]|]. intros [early p3] K3. apply same_ret. exact K3. }
    exact (G e1).
  - exact (same_ret keepsE ((-1)%Z, set_w (rr_w r) (set_eelec (rr_ev r) p2)) K2 e1).
Qed.

Lemma trace_body_same (f f' : photon T -> vec3 T -> RM (Z * photon T)) o junk junk' : (forall ph sn, ph_en ph = E -> same keepsE (f ph sn) (f' ph sn)) -> tsame (trace_body f o junk) (trace_body f' o junk').
Proof.
  intros H ix ph axes K. unfold trace_body. cbv zeta. set (p1 := set_sdir _ _). assert (K1 : ph_en p1 = E) by exact K. clearbody p1.
  eapply (same_bind (fun _ => True)).
  { intros e. split; [apply trace_segs_junk|auto]. }
  intros s _. destruct s as [c| |i pc sn cosa]; [apply same_ret; exact K1|apply same_ret; exact K1|].
  cif; [apply same_ret; exact K1|]. apply same_any_bind. intros ix2. apply same_any_bind. intros ext. apply same_any_bind. intros w.
  destruct (Z.eqb w 0); [apply same_ret; exact K1|]. eapply same_bind; [apply H; exact K1|]. intros [c p2] K2. unfold keepsE in K2. cbn [snd] in K2.
  destruct (Z.eqb c 1); [apply same_ret; exact K2|]. destruct (orb _ _); apply same_ret; exact K2.
Qed.

Lemma trace_same x (o : optic T) junk junk' lc fuel : tsame (trace x o junk lc fuel) (trace x o junk' lc fuel).
Proof.
  induction fuel as [|fuel IH]; [intros ix ph axes _; apply same_nofuel|]. cbn [trace].
  apply trace_body_same. intros ph sn K. apply reflect_same; [exact IH|exact K].
Qed.

Lemma launch_wall_same x (o : optic T) junk junk' lc fuel ph : ph_en ph = E ->
  same (fun _ => True) (launch_wall x o junk lc fuel ph) (launch_wall x o junk' lc fuel ph).
Proof.
  intros K. unfold launch_wall. eapply same_bind; [apply trace_wall_keeps; exact K|]. intros [[[[wt dt] r_c] q_c] p2] K2. cbn [snd] in K2.
  destruct (Z.leb wt 0); [apply same_any|]. apply same_any_bind. intros amu. cbv zeta.
  match goal with |- context [if Z.eqb wt 2 then add_int ?l ?p else ?p] => set (ph1 := if Z.eqb wt 2 then add_int l p else p) end.
  assert (K1 : ph_en ph1 = E) by (unfold ph1; destruct (Z.eqb wt 2); destruct (Z.eqb wt 3); exact K2). clearbody ph1.
  apply same_any_bind. intros zmax. apply same_any_bind. intros extmax.
  eapply (same_bind (fun _ => True)); [|intros; apply same_any].
  destruct (Z.eqb wt 1); [|apply same_any]. apply same_any_bind. intros axes. apply same_any_bind. intros ix.
  eapply same_bind; [apply trace_many_same; [apply trace_same|exact K1]|]. intros [ie p3] _. apply same_any.
Qed.
End Junk.

Section Launch.
Context {T : Type} {N : Num T}.

Theorem launch_same x (o : optic T) junk junk' fuel ph en w lc : nltb (nopp (nofZ 1)) (nofZ 0) = true ->
  forall e, launch x o junk' fuel ph en w lc e = launch x o junk fuel ph en w lc e.
Proof.
  intros Neg e. destruct en as [E|]; [|reflexivity]. destruct E as [|e0 E']; [reflexivity|].
  assert (E0 : e0 :: E' <> []) by discriminate. set (E := e0 :: E') in *.
  enough (G : same (fun _ => True) (launch x o junk fuel ph (Some E) w lc) (launch x o junk' fuel ph (Some E) w lc)) by apply G.
  unfold launch. destruct (orb _ _); [apply same_any|]. cbv zeta.
  eapply same_bind; [apply photon_scatf_keeps|]. intros p1 K. cbn [launch_init ph_en] in K.
  assert (K1 : ph_en (launch_reset p1) = E) by exact K. set (p2 := launch_reset p1) in *. clearbody p2. clear p1 K.
  apply same_any_bind. intros zid. apply same_any_bind. intros ext. apply same_any_bind. intros [[inside q] r].
  destruct (negb inside); [apply same_any|]. apply same_any_bind. intros axes. apply same_any_bind. intros ix. apply same_any_bind. intros [[rad cx] cy].
  cif.
  - destruct (andb _ _).
    + eapply (same_bind (fun _ => True)); [apply same_quiet; eapply same_weak; [|apply (reflect_same Neg E E0); [apply (trace_same Neg E E0)|exact K1]]; auto|]. intros; apply same_any.
    + destruct (andb _ _); [|apply same_any]. eapply (same_bind (fun _ => True)); [apply (launch_wall_same Neg E E0); exact K1|]. intros; apply same_any.
  - eapply same_bind; [apply trace_many_same; [apply (trace_same Neg E E0)|exact K1]|]. intros; apply same_any.
Qed.

Lemma attempt_same x (o : optic T) s en junk junk' lc fuel rs : nltb (nopp (nofZ 1)) (nofZ 0) = true ->
  forall e, attempt_run x o s en junk' lc fuel rs e = attempt_run x o s en junk lc fuel rs e.
Proof.
  intros Neg. enough (G : same (fun _ => True) (attempt_run x o s en junk lc fuel rs) (attempt_run x o s en junk' lc fuel rs)) by (intros e; apply G).
  unfold attempt_run. apply same_any_bind. intros c. apply same_any_bind. intros e0. destruct (draw_photon _ _ _ _ _) as [[d rs']|]; [|apply same_any].
  apply same_any_bind. intros ph. eapply (same_bind (fun _ => True)); [|intros; apply same_any]. apply same_quiet. intros e. split; [apply launch_same; exact Neg|auto].
Qed.

Lemma job_same x (o : optic T) s en junk junk' lc fuel n : nltb (nopp (nofZ 1)) (nofZ 0) = true ->
  forall rs e, job_run n x o s en junk' lc fuel rs e = job_run n x o s en junk lc fuel rs e.
Proof.
  intros Neg. induction n as [|n IH]; intros rs e; [reflexivity|]. cbn [job_run]. rewrite 2!bind_def, (attempt_same _ _ _ _ junk junk') by exact Neg.
  destruct (attempt_run x o s en junk lc fuel rs e) as [[[[a rs']|] e1]| |]; [|reflexivity|reflexivity|reflexivity].
  rewrite 2!bind_def. destruct (classify o a e1) as [[c e2]| |]; [|reflexivity|reflexivity]. destruct (again c); [|reflexivity]. rewrite 2!bind_def, IH. reflexivity.
Qed.

Lemma jobs_same x (o : optic T) s en junk junk' lc fuel n c : nltb (nopp (nofZ 1)) (nofZ 0) = true ->
  forall rs e, jobs_run n x o s en junk' lc fuel rs c e = jobs_run n x o s en junk lc fuel rs c e.
Proof.
  intros Neg. induction c as [|c IH]; intros rs e; [reflexivity|]. cbn [jobs_run]. rewrite 2!bind_def, (job_same _ _ _ _ junk junk') by exact Neg.
  destruct (job_run n x o s en junk lc fuel rs e) as [[[[a rs']|] e1]| |]; [|reflexivity|reflexivity|reflexivity].
  rewrite 2!bind_def, IH. reflexivity.
Qed.
End Launch.
