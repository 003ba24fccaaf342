(** * Property theorems: the Python photon (C106-C111)

    [photon_session u x junk fuel d start dir ev ops]: a Photon is made, used as in [ops] and deleted
    (PyPhoton.v; [u] is where the C variables of the object and its methods are, [d] the C object of
    the Description).  [life_replies] (SpecPyPhoton.v) gives the answers in terms of the function
    [launch], and the number of blocks of memory that are lost. *)
From Coq Require Import Floats.
From Coq Require Import ZArith List Bool Lia String Permutation.
From Verif Require Import Num Mem SpecHeap SpecPhoton HeapLib ErrorModel ProfileModel ProfileProofs Geometry ConsModel RM RMLogic CapilModel TraceModel LaunchModel PhotProofs SepLib
  SpecFlight FlightProp SrcProofs ProfileFloat Libm
  FlightMem FlightRep FlightHeap FlightHeap2 FlightLaunch FlightLaunch2 PropLaunch PropLeak PropFlight PyModel SpecPy PyResult PyResProofs PyResInv PyResServe SpecPyPhoton PyPhoton PyPhProofs PyPhServe PyPhNext PyPhEnd.
From Verif Require SpecResult.
Set Warnings "-inexact-float".
Import ListNotations.
Local Notation ret := Mem.ret.
Local Notation bind := Mem.bind.

Section Generic.
Context {T : Type} {N : Num T}.
Local Notation variable := SpecResult.variable.
Definition pvariables (u : pvars) : list loc := [u_ph u; u_err u; u_w u; u_ext u; u_next u; u_int u; u_nint u].

(** Where a session starts: an optic in memory, and the variables. *)
Definition ready (s : st T) (u : pvars) (d : loc) (D : list loc) (o : optic T) : Prop :=
  wf s /\ memory_available s /\ optic_at s d D o /\ NoDup (pvariables u ++ D) /\ (forall l, In l (pvariables u) -> variable s l).

(** Afterwards memory is as before, but for the variables and [n] new blocks. *)
Definition blocks_lost (s : st T) (u : pvars) (n : nat) (s' : st T) : Prop :=
  exists gone, List.length gone = n /\ NoDup gone /\ (forall l, In l gone -> mem s l = None /\ mem s' l <> None) /\
    (forall l, ~ In l (pvariables u ++ gone) -> mem s' l = mem s l).

Lemma ready_hs s u d D o : ready s u d D o -> exists liz lwi lp lz lc le open a b c e f g h, sized o /\ D = map fst (descb d liz lwi lp lz lc le open o) /\
  hs (without (pvariables u ++ D) s) (cells u a b c e f g h ++ descb d liz lwi lp lz lc le open o) s.
Proof.
  intros (W & A & HO & ND & HV). destruct (optic_descb _ _ _ _ HO) as (liz & lwi & lp & lz & lc & le & open & So & -> & HD & _).
  destruct (HV (u_ph u)) as [a E1]; [cbn; auto|]. destruct (HV (u_err u)) as [b E2]; [cbn; auto|]. destruct (HV (u_w u)) as [c E3]; [cbn; auto|].
  destruct (HV (u_ext u)) as [e E4]; [cbn; auto|]. destruct (HV (u_next u)) as [f E5]; [cbn; auto 6|]. destruct (HV (u_int u)) as [g E6]; [cbn; auto 7|]. destruct (HV (u_nint u)) as [h E7]; [cbn; auto 8|].
  exists liz, lwi, lp, lz, lc, le, open, a, b, c, e, f, g, h. split; [exact So|]. split; [reflexivity|].
  apply (hs_intro s (cells u a b c e f g h ++ descb d liz lwi lp lz lc le open o)); [exact W|exact A|exact ND|].
  unfold cells. intros l bl I. cbn [app In] in I. destruct I as [[= <- <-]|[[= <- <-]|[[= <- <-]|[[= <- <-]|[[= <- <-]|[[= <- <-]|[[= <- <-]|I]]]]]]]; try assumption. apply HD. exact I.
Qed.

(** ** C106 *)
Theorem C106_python_photon :
  forall (x : xraylib T) (o : optic T) junk fuel s u d D start dir ev ops ans n,
  ready s u d D o -> life_replies x o junk fuel start dir ev ops = Some (ans, n) ->
  exists s', photon_session u x junk fuel (Some d) start dir ev ops s = Ok (Some ans, s') /\ blocks_lost s u n s'.
Proof.
  intros x o junk fuel s u d D start dir ev ops ans n Rd E.
  destruct (ready_hs _ _ _ _ _ Rd) as (liz & lwi & lp & lz & lc & le & open & a & b & c & e & f & g & h & So & ED & H).
  pose proof (session_ok _ u d liz lwi lp lz lc le open o So x junk fuel start dir ev ops ans n a b c e f g h s H E) as WP.
  apply wp_run in WP. destruct WP as (r & s' & Er & -> & a' & b' & c' & e' & f' & g' & h' & G & LG & H'). exists s'. split; [exact Er|].
  destruct H' as (W' & A' & ND' & H1' & H2' & H3'). destruct Rd as (W & _ & HO & ND & HV).
  destruct (optic_descb _ _ _ _ HO) as (liz0 & lwi0 & lp0 & lz0 & lc0 & le0 & open0 & _ & ED0 & HD & _). clear liz0 lwi0 lp0 lz0 lc0 le0 open0 ED0 HD.
  set (DD := descb d liz lwi lp lz lc le open o) in *. rewrite !map_app in ND', H2', H3'. change (map fst (cells u a' b' c' e' f' g' h')) with (pvariables u) in ND', H2', H3'. rewrite <- ED in ND', H2', H3'.
  exists (map fst G). split; [rewrite map_length; exact LG|]. rewrite app_assoc in ND'. apply nodup_app_inv in ND'. destruct ND' as (_ & NG & Dis).
  split; [exact NG|]. split.
  - intros l I. split.
    + assert (NI : ~ In l (pvariables u ++ D)) by (intros K; exact (Dis _ K I)). assert (X : without (pvariables u ++ D) s l = None) by (apply H3'; rewrite app_assoc; apply in_or_app; auto).
      rewrite without_nin in X by exact NI. exact X.
    + apply in_map_iff in I. destruct I as ([l0 bl] & <- & I). cbn [fst]. rewrite (H1' l0 bl); [discriminate|apply in_or_app; right; apply in_or_app; auto].
  - intros l I. rewrite in_app_iff in I. destruct (in_dec Nat.eq_dec l D) as [J|J].
    + rewrite ED in J. apply in_map_iff in J. destruct J as ([l0 bl] & <- & J). cbn [fst]. rewrite (H1' l0 bl) by (apply in_or_app; right; apply in_or_app; auto).
      symmetry. destruct H as (_ & _ & _ & H1 & _ & _). apply H1. apply in_or_app. auto.
    + rewrite H2' by (rewrite !in_app_iff; tauto). apply without_nin. rewrite in_app_iff. tauto.
Qed.

Lemma set_nth_in {A} (l : list A) i a b : In b (set_nth l i a) -> b = a \/ In b l.
Proof. revert i. induction l as [|x l IH]; intros [|i]; cbn [set_nth In]; try tauto; [intros [->|]; auto|]. intros [->|K]; [auto|]. destruct (IH _ K); auto. Qed.

(** ** C107: a photon launched once *)
Lemma reads_ok (x : xraylib T) (o : optic T) junk fuel : forall ops w, only_reads ops ->
  (forall k, shown k w = [] \/ shown k w = leaks_of k (w_ph w)) ->
  Forall (fun c => forall i, snd c = Some (S i) -> shown (fst c) w = leaks_of (fst c) (w_ph w)) (w_its w) ->
  replies x o junk fuel ops w = Some (reads (w_ph w) ops (w_its w), 0).
Proof.
  induction ops as [|op ops IH]; intros w O Sh Fa; [reflexivity|]. inversion O as [|? ? O1 O2]; subst. destruct op as [en lc|f|k|g]; cbn [replies reads]; [contradiction| | |].
  - rewrite IH by auto. reflexivity.
  - rewrite (IH (mkView (w_ph w) (w_ext w) (w_int w) (w_its w ++ [(k, Some 0)]))); auto. cbn [w_its]. apply Forall_app. split; [exact Fa|]. constructor; [|constructor]. intros i [=].
  - unfold next_reply. destruct (nth_error (w_its w) g) as [[k [i|]]|] eqn:Eg; [|rewrite IH by auto; reflexivity|rewrite IH by auto; reflexivity].
    set (w1 := match i with O => show k (seen k w) w | S _ => w end).
    assert (Sn : seen k w = leaks_of k (w_ph w)). { unfold seen. destruct (Sh k) as [X|X]; rewrite X; [reflexivity|]. destruct (leaks_of k (w_ph w)); reflexivity. }
    assert (S1 : shown k w1 = leaks_of k (w_ph w)).
    { unfold w1. destruct i as [|i]; [rewrite Sn; destruct k; reflexivity|]. rewrite Forall_forall in Fa. apply nth_error_In in Eg. exact (Fa _ Eg i eq_refl). }
    assert (P1 : w_ph w1 = w_ph w /\ w_its w1 = w_its w) by (unfold w1; destruct i, k; split; reflexivity). destruct P1 as [P1 P2].
    assert (Sh1 : forall k', shown k' w1 = [] \/ shown k' w1 = leaks_of k' (w_ph w1)).
    { intros k'. rewrite P1. unfold w1. destruct i; [|apply Sh]. destruct k, k'; cbn [show shown w_ext w_int]; try (apply (Sh Internal)); try (apply (Sh External)); right; rewrite Sn; reflexivity. }
    assert (Mono : forall k', shown k' w = leaks_of k' (w_ph w) -> shown k' w1 = leaks_of k' (w_ph w1)).
    { intros k' X. rewrite P1. unfold w1. destruct i; [|exact X]. destruct k, k'; cbn [show shown w_ext w_int] in *; try exact X; rewrite Sn; reflexivity. }
    assert (Put : forall i', (forall j, i' = Some (S j) -> True) -> replies x o junk fuel ops (mkView (w_ph w1) (w_ext w1) (w_int w1) (set_nth (w_its w1) g (k, i'))) = Some (reads (w_ph w) ops (set_nth (w_its w) g (k, i')), 0)).
    { intros i' _. rewrite IH; [cbn [w_ph w_its]; rewrite P1, P2; reflexivity|exact O2|exact Sh1|]. cbn [w_its w_ph]. rewrite P2.
      rewrite Forall_forall. intros c Ic j Ej. destruct (set_nth_in _ _ _ _ Ic) as [->|Ic']; [rewrite P1; exact S1|]. rewrite Forall_forall in Fa. exact (Mono _ (Fa _ Ic' j Ej)). }
    rewrite S1. destruct (leaks_of k (w_ph w)) as [|l0 ls] eqn:El; [rewrite Put by auto; reflexivity|]. destruct (nth_error (l0 :: ls) i) as [l|]; rewrite Put by auto; reflexivity.
Qed.

(** If the launch comes back with weights, a user sees those weights, the fields and the leaks of the
    launched photon, however often and in whatever order, and nothing is lost. *)
Theorem C107_one_launch :
  forall (x : xraylib T) (o : optic T) junk fuel s u d D start dir ev en lc ph c ph' ws ops,
  ready s u d D o -> photon_fresh start dir ev = Some ph ->
  launch x o junk fuel ph (Some en) false lc None = Ret ((c, ph', Some ws), None) -> c <> 2%Z -> only_reads ops ->
  exists s', photon_session u x junk fuel (Some d) start dir ev (Launch en lc :: ops) s = Ok (Some (inl (Item (weights_value ws) :: reads ph' ops [])), s') /\
    (forall l, ~ In l (pvariables u) -> mem s' l = mem s l).
Proof.
  intros x o junk fuel s u d D start dir ev en lc ph c ph' ws ops Rd Hf K Hc O.
  destruct (C106_python_photon x o junk fuel s u d D start dir ev (Launch en lc :: ops) (inl (Item (weights_value ws) :: reads ph' ops [])) 0 Rd) as (s' & E & gone & Lg & _ & _ & HM).
  - unfold life_replies. rewrite Hf. cbn [replies w_ph]. unfold launch_reply. rewrite K. destruct (Z.eqb_spec c 2); [contradiction|].
    unfold photon_fresh in Hf. destruct (_ || _)%bool; [discriminate|]. injection Hf as <-. cbn [ph_ext ph_int List.length Nat.add w_ext w_int w_its].
    rewrite reads_ok; [reflexivity|exact O|intros []; left; reflexivity|constructor].
  - exists s'. split; [exact E|]. intros l I. apply HM. destruct gone; [|discriminate]. rewrite app_nil_r. exact I.
Qed.

(** ** C108: the leaks of the last launch *)
(** After a second launch an iterator still goes over the leaks of the first. *)
Theorem C108_stale_leaks :
  forall (x : xraylib T) (o : optic T) junk fuel s u d D start dir ev en1 lc1 en2 lc2 k ph c1 ph1 ws1 l0 ls c2 ph2 ws2,
  ready s u d D o -> photon_fresh start dir ev = Some ph ->
  launch x o junk fuel ph (Some en1) false lc1 None = Ret ((c1, ph1, Some ws1), None) -> c1 <> 2%Z -> leaks_of k ph1 = l0 :: ls ->
  launch x o junk fuel ph1 (Some en2) false lc2 None = Ret ((c2, ph2, Some ws2), None) -> c2 <> 2%Z ->
  exists s', photon_session u x junk fuel (Some d) start dir ev [Launch en1 lc1; Leaks k; NextLeak 0; Launch en2 lc2; Leaks k; NextLeak 1] s =
    Ok (Some (inl [Item (weights_value ws1); Iterator; Item (leak_value l0); Item (weights_value ws2); Iterator; Item (leak_value l0)]), s').
Proof.
  intros x o junk fuel s u d D start dir ev en1 lc1 en2 lc2 k ph c1 ph1 ws1 l0 ls c2 ph2 ws2 Rd Hf K1 Hc1 El K2 Hc2.
  edestruct (C106_python_photon x o junk fuel s u d D start dir ev [Launch en1 lc1; Leaks k; NextLeak 0; Launch en2 lc2; Leaks k; NextLeak 1]
    (inl [Item (weights_value ws1); Iterator; Item (leak_value l0); Item (weights_value ws2); Iterator; Item (leak_value l0)])) as (s' & E & _); [exact Rd| |exists s'; exact E].
  unfold life_replies. rewrite Hf. cbn [replies w_ph w_ext w_int w_its]. unfold launch_reply at 1. rewrite K1. destruct (Z.eqb_spec c1 2); [contradiction|]. cbn [w_ph w_ext w_int w_its app].
  unfold next_reply at 1. cbn [w_its nth_error]. destruct k; cbn [seen shown show w_ph w_ext w_int leaks_of] in El |- *; rewrite El; cbn [nth_error w_ph w_ext w_int w_its set_nth];
    unfold launch_reply; rewrite K2; destruct (Z.eqb_spec c2 2); try contradiction; cbn [w_ph w_ext w_int w_its app set_nth next_reply nth_error shown seen show]; reflexivity.
Qed.

(** ** C109: what a launch without weights leaves behind *)
(** When launch raises an exception or returns None after the library handed out weights, these are lost. *)
Theorem C109_lost_weights :
  forall (x : xraylib T) (o : optic T) junk fuel s u d D start dir ev en lc ph c ph' ws e,
  ready s u d D o -> photon_fresh start dir ev = Some ph ->
  launch x o junk fuel ph (Some en) false lc None = Ret ((c, ph', Some ws), e) -> c = 2%Z \/ e <> None ->
  exists s' a, photon_session u x junk fuel (Some d) start dir ev [Launch en lc] s = Ok (Some (inl [a]), s') /\
    (e = None -> a = Item PNone) /\ (forall code, e = Some code -> a = Raise (polycap_error_map code)) /\ blocks_lost s u 1 s'.
Proof.
  intros x o junk fuel s u d D start dir ev en lc ph c ph' ws e Rd Hf K Hc.
  destruct (C106_python_photon x o junk fuel s u d D start dir ev [Launch en lc] (inl [match e with Some code => Raise (polycap_error_map code) | None => Item PNone end]) 1 Rd) as (s' & E & BL).
  - unfold life_replies. rewrite Hf. cbn [replies w_ph]. unfold launch_reply. rewrite K. unfold photon_fresh in Hf. destruct (_ || _)%bool; [discriminate|]. injection Hf as <-. cbn [ph_ext ph_int List.length Nat.add].
    destruct e as [code|]; [reflexivity|]. destruct Hc as [->|Hc]; [reflexivity|congruence].
  - exists s'. eexists. split; [exact E|]. split; [intros ->; reflexivity|]. split; [intros code ->; reflexivity|exact BL].
Qed.

Lemma photon_scatf_start (x : xraylib T) (o : optic T) ph : post (photon_scatf x o ph) (fun ph' => ph_start ph' = ph_start ph).
Proof. unfold photon_scatf. destruct (orb _ _); [eapply post_seq; intros _|]; apply post_ret; reflexivity. Qed.

(** ** C110: weights that were computed *)
(** Without leak calculation, or for a photon that does not start inside the optic. *)
Theorem C110_computed_partial :
  forall (x : xraylib T) (o : optic T) junk fuel s u d D start dir ev en lc ph c ph' ws,
  ready s u d D o -> photon_fresh start dir ev = Some ph -> lc = false \/ nltb (#0)%num (vz start) = false ->
  launch x o junk fuel ph (Some en) false lc None = Ret ((c, ph', Some ws), None) -> c <> 2%Z ->
  exists s' w, photon_session u x junk fuel (Some d) start dir ev [Launch en lc] s = Ok (Some (inl [Item (PCells (List.map Vdbl w))]), s') /\ List.length w = List.length en.
Proof.
  intros x o junk fuel s u d D start dir ev en lc ph c ph' ws Rd Hf Hl K Hc. destruct (C91_codes x o junk fuel ph (Some en) false lc None c ph' (Some ws) None K) as (_ & H2 & _).
  assert (Hs : vz (ph_start ph) = vz start /\ at_rest ph) by (unfold photon_fresh in Hf; destruct (_ || _)%bool; [discriminate|]; injection Hf as <-; repeat split). destruct Hs as [Hs R0].
  assert (P : exists w, ws = List.map Some w).
  { assert (P : post (launch x o junk fuel ph (Some en) false lc) (fun r => match r with (c, _, Some ws) => c = 2%Z \/ c = (-2)%Z \/ exists w, ws = List.map Some w | _ => True end)).
    2:{ specialize (P _ _ _ K). cbn beta iota in P. destruct P as [P|[P|P]]; [contradiction|exfalso; exact (H2 P eq_refl)|exact P]. }
    clear K H2 c Hc ws ph'. intros e r e' E. rewrite launch_eq in E. destruct (en_refused en).
    { cbn in E. unfold RM.bind, report, RM.ret in E. injection E as <- _. exact I. }
    revert e r e' E. match goal with |- forall e r e', ?m e = _ -> _ => change (post m (fun r => match r with (c, _, Some ws) => c = 2%Z \/ c = (-2)%Z \/ exists w, ws = List.map Some w | _ => True end)) end.
    eapply post_bind; [apply (photon_scatf_start x o (launch_init ph en))|]. intros ph1 E1. assert (E1' : vz (ph_start (launch_reset ph1)) = vz start) by (change (ph_start (launch_reset ph1)) with (ph_start ph1); rewrite E1; exact Hs).
    apply post_seq. intros [zid [[q r]|]]; cbn [fst snd]; [|apply post_ret; right; left; reflexivity].
    unfold launch_go. apply post_seq. intros [[axes ix] gl]. destruct gl.
    - destruct (lc && neqb _ _)%bool; [apply post_seq; intros cp; apply post_ret; left; reflexivity|]. destruct (lc && nltb _ _)%bool eqn:E2; [|apply post_ret; left; reflexivity].
      exfalso. destruct lc; cbn [andb] in E2; [|discriminate]. rewrite E1' in E2. destruct Hl; congruence.
    - apply post_seq. intros it. apply post_ret. right. right. eexists. reflexivity. }
  destruct P as [w ->]. destruct (C107_one_launch x o junk fuel s u d D start dir ev en lc ph c ph' (List.map Some w) [] Rd Hf K Hc) as (s' & E & _); [constructor|].
  exists s', w. split; [rewrite E; unfold weights_value; rewrite map_map; reflexivity|]. pose proof (launch_ws _ x junk fuel ph en lc R0 _ _ _ K) as L. cbn [snd] in L. rewrite map_length in L. exact L.
Qed.

(** ** C111: the description a photon needs *)
(** Nothing keeps the Description alive: if it is deleted before the launch, the launch is undefined. *)
Lemma bind_ub {A B} (m : M T A) (k : A -> M T B) s : wp m (fun a s' => k a s' = UB) s -> bind m k s = UB.
Proof. unfold wp, bind. destruct (m s) as [[a s']|]; [auto|contradiction]. Qed.

Lemma bindF_ub {A B} (m : MF (T := T) A) (k : A -> MF (T := T) B) e s : wp (m e) (fun r s' => match r with Some (a, e') => k a e' s' = UB | None => False end) s -> bindF m k e s = UB.
Proof. intros W. unfold bindF. apply bind_ub. eapply wp_mono; [exact W|]. cbn beta. intros [[a e']|] s' K; [exact K|contradiction]. Qed.
Lemma inM_ub {A B} (m : M T A) (k : A -> MF (T := T) B) e s : wp m (fun a s' => k a e s' = UB) s -> bindF (inM m) k e s = UB.
Proof. intros W. apply bindF_ub, wp_inM. exact W. Qed.

Lemma bind_ub_l {A B} (m : M T A) (k : A -> M T B) s : m s = UB -> bind m k s = UB.
Proof. unfold bind. intros ->. reflexivity. Qed.

Lemma hs_free_dead F (L : list (loc * @block T)) l b (Q : unit -> st T -> Prop) s : hs F ((l, b) :: L) s ->
  (forall s', l < nxt s' -> hs F L s' -> Q tt s') -> wp (free (Some l)) Q s.
Proof.
  intros H HQ. assert (B : l < nxt s). { destruct H as (W & _ & _ & H1 & _). destruct (Nat.lt_ge_cases l (nxt s)) as [X|X]; [exact X|]. apply W in X. rewrite (H1 l b (or_introl eq_refl)) in X. discriminate. }
  assert (W1 := hs_free F L l b (fun _ s' => hs F L s') s H (fun _ K => K)). unfold wp, free in *. destruct (mem s l); [|contradiction]. apply HQ; [exact B|exact W1].
Qed.
Lemma hs_malloc_next F (L : list (loc * @block T)) n (Q : ptr -> st T -> Prop) s : hs F L s ->
  (forall s', hs F ((nxt s, repeat Vundef n) :: L) s' -> Q (Some (nxt s)) s') -> wp (malloc n) Q s.
Proof.
  intros H HQ. assert (W1 := hs_malloc F L n (fun p s' => forall l, p = Some l -> hs F ((l, repeat Vundef n) :: L) s') s H).
  specialize (W1 ltac:(intros l s' K l' [= <-]; exact K)). assert (A : orc s (cnt s) = true) by (destruct H as (_ & A & _); apply A). unfold wp, malloc, alloc in *. rewrite A in *. apply HQ. apply W1. reflexivity.
Qed.

Theorem C111_description_lifetime_refuted :
  forall (x : xraylib T) (o : optic T) junk fuel s u d D start dir ev en lc,
  ready s u d D o -> photon_fresh start dir ev <> None -> en_refused en = false ->
  orphan_session u x junk fuel (Some d) start dir ev en lc s = UB.
Proof.
  intros x o junk fuel s u d D start dir ev en lc0 Rd Hf Hen.
  destruct (ready_hs _ _ _ _ _ Rd) as (liz & lwi & lp & lz & lc & le & open & a & b & c & e & f & g & h & So & ED & H).
  set (F := without _ s) in H. clearbody F. unfold orphan_session. apply bind_ub. unfold photon_init, cells, descb in *. cbn [app] in H.
  pull (u_err u) H. apply wp_bind. eapply hs_store; [exact H|cbn; lia|]. cbn [set_nth]. clear H s Rd. intros s H.
  pull (u_ext u) H. apply wp_bind. eapply hs_store; [exact H|cbn; lia|]. cbn [set_nth]. clear H s. intros s H.
  pull (u_next u) H. apply wp_bind. eapply hs_store; [exact H|cbn; lia|]. cbn [set_nth]. clear H s. intros s H.
  pull (u_int u) H. apply wp_bind. eapply hs_store; [exact H|cbn; lia|]. cbn [set_nth]. clear H s. intros s H.
  pull (u_nint u) H. apply wp_bind. eapply hs_store; [exact H|cbn; lia|]. cbn [set_nth]. clear H s. intros s H.
  apply wp_bind. eapply hs_photon_new; [exact Hf|exact H|]. clear H s. intros p s H. set (PB := photon_block _ _ _ _ _ _ _ _ _ _ _ _ _ _ _ _ _ _ _) in H.
  assert (P0 : nth_error PB F_DESC = Some (Vptr (Some d)) /\ nth_error PB F_EXTLEAK = Some (Vptr NULL) /\ nth_error PB F_INTLEAK = Some (Vptr NULL)) by (repeat split). destruct P0 as (P1 & P2 & P3). clearbody PB.
  pull (u_ph u) H. apply wp_bind. eapply hs_store; [exact H|cbn; lia|]. cbn [set_nth]. clear H s. intros s H.
  pull (u_err u) H. apply wp_bind. eapply hs_load_ptr; [exact H|left; reflexivity|reflexivity|]. cbn [set_exception]. apply wp_ret.
  apply bind_ub. unfold description_free. pull d H. apply wp_bind. eapply hs_load_ptr; [exact H|left; reflexivity|reflexivity|]. unfold profile_free.
  apply wp_bind. pull lp H. apply wp_bind. eapply hs_load_ptr; [exact H|left; reflexivity|reflexivity|]. unfold free_if.
  pull lz H. apply wp_bind. eapply hs_free; [exact H|]. clear H s. intros s H.
  pull lp H. apply wp_bind. eapply hs_load_ptr; [exact H|left; reflexivity|reflexivity|].
  pull lc H. apply wp_bind. eapply hs_free; [exact H|]. clear H s. intros s H.
  pull lp H. apply wp_bind. eapply hs_load_ptr; [exact H|left; reflexivity|reflexivity|].
  pull le H. apply wp_bind. eapply hs_free; [exact H|]. clear H s. intros s H.
  pull lp H. eapply hs_free; [exact H|]. clear H s. intros s H.
  pull d H. apply wp_bind. eapply hs_load_ptr; [exact H|left; reflexivity|reflexivity|].
  pull liz H. apply wp_bind. eapply hs_free; [exact H|]. clear H s. intros s H.
  pull d H. apply wp_bind. eapply hs_load_ptr; [exact H|left; reflexivity|reflexivity|].
  pull lwi H. apply wp_bind. eapply hs_free; [exact H|]. clear H s. intros s H.
  pull d H. assert (Fd : F d = None) by (destruct H as (_ & _ & _ & _ & _ & H3); apply H3; left; reflexivity).
  assert (Nd : ~ In d [u_err u; u_ph u; p; u_nint u; u_int u; u_next u; u_ext u; u_w u]).
  { destruct H as (_ & _ & ND & _). cbn [map fst] in ND. inversion ND as [|? ? X _]. intros K. apply X. cbn [In] in K |- *. tauto. }
  eapply hs_free_dead; [exact H|]. clear H s. intros s Bd H.
  unfold py_launch. apply bind_ub. eapply hs_malloc_next; [exact H|]. assert (Nw : d <> nxt s) by lia. set (we := nxt s) in *. clearbody we. clear H s Bd. intros s H. apply bind_ub. eapply hs_write_all; [apply repeat_length|exact H|]. clear H s. intros s H. unfold py_launch_at.
  apply bind_ub. pull (u_err u) H. eapply hs_store; [exact H|cbn; lia|]. cbn [set_nth]. clear H s. intros s H.
  apply bind_ub. pull (u_w u) H. eapply hs_store; [exact H|cbn; lia|]. cbn [set_nth]. clear H s. intros s H.
  apply bind_ub. pull (u_ph u) H. eapply hs_load_ptr; [exact H|left; reflexivity|reflexivity|].
  apply bind_ub_l. unfold launchM. cbn [is_null].
  assert (Hl : (List.length en <? 1) = false). { unfold en_refused in Hen. destruct en; [discriminate|reflexivity]. }
  rewrite Hl. change (refuse_launch false (Some (u_err u)) ?k) with k.
  apply inM_ub. eapply (wp_energy_loop we en en (List.length en) []); [auto|reflexivity|eapply hs_in; [exact H|cbn; auto 8]|]. rewrite firstn_all, forallb_not.
  assert (He : List.existsb (fun e => (nltb e (#1)%num || nltb (#100)%num e)%bool) en = false). { unfold en_refused in Hen. apply orb_false_iff in Hen. exact (proj2 Hen). }
  rewrite He. change (refuse_launch false (Some (u_err u)) ?k) with k.
  assert (Mp : mem s p = Some PB) by (eapply hs_in; [exact H|cbn; auto 12]).
  apply inM_ub. apply wp_bind. unfold drop_leaks. apply wp_bind. eapply wp_load_ptr; [exact Mp|exact P2|]. apply wp_ret. apply wp_bind. eapply wp_load_ptr; [exact Mp|exact P3|]. apply wp_ret.
  apply inM_ub. eapply wp_load_ptr; [exact Mp|exact P1|]. cbn [is_null]. change (refuse_launch false (Some (u_err u)) ?k) with k.
  unfold bindF, inM. do 2 apply bind_ub_l. unfold read_optic. do 2 apply bind_ub_l. unfold load.
  replace (mem s d) with (@None (@block T)); [reflexivity|]. symmetry. destruct H as (_ & _ & _ & _ & H2 & _). rewrite H2; [exact Fd|]. cbn [map fst In] in Nd |- *. intuition congruence.
Qed.

(** ** C112: a photon without a photon *)
(** Photon(..., ignore=True): reading a field is undefined. *)
Theorem C112_ignored_photon_refuted :
  forall (s : st T) u d D o f, ready s u d D o -> bind (photon_ignored u) (fun _ => py_get u f) s = UB.
Proof.
  intros s u d D o f Rd. destruct (ready_hs _ _ _ _ _ Rd) as (liz & lwi & lp & lz & lc & le & open & a & b & c & e & f0 & g & h & So & ED & H).
  set (F := without _ s) in H. clearbody F. apply bind_ub. unfold photon_ignored, cells in *. set (DD := descb _ _ _ _ _ _ _ _ _) in H. clearbody DD. cbn [app] in H.
  pull (u_err u) H. apply wp_bind. eapply hs_store; [exact H|cbn; lia|]. cbn [set_nth]. clear H s Rd. intros s H.
  pull (u_ext u) H. apply wp_bind. eapply hs_store; [exact H|cbn; lia|]. cbn [set_nth]. clear H s. intros s H.
  pull (u_next u) H. apply wp_bind. eapply hs_store; [exact H|cbn; lia|]. cbn [set_nth]. clear H s. intros s H.
  pull (u_int u) H. apply wp_bind. eapply hs_store; [exact H|cbn; lia|]. cbn [set_nth]. clear H s. intros s H.
  pull (u_nint u) H. apply wp_bind. eapply hs_store; [exact H|cbn; lia|]. cbn [set_nth]. clear H s. intros s H.
  pull (u_ph u) H. apply wp_bind. eapply hs_store; [exact H|cbn; lia|]. cbn [set_nth]. clear H s. intros s H. apply wp_ret.
  unfold py_get. apply bind_ub. eapply hs_load_ptr; [exact H|left; reflexivity|reflexivity|]. destruct f; reflexivity.
Qed.
End Generic.

(** ** A concrete memory: the photon and the optic of C70_example *)
Section Concrete.
Local Open Scope nat_scope.
Definition heap8 : list (@block float) :=
  [ [Vundef]; [Vundef]; [Vundef]; [Vundef]; [Vundef]; [Vundef]; [Vundef];                           (* 0-6: variables *)
    [Vdbl 0%float; Vint 7; Vdbl 0.28%float; Vint 1; Vptr (Some 8); Vptr (Some 9); Vdbl 2%float; Vptr (Some 10)]; (* 7: description *)
    [Vint 14]; [Vdbl 1%float];                                                                      (* 8, 9: composition *)
    [Vint 2; Vptr (Some 11); Vptr (Some 12); Vptr (Some 13)];                                       (* 10: profile *)
    map Vdbl [0;100;200]%float; map Vdbl [0.2;0.2;0.2]%float; map Vdbl [1;1;1]%float ].             (* 11-13 *)
Definition state8 : st float := mkSt (nth_error heap8) 14 (fun _ => true) 0.
Definition vars8 : pvars := mkPvars 0 1 2 3 4 5 6.
Lemma ready8 : ready state8 vars8 7 [7;8;9;10;11;12;13] long7.
Proof.
  split. { intros l Hl. cbn in *. apply nth_error_None. cbn. lia. }
  split; [intros n; reflexivity|]. split.
  { exists 8, 9, 10, 11, 12, 13, 0.28%float. split; [reflexivity|]. split; [|repeat split]. unfold description_object. repeat (split; [reflexivity|]). repeat constructor; cbn; lia. }
  split; [repeat constructor; cbn; lia|]. intros l I. cbn in I. destruct I as [<-|[<-|[<-|[<-|[<-|[<-|[<-|[]]]]]]]]; eexists; reflexivity.
Qed.
Definition run8 (start dir : vec3 float) (ops : list (pop float)) : res (option (list (answer float) + pyclass) * st float) :=
  @photon_session float (FNum series) vars8 clear_glass nulls 4000 (Some 7) start dir ev7 ops state8.

(** The hypotheses of C106 and C107 are met: a launch with three leaks, iterated over twice, in turns. *)
Example C106_met :
  exists l, @life_replies float (FNum series) clear_glass long7 nulls 4000 start7 dir7 ev7
    [Launch [10%float] true; Leaks Internal; NextLeak 0; Leaks Internal; NextLeak 1; NextLeak 0; NextLeak 0; NextLeak 0; Get at_i_refl; Leaks External; NextLeak 2] = Some (inl l, 0) /\
    nth_error l 5 <> nth_error l 6 /\ nth_error l 2 = nth_error l 4 /\ nth_error l 7 = Some Stop /\ nth_error l 8 = Some (Item (PDbl 2%float)) /\ nth_error l 10 = Some (Raise ValueError).
Proof. eexists. split; [vm_compute; reflexivity|]. repeat split. cbn. discriminate. Qed.
Example C107_met :
  exists ph ph' w, @photon_fresh float (FNum series) start7 dir7 ev7 = Some ph /\
  @launch float (FNum series) clear_glass long7 nulls 4000 ph (Some [10%float]) false true None = Ret ((1%Z, ph', Some [Some w]), None) /\
  List.length (ph_int ph') = 3 /\ only_reads (T := float) [Leaks Internal; NextLeak 0; Get at_exit_coords].
Proof.
  exists photon7. let r := eval vm_compute in (run_clear long7 photon7) in match r with Ret (_, ?p, Some [Some ?w], _) => exists p, w end.
  split; [vm_compute; reflexivity|]. split; [vm_compute; reflexivity|]. split; [reflexivity|repeat constructor].
Qed.

(** C108 is false: the second launch, without leak calculation, records no leak. *)
Theorem C108_stale_leaks_refuted :
  exists lm, libm_std lm /\
  exists ph ph1 w1 l0 ls ph2 w2 s', @photon_fresh float (FNum lm) start7 dir7 ev7 = Some ph /\
  @launch float (FNum lm) clear_glass long7 nulls 4000 ph (Some [10%float]) false true None = Ret ((1%Z, ph1, Some [Some w1]), None) /\ ph_int ph1 = l0 :: ls /\
  @launch float (FNum lm) clear_glass long7 nulls 4000 ph1 (Some [10%float]) false false None = Ret ((1%Z, ph2, Some [Some w2]), None) /\ ph_int ph2 = [] /\
  @photon_session float (FNum lm) vars8 clear_glass nulls 4000 (Some 7) start7 dir7 ev7
    [Launch [10%float] true; Leaks Internal; NextLeak 0; Launch [10%float] false; Leaks Internal; NextLeak 1] state8 =
    Ok (Some (inl [Item (PCells [Vdbl w1]); Iterator; Item (leak_value l0); Item (PCells [Vdbl w2]); Iterator; Item (leak_value l0)]), s').
Proof.
  exists series. split; [exact series_std|]. exists photon7.
  let r := eval vm_compute in (run_clear long7 photon7) in match r with Ret (_, ?p, Some [Some ?w], _) => exists p, w; let l := eval vm_compute in (ph_int p) in match l with ?a :: ?b => exists a, b end;
    let r2 := eval vm_compute in (@launch float (FNum series) clear_glass long7 nulls 4000 p (Some [10%float]) false false None) in match r2 with Ret (_, ?p2, Some [Some ?w2], _) => exists p2, w2 end end.
  eexists. split; [vm_compute; reflexivity|]. split; [vm_compute; reflexivity|]. split; [reflexivity|]. split; [vm_compute; reflexivity|]. split; [reflexivity|]. vm_compute. reflexivity.
Qed.

(** C109 is false: a photon that starts in the glass (launch returns None), and one that misses the
    optic (an exception): either way one block is lost. *)
Theorem C109_lost_weights_refuted :
  exists lm, libm_std lm /\
  (exists s', @photon_session float (FNum lm) vars8 clear_glass nulls 4000 (Some 7) (mkV 0.25 0 0)%float (mkV 0 0 1)%float ev7 [Launch [10%float] false] state8 = Ok (Some (inl [Item PNone]), s') /\ blocks_lost state8 vars8 1 s') /\
  (exists s', @photon_session float (FNum lm) vars8 clear_glass nulls 4000 (Some 7) (mkV 5 0 0)%float (mkV 0 0 1)%float ev7 [Launch [10%float] false] state8 = Ok (Some (inl [Raise ValueError]), s') /\ blocks_lost state8 vars8 1 s').
Proof.
  exists series. split; [exact series_std|]. split.
  - apply (C106_python_photon (N := FNum series) clear_glass long7 nulls 4000 state8 vars8 7 [7;8;9;10;11;12;13]); [exact ready8|vm_compute; reflexivity].
  - apply (C106_python_photon (N := FNum series) clear_glass long7 nulls 4000 state8 vars8 7 [7;8;9;10;11;12;13]); [exact ready8|vm_compute; reflexivity].
Qed.

(** C110 is false with leak calculation for a photon that starts in the glass inside the optic: what
    launch returns was never written. *)
Theorem C110_never_written_refuted :
  exists lm, libm_std lm /\
  exists s', @photon_session float (FNum lm) vars8 clear_glass nulls 4000 (Some 7) (mkV 0.25 0 150)%float (mkV 0 0 1)%float ev7 [Launch [10%float] true] state8 =
    Ok (Some (inl [Item (PCells [Vundef])]), s').
Proof. exists series. split; [exact series_std|]. eexists. vm_compute. reflexivity. Qed.
Example C110_met : @nltb float (FNum series) 0%float (vz start7) = false.
Proof. reflexivity. Qed.
Example C111_met : @photon_fresh float (FNum series) start7 dir7 ev7 <> None /\ @en_refused float (FNum series) [10%float] = false.
Proof. split; [discriminate|reflexivity]. Qed.
End Concrete.

Print Assumptions C106_python_photon.
Print Assumptions C107_one_launch.
Print Assumptions C108_stale_leaks.
Print Assumptions C108_stale_leaks_refuted.
Print Assumptions C109_lost_weights.
Print Assumptions C109_lost_weights_refuted.
Print Assumptions C110_computed_partial.
Print Assumptions C110_never_written_refuted.
Print Assumptions C111_description_lifetime_refuted.
Print Assumptions C112_ignored_photon_refuted.
