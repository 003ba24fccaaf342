(** * Proofs about the Python photon: launching, fetching leaks *)
From Coq Require Import ZArith List Bool Lia String Permutation.
From Verif Require Import Num Mem SpecHeap SpecPhoton HeapLib ErrorModel ProfileModel Geometry ConsModel RM CapilModel TraceModel LaunchModel PhotProofs SepLib
  FlightMem FlightRep FlightHeap FlightHeap2 FlightLaunch FlightLaunch2 PropFlight PyModel SpecPy PyResult PyResProofs PyResInv PyResServe SpecPyPhoton PyPhoton.
Import ListNotations.
Local Notation ret := Mem.ret.
Local Notation bind := Mem.bind.

Section Proofs.
Context {T : Type} {N : Num T}.
Local Notation blocks := (list (loc * @block T)).
Implicit Types (s : st T) (F : loc -> option (@block T)).

Lemma keeps_get_leaks farr fn p a b err : keeps (@ConsModel.get_leak_data T farr fn p a b err).
Proof.
  unfold ConsModel.get_leak_data. destruct p as [p|]; [|unfold invalid; apply keeps_bind; [apply keeps_set_error_literal|intros; apply keeps_ret]].
  apply keeps_bind; [keep|]. intros n. apply keeps_bind; [keep|]. intros _. destruct (Z.eqb n 0).
  { apply keeps_bind; [keep|]. intros _. apply keeps_bind; [apply keeps_set_error_literal|intros; apply keeps_ret]. }
  apply keeps_bind; [keep|]. intros out. apply keeps_bind; [keep|]. intros _. destruct out as [out|]; [|apply keeps_bind; [apply keeps_mem_error|intros; apply keeps_ret]].
  apply keeps_bind; [keep|]. intros arr. generalize 0. induction (Z.to_nat n) as [|k IH]; intros from; cbn [ConsModel.copy_leaks]; [apply keeps_ret|].
  apply keeps_bind; [keep|]. intros l. apply keeps_bind; [keep|]. intros _. destruct l as [l|]; [|apply keeps_bind; [apply keeps_mem_error|intros; apply keeps_ret]].
  repeat (apply keeps_bind; [keep|intros ?]). match goal with |- keeps (match ?w with _ => _ end) => destruct w end; [|apply keeps_bind; [apply keeps_mem_error|intros; apply keeps_ret]].
  repeat (apply keeps_bind; [keep|intros ?]). apply IH.
Qed.

(** ** Leaks *)
Definition cacheg (vl vn X : loc) (ls : list (loc * loc)) (ds : list (leak_data T)) : blocks :=
  (vl, [Vptr (lkp X ds)]) :: (vn, [Vint (zlen ds)]) :: lks X ls ds.

Lemma leakb_fst : forall ls (ds : list (leak_data T)), List.length ls = List.length ds -> map fst (leakb ls ds) = leak_blocks ls.
Proof. induction ls as [|[l w] ls IH]; intros [|d ds] E; cbn in E; try discriminate; [reflexivity|]. cbn. unfold leak_blocks in IH. rewrite IH by lia. reflexivity. Qed.
Lemma leakb_hold s : forall ls ds, Forall2 (fun lw d => leak_object s (fst lw) (snd lw) d) ls ds -> hold s (leakb ls ds).
Proof. intros ls ds Fa. induction Fa as [|[l w] k ls ks [A B] Fa IH]; [apply hold_nil|]. cbn [leakb fst snd]. rewrite !hold_cons. auto. Qed.
Lemma hold_leakb s : forall ls (ds : list (leak_data T)), List.length ls = List.length ds -> hold s (leakb ls ds) -> Forall2 (fun lw d => leak_object s (fst lw) (snd lw) d) ls ds.
Proof.
  induction ls as [|[l w] ls IH]; intros [|d ds] E H; cbn in E; try discriminate; [constructor|]. cbn [leakb fst snd] in H. rewrite !hold_cons in H. destruct H as (H1 & H2 & H3).
  constructor; [split; assumption|apply IH; [lia|exact H3]].
Qed.

Lemma fetch_some F farr fn vl vn p bp X ls ds err v1 v2 (R : blocks) s :
  nth_error bp farr = Some (Vptr (lkp X ds)) -> nth_error bp fn = Some (Vint (zlen ds)) -> ds <> [] -> List.length ls = List.length ds ->
  hs F ([(vl, [v1]); (vn, [v2])] ++ (p, bp) :: lks X ls ds ++ R) s ->
  wp (ConsModel.get_leak_data farr fn (Some p) (Some vl) (Some vn) err)
     (fun _ s' => exists X' ls', List.length ls' = List.length ds /\ hs F (cacheg vl vn X' ls' ds ++ (p, bp) :: lks X ls ds ++ R) s') s.
Proof.
  intros Ea En Ne Len H. assert (Ek : lks X ls ds = (X, arrb ls) :: leakb ls ds) by (destruct ds; [contradiction|reflexivity]).
  assert (Ep : lkp X ds = Some X) by (destruct ds; [contradiction|reflexivity]). rewrite Ep in Ea.
  assert (H0 := H). rewrite Ek in H0. destruct H0 as (W & Av & ND & H1 & _). cbn [app map fst] in ND. rewrite map_app, leakb_fst in ND by exact Len.
  inversion ND as [|? ? N1 ND1]; subst. inversion ND1 as [|? ? N2 ND2]; subst. inversion ND2 as [|? ? N3 ND3]; subst.
  eapply wp_mono; [eapply wp_keeps; [apply keeps_get_leaks|apply H|]; eapply (wp_get_leaks farr fn p bp X (zlen ds) ls ds vl vn v1 v2 err s)|].
  - exact W.
  - intros k _. apply Av.
  - apply H1. cbn. auto.
  - exact Ea.
  - exact En.
  - unfold zlen. rewrite Len. reflexivity.
  - intros ->. destruct ds; [contradiction|discriminate].
  - split; [apply H1; cbn; auto|]. apply hold_leakb; [exact Len|]. intros l b I. apply H1. cbn [app In]. right. right. right. right. apply in_or_app. auto.
  - apply H1. cbn. auto.
  - apply H1. cbn. auto.
  - intros ->. apply N1. left. reflexivity.
  - intros ->. apply N1. right. left. reflexivity.
  - intros ->. apply N2. left. reflexivity.
  - intros ->. apply N1. right. right. left. reflexivity.
  - intros ->. apply N2. right. left. reflexivity.
  - intros l I. split; intros ->; [apply N1|apply N2]; cbn [In]; rewrite in_app_iff; auto 6.
  - cbn beta. intros _ s' (W' & O' & _ & X' & ls' & M1 & M2 & [M3 M4] & ND' & AF & Sx). exists X', ls'.
    assert (Len' : List.length ls' = List.length ds) by (eapply F2_len; exact M4). split; [exact Len'|].
    eapply (hs_change F [(vl, [v1]); (vn, [v2])] (cacheg vl vn X' ls' ds) ((p, bp) :: lks X ls ds ++ R) s s' (X' :: leak_blocks ls')); [exact H|exact W'|exact O'| |exact AF|exact ND'| |].
    + intros l I. apply Sx. intros K. apply I. cbn [map fst]. cbn [In] in K |- *. rewrite in_app_iff. cbn [In]. tauto.
    + unfold cacheg. destruct ds as [|d0 ds0] eqn:Eds; [contradiction|]. cbn [lks map fst]. rewrite leakb_fst by exact Len'. cbn [app]. perm.
    + unfold cacheg. rewrite !hold_cons. destruct ds as [|d0 ds0] eqn:Eds; [contradiction|]. cbn [lks lkp]. rewrite hold_cons. split; [exact M2|]. split; [exact M1|]. split; [exact M3|]. apply leakb_hold. exact M4.
Qed.

Lemma fetch_none F farr fn vl vn p bp le v1 v2 (R : blocks) s :
  nth_error bp fn = Some (Vint 0) -> hs F ((vl, [v1]) :: (vn, [v2]) :: (le, [Vptr NULL]) :: (p, bp) :: R) s ->
  wp (ConsModel.get_leak_data farr fn (Some p) (Some vl) (Some vn) (Some le))
     (fun _ s' => exists e t m, hs F ((le, [Vptr (Some e)]) :: (e, [Vint POLYCAP_ERROR_INVALID_ARGUMENT; Vptr (Some t)]) :: (t, [Vstr m]) ::
        (vl, [Vptr NULL]) :: (vn, [Vint 0]) :: (p, bp) :: R) s') s.
Proof.
  intros En H. unfold ConsModel.get_leak_data. apply wp_bind. eapply hs_load_int; [exact H|cbn; auto 6|exact En|].
  pull vn H. apply wp_bind. eapply hs_store; [exact H|cbn; lia|]. cbn [set_nth]. clear H s. intros s H.
  change (Z.eqb 0 0) with true. cbn match. pull vl H. apply wp_bind. eapply hs_store; [exact H|cbn; lia|]. cbn [set_nth]. clear H s. intros s H.
  apply wp_bind. unfold invalid. eapply hs_first_error; [pull le H; exact H|]. intros e t s' H'. apply wp_ret. exists e, t, "polycap_photon_get_leak_data: no leak events in photon"%string.
  eapply hs_perm; [|exact H']. perm.
Qed.

(** ** Exceptions *)
Lemma exc_raised {A} F le e t c m (R : blocks) (k : M T (pyres A)) (Q : pyres A -> st T -> Prop) s :
  hs F ((le, [Vptr (Some e)]) :: (e, [Vint c; Vptr (Some t)]) :: (t, [Vstr m]) :: R) s ->
  (forall m s', hs F ((le, [Vptr (Some e)]) :: R) s' -> Q (Raised (polycap_error_map c) m) s') -> wp (set_exception (Some e) k) Q s.
Proof.
  intros H HQ. unfold set_exception. apply wp_bind. eapply hs_load_int; [exact H|right; left; reflexivity|reflexivity|].
  apply wp_bind. eapply hs_load_ptr; [exact H|right; left; reflexivity|reflexivity|].
  apply wp_bind. eapply wp_load_str; [eapply hs_in; [exact H|right; right; left; reflexivity]|reflexivity|].
  apply wp_bind. unfold error_free. apply wp_bind. eapply hs_load_ptr; [exact H|right; left; reflexivity|reflexivity|]. cbn [is_null].
  apply wp_bind. pull t H. eapply hs_free; [exact H|]. clear H s. intros s H. pull e H. eapply hs_free; [exact H|]. clear H s. intros s H.
  apply wp_ret. apply HQ. exact H.
Qed.

(** ** The object *)
Variables (u : pvars) (d : loc) (D : blocks).
Definition varb (e w : val T) (p : ptr) : blocks := [(u_ph u, [Vptr p]); (u_err u, [e]); (u_w u, [w])].
Definition extc := cacheg (u_ext u) (u_next u).
Definition intc := cacheg (u_int u) (u_nint u).
Record pcache := mkPc { pX : loc; pxl : list (loc * loc); pI : loc; pil : list (loc * loc) }.
Definition objb (p : loc) src n K (ph : photon T) (C : pcache) (w : view T) e wv (G : blocks) : blocks :=
  restb p d src n K ph ++ varb e wv (Some p) ++ extc (pX C) (pxl C) (w_ext w) ++ intc (pI C) (pil C) (w_int w) ++ D ++ G.
Definition pinv F (w : view T) (n : nat) s : Prop :=
  exists p src ne K C e wv G, at_rest (w_ph w) /\ kok K (w_ph w) /\ List.length (pxl C) = List.length (w_ext w) /\ List.length (pil C) = List.length (w_int w) /\
    List.length G = n /\ hs F (objb p src ne K (w_ph w) C w e wv G) s.
End Proofs.
