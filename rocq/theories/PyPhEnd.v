(** * Proofs about the Python photon: making it, ending it, a whole life *)
From Coq Require Import ZArith List Bool Lia String Permutation.
From Verif Require Import Num Mem SpecHeap SpecPhoton HeapLib ErrorModel ProfileModel Geometry ConsModel RM RMLogic CapilModel TraceModel LaunchModel PhotProofs SepLib
  FlightMem FlightRep FlightHeap FlightHeap2 FlightLaunch FlightLaunch2 PropFlight PyModel SpecPy PyResult PyResProofs PyResInv PyResServe SpecPyPhoton PyPhoton PyPhProofs PyPhServe PyPhNext.
Import ListNotations.
Local Notation ret := Mem.ret.
Local Notation bind := Mem.bind.

Section End_.
Context {T : Type} {N : Num T}.
Local Notation blocks := (list (loc * @block T)).
Implicit Types (s : st T).

Lemma free_cache_ok F vl vn X ls ds (R : blocks) (Q : unit -> st T -> Prop) s : List.length ls = List.length ds -> hs F (cacheg vl vn X ls ds ++ R) s ->
  (forall u v s', hs F ((vl, [u]) :: (vn, [v]) :: R) s' -> Q tt s') -> wp (free_leak_cache vl vn) Q s.
Proof.
  intros Len H HQ. unfold free_leak_cache, cacheg in *. cbn [app] in H. apply wp_bind. eapply hs_load_int; [exact H|right; left; reflexivity|reflexivity|].
  destruct ds as [|l0 ds]; [change (0 <? zlen [])%Z with false; apply wp_ret; eapply HQ; exact H|].
  change (0 <? zlen (l0 :: ds))%Z with true. apply wp_bind. eapply hs_load_ptr; [exact H|left; reflexivity|reflexivity|]. unfold zlen at 1. rewrite Nat2Z.id.
  change (bind (for_n (List.length (l0 :: ds)) 0 (fun i => bind (@load_ptr T (lkp X (l0 :: ds)) i) (fun l => leak_free l))) (fun _ => @free T (lkp X (l0 :: ds)))) with (@free_leaks T (lkp X (l0 :: ds)) (List.length (l0 :: ds))).
  eapply (hs_free_leaks F ((vl, [Vptr (lkp X (l0 :: ds))]) :: (vn, [Vint (zlen (l0 :: ds))]) :: R)); [exact Len|eapply hs_perm; [|exact H]; set (LL := lks _ _ _); clearbody LL; perm|]. apply HQ.
Qed.

Lemma photon_new_refused F (R : blocks) s d c dir ev ve (Q : ptr -> st T -> Prop) : photon_fresh c dir ev = None -> hs F ((ve, [Vptr NULL]) :: R) s ->
  (forall e t m s', hs F ((ve, [Vptr (Some e)]) :: (e, [Vint POLYCAP_ERROR_INVALID_ARGUMENT; Vptr (Some t)]) :: (t, [Vstr m]) :: R) s' -> Q NULL s') ->
  wp (photon_new (Some d) c dir ev (Some ve)) Q s.
Proof.
  intros Hf H HQ. unfold photon_fresh in Hf. unfold photon_new, reject_if, invalid. cbn [is_null].
  destruct (nltb (vz c) _); [|destruct (nltb (vz dir) _); cbn [orb] in Hf; [|discriminate]].
  - apply wp_bind. eapply hs_first_error; [exact H|]. intros e t s' H'. apply wp_ret. eapply HQ. exact H'.
  - apply wp_bind. eapply hs_first_error; [exact H|]. intros e t s' H'. apply wp_ret. eapply HQ. exact H'.
Qed.

Variables (F : loc -> option (@block T)) (u : pvars) (d liz lwi lp lz lc le : loc) (open : T) (o : optic T).
Hypothesis Sized : sized o.
Local Notation D := (descb d liz lwi lp lz lc le open o).
Local Notation pinv := (pinv u d D F).
Variables (x : xraylib T) (junk : vec3 T) (fuel : nat).

(** The seven variables with anything in them. *)
Definition cells (a b c e f g h : val T) : blocks :=
  [(u_ph u, [a]); (u_err u, [b]); (u_w u, [c]); (u_ext u, [e]); (u_next u, [f]); (u_int u, [g]); (u_nint u, [h])].

Lemma dealloc_ok w n s (Q : unit -> st T -> Prop) : pinv w n s ->
  (forall a b c e f g h G s', List.length G = n -> hs F (cells a b c e f g h ++ D ++ G) s' -> Q tt s') -> wp (photon_dealloc u) Q s.
Proof.
  intros (p & src & ne & K & C & e & wv & G & R0 & Ko & L1 & L2 & LG & H) HQ. unfold PyPhProofs.objb, varb, photon_dealloc in *.
  set (DD := D) in *. apply wp_bind. eapply hs_load_ptr; [exact H|apply in_or_app; right; left; reflexivity|reflexivity|]. cbn [is_null].
  apply wp_bind. eapply hs_rest_free; [exact Ko|exact H|]. clear H s. intros s H.
  unfold extc, intc in H. apply wp_bind. eapply (free_cache_ok F (u_ext u) (u_next u) (pX C) (pxl C) (w_ext w) ([(u_ph u, [Vptr (Some p)]); (u_err u, [e]); (u_w u, [wv])] ++ cacheg (u_int u) (u_nint u) (pI C) (pil C) (w_int w) ++ DD ++ G)); [exact L1|eapply hs_perm; [|exact H]; set (A1 := cacheg _ _ _ _ _); set (A2 := cacheg _ _ _ _ _); clearbody A1 A2 DD; perm|]. clear H s. intros a b s H.
  eapply (free_cache_ok F (u_int u) (u_nint u) (pI C) (pil C) (w_int w) ([(u_ph u, [Vptr (Some p)]); (u_err u, [e]); (u_w u, [wv]); (u_ext u, [a]); (u_next u, [b])] ++ DD ++ G)); [exact L2|eapply hs_perm; [|exact H]; set (A2 := cacheg _ _ _ _ _); clearbody A2 DD; perm|]. clear H s. intros a' b' s H.
  eapply (HQ (Vptr (Some p)) e wv a b a' b' G); [exact LG|]. eapply hs_perm; [|exact H]. unfold cells. clearbody DD. perm.
Qed.

Lemma session_ok start dir ev ops ans m a b c e f g h s : hs F (cells a b c e f g h ++ D) s -> life_replies x o junk fuel start dir ev ops = Some (ans, m) ->
  wp (photon_session u x junk fuel (Some d) start dir ev ops)
     (fun r s' => r = Some ans /\ exists a b c e f g h G, List.length G = m /\ hs F (cells a b c e f g h ++ D ++ G) s') s.
Proof.
  intros H E. unfold life_replies in E. unfold photon_session, photon_init.
  unfold cells in H. set (DD := D) in *. cbn [app] in H.
  apply wp_bind. pull (u_err u) H. apply wp_bind. eapply hs_store; [exact H|cbn; lia|]. cbn [set_nth]. clear H s. intros s H.
  pull (u_ext u) H. apply wp_bind. eapply hs_store; [exact H|cbn; lia|]. cbn [set_nth]. clear H s. intros s H.
  pull (u_next u) H. apply wp_bind. eapply hs_store; [exact H|cbn; lia|]. cbn [set_nth]. clear H s. intros s H.
  pull (u_int u) H. apply wp_bind. eapply hs_store; [exact H|cbn; lia|]. cbn [set_nth]. clear H s. intros s H.
  pull (u_nint u) H. apply wp_bind. eapply hs_store; [exact H|cbn; lia|]. cbn [set_nth]. clear H s. intros s H.
  destruct (photon_fresh start dir ev) as [ph|] eqn:Ef.
  - destruct (replies x o junk fuel ops (mkView ph [] [] [])) as [[l m']|] eqn:Er; [|discriminate]. injection E as <- <-.
    apply wp_bind. eapply hs_photon_new; [congruence|exact H|]. clear H s. intros p s H. set (PB := photon_block _ _ _ _ _ _ _ _ _ _ _ _ _ _ _ _ _ _ _) in H.
    pull (u_ph u) H. apply wp_bind. eapply hs_store; [exact H|cbn; lia|]. cbn [set_nth]. clear H s. intros s H.
    pull (u_err u) H. apply wp_bind. eapply hs_load_ptr; [exact H|left; reflexivity|reflexivity|]. cbn [set_exception]. apply wp_ret.
    assert (P : pinv (mkView ph [] [] []) 0 s).
    { exists p, zero3, 0%Z, (Build_keys p p p p p [] p []), (mkPc p [] p []), (Vptr NULL), c, []. unfold photon_fresh in Ef. destruct (_ || _)%bool; [discriminate|]. injection Ef as <-.
      split; [repeat (split; [reflexivity|]); reflexivity|]. split; [split; reflexivity|]. do 3 (split; [reflexivity|]). eapply hs_perm; [|exact H].
      unfold PyPhProofs.objb, varb, extc, intc, cacheg, restb, leaksb, rblock. cbn [lks lkp w_ph w_ext w_int ph_ext ph_int kX kI kxl kil ph_start ph_sdir ph_selec ph_exit ph_edir ph_eelec ph_irefl ph_dtravel]. change (zlen []) with 0%Z. fold PB.
      fold DD. clearbody DD PB. perm. }
    apply wp_bind. eapply wp_mono; [eapply serve_ok; [exact Sized|exact P|constructor|exact Er]|]. cbn beta. intros r s1 [-> [w' P1]].
    apply wp_bind. eapply dealloc_ok; [exact P1|]. intros a1 b1 c1 e1 f1 g1 h1 G s2 LG H2. apply wp_ret. split; [reflexivity|]. exists a1, b1, c1, e1, f1, g1, h1, G. split; [lia|exact H2].
  - injection E as <- <-. apply wp_bind.
    eapply (photon_new_refused F ((u_nint u, [Vint 0]) :: (u_int u, [Vptr NULL]) :: (u_next u, [Vint 0]) :: (u_ext u, [Vptr NULL]) :: (u_ph u, [a]) :: (u_w u, [c]) :: DD)); [exact Ef|eapply hs_perm; [|exact H]; perm|].
    clear H s. intros eo et m s H. pull (u_ph u) H. apply wp_bind. eapply hs_store; [exact H|cbn; lia|]. cbn [set_nth]. clear H s. intros s H.
    pull (u_err u) H. apply wp_bind. eapply hs_load_ptr; [exact H|left; reflexivity|reflexivity|].
    eapply (exc_raised F (u_err u) eo et POLYCAP_ERROR_INVALID_ARGUMENT m ((u_nint u, [Vint 0]) :: (u_int u, [Vptr NULL]) :: (u_next u, [Vint 0]) :: (u_ext u, [Vptr NULL]) :: (u_ph u, [Vptr NULL]) :: (u_w u, [c]) :: DD)); [eapply hs_perm; [|exact H]; perm|].
    clear H s. intros m' s H. unfold photon_dealloc. apply wp_bind. pull (u_ph u) H. apply wp_bind. eapply hs_load_ptr; [exact H|left; reflexivity|reflexivity|]. cbn [is_null]. apply wp_bind, wp_ret.
    unfold free_leak_cache. pull (u_next u) H. apply wp_bind. apply wp_bind. eapply hs_load_int; [exact H|left; reflexivity|reflexivity|]. cbn match. apply wp_ret.
    pull (u_nint u) H. apply wp_bind. eapply hs_load_int; [exact H|left; reflexivity|reflexivity|]. cbn match. apply wp_ret. apply wp_ret. split; [reflexivity|].
    exists (Vptr NULL), (Vptr (Some eo)), c, (Vptr NULL), (Vint 0), (Vptr NULL), (Vint 0), []. split; [reflexivity|]. eapply hs_perm; [|exact H]. unfold cells. fold DD. rewrite app_nil_r. clearbody DD. perm.
Qed.
End End_.
