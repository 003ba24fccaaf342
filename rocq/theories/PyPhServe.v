(** * Proofs about the Python photon: what every method does to the object *)
From Coq Require Import ZArith List Bool Lia String Permutation.
From Verif Require Import Num Mem SpecHeap SpecPhoton HeapLib ErrorModel ProfileModel Geometry ConsModel RM RMLogic CapilModel TraceModel LaunchModel LenProofs PhotProofs SepLib
  SrcProofs FlightPure
  FlightMem FlightRep FlightHeap FlightHeap2 FlightLaunch FlightLaunch2 PropFlight PyModel SpecPy PyResult PyResProofs PyResInv PyResServe SpecPyPhoton PyPhoton PyPhProofs.
Import ListNotations.
Local Notation ret := Mem.ret.
Local Notation bind := Mem.bind.

Section Serve.
Context {T : Type} {N : Num T}.
Local Notation blocks := (list (loc * @block T)).
Implicit Types (s : st T).
Variables (F : loc -> option (@block T)) (u : pvars) (d liz lwi lp lz lc le : loc) (open : T) (o : optic T).
Hypothesis Sized : sized o.
Local Notation D := (descb d liz lwi lp lz lc le open o).
Local Notation objb := (objb u d D).
Local Notation pinv := (pinv u d D F).
Variables (x : xraylib T) (junk : vec3 T) (fuel : nat).

Lemma read_cells_ok l : forall cs pre (Q : list (val T) -> st T -> Prop) s, mem s l = Some (pre ++ cs) -> Q cs s -> wp (read_cells (List.length cs) (List.length pre) (Some l)) Q s.
Proof.
  induction cs as [|c cs IH]; intros pre Q s M HQ; cbn [read_cells List.length]; [apply wp_ret; exact HQ|].
  apply wp_bind. eapply wp_load; [exact M|rewrite nth_error_app2, Nat.sub_diag by lia; reflexivity|].
  apply wp_bind. specialize (IH (pre ++ [c])). rewrite app_length in IH. cbn [List.length] in IH. replace (List.length pre + 1) with (S (List.length pre)) in IH by lia.
  eapply IH; [rewrite <- app_assoc; exact M|]. apply wp_ret. exact HQ.
Qed.

Lemma lost_len K (ph : photon T) : kok K ph -> List.length (lost K ph) = List.length (ph_ext ph) + List.length (ph_int ph).
Proof.
  intros [K1 K2]. unfold lost. rewrite app_length. f_equal; [revert K1; generalize (kxl K), (ph_ext ph)|revert K2; generalize (kil K), (ph_int ph)];
    induction l as [|a l IH]; intros [|b m] E; cbn in *; try discriminate; auto.
Qed.

Lemma launch_ws ph en lcx : at_rest ph -> post (launch x o junk fuel ph (Some en) false lcx)
  (fun r => match snd r with Some ws => List.length ws = List.length en | None => en_refused en = true end).
Proof.
  intros (_ & _ & A & _) e r e' E. rewrite launch_eq in E. destruct (en_refused en) eqn:Hr.
  { cbn in E. unfold RM.bind, report, RM.ret in E. injection E as <- _. reflexivity. }
  revert e r e' E. change (post (RM.bind (photon_scatf x o (launch_init ph en)) (fun ph =>
    RM.bind (launch_place o (launch_reset ph)) (fun pl =>
    match snd pl with
    | None => RM.ret ((-2)%Z, release (launch_reset ph), uninit en)
    | Some (q, r) => launch_go x o junk fuel lcx en q r (fst pl) (launch_reset ph)
    end))) (fun r => match snd r with Some ws => List.length ws = List.length en | None => false = true end)).
  eapply post_bind; [apply (photon_scatf_len (List.length en))|].
  { unfold good, LenProofs.full, launch_init. cbn. rewrite A, map_length. repeat split; constructor. }
  intros ph1 G1. assert (G2 : good (List.length en) (launch_reset ph1)).
  { clear -G1. unfold good, LenProofs.full, launch_reset in *. cbn. tauto. }
  set (ph2 := launch_reset ph1) in *. clearbody ph2. clear G1 ph1.
  assert (U : match uninit en with Some ws => List.length ws = List.length en | None => false = true end) by (apply map_length).
  apply post_seq. intros [zid [[q r]|]]; cbn [fst snd]; [|apply post_ret; exact U].
  unfold launch_go. apply post_seq. intros [[axes ix] gl]. destruct gl; [destruct (_ && _)%bool; [|destruct (_ && _)%bool]|].
  - apply post_seq. intros cp. apply post_ret. exact U.
  - apply post_seq. intros cp. apply post_ret. exact U.
  - apply post_ret. exact U.
  - eapply post_bind; [apply (trace_many_len (List.length en)); [apply trace_len|exact G2]|]. intros [c ph3] (_ & G3 & _). apply post_ret. cbn [snd] in *. rewrite map_length. exact G3.
Qed.

Lemma launch_ok w n s en lcx a ph' k : pinv w n s -> launch_reply x o junk fuel (w_ph w) en lcx = Some (a, ph', k) ->
  wp (py_launch u x junk fuel en lcx) (fun r s' => r = Some a /\ pinv (mkView ph' (w_ext w) (w_int w) (w_its w)) (k + n) s') s.
Proof.
  intros (p & src & ne & K & C & e & wv & G & R0 & Ko & L1 & L2 & LG & H) E. unfold launch_reply in E.
  destruct (launch x o junk fuel (w_ph w) (Some en) false lcx None) as [[[[c ph1] ws] e']| |] eqn:EL; [|discriminate|discriminate].
  unfold py_launch, PyPhProofs.objb, varb in *. set (X1 := extc u (pX C) (pxl C) (w_ext w)) in *. set (X2 := intc u (pI C) (pil C) (w_int w)) in *.
  set (RB := restb p d src ne K (w_ph w)) in *. set (DD := D) in *.
  apply wp_bind. eapply hs_malloc; [exact H|]. intros we s1 H1. clear H s. rename H1 into H, s1 into s.
  apply wp_bind. eapply hs_write_all; [apply repeat_length|exact H|]. clear H s. intros s H. unfold py_launch_at.
  pull (u_err u) H. apply wp_bind. eapply hs_store; [exact H|cbn; lia|]. cbn [set_nth]. clear H s. intros s H.
  pull (u_w u) H. apply wp_bind. eapply hs_store; [exact H|cbn; lia|]. cbn [set_nth]. clear H s. intros s H.
  pull (u_ph u) H. apply wp_bind. eapply hs_load_ptr; [exact H|left; reflexivity|reflexivity|].
  apply wp_bind. destruct ws as [ws|].
  - destruct (launch_released _ _ _ _ _ _ _ _ _ _ _ _ EL) as [Hr Rst].
    eapply (wp_launch_ok (Some (u_err u)) x o junk lcx fuel en (w_ph w) None c ph1 ws e' F ((u_ph u, [Vptr (Some p)]) :: X1 ++ X2 ++ G) s p d src ne K liz lwi lp lz lc le open we (u_w u) (Vptr NULL) [(u_err u, [Vptr NULL])]);
      [exact Hr|exact EL|exact R0|exact Ko|exact Sized|reflexivity| |].
    { eapply hs_perm; [|exact H]. fold RB DD. perm. }
    intros K' wl EB s2 Ko' _ _ HE H2. clear H s. rename H2 into H, s2 into s. fold DD in H. set (RB' := restb p d src (zlen en) K' ph1) in *. set (LL := lost K (w_ph w)) in *.
    assert (LLn := lost_len K (w_ph w) Ko). fold LL in LLn.
    pull we H. apply wp_bind. eapply hs_free; [exact H|]. clear H s. intros s H.
    assert (Fin : forall e0 w0 (G' : blocks) s', hs F (RB' ++ varb u e0 w0 (Some p) ++ X1 ++ X2 ++ DD ++ G') s' -> pinv (mkView ph1 (w_ext w) (w_int w) (w_its w)) (List.length G') s').
    { intros e0 w0 G' s' H'. exists p, src, (zlen en), K', C, e0, w0, G'. cbn [w_ph w_ext w_int]. split; [exact Rst|]. split; [exact Ko'|]. split; [exact L1|]. split; [exact L2|]. split; [reflexivity|exact H']. }
    clearbody RB' X1 X2 LL. destruct e' as [code|]; cbn [errs] in HE.
    + destruct HE as (eo & et & m & ->). injection E as <- <- <-. cbn [app] in H.
      pull (u_err u) H. apply wp_bind. eapply hs_load_ptr; [exact H|left; reflexivity|reflexivity|].
      apply wp_bind. eapply (exc_raised F (u_err u) eo et code m (RB' ++ (u_ph u, [Vptr (Some p)]) :: (u_w u, [Vptr (Some wl)]) :: (wl, wcells ws) :: LL ++ X1 ++ X2 ++ DD ++ G)); [eapply hs_perm; [|exact H]; perm|]. clear H s. intros m' s H.
      apply wp_ret. split; [reflexivity|]. replace (S (List.length (ph_ext (w_ph w)) + List.length (ph_int (w_ph w))) + n) with (List.length ((wl, wcells ws) :: LL ++ G)) by (cbn [List.length]; rewrite app_length; lia).
      eapply (Fin (Vptr (Some eo)) (Vptr (Some wl))). eapply hs_perm; [|exact H]. unfold varb. perm.
    + subst EB. cbn [app] in H. pull (u_err u) H. apply wp_bind. eapply hs_load_ptr; [exact H|left; reflexivity|reflexivity|]. cbn [set_exception]. apply wp_bind, wp_ret.
      destruct (Z.eqb c 2).
      * injection E as <- <- <-. apply wp_ret. split; [reflexivity|].
        replace (S (List.length (ph_ext (w_ph w)) + List.length (ph_int (w_ph w))) + n) with (List.length ((wl, wcells ws) :: LL ++ G)) by (cbn [List.length]; rewrite app_length; lia).
        eapply (Fin (Vptr NULL) (Vptr (Some wl))). eapply hs_perm; [|exact H]. unfold varb. perm.
      * injection E as <- <- <-. pull (u_w u) H. apply wp_bind. eapply hs_load_ptr; [exact H|left; reflexivity|reflexivity|].
        pull wl H. apply wp_bind. replace (List.length en) with (List.length (wcells ws)) by (unfold wcells; rewrite map_length; exact (launch_ws _ _ _ R0 _ _ _ EL)).
        eapply (read_cells_ok wl (wcells ws) []); [eapply hs_in; [exact H|left; reflexivity]|].
        apply wp_bind. eapply hs_free; [exact H|]. clear H s. intros s H. apply wp_ret. split; [reflexivity|].
        replace (List.length (ph_ext (w_ph w)) + List.length (ph_int (w_ph w)) + n) with (List.length (LL ++ G)) by (rewrite app_length; lia).
        eapply (Fin (Vptr NULL) (Vptr (Some wl))). eapply hs_perm; [|exact H]. unfold varb. perm.
  - assert (Hr := launch_ws _ _ _ R0 _ _ _ EL). cbn [snd] in Hr. rewrite launch_eq, Hr in EL. cbn in EL. unfold RM.bind, report, RM.ret in EL. injection EL as <- <- <-. injection E as <- <- <-.
    match goal with |- wp _ ?P _ => set (Q := P) end.
    assert (Ref : forall k, wp (refuse_launch true (Some (u_err u)) k None) Q s).
    { intros k. unfold refuse_launch. apply wp_bindF. eapply (wp_calc (Some (u_err u)) (report E_ARG) None tt (Some E_ARG) F (RB ++ (u_ph u, [Vptr (Some p)]) :: (u_w u, [Vptr NULL]) :: (we, List.map Vdbl en) :: X1 ++ X2 ++ DD ++ G) [(u_err u, [Vptr NULL])]); [reflexivity|apply sticky_report|reflexivity|eapply hs_perm; [|exact H]; perm|].
      assert (Fin : forall e0 w0 s', hs F (RB ++ varb u e0 w0 (Some p) ++ X1 ++ X2 ++ DD ++ G) s' -> PyPhProofs.pinv u d DD F (mkView (w_ph w) (w_ext w) (w_int w) (w_its w)) n s').
      { intros e0 w0 s' H'. exists p, src, ne, K, C, e0, w0, G. cbn [w_ph w_ext w_int]. split; [exact R0|]. split; [exact Ko|]. split; [exact L1|]. split; [exact L2|]. split; [exact LG|exact H']. }
      clearbody RB X1 X2 DD. clear H s. intros EB s HE H. apply wp_retF. unfold Q. clear Q. cbn [errs] in HE. destruct HE as (eo & et & m & ->). cbn [app] in H.
      pull we H. apply wp_bind. eapply hs_free; [exact H|]. clear H s. intros s H.
      pull (u_err u) H. apply wp_bind. eapply hs_load_ptr; [exact H|left; reflexivity|reflexivity|].
      apply wp_bind. eapply (exc_raised F (u_err u) eo et E_ARG m (RB ++ (u_ph u, [Vptr (Some p)]) :: (u_w u, [Vptr NULL]) :: X1 ++ X2 ++ DD ++ G)); [eapply hs_perm; [|exact H]; perm|]. clear H s. intros m' s H.
      apply wp_ret. split; [reflexivity|]. apply (Fin (Vptr (Some eo)) (Vptr NULL)). eapply hs_perm; [|exact H]. unfold varb. perm. }
    unfold launchM. cbn [is_null]. change (refuse_launch false (Some (u_err u)) ?k None) with (k None). cbv beta.
    destruct (Nat.ltb_spec (List.length en) 1) as [|Hl]; [apply Ref|]. change (refuse_launch false (Some (u_err u)) ?k None) with (k None). cbv beta.
    apply wp_bindF, wp_inM. eapply (wp_energy_loop we en en (List.length en) []); [auto|reflexivity|eapply hs_in; [pull we H; exact H|left; reflexivity]|]. rewrite firstn_all, forallb_not.
    unfold en_refused in Hr. destruct en as [|e0 en]; [cbn in Hl; lia|]. cbn [orb] in Hr. rewrite Hr. apply Ref.
Qed.

(** ** Reading fields *)
Lemma get_ok w n s f : pinv w n s -> wp (py_get u f) (fun v s' => v = field_value f (w_ph w) /\ pinv w n s') s.
Proof.
  intros P. assert (P0 := P). destruct P as (p & src & ne & K & C & e & wv & G & R0 & Ko & L1 & L2 & LG & H). unfold PyPhProofs.objb, varb, restb in H.
  set (X1 := extc u (pX C) (pxl C) (w_ext w)) in *. set (X2 := intc u (pI C) (pil C) (w_int w)) in *. set (DD := D) in *. cbn [app] in H.
  assert (M : mem s p = Some (rblock d src ne K (w_ph w))) by (eapply hs_in; [exact H|left; reflexivity]). unfold rblock in M.
  unfold py_get. pull (u_ph u) H. apply wp_bind. eapply hs_load_ptr; [exact H|left; reflexivity|reflexivity|].
  destruct f; apply wp_bind; cbn [field_value];
    try (eapply wp_vec3_at; [exact M|reflexivity|reflexivity|reflexivity|]; apply wp_ret; split; [reflexivity|exact P0]).
  - eapply wp_load_int; [exact M|reflexivity|]. apply wp_ret. auto.
  - eapply wp_load_dbl; [exact M|reflexivity|]. apply wp_ret. auto.
Qed.
End Serve.
