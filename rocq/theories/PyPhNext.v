(** * Proofs about the Python photon: iterating over leaks, whole sessions *)
From Coq Require Import ZArith List Bool Lia String Permutation.
From Verif Require Import Num Mem SpecHeap SpecPhoton HeapLib ErrorModel ProfileModel Geometry ConsModel RM RMLogic CapilModel TraceModel LaunchModel PhotProofs SepLib
  FlightMem FlightRep FlightHeap FlightHeap2 FlightLaunch FlightLaunch2 PropFlight PyModel SpecPy PyResult PyResProofs PyResInv PyResServe SpecPyPhoton PyPhoton PyPhProofs PyPhServe.
Import ListNotations.
Local Notation ret := Mem.ret.
Local Notation bind := Mem.bind.

Section Next.
Context {T : Type} {N : Num T}.
Local Notation blocks := (list (loc * @block T)).
Implicit Types (s : st T).

Lemma leakb_nth : forall ls (ds : list (leak_data T)) i l w k, nth_error ls i = Some (l, w) -> nth_error ds i = Some k ->
  In (l, leak_block w k) (leakb ls ds) /\ In (w, map Vdbl (lk_weights k)) (leakb ls ds).
Proof.
  induction ls as [|[l0 w0] ls IH]; intros [|d0 ds] [|i] l w k E1 E2; cbn in E1, E2; try discriminate.
  - injection E1 as <- <-. injection E2 as <-. cbn. auto.
  - destruct (IH _ _ _ _ _ E1 E2). cbn [leakb In fst snd]. auto.
Qed.

Lemma leak_at F (L : blocks) s X ls ds i k : hs F L s -> (forall p, In p (lks X ls ds) -> In p L) -> List.length ls = List.length ds -> nth_error ds i = Some k ->
  wp (bind (load_ptr (Some X) i) (fun l => leak_create l)) (fun v s' => v = leak_value k /\ s' = s) s.
Proof.
  intros H I Len E. assert (exists lw, nth_error ls i = Some lw) as [[l w] El].
  { assert (i < List.length ls) by (rewrite Len; apply nth_error_Some; congruence). destruct (nth_error ls i) eqn:E0; [eauto|]. apply nth_error_None in E0. lia. }
  assert (Ek : lks X ls ds = (X, arrb ls) :: leakb ls ds) by (destruct ds; [destruct i; discriminate|reflexivity]). rewrite Ek in I.
  destruct (leakb_nth ls ds i l w k El E) as [I1 I2].
  assert (M1 := hs_in _ _ _ _ _ H (I _ (or_introl eq_refl))). assert (M2 := hs_in _ _ _ _ _ H (I _ (or_intror I1))). unfold leak_block in M2.
  apply wp_bind. eapply wp_load_ptr; [exact M1|unfold arrb; rewrite nth_error_map, El; reflexivity|]. cbn [fst]. unfold leak_create. cbn [is_null].
  apply wp_bind. eapply (wp_vec3_at _ _ _ (lk_coords k)); [exact M2|reflexivity|reflexivity|reflexivity|].
  apply wp_bind. eapply (wp_vec3_at _ _ _ (lk_dir k)); [exact M2|reflexivity|reflexivity|reflexivity|].
  apply wp_bind. eapply wp_load; [exact M2|reflexivity|]. apply wp_bind. eapply wp_load; [exact M2|reflexivity|]. apply wp_bind. eapply wp_load; [exact M2|reflexivity|].
  apply wp_bind. eapply wp_load_int; [exact M2|reflexivity|]. apply wp_bind. eapply wp_load_ptr; [exact M2|reflexivity|].
  apply wp_bind. eapply hs_read_dbls; [exact H|apply I; right; exact I2|apply Nat2Z.id|].
  apply wp_bind. eapply wp_load_int; [exact M2|reflexivity|]. apply wp_ret. auto.
Qed.

Variables (F : loc -> option (@block T)) (u : pvars) (d liz lwi lp lz lc le : loc) (open : T) (o : optic T).
Hypothesis Sized : sized o.
Local Notation D := (descb d liz lwi lp lz lc le open o).
Local Notation objb := (objb u d D).
Local Notation pinv := (pinv u d D F).
Variables (x : xraylib T) (junk : vec3 T) (fuel : nat).

(** The object with one of its two caches in front. *)
Definition rest_of (k : kind) p src ne K (C : pcache) (w : view T) e wv (G : blocks) : blocks :=
  (match k with External => intc u (pI C) (pil C) (w_int w) | Internal => extc u (pX C) (pxl C) (w_ext w) end) ++ restb p d src ne K (w_ph w) ++ varb u e wv (Some p) ++ D ++ G.
Definition cache_of (k : kind) X ls (ds : list (leak_data T)) := cacheg (u_leaks u k) (u_count u k) X ls ds.
Definition cX (k : kind) (C : pcache) := match k with External => pX C | Internal => pI C end.
Definition cls (k : kind) (C : pcache) := match k with External => pxl C | Internal => pil C end.

Lemma pinv_split k w n s : pinv w n s -> exists p src ne K C e wv G, at_rest (w_ph w) /\ kok K (w_ph w) /\ List.length (pxl C) = List.length (w_ext w) /\ List.length (pil C) = List.length (w_int w) /\
  List.length G = n /\ List.length (cls k C) = List.length (shown k w) /\ hs F (cache_of k (cX k C) (cls k C) (shown k w) ++ rest_of k p src ne K C w e wv G) s.
Proof.
  intros (p & src & ne & K & C & e & wv & G & R0 & Ko & L1 & L2 & LG & H). exists p, src, ne, K, C, e, wv, G. do 5 (split; [assumption|]). split; [destruct k; assumption|].
  eapply hs_perm; [|exact H]. unfold PyPhProofs.objb, rest_of, cache_of. destruct k; cbn [u_leaks u_count cX cls shown]; unfold extc, intc; perm.
Qed.
Lemma pinv_join k w n s ds X ls p src ne K C e wv G : at_rest (w_ph w) -> kok K (w_ph w) -> List.length (pxl C) = List.length (w_ext w) -> List.length (pil C) = List.length (w_int w) ->
  List.length G = n -> List.length ls = List.length ds -> hs F (cache_of k X ls ds ++ rest_of k p src ne K C w e wv G) s -> pinv (show k ds w) n s.
Proof.
  intros R0 Ko L1 L2 LG Len H. exists p, src, ne, K, (match k with External => mkPc X ls (pI C) (pil C) | Internal => mkPc (pX C) (pxl C) X ls end), e, wv, G.
  unfold PyPhProofs.objb, rest_of, cache_of in *. destruct k; cbn [show w_ph w_ext w_int pX pxl pI pil u_leaks u_count] in *; (do 5 (split; [assumption|])); eapply hs_perm; [|exact H| |exact H]; unfold extc, intc; perm.
Qed.

Lemma round_ok k w n s i : pinv w n s -> 
  wp (ph_round u k i (List.length (shown k w))) (fun r s' => r = (match nth_error (shown k w) i with Some l => (Item (leak_value l), Round (S i) (List.length (shown k w))) | None => (Stop, Finished) end) /\ s' = s) s.
Proof.
  intros P. unfold ph_round. destruct (Nat.ltb_spec i (List.length (shown k w))) as [Hi|Hi].
  - destruct (nth_error (shown k w) i) as [l|] eqn:E; [|apply nth_error_None in E; lia].
    destruct (pinv_split k _ _ _ P) as (p & src & ne & K & C & e & wv & G & _ & _ & _ & _ & _ & L & H).
    unfold cache_of, cacheg in H. cbn [app] in H. apply wp_bind. eapply hs_load_ptr; [exact H|left; reflexivity|reflexivity|].
    replace (lkp (cX k C) (shown k w)) with (Some (cX k C)) by (destruct (shown k w); [destruct i; discriminate|reflexivity]).
    assert (W := leak_at F _ s (cX k C) (cls k C) (shown k w) i l H (fun q I => or_intror (or_intror (in_or_app _ _ _ (or_introl I)))) L E).
    apply wp_bind_inv in W. apply wp_bind. eapply wp_mono; [exact W|]. cbn beta. intros q s1 W1. apply wp_bind. eapply wp_mono; [exact W1|]. cbn beta. intros v s2 [-> ->]. apply wp_ret. auto.
  - rewrite (proj2 (nth_error_None _ _)) by lia. apply wp_ret. auto.
Qed.

(** The first step of an iterator: the leaks are fetched unless that was done before. *)
Lemma first_ok k w n s : pinv w n s ->
  wp (ph_next u k Fresh) (fun r s' => pinv (show k (seen k w) w) n s' /\
    r = match seen k w with [] => (Raise ValueError, Finished) | l0 :: _ => (Item (leak_value l0), Round 1 (List.length (seen k w))) end) s.
Proof.
  intros P. destruct (pinv_split k _ _ _ P) as (p & src & ne & K & C & e & wv & G & R0 & Ko & L1 & L2 & LG & L & H). unfold rest_of, varb in H.
  set (O := match k with External => intc u (pI C) (pil C) (w_int w) | Internal => extc u (pX C) (pxl C) (w_ext w) end) in *.
  assert (Fin : forall ds X ls e0 s', List.length ls = List.length ds -> hs F (cache_of k X ls ds ++ O ++ restb p d src ne K (w_ph w) ++ varb u e0 wv (Some p) ++ D ++ G) s' -> pinv (show k ds w) n s').
  { intros ds X ls e0 s' Len H'. eapply (pinv_join k w n s' ds X ls p src ne K C e0 wv G); try assumption. }
  assert (Ends : forall s', seen k w <> [] -> pinv (show k (seen k w) w) n s' ->
    wp (bind (load_int (Some (u_count u k)) 0) (fun n => if (0 <? n)%Z then ph_round u k 0 (Z.to_nat n) else ret (Stop, Finished)))
      (fun r s' => pinv (show k (seen k w) w) n s' /\ r = match seen k w with [] => (Raise ValueError, Finished) | l0 :: _ => (Item (leak_value l0), Round 1 (List.length (seen k w))) end) s').
  { intros s' Ne P'. assert (Sh : shown k (show k (seen k w) w) = seen k w) by (destruct k; reflexivity).
    destruct (pinv_split k _ _ _ P') as (p' & src' & ne' & K' & C' & e' & wv' & G' & _ & _ & _ & _ & _ & _ & H'). unfold cache_of, cacheg in H'. cbn [app] in H'. rewrite Sh in H'.
    apply wp_bind. eapply hs_load_int; [exact H'|right; left; reflexivity|reflexivity|]. replace (0 <? zlen (seen k w))%Z with true by (destruct (seen k w); [contradiction|reflexivity]).
    unfold zlen. rewrite Nat2Z.id. eapply wp_mono; [rewrite <- Sh at 1; eapply round_ok; exact P'|]. cbn beta. intros r s2 [-> ->]. split; [exact P'|]. rewrite Sh. destruct (seen k w); [contradiction|reflexivity]. }
  clearbody O. unfold ph_next. set (RB := restb p d src ne K (w_ph w)) in *. set (DD := D) in *. unfold cache_of, cacheg in H. set (LK := lks _ _ _) in H. cbn [app] in H.
  pull (u_ph u) H. apply wp_bind. eapply hs_load_ptr; [exact H|left; reflexivity|reflexivity|]. cbn [is_null].
  pull (u_err u) H. apply wp_bind. eapply hs_store; [exact H|cbn; lia|]. cbn [set_nth]. clear H s P. intros s H.
  pull (u_count u k) H. apply wp_bind. eapply hs_load_int; [exact H|left; reflexivity|reflexivity|]. unfold seen in *.
  destruct (shown k w) as [|l0 ds] eqn:Es.
  - change (zlen []) with 0%Z. cbn [Z.eqb]. apply wp_bind. unfold LK in H. clear LK. cbn [lks lkp] in H. change (zlen []) with 0%Z in H.
    set (fa := match k with External => F_EXTLEAK | Internal => F_INTLEAK end). set (fn := match k with External => F_NEXT | Internal => F_NINT end).
    replace (ph_fetch k) with (@ConsModel.get_leak_data T fa fn) by (destruct k; reflexivity).
    set (X := match k with External => kX K | Internal => kI K end). set (ls := match k with External => kxl K | Internal => kil K end).
    set (O' := match k with External => lks (kI K) (kil K) (ph_int (w_ph w)) | Internal => lks (kX K) (kxl K) (ph_ext (w_ph w)) end).
    assert (Hr : forall L, Permutation (RB ++ L) ((p, rblock d src ne K (w_ph w)) :: lks X ls (leaks_of k (w_ph w)) ++ O' ++ L)).
    { intros L0. unfold RB, restb, leaksb, X, ls, O'. destruct k; cbn [leaks_of]; perm. }
    destruct (leaks_of k (w_ph w)) as [|l1 ds1] eqn:El.
    + apply wp_bind. eapply wp_mono; [eapply (fetch_none F fa fn (u_leaks u k) (u_count u k) p (rblock d src ne K (w_ph w)) (u_err u) (Vptr NULL) (Vint 0) ((u_ph u, [Vptr (Some p)]) :: (u_w u, [wv]) :: O' ++ O ++ DD ++ G) s)|].
      * unfold fn, rblock, photon_block. destruct k; cbn [leaks_of] in El; rewrite El; reflexivity.
      * eapply hs_perm; [|exact H]. eapply Permutation_trans; [|eapply Permutation_trans; [exact (Hr ([(u_count u k, [Vint 0]); (u_err u, [Vptr NULL]); (u_ph u, [Vptr (Some p)]); (u_leaks u k, [Vptr NULL]); (u_w u, [wv])] ++ O ++ DD ++ G))|]]; [clearbody RB O' DD; perm|cbn [lks]; clearbody O' DD; perm].
      * cbn beta. clear H s. intros _ s (eo & et & m & H). apply wp_bind. eapply hs_load_ptr; [exact H|left; reflexivity|reflexivity|].
        eapply (exc_raised F (u_err u) eo et _ m _); [exact H|]. clear H s. intros m' s H. apply wp_ret. split; [|reflexivity].
        apply (Fin [] (u_err u) [] (Vptr (Some eo))); [reflexivity|]. eapply hs_perm; [|exact H]. unfold cache_of, cacheg, varb. cbn [lks lkp]. change (zlen []) with 0%Z.
        eapply Permutation_sym, Permutation_trans; [|eapply Permutation_trans; [exact (Hr ([(u_err u, [Vptr (Some eo)]); (u_leaks u k, [Vptr NULL]); (u_count u k, [Vint 0]); (u_ph u, [Vptr (Some p)]); (u_w u, [wv])] ++ O ++ DD ++ G))|]];
          [clearbody RB O' DD; perm|cbn [lks]; clearbody O' DD; perm].
    + apply wp_bind. set (ds := l1 :: ds1) in *. assert (Len : List.length ls = List.length ds). { unfold ls. destruct Ko as [K1 K2]. rewrite <- El. destruct k; assumption. }
      eapply wp_mono; [eapply (fetch_some F fa fn (u_leaks u k) (u_count u k) p (rblock d src ne K (w_ph w)) X ls ds (Some (u_err u)) (Vptr NULL) (Vint 0) ((u_err u, [Vptr NULL]) :: (u_ph u, [Vptr (Some p)]) :: (u_w u, [wv]) :: O' ++ O ++ DD ++ G) s)|].
      * unfold fa, X, rblock, photon_block. rewrite <- El. destruct k; reflexivity.
      * unfold fn, rblock, photon_block. rewrite <- El. destruct k; reflexivity.
      * discriminate.
      * exact Len.
      * eapply hs_perm; [|exact H]. eapply Permutation_trans; [|eapply Permutation_trans; [exact (Hr ([(u_count u k, [Vint 0]); (u_err u, [Vptr NULL]); (u_ph u, [Vptr (Some p)]); (u_leaks u k, [Vptr NULL]); (u_w u, [wv])] ++ O ++ DD ++ G))|]]; [clearbody RB O' DD; perm|set (LL := lks X ls ds); clearbody LL O' DD; perm].
      * cbn beta. clear H s. intros _ s (X' & ls' & Len' & H).
        apply wp_bind. eapply hs_load_ptr; [pull (u_err u) H; exact H|left; reflexivity|reflexivity|]. cbn [set_exception]. apply wp_ret. apply Ends; [discriminate|].
        apply (Fin ds X' ls' (Vptr NULL)); [exact Len'|]. eapply hs_perm; [|exact H]. unfold cache_of, varb. set (CC := cacheg _ _ _ _ _). 
        eapply Permutation_sym, Permutation_trans; [|eapply Permutation_trans; [exact (Hr (CC ++ [(u_err u, [Vptr NULL]); (u_ph u, [Vptr (Some p)]); (u_w u, [wv])] ++ O ++ DD ++ G))|]];
          [clearbody CC RB O' DD; perm|set (LL := lks X ls ds); clearbody LL CC O' DD; perm].
  - replace (Z.eqb (zlen (l0 :: ds)) 0) with false by reflexivity. apply wp_bind, wp_ret. apply Ends; [discriminate|].
    apply (Fin (l0 :: ds) (cX k C) (cls k C) (Vptr NULL)); [exact L|]. eapply hs_perm; [|exact H]. unfold cache_of, cacheg, varb. fold LK. clearbody LK RB DD. perm.
Qed.

(** ** Iterators *)
Definition git (w : view T) (g : kind * gen) (c : kind * option nat) : Prop :=
  fst g = fst c /\
  match snd c with
  | None => snd g = Finished
  | Some O => snd g = Fresh
  | Some (S i) => snd g = Round (S i) (List.length (shown (fst c) w)) /\ shown (fst c) w <> []
  end.

Lemma seen_shown k (w : view T) : shown k w <> [] -> seen k w = shown k w.
Proof. unfold seen. destruct (shown k w); [contradiction|reflexivity]. Qed.
Lemma show_other k k' (w : view T) : shown k' w <> [] -> shown k' (show k (seen k w) w) = shown k' w.
Proof. intros Ne. destruct k, k'; cbn [show shown w_ext w_int] in *; try reflexivity; [apply (seen_shown External w Ne)|apply (seen_shown Internal w Ne)]. Qed.
Lemma git_show k w g c : git w g c -> git (show k (seen k w) w) g c.
Proof.
  intros [E1 E2]. split; [exact E1|]. destruct (snd c) as [[|i]|]; auto. destruct E2 as [E2 Ne]. rewrite show_other by exact Ne. auto.
Qed.
Lemma git_its w its g c : git (mkView (w_ph w) (w_ext w) (w_int w) its) g c <-> git w g c.
Proof. reflexivity. Qed.
Lemma git_ph w ph g c : git (mkView ph (w_ext w) (w_int w) (w_its w)) g c <-> git w g c.
Proof. reflexivity. Qed.
Lemma pinv_its w its n s : pinv w n s -> pinv (mkView (w_ph w) (w_ext w) (w_int w) its) n s.
Proof. intros P. exact P. Qed.
Lemma show_its k l (w : view T) : w_its (show k l w) = w_its w.
Proof. destruct k; reflexivity. Qed.

Lemma next_ok w n s gs j k g : pinv w n s -> Forall2 (git w) gs (w_its w) -> nth_error gs j = Some (k, g) ->
  wp (ph_next u k g) (fun r s' => fst r = fst (next_reply j w) /\ pinv (snd (next_reply j w)) n s' /\
    Forall2 (git (snd (next_reply j w))) (set_nth gs j (k, snd r)) (w_its (snd (next_reply j w)))) s.
Proof.
  intros P Fa E. assert (X := Forall2_nth_lr _ _ _ j Fa). rewrite E in X. unfold next_reply. destruct (nth_error (w_its w) j) as [[k' c]|]; [|contradiction].
  destruct X as [X1 X2]. cbn [fst snd] in X1, X2. subst k'.
  assert (Same : forall gs' its', Forall2 (git w) gs' its' -> Forall2 (git (mkView (w_ph w) (w_ext w) (w_int w) its')) gs' its') by (intros gs' its' Y; exact Y).
  destruct c as [[|i]|].
  - subst g. eapply wp_mono; [apply first_ok; exact P|]. cbn beta. intros r s' [P' Er].
    assert (Sh : shown k (show k (seen k w) w) = seen k w) by (destruct k; reflexivity). rewrite Sh.
    assert (Fa' : Forall2 (git (show k (seen k w) w)) gs (w_its w)) by (eapply Forall2_imp; [|exact Fa]; intros a b; apply git_show).
    destruct (seen k w) as [|l0 ds]; subst r; cbn [fst snd nth_error].
    + split; [reflexivity|]. split; [apply pinv_its; exact P'|]. cbn [w_its]. rewrite show_its. eapply Forall2_imp; [intros a b; apply git_its|]. apply Forall2_set; [exact Fa'|]. split; reflexivity.
    + split; [reflexivity|]. split; [apply pinv_its; exact P'|]. cbn [w_its]. rewrite show_its. eapply Forall2_imp; [intros a b; apply git_its|]. apply Forall2_set; [exact Fa'|].
      split; [reflexivity|]. cbn [fst snd]. rewrite Sh. split; [reflexivity|discriminate].
  - destruct X2 as [-> Ne]. cbn [ph_next]. eapply wp_mono; [eapply round_ok; exact P|]. cbn beta. intros r s' [-> ->].
    destruct (shown k w) as [|l0 ds] eqn:Es; [contradiction|]. destruct (nth_error (l0 :: ds) (S i)) as [l|]; cbn [fst snd].
    + split; [reflexivity|]. split; [apply pinv_its; exact P|]. cbn [w_its]. eapply Forall2_imp; [intros a b; apply git_its|]. apply Forall2_set; [exact Fa|].
      split; [reflexivity|]. cbn [fst snd]. rewrite Es. split; [reflexivity|discriminate].
    + split; [reflexivity|]. split; [apply pinv_its; exact P|]. cbn [w_its]. eapply Forall2_imp; [intros a b; apply git_its|]. apply Forall2_set; [exact Fa|]. split; reflexivity.
  - subst g. cbn [ph_next]. apply wp_ret. cbn [fst snd]. split; [reflexivity|]. split; [exact P|].
    replace (set_nth gs j (k, Finished)) with gs; [exact Fa|]. clear -E. revert j E. induction gs as [|g gs IH]; intros [|j] E; cbn in *; try discriminate; [congruence|]. f_equal. apply IH. exact E.
Qed.

Lemma serve_ok : forall ops w n s gs l m, pinv w n s -> Forall2 (git w) gs (w_its w) -> replies x o junk fuel ops w = Some (l, m) ->
  wp (ph_serve u x junk fuel ops gs) (fun r s' => r = Some l /\ exists w', pinv w' (m + n) s') s.
Proof.
  induction ops as [|op ops IH]; intros w n s gs l m P Fa E; cbn [replies ph_serve] in *.
  - injection E as <- <-. apply wp_ret. split; [reflexivity|]. exists w. exact P.
  - destruct op as [en lcx|f|k|j].
    + destruct (launch_reply x o junk fuel (w_ph w) en lcx) as [[[a ph'] k]|] eqn:EL; [|discriminate].
      destruct (replies _ _ _ _ ops _) as [[l' m']|] eqn:ER; [|discriminate]. injection E as <- <-.
      apply wp_bind. apply wp_bind. eapply wp_mono; [eapply launch_ok; eauto|]. cbn beta. intros r s1 [-> P1]. apply wp_ret. cbn [fst snd].
      apply wp_bind. eapply wp_mono; [eapply IH; [exact P1|cbn [w_its]; exact Fa|exact ER]|]. cbn beta. intros r s2 [-> [w' P2]]. apply wp_ret. split; [reflexivity|]. exists w'.
      replace (k + m' + n) with (m' + (k + n)) by lia. exact P2.
    + destruct (replies _ _ _ _ ops _) as [[l' m']|] eqn:ER; [|discriminate]. injection E as <- <-.
      apply wp_bind. apply wp_bind. eapply wp_mono; [eapply get_ok; eauto|]. cbn beta. intros r s1 [-> P1]. apply wp_ret. cbn [fst snd].
      apply wp_bind. eapply wp_mono; [eapply IH; [exact P1|exact Fa|exact ER]|]. cbn beta. intros r s2 [-> [w' P2]]. apply wp_ret. split; [reflexivity|]. exists w'. exact P2.
    + destruct (replies _ _ _ _ ops _) as [[l' m']|] eqn:ER; [|discriminate]. injection E as <- <-.
      apply wp_bind. apply wp_ret. cbn [fst snd].
      apply wp_bind. eapply wp_mono; [eapply (IH (mkView (w_ph w) (w_ext w) (w_int w) (w_its w ++ [(k, Some 0)])) n s); [exact P|cbn [w_its]; apply Forall2_app; [exact Fa|constructor; [split; reflexivity|constructor]]|exact ER]|].
      cbn beta. intros r s2 [-> [w' P2]]. apply wp_ret. split; [reflexivity|]. exists w'. exact P2.
    + destruct (next_reply j w) as [a w1] eqn:En. destruct (replies _ _ _ _ ops _) as [[l' m']|] eqn:ER; [|discriminate]. injection E as <- <-.
      apply wp_bind. destruct (nth_error gs j) as [[k g]|] eqn:Ej.
      * apply wp_bind. eapply wp_mono; [eapply next_ok; eauto|]. cbn beta. rewrite En. cbn [fst snd]. intros r s1 (E1 & P1 & F1). apply wp_ret. cbn [fst snd]. rewrite E1.
        apply wp_bind. eapply wp_mono; [eapply IH; [exact P1|exact F1|exact ER]|]. cbn beta. intros r' s2 [-> [w' P2]]. apply wp_ret. split; [reflexivity|]. exists w'. exact P2.
      * assert (X := Forall2_nth_lr _ _ _ j Fa). rewrite Ej in X. unfold next_reply in En. destruct (nth_error (w_its w) j) as [c|]; [contradiction|]. injection En as <- <-.
        apply wp_ret. cbn [fst snd]. apply wp_bind. eapply wp_mono; [eapply IH; [exact P|exact Fa|exact ER]|]. cbn beta. intros r' s2 [-> [w' P2]]. apply wp_ret. split; [reflexivity|]. exists w'. exact P2.
Qed.
End Next.
