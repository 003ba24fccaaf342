(** * Proofs about the Python result object: making and ending it *)
From Coq Require Import ZArith List Bool Lia String Permutation.
From Verif Require Import Num Mem SpecHeap SpecPhoton ErrorModel ProfileModel ProfileProofs Geometry ConsModel HeapLib
  ResultModel SpecResult ResultProofs ResultExit ResultLeak ResultLeakGet ResultMore PropResult SepLib FlightRep FlightHeap FlightHeap2 PyModel SpecPy PyResult PyResProofs PyResInv PyResServe.
Import ListNotations.

Section End_.
Context {T : Type} {N : Num T}.
Local Notation blocks := (list (loc * @block T)).
Implicit Types (s : st T).

(** ** Releasing arrays of pointers *)
Lemma free_leak_loop F q ev : forall ls ks pre (R : blocks) (Q : unit -> st T -> Prop) s, List.length ls = List.length ks ->
  hs F ((q, map (fun lw : loc * loc => Vptr (Some (fst lw))) (pre ++ ls)) :: lkbs ev ls ks ++ R) s ->
  (forall s', hs F ((q, map (fun lw : loc * loc => Vptr (Some (fst lw))) (pre ++ ls)) :: R) s' -> Q tt s') ->
  wp (for_n (List.length ls) (List.length pre) (fun i => bind (load_ptr (Some q) i) (fun l => leak_free l))) Q s.
Proof.
  induction ls as [|[l w] ls IH]; intros [|k ks] pre R Q s E H HQ; cbn in E; try discriminate; cbn [List.length for_n].
  - apply wp_ret. apply HQ. exact H.
  - cbn [lkbs] in H. apply wp_bind. apply wp_bind.
    eapply hs_load_ptr; [exact H|left; reflexivity|rewrite nth_error_map, nth_error_app2, Nat.sub_diag by lia; reflexivity|]. cbn [fst leak_free].
    apply wp_bind. eapply hs_load_ptr; [exact H|right; left; reflexivity|destruct (ev k); reflexivity|]. unfold free_if.
    set (B := vcells _ ++ _) in H. set (P := map _ (pre ++ _)) in *. cbn [app] in H.
    apply wp_bind. pull w H. eapply hs_free; [exact H|]. clear s H. intros s H. pull l H. eapply hs_free; [exact H|]. clear s H. intros s H.
    specialize (IH ks (pre ++ [(l, w)]) R Q s). rewrite app_length in IH. cbn [List.length] in IH. replace (List.length pre + 1) with (S (List.length pre)) in IH by lia.
    rewrite <- app_assoc in IH. cbn [app] in IH. fold P in IH. apply IH; [lia|exact H|exact HQ].
Qed.
Lemma free_arrs F q : forall ls xss pre (R : blocks) (Q : unit -> st T -> Prop) s, List.length ls = List.length xss ->
  hs F ((q, map (fun a : loc => Vptr (Some a)) (pre ++ ls)) :: arrs ls xss ++ R) s ->
  (forall s', hs F ((q, map (fun a : loc => Vptr (Some a)) (pre ++ ls)) :: R) s' -> Q tt s') ->
  wp (for_n (List.length ls) (List.length pre) (fun i => bind (load_ptr (Some q) i) (fun l => free l))) Q s.
Proof.
  induction ls as [|l ls IH]; intros [|k ks] pre R Q s E H HQ; cbn in E; try discriminate; cbn [List.length for_n].
  - apply wp_ret. apply HQ. exact H.
  - cbn [arrs] in H. apply wp_bind. apply wp_bind.
    eapply hs_load_ptr; [exact H|left; reflexivity|rewrite nth_error_map, nth_error_app2, Nat.sub_diag by lia; reflexivity|].
    set (P := map _ (pre ++ _)) in *. cbn [app] in H.
    pull l H. eapply hs_free; [exact H|]. clear s H. intros s H.
    specialize (IH ks (pre ++ [l]) R Q s). rewrite app_length in IH. cbn [List.length] in IH. replace (List.length pre + 1) with (S (List.length pre)) in IH by lia.
    rewrite <- app_assoc in IH. cbn [app] in IH. fold P in IH. apply IH; [lia|exact H|exact HQ].
Qed.
Lemma free_leak_cache_ok F vl vn ev ks x (R : blocks) (Q : unit -> st T -> Prop) s :
  (forall q ls, x = Some (q, ls) -> ks <> [] /\ List.length ls = List.length ks) ->
  hs F (leakg vl vn ev ks x ++ R) s ->
  (forall u v s', hs F ((vl, [u]) :: (vn, [v]) :: R) s' -> Q tt s') -> wp (free_leak_cache vl vn) Q s.
Proof.
  intros L H HQ. unfold free_leak_cache. destruct x as [[q ls]|]; cbn [leakg app] in H.
  - destruct (L _ _ eq_refl) as [Ne Len]. apply wp_bind. eapply hs_load_int; [exact H|right; left; reflexivity|reflexivity|].
    replace (0 <? Z.of_nat (List.length ks))%Z with true by (destruct ks; [contradiction|reflexivity]).
    apply wp_bind. eapply hs_load_ptr; [exact H|left; reflexivity|reflexivity|]. rewrite Nat2Z.id, <- Len.
    apply wp_bind. eapply (free_leak_loop F q ev ls ks [] ((vl, [Vptr (Some q)]) :: (vn, [Vint (Z.of_nat (List.length ks))]) :: R)); [exact Len| |].
    + eapply hs_perm; [|exact H]. cbn [app]. perm.
    + cbn [app]. intros s' H'. eapply hs_free; [exact H'|]. apply HQ.
  - apply wp_bind. eapply hs_load_int; [exact H|right; left; reflexivity|reflexivity|]. change (0 <? 0)%Z with false. apply wp_ret. eapply HQ. exact H.
Qed.
Lemma free_cache_null F v (R : blocks) (Q : unit -> st T -> Prop) s : hs F R s -> In (v, [Vptr NULL]) R -> Q tt s -> wp (free_cache v) Q s.
Proof. intros H I HQ. unfold free_cache. apply wp_bind. eapply hs_load_ptr; [exact H|exact I|reflexivity|]. cbn [is_null]. apply wp_ret. exact HQ. Qed.
Lemma free_cache_some F v l b (R : blocks) (Q : unit -> st T -> Prop) s : hs F ((l, b) :: R) s -> In (v, [Vptr (Some l)]) R ->
  (forall s', hs F R s' -> Q tt s') -> wp (free_cache v) Q s.
Proof.
  intros H I HQ. unfold free_cache. apply wp_bind. eapply hs_load_ptr; [exact H|right; exact I|reflexivity|]. cbn [is_null]. eapply hs_free; [exact H|exact HQ].
Qed.

Variables (o : te) (eff im : loc) (pen peff src : ptr) (p1 p2 p3 : list ptr) (r : result T).
Local Notation RB := (result_blocks eff im pen peff p1 p2 p3).
Variables (F : loc -> option (@block T)) (s0 : st T).
Hypothesis Obj : result_object s0 eff im pen peff src p1 p2 p3 r.
Hypothesis HF : forall l, In l RB -> F l = mem s0 l.
Hypothesis HRB : NoDup RB.
Hypothesis Energies : q_energies r <> [].
Local Notation heapC := (heapC o eff r).
Local Notation inv := (inv o eff r F).

Definition te_vars : list loc :=
  [v_eff o; v_err o; v_int o; v_nint o; v_ext o; v_next o; v_nstart o; v_sc o; v_sd o; v_se o; v_ss o;
   v_nexit o; v_nen o; v_xc o; v_xd o; v_xe o; v_xw o; v_refl o; v_trav o; v_n o; v_en o; v_ef o].

Ltac skip v H := pull v H; eapply free_cache_null; [exact H|left; reflexivity|].
Ltac drop v l H := pull v H; pull l H; eapply free_cache_some; [exact H|left; reflexivity|]; clear H; let s := fresh "s" in intros s H.

Ltac sing := repeat first [assumption|apply Forall_nil|apply Forall_cons; [eexists; reflexivity|]|apply Forall_app; split].
(** A variable's block has one cell. *)
Definition single (x : loc * @block T) : Prop := exists v, snd x = [v].
Lemma dealloc_ok C s : inv C s ->
  wp (te_dealloc o) (fun _ s' => exists L, hs (minus F RB) L s' /\ Permutation (map fst L) te_vars /\ Forall single L) s.
Proof.
  intros ((L1 & L2 & L3) & e & ns & nx & ne & x & y & z & Hnx & Hne & H). unfold te_dealloc.
  apply wp_bind. eapply hs_load_ptr; [exact H|apply in_misc; left; reflexivity|reflexivity|]. cbn [is_null].
  apply wp_bind. eapply wp_mono; [eapply wp_keeps; [apply keeps_eff_free|apply H|]; eapply efficiencies_free_ok; [eapply obj_at; [exact Obj|exact HF|exact H]|exact HRB]|].
  intros _ s1 (W1 & O1 & AF & X).
  assert (H1 : hs (minus F RB) (heapC C e ns nx ne x y z) s1).
  { eapply hs_minus; [exact H|exact W1|exact O1|exact AF|exact X|]. intros l I K. eapply (rb_out eff im pen peff src p1 p2 p3 r F s0 Obj HF); eauto. }
  clear H X AF W1 O1 s. set (F' := minus F RB) in *. clearbody F'. unfold PyResInv.heapC, extg, intg in H1.
  apply wp_bind. eapply (free_leak_cache_ok F' (v_ext o) (v_next o) ev_ext (q_ext r) (c_ext C)
    (miscb o eff e ns nx ne x y z ++ leakg (v_int o) (v_nint o) ev_int (q_int r) (c_int C) ++ startg o r (c_start C) ++ exitg o r (c_exit C))); [exact L1| |].
  { eapply hs_perm; [|exact H1]. perm. }
  clear H1 s1. intros u1 u2 s H.
  apply wp_bind. eapply (free_leak_cache_ok F' (v_int o) (v_nint o) ev_int (q_int r) (c_int C)
    ([(v_ext o, [u1]); (v_next o, [u2])] ++ miscb o eff e ns nx ne x y z ++ startg o r (c_start C) ++ exitg o r (c_exit C))); [exact L2| |].
  { eapply hs_perm; [|exact H]. perm. }
  clear H s. intros u3 u4 s H.
  pose (B0 := [(v_int o, [u3]); (v_nint o, [u4]); (v_ext o, [u1]); (v_next o, [u2])] ++ miscb o eff e ns nx ne x y z : blocks).
  assert (EB : map fst B0 = [v_int o; v_nint o; v_ext o; v_next o; v_eff o; v_err o; v_nstart o; v_nexit o; v_nen o; v_n o; v_en o; v_ef o]) by reflexivity.
  assert (SB0 : Forall single B0) by (repeat (constructor; [eexists; reflexivity|]); constructor).
  assert (IN : In (v_nexit o, [nx]) B0) by (cbn; auto 20).
  assert (H' : hs F' (B0 ++ startg o r (c_start C) ++ exitg o r (c_exit C)) s) by (eapply hs_perm; [|exact H]; subst B0; perm). clear H. rename H' into H. clearbody B0.
  set (XG := exitg o r (c_exit C)) in *.
  assert (KX : forall (SB : blocks) s, map fst SB = [v_sc o; v_sd o; v_se o; v_ss o] -> Forall single SB -> hs F' (B0 ++ SB ++ XG) s ->
    wp (bind (bind (load_ptr (Some (v_xw o)) 0) (fun q => if is_null q then ret tt
       else bind (load_int (Some (v_nexit o)) 0) (fun n => bind (for_n (Z.to_nat n) 0 (fun i => bind (load_ptr q i) (fun w => free w))) (fun _ => free q))))
       (fun _ => bind (free_cache (v_xc o)) (fun _ => bind (free_cache (v_xd o)) (fun _ => bind (free_cache (v_xe o)) (fun _ => bind (free_cache (v_refl o)) (fun _ => free_cache (v_trav o)))))))
     (fun _ s' => exists L, hs F' L s' /\ Permutation (map fst L) te_vars /\ Forall single L) s).
  { clear s H. intros SB s ES SS H. destruct (c_exit C) as [[[[[[[l1 l2] l3] l4] l5] l6] lw]|] eqn:EE; subst XG; cbn [exitg] in H.
    - assert (Len := L3 _ _ eq_refl).
      set (WB := arrs lw _) in H.
      set (b1 := cells3 (map r_exit _)) in H. set (b2 := cells3 (map (fun x => completed (r_exit_dir x)) _)) in H. set (b3 := cells3 (map (fun x => completed (r_exit_elecv x)) _)) in H.
      set (b4 := map Vint _) in H. set (b5 := map Vdbl _) in H.
      pose (R := (l1, b1) :: (l2, b2) :: (l3, b3) :: (l4, b4) :: (l5, b5) :: B0 ++ SB ++ [(v_xc o, [Vptr (Some l1)]); (v_xd o, [Vptr (Some l2)]); (v_xe o, [Vptr (Some l3)]);
         (v_refl o, [Vptr (Some l4)]); (v_trav o, [Vptr (Some l5)]); (v_xw o, [Vptr (Some l6)])] : blocks).
      assert (H' : hs F' ((l6, map (fun a => Vptr (Some a)) lw) :: WB ++ R) s) by (eapply hs_perm; [|exact H]; subst R; perm). clear H. rename H' into H.
      assert (IW : In (v_xw o, [Vptr (Some l6)]) R) by (subst R; do 5 right; apply in_or_app; right; apply in_or_app; right; cbn; auto 10). assert (IX : In (v_nexit o, [nx]) R) by (subst R; do 5 right; apply in_or_app; left; exact IN).
      apply wp_bind, wp_bind. eapply hs_load_ptr; [exact H|right; apply in_or_app; right; exact IW|reflexivity|]. cbn [is_null].
      apply wp_bind. eapply hs_load_int; [exact H|right; apply in_or_app; right; exact IX|rewrite Hnx by (right; discriminate); reflexivity|].
      rewrite Nat2Z.id, <- Len. apply wp_bind.
      eapply (free_arrs F' l6 lw (map r_weights (q_rows r)) [] R); [rewrite map_length; exact Len|exact H|].
      cbn [app]. clear s H. intros s H. eapply hs_free; [exact H|]. clear s H. intros s H. subst R.
      apply wp_bind. drop (v_xc o) l1 H. apply wp_bind. drop (v_xd o) l2 H. apply wp_bind. drop (v_xe o) l3 H. apply wp_bind. drop (v_refl o) l4 H. drop (v_trav o) l5 H.
      eexists. split; [exact H|]. split; [|sing]. cbn [map fst]; rewrite ?map_app; cbn [map fst]; rewrite ?map_app; cbn [map fst]; rewrite EB, ES; cbn [map fst]. unfold te_vars. perm.
    - apply wp_bind, wp_bind. pull (v_xw o) H. eapply hs_load_ptr; [exact H|left; reflexivity|reflexivity|]. cbn [is_null]. apply wp_ret.
      apply wp_bind. skip (v_xc o) H. apply wp_bind. skip (v_xd o) H. apply wp_bind. skip (v_xe o) H. apply wp_bind. skip (v_refl o) H. skip (v_trav o) H.
      eexists. split; [exact H|]. split; [|sing]. cbn [map fst]; rewrite ?map_app; cbn [map fst]; rewrite ?map_app; cbn [map fst]; rewrite EB, ES; cbn [map fst]. unfold te_vars. perm. }
  clearbody XG. destruct (c_start C) as [[[[l1 l2] l3] l4]|] eqn:EE; cbn [startg] in H.
  - set (b1 := cells3 (map (fun x => flat (r_start x)) _)) in H. set (b2 := cells3 (map (fun x => completed (r_start_dir x)) _)) in H. set (b3 := cells3 (map (fun x => completed (r_start_elecv x)) _)) in H. set (b4 := cells3 _) in H.
    apply wp_bind. drop (v_sc o) l1 H. apply wp_bind. drop (v_sd o) l2 H. apply wp_bind. drop (v_se o) l3 H. apply wp_bind. drop (v_ss o) l4 H.
    eapply (KX [(v_sc o, [Vptr (Some l1)]); (v_sd o, [Vptr (Some l2)]); (v_se o, [Vptr (Some l3)]); (v_ss o, [Vptr (Some l4)])]); [reflexivity|sing|]. eapply hs_perm; [|exact H]. perm.
  - apply wp_bind. skip (v_sc o) H. apply wp_bind. skip (v_sd o) H. apply wp_bind. skip (v_se o) H. apply wp_bind. skip (v_ss o) H.
    eapply (KX [(v_sc o, [Vptr NULL]); (v_sd o, [Vptr NULL]); (v_se o, [Vptr NULL]); (v_ss o, [Vptr NULL])]); [reflexivity|sing|]. eapply hs_perm; [|exact H]. perm.
Qed.

Definition init_cells (c : loc -> val T) : blocks := map (fun l => (l, [c l])) te_vars.

Ltac put v H := pull v H; eapply hs_store; [exact H|cbn; lia|]; cbn [set_nth]; clear H; let s := fresh "s" in intros s H.

Lemma create_ok c s : hs F (init_cells c) s ->
  wp (te_create o (Some eff)) (fun x s' => x = Value (q_energies r, q_effs r) /\ inv (mkC None None None None) s') s.
Proof.
  intros H. unfold init_cells, te_vars in H. cbn [map] in H. unfold te_create. apply wp_bind. unfold te_init.
  do 2 (apply wp_bind; first [put (v_eff o) H|put (v_ext o) H]).
  apply wp_bind. put (v_next o) H. apply wp_bind. put (v_int o) H. apply wp_bind. put (v_nint o) H. apply wp_bind. put (v_nstart o) H.
  apply wp_bind. put (v_sc o) H. apply wp_bind. put (v_sd o) H. apply wp_bind. put (v_se o) H. apply wp_bind. put (v_nexit o) H.
  apply wp_bind. put (v_xc o) H. apply wp_bind. put (v_xd o) H. apply wp_bind. put (v_xe o) H. apply wp_bind. put (v_ss o) H.
  apply wp_bind. put (v_xw o) H. apply wp_bind. put (v_refl o) H. apply wp_bind. put (v_trav o) H. put (v_nen o) H.
  apply wp_bind. put (v_eff o) H. apply wp_bind. put (v_n o) H. apply wp_bind. put (v_en o) H. apply wp_bind. put (v_ef o) H. apply wp_bind. put (v_err o) H.
  pose (A := [(v_n o, [Vint 0]); (v_en o, [Vptr NULL]); (v_ef o, [Vptr NULL])] : blocks).
  pose (R := [(v_eff o, [Vptr (Some eff)]); (v_err o, [Vptr NULL]); (v_nstart o, [Vint 0]); (v_nexit o, [Vint 0]); (v_nen o, [Vint 0])] ++
     extg o r None ++ intg o r None ++ startg o r None ++ exitg o r None : blocks).
  match type of H with hs F _ ?s => assert (H' : hs F (A ++ R) s) by (eapply hs_perm; [|exact H]; subst A R; unfold extg, intg; cbn [leakg startg exitg]; perm) end.
  clear H. rename H' into H. assert (OB := obj_at eff im pen peff src p1 p2 p3 r F s0 Obj HF _ _ H).
  apply wp_bind. match type of H with hs F _ ?s => eapply wp_mono; [eapply (wp_keeps _ _ s); [apply keeps_data|apply H|]; eapply (C95_energies s eff im pen peff src p1 p2 p3 r)|] end.
  - apply H.
  - exact OB.
  - eapply (outs_ok eff im pen peff src p1 p2 p3 r F s0 Obj HF A R _ (v_err o) [Vptr NULL] H); [subst R; cbn; auto|].
    intros l b I. subst A. cbn [In] in I. destruct I as [I|[I|[I|[]]]]; injection I as <- <-; eexists; reflexivity.
  - exact Energies.
  - apply (avail F _ _ H).
  - apply (avail F _ _ H).
  - intros ok s' (W' & O' & (_ & M1 & l1 & l2 & M2 & M3 & Ne & V1 & V2 & AF & X)).
    assert (H' : hs F ([(v_n o, [num (List.length (q_energies r))]); (v_en o, [Vptr (Some l1)]); (v_ef o, [Vptr (Some l2)]); (l1, map Vdbl (q_energies r)); (l2, map Vdbl (q_effs r))] ++ R) s').
    { eapply (hs_change F A _ R _ s' [l1; l2]); [exact H|exact W'|exact O'|exact X|exact AF| | |].
      - constructor; [cbn; intros [K|[]]; congruence|constructor; [auto|constructor]].
      - subst A. cbn [map fst app]. perm.
      - rewrite !hold_cons. unfold dbl_array in *. repeat (split; [assumption|]). apply hold_nil. }
    clear H X AF M1 M2 M3 V1 V2. rename H' into H. subst R.
    apply wp_bind. pull (v_err o) H. eapply hs_load_ptr; [exact H|left; reflexivity|reflexivity|]. cbn [set_exception].
    apply wp_bind. pull (v_n o) H. eapply hs_load_int; [exact H|left; reflexivity|reflexivity|]. rewrite Nat2Z.id.
    apply wp_bind. pull (v_en o) H. eapply hs_load_ptr; [exact H|left; reflexivity|reflexivity|].
    apply wp_bind. pull l1 H. eapply (hs_read_dbls _ _ _ l1 (q_energies r)); [exact H|left; reflexivity|reflexivity|].
    apply wp_bind. pull l1 H. eapply hs_free; [exact H|]. clear H. intros sA H.
    apply wp_bind. pull (v_ef o) H. eapply hs_load_ptr; [exact H|left; reflexivity|reflexivity|].
    apply wp_bind. pull l2 H. eapply (hs_read_dbls _ _ _ l2 (q_effs r)); [exact H|left; reflexivity|destruct OB as ((G & _) & _); auto|].
    apply wp_bind. pull l2 H. eapply hs_free; [exact H|]. clear H. intros sB H.
    apply wp_ret. split; [reflexivity|]. split; [repeat split; cbn; intros; discriminate|].
    exists (Vptr NULL), (Vint 0), (Vint 0), (Vint 0), (num (List.length (q_energies r))), (Vptr (Some l1)), (Vptr (Some l2)).
    split; [cbn; intros [K|K]; exfalso; apply K; reflexivity|]. split; [cbn; intros K; exfalso; apply K; reflexivity|].
    eapply hs_perm; [|exact H]. unfold PyResInv.heapC, miscb. cbn [c_ext c_int c_start c_exit]. perm.
Qed.
End End_.
