(** * The Python constructors on a list of owned blocks *)
From Coq Require Import ZArith List Bool Lia String Permutation.
From Verif Require Import Num Mem SpecHeap HeapLib ErrorModel ErrorProofs ProfileModel ProfileProofs Geometry ConsModel CapilModel DescProofs SrcProofs SepLib
  FlightRep FlightHeap FlightHeap2 FlightLaunch FlightLaunch2 PyModel PyResProofs PyResInv PyPhProofs SpecPyObj PyObjects PyObjHeap PyObjKeep PyObjCons.
Import ListNotations.
Local Notation ret := Mem.ret.
Local Notation bind := Mem.bind.

Section Py.
Context {T : Type} {N : Num T}.
Local Notation blocks := (list (loc * @block T)).
Implicit Types (s : st T) (F : loc -> option (@block T)).
Variable fit : list (T * T) -> T * T * T.
Variable x : tables T.

Lemma hs_slot_reported F le m (R : blocks) s s' : hs F ((le, [Vptr NULL]) :: R) s -> wf s' -> orc s' = orc s ->
  error_reported (Some le) POLYCAP_ERROR_INVALID_ARGUMENT m s s' -> exists EB, slot le true EB /\ hs F (EB ++ R) s'.
Proof. intros H W O E. destruct (hs_reported _ _ _ _ _ _ _ H W O E) as (o & t & H'). eexists. split; [apply (slot_error le o t m)|exact H']. Qed.

Lemma hs_av F (R : blocks) s : hs F R s -> memory_available s.
Proof. intros H. apply H. Qed.
Lemma hs_wf F (R : blocks) s : hs F R s -> wf s.
Proof. intros H. apply H. Qed.
Lemma avail_n s k : memory_available s -> allocs_succeed k s.
Proof. intros A i _. apply A. Qed.

(** The exception, if any. *)
Lemma hs_exception {A} F le b EB (R : blocks) (a : A) (Q : pyres A -> st T -> Prop) s : slot le b EB -> hs F (EB ++ R) s ->
  (forall v s', b = false -> hs F ((le, [v]) :: R) s' -> Q (Value a) s') ->
  (forall v m s', b = true -> hs F ((le, [v]) :: R) s' -> Q (Raised ValueError m) s') ->
  wp (bind (load_ptr (Some le) 0) (fun e => set_exception e (ret (Value a)))) Q s.
Proof.
  intros SL H H0 H1. destruct SL as [|o t m]; apply wp_bind; (eapply hs_load_ptr; [exact H|left; reflexivity|reflexivity|]).
  - cbn [set_exception]. apply wp_ret. eapply H0; [reflexivity|exact H].
  - eapply exc_raised; [exact H|]. intros m' s' H'. eapply H1; [reflexivity|exact H'].
Qed.

Lemma made_cases type len re_up re_down ri_up ri_down fd_up fd_down :
  (made_profile fit type len re_up re_down ri_up ri_down fd_up fd_down =
     Some (mkProfile 999 (List.map (pz len) (seq 0 npts)) (List.map (pc len ri_up ri_down) (seq 0 npts)) (List.map (pe fit type len re_up re_down fd_up fd_down) (seq 0 npts))) /\
   arg_error len re_up re_down ri_up ri_down fd_up fd_down = None /\ known_type type) \/
  (made_profile fit type len re_up re_down ri_up ri_down fd_up fd_down = None /\
   ((exists m, arg_error len re_up re_down ri_up ri_down fd_up fd_down = Some m) \/ (arg_error len re_up re_down ri_up ri_down fd_up fd_down = None /\ ~ known_type type))).
Proof.
  unfold made_profile. destruct (arg_error _ _ _ _ _ _ _) as [m|]; [right; split; [reflexivity|left; eauto]|].
  destruct (Z.leb 0 type && Z.leb type 2) eqn:E; [left|right]; (split; [reflexivity|]); [split; [reflexivity|]|right; split; [reflexivity|]].
  - apply andb_true_iff in E. destruct E as [A B]. apply Z.leb_le in A. apply Z.leb_le in B. unfold known_type, POLYCAP_PROFILE_CONICAL, POLYCAP_PROFILE_PARABOLOIDAL, POLYCAP_PROFILE_ELLIPSOIDAL. lia.
  - unfold known_type, POLYCAP_PROFILE_CONICAL, POLYCAP_PROFILE_PARABOLOIDAL, POLYCAP_PROFILE_ELLIPSOIDAL. intros K. apply andb_false_iff in E. destruct E as [E|E]; apply Z.leb_gt in E; lia.
Qed.

Lemma hs_profile_new F e type len re_up re_down ri_up ri_down fd_up fd_down (R : blocks) s :
  hs F ((e, [Vptr NULL]) :: R) s ->
  wp (profile_new fit type len re_up re_down ri_up ri_down fd_up fd_down (Some e))
    (fun r s' => match made_profile fit type len re_up re_down ri_up ri_down fd_up fd_down with
       | Some a => exists l lz lc le, r = Some l /\ well_sized a /\ hs F ((e, [Vptr NULL]) :: profb l lz lc le a ++ R) s'
       | None => r = None /\ exists EB, slot e true EB /\ hs F (EB ++ R) s' end) s.
Proof.
  intros H. assert (W := hs_wf _ _ _ H). assert (Av := hs_av _ _ _ H).
  assert (LE : legal_err s (Some e)). { exists NULL. eapply hs_in; [exact H|left; reflexivity]. }
  destruct (made_cases type len re_up re_down ri_up ri_down fd_up fd_down) as [(-> & EA & KT)|(-> & [[m EA]|(EA & KT)])].
  - eapply wp_mono; [apply wp_keeps; [apply keeps_profile_new|exact W|apply profile_new_success; auto using avail_n]|].
    intros p s' (W' & O' & _ & (l & lz & lc & le & -> & (P1 & P2 & P3 & P4 & ND) & F1 & F2 & F3 & F4 & X)).
    exists l, lz, lc, le. split; [reflexivity|]. split.
    { unfold well_sized. cbn [p_z p_cap p_ext p_nmax]. rewrite !map_length, !seq_length. auto. }
    match goal with |- hs _ (_ :: profb _ _ _ _ ?a ++ _) _ => set (pr := a) end.
    eapply hs_perm; [|apply (hs_change F [] (profb l lz lc le pr) ((e, [Vptr NULL]) :: R) s s' [l; lz; lc; le])].
    + perm.
    + exact H.
    + exact W'.
    + exact O'.
    + rewrite app_nil_r. exact X.
    + intros l' [<-|[<-|[<-|[<-|[]]]]]; assumption.
    + exact ND.
    + rewrite app_nil_r. reflexivity.
    + unfold profb, pr. cbn [p_nmax p_z p_cap p_ext]. rewrite !hold_cons. repeat split; auto. apply hold_nil.
  - eapply wp_mono; [apply wp_keeps; [apply keeps_profile_new|exact W|eapply profile_new_badarg; eauto using avail_n]|].
    intros p s' (W' & O' & -> & E). split; [reflexivity|]. eapply hs_slot_reported; eauto.
  - eapply wp_mono; [apply wp_keeps; [apply keeps_profile_new|exact W|eapply profile_new_badtype; eauto using avail_n]|].
    intros p s' (W' & O' & -> & E). split; [reflexivity|]. eapply hs_slot_reported; eauto.
Qed.

Lemma py_profile_ok F e v type len re_up re_down ri_up ri_down fd_up fd_down (R : blocks) s :
  hs F ((e, [v]) :: R) s ->
  wp (py_profile fit e type len re_up re_down ri_up ri_down fd_up fd_down)
    (fun r s' => match made_profile fit type len re_up re_down ri_up ri_down fd_up fd_down with
       | Some a => exists l lz lc le v', r = Value (Some l) /\ well_sized a /\ hs F ((e, [v']) :: profb l lz lc le a ++ R) s'
       | None => exists m v', r = Raised ValueError m /\ hs F ((e, [v']) :: R) s' end) s.
Proof.
  intros H. unfold py_profile. apply wp_bind. eapply hs_store; [exact H|cbn; lia|]. cbn [set_nth]. clear H s. intros s H.
  apply wp_bind. eapply wp_mono; [apply hs_profile_new; exact H|]. clear H s. intros p s H. cbv beta in H.
  destruct (made_profile fit type len re_up re_down ri_up ri_down fd_up fd_down) as [a|].
  - destruct H as (l & lz & lc & le & -> & Sz & H). apply wp_bind. eapply hs_load_ptr; [exact H|left; reflexivity|reflexivity|].
    cbn [set_exception]. apply wp_bind, wp_ret. apply wp_ret. exists l, lz, lc, le, (Vptr NULL). auto.
  - destruct H as (-> & EB & SL & H). inversion SL; subst.
    apply wp_bind. eapply hs_load_ptr; [exact H|left; reflexivity|reflexivity|]. apply wp_bind. eapply exc_raised; [exact H|]. clear H s. intros m' s H.
    cbn [profile_free]. apply wp_bind, wp_ret, wp_ret. eauto.
Qed.

Lemma py_arrays_ok F e v (ext cap z : list T) (R : blocks) s :
  hs F ((e, [v]) :: R) s ->
  wp (py_profile_arrays e ext cap z)
    (fun r s' => if Nat.eqb (List.length ext) (List.length z) && Nat.eqb (List.length ext) (List.length cap) && Nat.ltb 2 (List.length z)
       then let a := mkProfile (List.length z - 1) z cap ext in
            exists l lz lc le v', r = Value (Some l) /\ well_sized a /\ hs F ((e, [v']) :: profb l lz lc le a ++ R) s'
       else exists m v', r = Raised ValueError m /\ hs F ((e, [v']) :: R) s') s.
Proof.
  intros H. unfold py_profile_arrays. apply wp_bind. eapply hs_alloc; [exact H|]. clear H s. intros a s H.
  apply wp_bind. eapply hs_alloc; [exact H|]. clear H s. intros b s H. apply wp_bind. eapply hs_alloc; [exact H|]. clear H s. intros c s H.
  set (Q := fun (r : pyres ptr) (s' : st T) => _).
  assert (Fin : forall (A : blocks) r s, hs F ((c, List.map Vdbl z) :: (b, List.map Vdbl cap) :: (a, List.map Vdbl ext) :: A) s -> (forall s', hs F A s' -> Q r s') ->
    wp (bind (free (Some a)) (fun _ => bind (free (Some b)) (fun _ => bind (free (Some c)) (fun _ => ret r)))) Q s).
  { clear H s. intros A r s H HQ. pull a H. apply wp_bind. eapply hs_free; [exact H|]. clear H s. intros s H.
    pull b H. apply wp_bind. eapply hs_free; [exact H|]. clear H s. intros s H.
    apply wp_bind. eapply hs_free; [exact H|]. clear H s. intros s H. apply wp_ret. auto. }
  cbn [is_null]. apply wp_bind. unfold py_new_from_arrays. cbn [nd_size nd_data]. pull e H. apply wp_bind. eapply hs_store; [exact H|cbn; lia|]. cbn [set_nth]. clear H s. intros s H.
  destruct (Nat.eqb_spec (List.length ext) (List.length z)) as [E1|E1]; cbn [negb andb orb] in *.
  2: { apply wp_ret. eapply (Fin ((e, [Vptr NULL]) :: R)); [eapply hs_perm; [|exact H]; perm|]. intros s' H'. unfold Q. eauto. }
  destruct (Nat.eqb_spec (List.length ext) (List.length cap)) as [E2|E2]; cbn [negb andb orb] in *.
  2: { apply wp_ret. eapply (Fin ((e, [Vptr NULL]) :: R)); [eapply hs_perm; [|exact H]; perm|]. intros s' H'. unfold Q. eauto. }
  assert (W := hs_wf _ _ _ H). assert (Av := hs_av _ _ _ H).
  destruct (Nat.ltb_spec 2 (List.length z)) as [L|L].
  - apply wp_bind. eapply wp_mono; [apply wp_keeps; [apply keeps_from_arrays|exact W|apply (from_arrays_ok _ a b c ext cap z)]|]; auto using avail_n.
    + lia.
    + eapply hs_in; [exact H|inL].
    + eapply hs_in; [exact H|inL].
    + eapply hs_in; [exact H|inL].
    + lia.
    + lia.
    + lia.
    + intros p s' (W' & O' & _ & _ & _ & (l & lz & lc & le & -> & (P1 & P2 & P3 & P4 & ND) & F1 & F2 & F3 & F4 & X)).
      set (pr := mkProfile (List.length z - 1) z cap ext).
      assert (H' : hs F (profb l lz lc le pr ++ (e, [Vptr NULL]) :: (c, List.map Vdbl z) :: (b, List.map Vdbl cap) :: (a, List.map Vdbl ext) :: R) s').
      { apply (hs_change F [] (profb l lz lc le pr) ((e, [Vptr NULL]) :: (c, List.map Vdbl z) :: (b, List.map Vdbl cap) :: (a, List.map Vdbl ext) :: R) s s' [l; lz; lc; le]).
        - exact H.
        - exact W'.
        - exact O'.
        - rewrite app_nil_r. exact X.
        - intros l' [<-|[<-|[<-|[<-|[]]]]]; assumption.
        - exact ND.
        - rewrite app_nil_r. reflexivity.
        - unfold profb, pr. cbn [p_nmax p_z p_cap p_ext]. replace (Z.of_nat (List.length z - 1)) with (Z.of_nat (List.length z) - 1)%Z by lia.
          rewrite !hold_cons. repeat split; auto. apply hold_nil. }
      clear H s W Av O' X F1 F2 F3 F4 P1 P2 P3 P4 W'. rename s' into s, H' into H. pull e H.
      apply wp_bind. eapply hs_load_ptr; [exact H|left; reflexivity|reflexivity|]. cbn [set_exception]. apply wp_ret.
      eapply (Fin ((e, [Vptr NULL]) :: profb l lz lc le pr ++ R)); [eapply hs_perm; [|exact H]; perm|]. intros s' H'. unfold Q.
      exists l, lz, lc, le, (Vptr NULL). split; [reflexivity|]. split; [|exact H']. unfold well_sized. cbn [p_z p_cap p_ext p_nmax]. lia.
  - apply wp_bind. unfold profile_new_from_arrays, reject_if'. cbn [is_null]. replace (_ <=? 1)%Z with true by (symmetry; apply Z.leb_le; lia).
    apply wp_bind. apply (wp_report false (Some e) POLYCAP_ERROR_INVALID_ARGUMENT); auto.
    { exists NULL. eapply hs_in; [exact H|left; reflexivity]. }
    intros s' W' O' _ _ ER. destruct (hs_slot_reported _ _ _ _ _ _ H W' O' ER) as (EB & SL & H'). apply wp_ret.
    eapply hs_exception; [exact SL|exact H'|discriminate|]. intros v' m s2 _ H2.
    eapply (Fin ((e, [v']) :: R)); [eapply hs_perm; [|exact H2]; perm|]. intros s3 H3. unfold Q. eauto.
Qed.

(** ** Descriptions *)
Lemma comp_elements c : match elements_of x c with inl els => py_composition x c = Value els | inr k => exists m, py_composition x c = Raised k m end.
Proof.
  assert (E : forall items : list (key * T), match numbers x items with inl els => ensure_ints x items = Value els | inr k => exists m, ensure_ints x items = Raised k m end).
  { induction items as [|[[z|nm] w] items IH]; cbn [numbers ensure_ints]; [reflexivity| |].
    - destruct (numbers x items); [rewrite IH; reflexivity|destruct IH as [m ->]; eauto].
    - destruct (symbol_number x nm) as [z|k]; [|eauto]. destruct (numbers x items); [rewrite IH; reflexivity|destruct IH as [m ->]; eauto]. }
  destruct c as [[|i items]|f|]; cbn [elements_of py_composition]; [eauto|apply E| |eauto]. destruct (parsed x f); eauto.
Qed.

Lemma percent_fractions : forall (ws : list T) a,
  match snd (percent ws a) with
  | Some o => forallb (fun w => negb (nltb w (#0)%num)) (List.map (fun w => (w / #100)%num) ws) = true /\ fst (percent ws a) = List.map (fun w => (w / #100)%num) ws /\
              o = fold_left nadd (List.map (fun w => (w / #100)%num) ws) a
  | None => forallb (fun w => negb (nltb w (#0)%num)) (List.map (fun w => (w / #100)%num) ws) = false
  end.
Proof.
  induction ws as [|w ws IH]; intros a; cbn [percent]; [cbn; auto|]. destruct (nltb (w / #100)%num (#0)%num) eqn:E; cbn [List.map forallb fold_left].
  - cbn [snd]. rewrite E. reflexivity.
  - specialize (IH (a + w / #100)%num). destruct (percent ws _) as [r [o|]]; cbn [snd fst] in *; rewrite E; cbn [negb andb].
    + destruct IH as (A & -> & C). auto.
    + exact IH.
Qed.
Lemma norm_fractions (ws : list T) : snd (norm_weights ws) = fractions_ok ws /\ (fractions_ok ws = true -> fst (norm_weights ws) = fractions ws).
Proof.
  unfold norm_weights, fractions_ok, fractions, total. fold (sum_of ws). destruct (nltb (#1)%num (sum_of ws)) eqn:E; [|auto].
  pose proof (percent_fractions ws (#0)%num) as P. destruct (percent ws _) as [r [o|]]; cbn [fst snd] in *.
  - destruct P as (-> & -> & ->). auto.
  - rewrite P. cbn [andb]. split; [reflexivity|discriminate].
Qed.
Lemma desc_ok_args sig n_cap (els : list (Z * T)) dens : description_ok sig n_cap els dens = true -> desc_args_ok sig n_cap (List.map fst els) dens.
Proof.
  unfold description_ok, desc_args_ok. rewrite !andb_true_iff, !negb_true_iff, map_length. intros ((((A & B) & C) & D) & E).
  apply Z.ltb_lt in B. apply Nat.leb_le in D. repeat split; auto.
  clear - E. induction els as [|[z w] els IH]; [reflexivity|]. cbn [forallb List.map fst] in *. apply andb_true_iff in E. destruct E as [E1 E2].
  rewrite (IH E2), andb_true_r. unfold iz_in_range. cbn [fst] in E1. apply andb_true_iff in E1. destruct E1 as [E1 E3]. apply Z.leb_le in E1. apply Z.leb_le in E3.
  replace (z <? 1)%Z with false by (symmetry; apply Z.ltb_ge; lia). replace (111 <? z)%Z with false by (symmetry; apply Z.ltb_ge; lia). reflexivity.
Qed.
Lemma desc_not_ok sig n_cap (els : list (Z * T)) dens : description_ok sig n_cap els dens = false ->
  nltb sig (#0)%num = true \/ (n_cap <= 1)%Z \/ List.length els < 1 \/ nleb dens (#0)%num = true \/ forallb iz_in_range (List.map fst els) = false.
Proof.
  unfold description_ok. intros E. destruct (nltb sig _); [auto|]. destruct (Z.ltb_spec 1 n_cap); [|auto]. destruct (nleb dens _); [auto|].
  destruct (Nat.leb_spec 1 (List.length els)); [|auto]. cbn [negb andb] in E. do 4 right.
  clear - E. induction els as [|[z w] els IH]; [discriminate|]. cbn [forallb List.map fst] in *. destruct ((1 <=? z)%Z && (z <=? 111)%Z) eqn:E1; cbn [andb] in E.
  - rewrite (IH E). apply andb_false_r.
  - apply andb_false_iff. left. unfold iz_in_range. apply andb_false_iff in E1. apply negb_false_iff, orb_true_iff. destruct E1 as [E1|E1]; apply Z.leb_gt in E1; [left|right]; apply Z.ltb_lt; lia.
Qed.

Lemma py_description_ok F e v p lz lc le (a : profile T) sig n_cap c dens (R : blocks) s : well_sized a ->
  hs F ((e, [v]) :: profb p lz lc le a ++ R) s ->
  wp (py_description x e (Some p) sig n_cap c dens)
    (fun r s' => match elements_of x c with
       | inr k => exists m v', r = Raised k m /\ hs F ((e, [v']) :: profb p lz lc le a ++ R) s'
       | inl els =>
           if negb (description_ok sig n_cap els dens) then exists m v', r = Raised ValueError m /\ hs F ((e, [v']) :: profb p lz lc le a ++ R) s'
           else if negb (shape_ok a n_cap) then exists l b m v', r = Raised ValueError m /\ hs F ((e, [v']) :: (l, b) :: profb p lz lc le a ++ R) s'
           else if negb (fractions_ok (List.map snd els)) then exists m v', r = Raised ValueError m /\ hs F ((e, [v']) :: profb p lz lc le a ++ R) s'
           else exists d liz lwi lp' lz' lc' le' open v', r = Value (Some d) /\
             hs F ((e, [v']) :: descb d liz lwi lp' lz' lc' le' open (mkOptic a n_cap sig dens (List.map fst els) (fractions (List.map snd els))) ++ profb p lz lc le a ++ R) s'
       end) s.
Proof.
  intros Wa H. unfold py_description. pose proof (comp_elements c) as EC. destruct (elements_of x c) as [els|k].
  2: { destruct EC as [m ->]. apply wp_ret. eauto. }
  rewrite EC. clear EC.
  apply wp_bind. eapply hs_alloc; [exact H|]. clear H s. intros iz s H. apply wp_bind. eapply hs_alloc; [exact H|]. clear H s. intros wi s H.
  set (Q := fun (r : pyres ptr) (s' : st T) => _). set (izs := List.map fst els). set (wis := List.map snd els).
  replace (List.map (fun e0 => Vint (fst e0)) els) with (List.map (@Vint T) izs) in H by (unfold izs; rewrite map_map; reflexivity).
  replace (List.map (fun e0 => Vdbl (snd e0)) els) with (List.map (@Vdbl T) wis) in H by (unfold wis; rewrite map_map; reflexivity).
  assert (Li : List.length els = List.length izs) by (unfold izs; rewrite map_length; reflexivity).
  assert (Lw : List.length wis = List.length izs) by (unfold izs, wis; rewrite !map_length; reflexivity).
  pull e H. apply wp_bind. eapply hs_store; [exact H|cbn; lia|]. cbn [set_nth]. clear H s v. intros s H.
  assert (Fin : forall b EB (D : blocks) d s, slot e b EB -> hs F (EB ++ D ++ profb p lz lc le a ++ (iz, List.map Vint izs) :: (wi, List.map Vdbl wis) :: R) s ->
    (b = false -> forall v s', hs F ((e, [v]) :: D ++ profb p lz lc le a ++ R) s' -> Q (Value d) s') ->
    (b = true -> forall v m s', hs F ((e, [v]) :: D ++ profb p lz lc le a ++ R) s' -> wp (bind (description_free d) (fun _ => ret (Raised ValueError m))) Q s') ->
    wp (bind (load_ptr (Some e) 0) (fun e0 => bind (set_exception e0 (ret (Value d))) (fun r => bind (free (Some iz)) (fun _ => bind (free (Some wi)) (fun _ =>
        match r with Value _ => ret r | Raised _ _ => bind (description_free d) (fun _ => ret r) end))))) Q s).
  { clear H s. intros b EB D d s SL H H0 H1.
    destruct SL as [|o t m]; apply wp_bind; (eapply hs_load_ptr; [exact H|left; reflexivity|reflexivity|]); apply wp_bind.
    - cbn [set_exception]. apply wp_ret. pull iz H. apply wp_bind. eapply hs_free; [exact H|]. clear H s. intros s H.
      pull wi H. apply wp_bind. eapply hs_free; [exact H|]. clear H s. intros s H. apply wp_ret. exact (H0 eq_refl _ _ H).
    - eapply exc_raised; [exact H|]. clear H s. intros m' s H. change (polycap_error_map POLYCAP_ERROR_INVALID_ARGUMENT) with ValueError.
      pull iz H. apply wp_bind. eapply hs_free; [exact H|]. clear H s. intros s H.
      pull wi H. apply wp_bind. eapply hs_free; [exact H|]. clear H s. intros s H. exact (H1 eq_refl _ _ _ H). }
  apply wp_bind. destruct (description_ok sig n_cap els dens) eqn:Ed; cbn [negb] in *.
  - apply desc_ok_args in Ed. fold izs in Ed. rewrite Li. eapply wp_mono; [apply (hs_description_new F e p lz lc le a iz wi izs wis sig n_cap dens R)|]; auto.
    { eapply hs_perm; [|exact H]. perm. }
    clear H s. intros r s H. unfold dn_post in H. unfold Q in *. clear Q. destruct (shape_ok a n_cap); cbn [negb] in *.
    + destruct H as (d & liz' & lwi' & lp' & lz' & lc' & le' & open & EB & -> & SL & H). destruct (norm_fractions wis) as [Ef Eg]. fold wis. fold wis in Fin. rewrite Ef in SL.
      destruct (fractions_ok wis) eqn:Ew; cbn [negb] in *.
      * rewrite (Eg eq_refl) in H. eapply Fin; [exact SL|exact H| |discriminate]. intros _ v s' H'.
        exists d, liz', lwi', lp', lz', lc', le', open, v. split; [reflexivity|exact H'].
      * eapply Fin; [exact SL|exact H|discriminate|]. clear H s. intros _ v m s H. apply wp_bind.
        eapply (hs_description_free F d liz' lwi' lp' lz' lc' le'); [eapply hs_perm; [|exact H]; apply Permutation_middle|]. clear H s. intros s H. apply wp_ret. eauto.
    + destruct H as (l & EB & -> & SL & H). eapply (Fin _ EB [(l, List.map Vdbl (p_ext a))]); [exact SL|exact H|discriminate|]. clear H s. intros _ v m s H.
      cbn [description_free]. apply wp_bind, wp_ret, wp_ret. eexists _, _, _, _. split; [reflexivity|exact H].
  - apply desc_not_ok in Ed. assert (W := hs_wf _ _ _ H). assert (Av := hs_av _ _ _ H). unfold Q in *. clear Q.
    eapply wp_mono; [apply wp_keeps; [apply keeps_description_new|exact W|eapply (dn_badarg _ _ _ _ _ _ _ _ izs)]|]; auto.
    + exists NULL. eapply hs_in; [exact H|left; reflexivity].
    + intros l El. injection El as <-. split; [|lia]. eapply hs_in; [exact H|inL].
    + rewrite Li, firstn_all. fold izs in Ed. rewrite Li in Ed. destruct Ed as [E|[E|[E|[E|E]]]]; auto 10.
    + intros r s' (W' & O' & -> & m & ER). destruct (hs_slot_reported _ _ _ _ _ _ H W' O' ER) as (EB & SL & H').
      eapply (Fin _ EB []); [exact SL|eapply hs_perm; [|exact H']; perm|discriminate|]. intros _ v m' s2 H2.
      cbn [description_free]. apply wp_bind, wp_ret, wp_ret. eauto.
Qed.

(** ** Sources *)
Definition good_optic (o : optic T) : Prop :=
  sized o /\ desc_args_ok (o_rough o) (o_ncap o) (o_iz o) (o_dens o) /\ fractions_ok (o_wi o) = true /\ fractions (o_wi o) = o_wi o /\ shape_ok (o_prof o) (o_ncap o) = true.

Lemma good_new (a : profile T) sig n_cap dens (els : list (Z * T)) :
  (forall y : T, neqb y (#1)%num = true -> nltb (#1)%num y = false) ->
  well_sized a -> description_ok sig n_cap els dens = true -> shape_ok a n_cap = true -> fractions_ok (List.map snd els) = true ->
  good_optic (mkOptic a n_cap sig dens (List.map fst els) (fractions (List.map snd els))).
Proof.
  intros Law (W1 & W2 & W3) Hd Hs Hf. set (ws := List.map snd els) in *.
  assert (E : nltb (#1)%num (total (fractions ws)) = false) by (apply Law; unfold fractions_ok in Hf; apply andb_true_iff in Hf; apply Hf).
  split; [|split; [|split; [|split]]]; cbn [o_rough o_ncap o_iz o_dens o_wi o_prof].
  - unfold sized. cbn [o_wi o_iz o_prof]. repeat split; auto. clear E. clear Hf. unfold fractions, ws. destruct (nltb _ (total _)); rewrite !map_length; reflexivity.
  - apply desc_ok_args. exact Hd.
  - unfold fractions_ok. rewrite E. cbn [andb].
    assert (E2 : fractions (fractions ws) = fractions ws) by (unfold fractions at 1; rewrite E; reflexivity). rewrite E2.
    unfold fractions_ok in Hf. apply andb_true_iff in Hf. apply Hf.
  - unfold fractions at 1. rewrite E. reflexivity.
  - exact Hs.
Qed.

Lemma src_ok_args d_source src_x src_y hp (ens : list T) : source_ok d_source src_x src_y hp ens = true -> src_args_ok d_source src_x src_y hp ens.
Proof.
  unfold source_ok, src_args_ok. rewrite !andb_true_iff, !negb_true_iff. intros (((((A & B) & C) & D) & E) & G). apply Nat.leb_le in E. repeat split; auto.
Qed.
Lemma src_not_ok d_source src_x src_y hp (ens : list T) : source_ok d_source src_x src_y hp ens = false ->
  nleb d_source (#0)%num = true \/ nleb src_x (#0)%num = true \/ nleb src_y (#0)%num = true \/ nltb (#1)%num (nabs hp) = true \/ List.length ens < 1 \/ forallb en_in_range ens = false.
Proof.
  unfold source_ok. intros E. destruct (nleb d_source _); [auto|]. destruct (nleb src_x _); [auto|]. destruct (nleb src_y _); [auto|]. destruct (nltb _ _); [auto|].
  cbn [negb andb] in E. destruct (Nat.leb_spec 1 (List.length ens)) as [L|L]; [|do 4 right; left; lia]. cbn [andb] in E. do 5 right. exact E.
Qed.

Lemma py_source_ok F e v d liz lwi lp lz lc le open (o : optic T) d_source src_x src_y sigx sigy shx shy hp (ens : list T) (R : blocks) s : good_optic o ->
  hs F ((e, [v]) :: descb d liz lwi lp lz lc le open o ++ R) s ->
  wp (py_source e (Some d) d_source src_x src_y sigx sigy shx shy hp ens)
    (fun r s' => if source_ok d_source src_x src_y hp ens
       then exists p len lr lg d' liz' lwi' lp' lz' lc' le' open' bg v', r = Value (Some p) /\
         hs F ((e, [v']) :: (srcb p len lr lg d' [d_source; src_x; src_y; sigx; sigy; shx; shy; hp] ens bg ++ descb d' liz' lwi' lp' lz' lc' le' open' o) ++
               descb d liz lwi lp lz lc le open o ++ R) s'
       else exists m v', r = Raised ValueError m /\ hs F ((e, [v']) :: descb d liz lwi lp lz lc le open o ++ R) s') s.
Proof.
  intros ((Z1 & Z2 & Z3 & Z4) & Ga & Gf & Ge & Gs) H. unfold py_source. apply wp_bind. eapply hs_alloc; [exact H|]. clear H s. intros a s H.
  set (Q := fun (r : pyres ptr) (s' : st T) => _). pull e H. apply wp_bind. eapply hs_store; [exact H|cbn; lia|]. cbn [set_nth]. clear H s v. intros s H.
  assert (W := hs_wf _ _ _ H). assert (Av := hs_av _ _ _ H).
  assert (Ia : In (a, List.map Vdbl ens) ((e, [Vptr NULL]) :: (a, List.map Vdbl ens) :: descb d liz lwi lp lz lc le open o ++ R)) by (right; left; reflexivity).
  apply wp_bind. destruct (source_ok d_source src_x src_y hp ens) eqn:Es.
  - apply src_ok_args in Es. destruct (norm_fractions (o_wi o)) as [Ef Eg].
    assert (DO : description_object s d liz lwi lp lz lc le (o_rough o) (o_ncap o) open (o_iz o) (o_wi o) (o_dens o) (Z.of_nat (p_nmax (o_prof o))) (p_z (o_prof o)) (p_cap (o_prof o)) (p_ext (o_prof o))).
    { assert (HI : forall l b, In (l, b) (descb d liz lwi lp lz lc le open o) -> mem s l = Some b) by (intros l b I; eapply hs_in; [exact H|]; do 2 right; apply in_or_app; left; exact I).
      unfold descb in HI. unfold description_object, dbl_array, int_array. repeat split; try (apply HI; cbn; tauto).
      assert (HP : hs F (descb d liz lwi lp lz lc le open o ++ (e, [Vptr NULL]) :: (a, List.map Vdbl ens) :: R) s) by (eapply hs_perm; [|exact H]; perm).
      apply hs_distinct in HP. rewrite map_app in HP. apply nodup_app_inv in HP. apply HP. }
    eapply wp_mono; [apply wp_keeps; [apply keeps_source_new|exact W|eapply (sn_ok d liz lwi lp lz lc le)]|].
    + exact W.
    + apply avail_n, Av.
    + exact DO.
    + lia.
    + lia.
    + lia.
    + lia.
    + exact Z1.
    + exact Ga.
    + rewrite Ef. exact Gf.
    + eapply hs_in; [exact H|exact Ia].
    + reflexivity.
    + exact Es.
    + rewrite Nat2Z.id. unfold shape_ok in Gs. clear - Gs. destruct (o_prof o) as [n1 z1 c1 e1]. cbn [p_nmax p_z p_cap p_ext] in *. destruct (profile_validate _ _) as [v|]; [|discriminate]. apply Z.eqb_eq in Gs. subst v. reflexivity.
    + intros r s' (W' & O' & _ & (p & len' & lr & lg & d' & liz' & lwi' & lp' & lz' & lc' & le' & -> & (S1 & S2 & S3 & bg & S4) & (D1 & D2 & D3 & D4 & D5 & D6 & D7 & _) & ND & AF & X)).
      rewrite (Eg Gf), Ge in D3. set (nums := [d_source; src_x; src_y; sigx; sigy; shx; shy; hp]) in *. set (open' := open_area_num _ _ _) in D1.
      assert (H' : hs F ((srcb p len' lr lg d' nums ens bg ++ descb d' liz' lwi' lp' lz' lc' le' open' o) ++ (e, [Vptr NULL]) :: (a, List.map Vdbl ens) :: descb d liz lwi lp lz lc le open o ++ R) s').
      { apply (hs_change F [] _ _ s s' [p; len'; lr; lg; d'; liz'; lwi'; lp'; lz'; lc'; le']).
        - exact H.
        - exact W'.
        - exact O'.
        - exact X.
        - exact AF.
        - exact ND.
        - reflexivity.
        - apply hold_app. unfold srcb, descb. rewrite !hold_cons. repeat split; auto; apply hold_nil. }
      clear H s W Av W' O' X AF D1 D2 D3 D4 D5 D6 D7 S1 S2 S3 S4 Ia DO. rename H' into H, s' into s. pull e H.
      apply wp_bind. eapply hs_load_ptr; [exact H|left; reflexivity|reflexivity|]. cbn [set_exception]. apply wp_bind, wp_ret.
      pull a H. apply wp_bind. eapply hs_free; [exact H|]. clear H s. intros s H. apply wp_ret. unfold Q.
      exists p, len', lr, lg, d', liz', lwi', lp', lz', lc', le', open', bg, (Vptr NULL). split; [reflexivity|]. eapply hs_perm; [|exact H]. fold nums. perm.
  - apply src_not_ok in Es.
    eapply wp_mono; [apply wp_keeps; [apply keeps_source_new|exact W|eapply (sn_badarg _ _ _ _ _ _ _ _ _ _ _ _ ens)]|]; auto.
    + exists NULL. eapply hs_in; [exact H|left; reflexivity].
    + intros l El. injection El as <-. split; [|lia]. eapply hs_in; [exact H|exact Ia].
    + rewrite firstn_all. destruct Es as [E|[E|[E|[E|[E|E]]]]]; auto 12.
    + intros r s' (W' & O' & -> & m & ER). destruct (hs_slot_reported _ _ _ _ _ _ H W' O' ER) as (EB & SL & H'). inversion SL; subst.
      clear H s W Av W' O' ER Ia. rename H' into H, s' into s. apply wp_bind. eapply hs_load_ptr; [exact H|left; reflexivity|reflexivity|]. apply wp_bind.
      eapply exc_raised; [exact H|]. clear H s. intros m' s H. pull a H. apply wp_bind. eapply hs_free; [exact H|]. clear H s. intros s H.
      cbn [source_free]. apply wp_bind, wp_ret, wp_ret. unfold Q. eauto.
Qed.
End Py.
