(** * Merging leaks, cross sections, axes, temporary photons in memory *)
From Coq Require Import ZArith List Bool Lia String Permutation.
From Verif Require Import Num Mem SpecHeap HeapLib ErrorModel ProfileModel Geometry SpecPhoton ConsModel H5Model RM CapilModel TraceModel LaunchModel PhotProofs SepLib FlightMem FlightRep FlightPure FlightHeap.
Import ListNotations.

Section Heap.
Context {T : Type} {N : Num T}.
Local Notation M := (M T).
Local Notation ret := Mem.ret.
Local Notation bind := Mem.bind.
Local Notation blocks := (list (loc * @block T)).

Ltac inn := cbn [In]; repeat (progress (rewrite ?in_app_iff; cbn [In])); tauto.

Lemma hs_merge F X at_ ne err : forall lst (dst : list (leak_data T)) lpre ls n R (Q : unit -> st T -> Prop) s,
  List.length lst = List.length dst -> full ne dst -> n + List.length lpre = List.length ls ->
  In (at_, arrb (lpre ++ lst)) R -> incl (leakb lst dst) R ->
  hs F ((X, arrb ls ++ repeat Vundef (List.length dst)) :: R) s ->
  (forall lsn s', List.length lsn = List.length dst -> hs F ((X, arrb (ls ++ lsn)) :: leakb lsn dst ++ R) s' -> Q tt s') ->
  wp (for_n (List.length dst) (List.length lpre) (merge_one ne (Some at_) (Some X) n err)) Q s.
Proof.
  induction lst as [|[l w] lst IH]; intros [|d dst] lpre ls n R Q s El Hf En Ia Il H HQ; cbn [List.length] in El; try discriminate.
  - cbn [List.length for_n repeat] in *. apply wp_ret. apply (HQ []); [reflexivity|]. rewrite !app_nil_r in *. exact H.
  - injection El as El. inversion Hf as [|? ? Hd Hf']; subst. cbn [List.length for_n] in *. apply wp_bind. unfold merge_one.
    assert (Ib : In (l, leak_block w d) ((X, arrb ls ++ repeat Vundef (S (List.length dst))) :: R)) by (right; apply Il; left; reflexivity).
    assert (Iw : In (w, List.map Vdbl (lk_weights d)) ((X, arrb ls ++ repeat Vundef (S (List.length dst))) :: R)) by (right; apply Il; right; left; reflexivity).
    apply wp_bind. eapply hs_load_ptr; [exact H|right; exact Ia| unfold arrb; rewrite map_app, nth_error_app2 by (rewrite map_length; lia); rewrite map_length, Nat.sub_diag; reflexivity|].
    cbn [fst]. apply wp_bind. eapply hs_read_vec; [exact H|exact Ib|reflexivity..|].
    apply wp_bind. eapply hs_read_vec; [exact H|exact Ib|reflexivity..|].
    apply wp_bind. eapply hs_read_vec; [exact H|exact Ib|reflexivity..|].
    apply wp_bind. eapply hs_load_int; [exact H|exact Ib|reflexivity|].
    apply wp_bind. eapply hs_load_ptr; [exact H|exact Ib|reflexivity|].
    apply wp_bind. eapply hs_leak_new; [exact H|exact Iw|reflexivity|]. intros l1 w1 s1 H1.
    match type of H1 with hs _ (?x :: ?y :: ?a :: ?R) _ => pose proof (hs_top a (x :: y :: R) H1 ltac:(perm)) as H2 end.
    eapply hs_store; [exact H2|rewrite app_length, arrb_length, repeat_length; cbn [List.length]; lia|]. rewrite En, (arrb_set ls l1 w1). intros s3 H3.
    replace (S (List.length lpre)) with (List.length (lpre ++ [(l, w)])) by (rewrite app_length; cbn; lia).
    match type of H3 with hs _ (?x :: ?L) _ => eapply (IH dst (lpre ++ [(l, w)]) (ls ++ [(l1, w1)]) n L) end.
    + exact El.
    + exact Hf'.
    + rewrite !app_length. cbn. lia.
    + rewrite <- app_assoc. right. right. exact Ia.
    + intros z Hz. right. right. apply Il. right. right. exact Hz.
    + exact H3.
    + intros lsn s4 E4 H4. apply (HQ ((l1, w1) :: lsn)); [cbn; lia|]. rewrite <- app_assoc in H4. cbn [app] in H4.
      eapply hs_perm; [|exact H4]. cbn [leakb fst snd app]. destruct d as [dc dd de dn dw]. cbn in *. perm.
Qed.

Lemma add_ext_nil (ph : photon T) : add_ext [] ph = ph.
Proof. destruct ph. unfold add_ext. cbn. now rewrite app_nil_r. Qed.
Lemma add_int_nil (ph : photon T) : add_int [] ph = ph.
Proof. destruct ph. unfold add_int. cbn. now rewrite app_nil_r. Qed.
Lemma to_nat_add {A} (l l' : list A) : Z.to_nat (zlen l + zlen l') = List.length l + List.length l'.
Proof. unfold zlen. lia. Qed.
Lemma lks_app X ls (ds : list (leak_data T)) d ds' : lks X ls (ds ++ d :: ds') = (X, arrb ls) :: leakb ls (ds ++ d :: ds').
Proof. destruct ds; reflexivity. Qed.
Lemma lkp_app X (ds : list (leak_data T)) d ds' : lkp X (ds ++ d :: ds') = Some X.
Proof. destruct ds; reflexivity. Qed.

Lemma wp_merge_ext F R s p t d src src' K Kt ph tp err e (Q : option (bool * slot) -> st T -> Prop) : kok K ph -> kok Kt tp ->
  full (List.length (ph_en ph)) (ph_ext tp) -> hs F (flyb p d src K ph ++ flyb t d src' Kt tp ++ R) s ->
  (forall K' s', kok K' (add_ext (ph_ext tp) ph) -> kE K' = kE K -> kW K' = kW K ->
     hs F (flyb p d src K' (add_ext (ph_ext tp) ph) ++ flyb t d src' Kt tp ++ R) s' -> Q (Some (true, e)) s') ->
  wp (merge_leaks F_EXTLEAK F_NEXT (Some p) (Some t) err e) Q s.
Proof.
  intros [Kx Ki] [Ktx Kti] Hf H HQ. unfold merge_leaks.
  assert (It : In (t, pblock d src' Kt tp) (flyb p d src K ph ++ flyb t d src' Kt tp ++ R)) by (apply in_or_app; right; left; reflexivity).
  apply wp_bindF, wp_inM. eapply hs_load_int; [exact H|exact It|reflexivity|].
  destruct (ph_ext tp) as [|d0 dst] eqn:Et.
  { cbn. apply (HQ K); [rewrite add_ext_nil; split; auto|reflexivity|reflexivity|]. rewrite add_ext_nil. exact H. }
  replace (Z.ltb 0 (zlen (d0 :: dst))) with true by (symmetry; apply Z.ltb_lt; unfold zlen; cbn; lia).
  remember (d0 :: dst) as ds eqn:Eds. unfold flyb at 1 in H. cbn [app] in H.
  apply wp_bindF, wp_inM. eapply hs_load_int; [exact H|left; reflexivity|reflexivity|].
  apply wp_bindF, wp_inM. eapply hs_store; [exact H|cbn; lia|]. intros s1 H1.
  apply wp_bindF, wp_inM. eapply hs_load_ptr; [exact H1|left; reflexivity|reflexivity|]. rewrite to_nat_add.
  apply wp_bindF, wp_inM. match type of H1 with hs _ (?a :: ?b :: ?c :: _) _ =>
    eapply (hs_grow F (a :: b :: c :: csb K ph ++ lks (kI K) (kil K) (ph_int ph) ++ flyb t d src' Kt tp ++ R) s1 (kX K) (kxl K) (ph_ext ph)); [eapply hs_perm; [|exact H1]; unfold leaksb; perm|exact Kx|] end.
  intros X s2 H2.
  apply wp_bindF, wp_inM. match type of H2 with hs _ (?x :: ?y ++ ?a :: ?R) _ => pose proof (hs_top a (x :: y ++ R) H2 ltac:(perm)) as H3 end.
  eapply hs_store; [exact H3|cbn; lia|]. intros s4 H4.
  apply wp_bindF, wp_inM.
  eapply (hs_load_ptr _ _ s4 t (pblock d src' Kt tp)); [exact H4|right; right; apply in_or_app; right; right; right; rewrite !in_app_iff; right; right; left; left; reflexivity| |].
  { unfold pblock, photon_block. rewrite Et, Eds. reflexivity. }
  apply wp_bindF, wp_inM. eapply hs_load_int; [exact H4|left; reflexivity|reflexivity|]. rewrite !zlen_nat.
  apply wp_bindF, wp_inM. match type of H4 with hs _ (?a :: ?x :: ?R) _ => pose proof (hs_top x (a :: R) H4 ltac:(perm)) as H5 end.
  assert (Lp : lkp (kX Kt) ds = Some (kX Kt)) by (rewrite Eds; reflexivity). rewrite Lp.
  eapply (hs_merge F X (kX Kt) (List.length (ph_en ph)) err (kxl Kt) ds [] (kxl K) (List.length (ph_ext ph))); [exact Ktx|exact Hf|cbn; lia| | |exact H5|].
  { assert (In (kX Kt, arrb (kxl Kt)) (flyb t d src' Kt tp)) by (right; right; right; apply in_or_app; right; unfold leaksb; rewrite Et, Eds; left; reflexivity). cbn [app]. inn. }
  { intros z Hz. assert (In z (flyb t d src' Kt tp)) by (right; right; right; apply in_or_app; right; unfold leaksb; apply in_or_app; left; rewrite Et, Eds; right; rewrite Eds in Hz; exact Hz). inn. }
  intros lsn s6 E6 H6. apply wp_retF. apply (HQ (xk K X (kxl K ++ lsn))); [|reflexivity|reflexivity|].
  { split; cbn [kxl kil xk add_ext ph_ext ph_int]; rewrite ?app_length; lia. }
  eapply hs_perm; [|exact H6]. unfold flyb at 2, pblock, leaksb, csb. cbn [xk kE kW kA kS kX kxl kI kil add_ext ph_start ph_sdir ph_selec ph_exit ph_edir ph_eelec ph_en ph_w ph_amu ph_scatf ph_irefl ph_dtravel ph_ext ph_int].
  rewrite zlen_app. rewrite Eds, lkp_app, lks_app, <- Eds, leakb_app by exact Kx. cbn [set_nth app photon_block vcells].
  unfold flyb, leaksb, csb. perm.
Qed.

Lemma wp_merge_int F R s p t d src src' K Kt ph tp err e (Q : option (bool * slot) -> st T -> Prop) : kok K ph -> kok Kt tp ->
  full (List.length (ph_en ph)) (ph_int tp) -> hs F (flyb p d src K ph ++ flyb t d src' Kt tp ++ R) s ->
  (forall K' s', kok K' (add_int (ph_int tp) ph) -> kE K' = kE K -> kW K' = kW K ->
     hs F (flyb p d src K' (add_int (ph_int tp) ph) ++ flyb t d src' Kt tp ++ R) s' -> Q (Some (true, e)) s') ->
  wp (merge_leaks F_INTLEAK F_NINT (Some p) (Some t) err e) Q s.
Proof.
  intros [Kx Ki] [Ktx Kti] Hf H HQ. unfold merge_leaks.
  assert (It : In (t, pblock d src' Kt tp) (flyb p d src K ph ++ flyb t d src' Kt tp ++ R)) by (apply in_or_app; right; left; reflexivity).
  apply wp_bindF, wp_inM. eapply hs_load_int; [exact H|exact It|reflexivity|].
  destruct (ph_int tp) as [|d0 dst] eqn:Et.
  { cbn. apply (HQ K); [rewrite add_int_nil; split; auto|reflexivity|reflexivity|]. rewrite add_int_nil. exact H. }
  replace (Z.ltb 0 (zlen (d0 :: dst))) with true by (symmetry; apply Z.ltb_lt; unfold zlen; cbn; lia).
  remember (d0 :: dst) as ds eqn:Eds. unfold flyb at 1 in H. cbn [app] in H.
  apply wp_bindF, wp_inM. eapply hs_load_int; [exact H|left; reflexivity|reflexivity|].
  apply wp_bindF, wp_inM. eapply hs_store; [exact H|cbn; lia|]. intros s1 H1.
  apply wp_bindF, wp_inM. eapply hs_load_ptr; [exact H1|left; reflexivity|reflexivity|]. rewrite to_nat_add.
  apply wp_bindF, wp_inM. match type of H1 with hs _ (?a :: ?b :: ?c :: _) _ =>
    eapply (hs_grow F (a :: b :: c :: csb K ph ++ lks (kX K) (kxl K) (ph_ext ph) ++ flyb t d src' Kt tp ++ R) s1 (kI K) (kil K) (ph_int ph)); [eapply hs_perm; [|exact H1]; unfold leaksb; perm|exact Ki|] end.
  intros X s2 H2.
  apply wp_bindF, wp_inM. match type of H2 with hs _ (?x :: ?y ++ ?a :: ?R) _ => pose proof (hs_top a (x :: y ++ R) H2 ltac:(perm)) as H3 end.
  eapply hs_store; [exact H3|cbn; lia|]. intros s4 H4.
  apply wp_bindF, wp_inM.
  eapply (hs_load_ptr _ _ s4 t (pblock d src' Kt tp)); [exact H4|right; right; apply in_or_app; right; right; right; rewrite !in_app_iff; right; right; left; left; reflexivity| |].
  { unfold pblock, photon_block. rewrite Et, Eds. reflexivity. }
  apply wp_bindF, wp_inM. eapply hs_load_int; [exact H4|left; reflexivity|reflexivity|]. rewrite !zlen_nat.
  apply wp_bindF, wp_inM. match type of H4 with hs _ (?a :: ?x :: ?R) _ => pose proof (hs_top x (a :: R) H4 ltac:(perm)) as H5 end.
  assert (Lp : lkp (kI Kt) ds = Some (kI Kt)) by (rewrite Eds; reflexivity). rewrite Lp.
  eapply (hs_merge F X (kI Kt) (List.length (ph_en ph)) err (kil Kt) ds [] (kil K) (List.length (ph_int ph))); [exact Kti|exact Hf|cbn; lia| | |exact H5|].
  { assert (In (kI Kt, arrb (kil Kt)) (flyb t d src' Kt tp)) by (right; right; right; apply in_or_app; right; unfold leaksb; apply in_or_app; right; rewrite Et, Eds; left; reflexivity). cbn [app]. inn. }
  { intros z Hz. assert (In z (flyb t d src' Kt tp)) by (right; right; right; apply in_or_app; right; unfold leaksb; apply in_or_app; right; rewrite Et, Eds; right; rewrite Eds in Hz; exact Hz). inn. }
  intros lsn s6 E6 H6. apply wp_retF. apply (HQ (ik K X (kil K ++ lsn))); [|reflexivity|reflexivity|].
  { split; cbn [kxl kil ik add_int ph_ext ph_int]; rewrite ?app_length; lia. }
  eapply hs_perm; [|exact H6]. unfold flyb at 2, pblock, leaksb, csb. cbn [ik kE kW kA kS kX kxl kI kil add_int ph_start ph_sdir ph_selec ph_exit ph_edir ph_eelec ph_en ph_w ph_amu ph_scatf ph_irefl ph_dtravel ph_ext ph_int].
  rewrite zlen_app. rewrite Eds, lkp_app, lks_app, <- Eds, leakb_app by exact Ki. cbn [set_nth app photon_block vcells].
  unfold flyb, leaksb, csb. perm.
Qed.

(** ** Axes *)
Definition axb (cx cy : loc) (axes : list (T * T)) : blocks := [(cx, List.map Vdbl (List.map fst axes)); (cy, List.map Vdbl (List.map snd axes))].
Lemma combine_split_map {A B} (l : list (A * B)) : combine (List.map fst l) (List.map snd l) = l.
Proof. induction l as [|[a b] l IH]; cbn; congruence. Qed.
Lemma hs_read_axes F L s cx cy axes n (Q : list (T * T) -> st T -> Prop) : hs F L s -> incl (axb cx cy axes) L -> n = List.length axes ->
  Q axes s -> wp (read_axes (Some cx) (Some cy) n) Q s.
Proof.
  intros H I E HQ. unfold read_axes. apply wp_bind. eapply hs_read_dbls; [exact H|apply I; left; reflexivity|rewrite map_length; exact E|].
  apply wp_bind. eapply hs_read_dbls; [exact H|apply I; right; left; reflexivity|rewrite map_length; exact E|].
  apply wp_ret. rewrite combine_split_map. exact HQ.
Qed.
Lemma hs_write_axes F R s cx cy (bx by_ : @block T) axes (Q : unit -> st T -> Prop) : List.length bx = List.length axes -> List.length by_ = List.length axes ->
  hs F ((cx, bx) :: (cy, by_) :: R) s -> (forall s', hs F (axb cx cy axes ++ R) s' -> Q tt s') -> wp (write_axes (Some cx) (Some cy) axes) Q s.
Proof.
  intros Ex Ey H HQ. unfold write_axes. apply wp_bind. eapply hs_write_all; [|exact H|]; [rewrite map_length; exact Ex|]. intros s1 H1.
  match type of H1 with hs _ (?a :: ?x :: ?R) _ => pose proof (hs_top x (a :: R) H1 ltac:(perm)) as H2 end.
  eapply hs_write_all; [|exact H2|]; [rewrite map_length; exact Ey|]. intros s3 H3. apply HQ. eapply hs_perm; [|exact H3]. unfold axb. perm.
Qed.

(** ** polycap_photon_scatf *)
Definition ak (K : keys) a f : keys := {| kE := kE K; kW := kW K; kA := a; kS := f; kX := kX K; kxl := kxl K; kI := kI K; kil := kil K |}.
Lemma wp_scatf err x (o : optic T) p d src K ph e ph' e' F R EB (Q : option (unit * slot) -> st T -> Prop) s : fit ph -> kok K ph ->
  ph_amu ph = None -> ph_scatf ph = None -> photon_scatf x o ph e = Ret (ph', e') -> errs err e EB -> hs F (flyb p d src K ph ++ EB ++ R) s ->
  (forall K' EB' s', kok K' ph' -> kE K' = kE K -> kW K' = kW K -> errs err e' EB' -> hs F (flyb p d src K' ph' ++ EB' ++ R) s' -> Q (Some (tt, e')) s') ->
  wp (scatfM x o (Some p) err e) Q s.
Proof.
  intros Ft Ko Ea Es E HE H HQ. unfold scatfM. apply wp_bindF, wp_inM. eapply hs_read_photon; [exact Ft|exact H|apply incl_appl, incl_refl|].
  unfold photon_scatf in E. change (scatf_refused o (strip ph)) with (scatf_refused o ph). fold (scatf_refused o ph) in E.
  destruct (scatf_refused o ph).
  - change (RM.bind (report E_ARG) (fun _ => RM.ret ph) e = Ret (ph', e')) in E. unfold RM.bind, RM.ret in E. destruct (report E_ARG e) as [[[] e1]| |] eqn:Er; try discriminate.
    injection E as <- <-. eapply (wp_calc err _ _ _ _ F (flyb p d src K ph ++ R) EB); [exact Er|apply sticky_report|exact HE|eapply hs_perm; [|exact H]; perm|].
    intros EB' s' HE' H'. apply (HQ K EB'); auto. eapply hs_perm; [|exact H']. perm.
  - injection E as <- <-. unfold flyb in H. cbn [app] in H. cbn [strip ph_en].
    apply wp_bindF, wp_inM. eapply hs_load_int; [exact H|left; reflexivity|reflexivity|]. rewrite zlen_nat.
    apply wp_bindF, wp_inM. eapply hs_malloc; [exact H|]. intros a s1 H1.
    match type of H1 with hs _ (?x :: ?a :: ?R) _ => pose proof (hs_top a (x :: R) H1 ltac:(perm)) as H2 end.
    apply wp_bindF, wp_inM. eapply hs_store; [exact H2|cbn; lia|]. intros s3 H3.
    apply wp_bindF, wp_inM. eapply hs_malloc; [exact H3|]. intros f s4 H4.
    match type of H4 with hs _ (?x :: ?a :: ?R) _ => pose proof (hs_top a (x :: R) H4 ltac:(perm)) as H5 end.
    apply wp_bindF, wp_inM. eapply hs_store; [exact H5|cbn; lia|]. intros s6 H6.
    apply wp_inM. apply wp_bind.
    match type of H6 with hs _ (?x :: ?y :: ?a :: ?R) _ => pose proof (hs_top a (x :: y :: R) H6 ltac:(perm)) as H7 end.
    eapply hs_write_all; [|exact H7|]; [rewrite repeat_length, map_length; reflexivity|]. intros s8 H8.
    match type of H8 with hs _ (?x :: ?y :: ?a :: ?R) _ => pose proof (hs_top a (x :: y :: R) H8 ltac:(perm)) as H9 end.
    eapply hs_write_all; [|exact H9|]; [rewrite repeat_length, map_length; reflexivity|]. intros s10 H10.
    apply (HQ (ak K a f) EB); [exact Ko|reflexivity|reflexivity|exact HE|].
    eapply hs_perm; [|exact H10]. unfold flyb, csb. rewrite Ea, Es. cbn. unfold leaksb. cbn. perm.
Qed.

(** ** Making and releasing a photon *)
Lemma hs_photon_new F R s d c dir ev err (Q : ptr -> st T -> Prop) : photon_fresh c dir ev <> None -> hs F R s ->
  (forall t s', hs F ((t, photon_block (Some d) None None 0 0 c dir ev c dir ev zero3 0 None None None None 0 (#0)%num) :: R) s' -> Q (Some t) s') ->
  wp (photon_new (Some d) c dir ev err) Q s.
Proof.
  intros Hf H HQ. unfold photon_fresh in Hf. unfold photon_new, reject_if. cbn [is_null].
  destruct (nltb (vz c) _); cbn [orb] in Hf; [congruence|]. destruct (nltb (vz dir) _); [congruence|].
  apply wp_bind. eapply hs_alloc; [exact H|]. intros t s1 H1. unfold photon_zero, zero_vec in H1. cbn [app] in H1.
  apply wp_bind. eapply hs_store; [exact H1|cbn; lia|]. cbn [set_nth]. intros s2 H2.
  do 6 (let s' := fresh "s" in let H' := fresh "H" in apply wp_bind; eapply hs_store_vec; [match goal with K : hs _ _ ?z |- hs _ _ ?z => exact K end|cbn; lia|]; cbn [set_nth]; intros s' H').
  apply wp_bind. eapply hs_store; [match goal with K : hs _ _ ?z |- hs _ _ ?z => exact K end|cbn; lia|]; cbn [set_nth]. intros s9 H9. apply wp_ret. apply HQ. exact H9.
Qed.

Lemma hs_free_if F R s k (o : option (list T)) (Q : unit -> st T -> Prop) : hs F (optb k o ++ R) s ->
  (forall s', hs F R s' -> Q tt s') -> wp (free_if (optp k o)) Q s.
Proof.
  intros H HQ. destruct o as [xs|]; cbn [optp optb app free_if] in *; [|apply wp_ret; auto]. eapply hs_free; eauto.
Qed.
Lemma hs_free_some F R s k b (Q : unit -> st T -> Prop) : hs F ((k, b) :: R) s ->
  (forall s', hs F R s' -> Q tt s') -> wp (free_if (Some k)) Q s.
Proof. intros H HQ. cbn [free_if]. eapply hs_free; eauto. Qed.

Lemma hs_free_leak_loop F X : forall ls (ds : list (leak_data T)) lpre R (Q : unit -> st T -> Prop) s, List.length ls = List.length ds ->
  In (X, arrb (lpre ++ ls)) R -> hs F (leakb ls ds ++ R) s -> (forall s', hs F R s' -> Q tt s') ->
  wp (for_n (List.length ds) (List.length lpre) (fun i => bind (load_ptr (Some X) i) leak_free)) Q s.
Proof.
  induction ls as [|[l w] ls IH]; intros [|d ds] lpre R Q s El Ix H HQ; cbn [List.length] in El; try discriminate; cbn [List.length for_n].
  - apply wp_ret. apply HQ. exact H.
  - injection El as El. cbn [leakb fst snd app] in H. apply wp_bind. apply wp_bind.
    eapply hs_load_ptr; [exact H|right; right; apply in_or_app; right; exact Ix|unfold arrb; rewrite map_app, nth_error_app2 by (rewrite map_length; lia); rewrite map_length, Nat.sub_diag; reflexivity|].
    cbn [fst leak_free]. apply wp_bind. eapply hs_load_ptr; [exact H|left; reflexivity|reflexivity|].
    match type of H with hs _ (?x :: ?a :: ?R) _ => pose proof (hs_top a (x :: R) H ltac:(perm)) as H2 end.
    apply wp_bind. eapply hs_free_some; [exact H2|]. intros s3 H3. eapply hs_free; [exact H3|]. intros s4 H4.
    replace (S (List.length lpre)) with (List.length (lpre ++ [(l, w)])) by (rewrite app_length; cbn; lia).
    eapply (IH ds (lpre ++ [(l, w)]) R); [exact El|rewrite <- app_assoc; exact Ix|exact H4|exact HQ].
Qed.
Lemma hs_free_leaks F R s X ls (ds : list (leak_data T)) (Q : unit -> st T -> Prop) : List.length ls = List.length ds -> hs F (lks X ls ds ++ R) s ->
  (forall s', hs F R s' -> Q tt s') -> wp (free_leaks (lkp X ds) (List.length ds)) Q s.
Proof.
  intros El H HQ. destruct ds as [|d ds]; cbn [lkp lks free_leaks app] in *; [apply wp_ret; auto|].
  apply wp_bind. eapply (hs_free_leak_loop F X ls (d :: ds) [] ((X, arrb ls) :: R)); [exact El|left; reflexivity|eapply hs_perm; [|exact H]; perm|].
  intros s' H'. eapply hs_free; [exact H'|exact HQ].
Qed.

Lemma hs_photon_free F R s p d src K ph (Q : unit -> st T -> Prop) : kok K ph -> hs F (flyb p d src K ph ++ R) s ->
  (forall s', hs F R s' -> Q tt s') -> wp (photon_free (Some p)) Q s.
Proof.
  intros [Kx Ki] H HQ. unfold photon_free, flyb in *. cbn [app] in H. set (B := (p, pblock d src K ph)) in *.
  apply wp_bind. eapply hs_load_ptr; [exact H|left; reflexivity|reflexivity|].
  match type of H with hs _ (?x :: ?a :: ?R) _ => pose proof (hs_top a (x :: R) H ltac:(perm)) as H1 end.
  apply wp_bind. eapply hs_free_some; [exact H1|]. intros s2 H2.
  apply wp_bind. eapply hs_load_ptr; [exact H2|left; reflexivity|reflexivity|].
  match type of H2 with hs _ (?x :: ?a :: ?R) _ => pose proof (hs_top a (x :: R) H2 ltac:(perm)) as H3 end.
  apply wp_bind. eapply hs_free_some; [exact H3|]. intros s4 H4.
  apply wp_bind. eapply hs_load_ptr; [exact H4|left; reflexivity|reflexivity|].
  apply wp_bind. eapply (hs_free_if F (B :: optb (kS K) (ph_scatf ph) ++ leaksb K ph ++ R)); [eapply hs_perm; [|exact H4]; unfold csb; perm|]. intros s5 H5.
  apply wp_bind. eapply hs_load_ptr; [exact H5|left; reflexivity|reflexivity|].
  apply wp_bind. eapply (hs_free_if F (B :: leaksb K ph ++ R)); [eapply hs_perm; [|exact H5]; perm|]. intros s6 H6.
  apply wp_bind. eapply hs_load_ptr; [exact H6|left; reflexivity|reflexivity|].
  apply wp_bind. eapply hs_load_int; [exact H6|left; reflexivity|reflexivity|]. rewrite zlen_nat.
  apply wp_bind. eapply (hs_free_leaks F (B :: lks (kI K) (kil K) (ph_int ph) ++ R)); [exact Kx|eapply hs_perm; [|exact H6]; unfold leaksb; perm|]. intros s7 H7.
  apply wp_bind. eapply hs_load_ptr; [exact H7|left; reflexivity|reflexivity|].
  apply wp_bind. eapply hs_load_int; [exact H7|left; reflexivity|reflexivity|]. rewrite zlen_nat.
  apply wp_bind. eapply (hs_free_leaks F (B :: R)); [exact Ki|eapply hs_perm; [|exact H7]; perm|]. intros s8 H8.
  eapply hs_free; [exact H8|exact HQ].
Qed.

End Heap.
