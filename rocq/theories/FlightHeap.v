(** * Leaks, cross sections, axes and temporary photons in memory *)
From Coq Require Import ZArith List Bool Lia String Permutation.
From Verif Require Import Num Mem SpecHeap HeapLib ErrorModel ProfileModel Geometry SpecPhoton ConsModel H5Model RM CapilModel TraceModel LaunchModel PhotProofs SepLib FlightMem FlightRep FlightPure.
Import ListNotations.

Section Heap.
Context {T : Type} {N : Num T}.
Local Notation M := (M T).
Local Notation ret := Mem.ret.
Local Notation bind := Mem.bind.
Local Notation blocks := (list (loc * @block T)).

Lemma hs_memcpy F L d r (bd br : @block T) n (Q : unit -> st T -> Prop) s : hs F ((d, bd) :: L) s -> In (r, br) L ->
  n = List.length bd -> n = List.length br ->
  (forall s', hs F ((d, br) :: L) s' -> Q tt s') -> wp (memcpy (Some d) (Some r) n) Q s.
Proof.
  intros H I -> E HQ. eapply wp_memcpy; [eapply hs_in; [exact H|left; reflexivity]|eapply hs_in; [exact H|right; exact I]|lia|lia|].
  rewrite E, firstn_all, skipn_all2, app_nil_r by lia. apply HQ.
  destruct H as (W & A & ND & H1 & H2 & H3). pose proof (H1 d bd (or_introl eq_refl)) as Ed. cbn [map fst] in *. inversion ND; subst.
  split; [|split; [|split; [|split; [|split]]]]; cbn [map fst].
  - intros x Hx. cbn [mem nxt] in *. rewrite upd_other; [apply W; auto|]. intros ->. rewrite W in Ed by auto. discriminate.
  - exact A.
  - auto.
  - intros x c [Ex|J].
    + injection Ex as <- <-. apply upd_same.
    + cbn [mem]. rewrite upd_other; [apply H1; cbn; auto|]. intros ->. apply H4. apply in_map_iff. exists (d, c). auto.
  - intros x J. cbn [mem]. rewrite upd_other by (intros ->; apply J; cbn; auto). apply H2. auto.
  - auto.
Qed.

Lemma hs_malloc F L n (Q : ptr -> st T -> Prop) s : hs F L s ->
  (forall l s', hs F ((l, repeat Vundef n) :: L) s' -> Q (Some l) s') -> wp (malloc n) Q s.
Proof. intros. eapply hs_alloc; eauto. Qed.

Lemma hs_leak_new F L s lw (ws : list T) c d ev nr n err (Q : ptr -> st T -> Prop) : hs F L s -> In (lw, List.map Vdbl ws) L -> n = List.length ws ->
  (forall l w s', hs F ((l, leak_block w (mkLeak c d ev nr ws)) :: (w, List.map Vdbl ws) :: L) s' -> Q (Some l) s') ->
  wp (leak_new c d ev nr n (Some lw) err) Q s.
Proof.
  intros H I E HQ. unfold leak_new, malloc at 1. apply wp_bind. eapply hs_alloc; [exact H|]. cbn [repeat]. intros l s1 H1.
  apply wp_bind. eapply hs_store_vec; [exact H1|cbn; lia|]. cbn [set_nth]. intros s2 H2.
  apply wp_bind. eapply hs_store_vec; [exact H2|cbn; lia|]. cbn [set_nth]. intros s3 H3.
  apply wp_bind. eapply hs_store_vec; [exact H3|cbn; lia|]. cbn [set_nth]. intros s4 H4.
  apply wp_bind. eapply hs_store; [exact H4|cbn; lia|]. cbn [set_nth]. intros s5 H5.
  apply wp_bind. eapply hs_store; [exact H5|cbn; lia|]. cbn [set_nth]. intros s6 H6.
  apply wp_bind. eapply hs_malloc; [exact H6|]. intros w s7 H7.
  match type of H7 with hs _ (?a :: (?x, ?b) :: ?R) _ => assert (H8 : hs F ((x, b) :: a :: R) s7) by (eapply hs_perm; [|exact H7]; perm) end.
  apply wp_bind. eapply hs_store; [exact H8|cbn; lia|]. cbn [set_nth]. intros s9 H9.
  match type of H9 with hs _ (?a :: (?x, ?b) :: ?R) _ => assert (H10 : hs F ((x, b) :: a :: R) s9) by (eapply hs_perm; [|exact H9]; perm) end.
  apply wp_bind. eapply hs_memcpy; [exact H10|right; exact I|rewrite repeat_length; reflexivity|rewrite map_length; exact E|].
  intros s11 H11. apply wp_ret. apply (HQ l w). eapply hs_perm; [|subst n; exact H11]. apply perm_swap.
Qed.

(** ** Arrays of leaks *)
Lemma leakb_app ls ls' (ds ds' : list (leak_data T)) : List.length ls = List.length ds -> leakb (ls ++ ls') (ds ++ ds') = leakb ls ds ++ leakb ls' ds'.
Proof. revert ds. induction ls as [|lw ls IH]; intros [|d ds] E; cbn in *; try discriminate; auto. injection E as E. now rewrite IH. Qed.
Lemma lks_nil X ls : lks X ls (@nil (leak_data T)) = [].
Proof. reflexivity. Qed.
Lemma lks_some X ls (ds : list (leak_data T)) d : lks X ls (ds ++ [d]) = (X, arrb ls) :: leakb ls (ds ++ [d]).
Proof. destruct ds; reflexivity. Qed.

Lemma hs_grow F R s X ls (ds : list (leak_data T)) k (Q : ptr -> st T -> Prop) : hs F (lks X ls ds ++ R) s -> List.length ls = List.length ds ->
  (forall X' s', hs F ((X', arrb ls ++ repeat Vundef k) :: leakb ls ds ++ R) s' -> Q (Some X') s') ->
  wp (realloc (lkp X ds) (List.length ds + k)) Q s.
Proof.
  intros H E HQ. destruct ds as [|d ds].
  - destruct ls; [|discriminate]. cbn [lkp realloc List.length Nat.add]. eapply hs_malloc; [exact H|]. intros l s' H'. apply HQ. exact H'.
  - cbn [lkp lks app] in *. unfold wp, realloc. rewrite (hs_in _ _ _ _ _ H (or_introl eq_refl)).
    change (wp (bind (alloc (firstn (List.length (d :: ds) + k) (arrb ls ++ repeat Vundef (List.length (d :: ds) + k))))
      (fun q => match q with Some _ => bind (free (Some X)) (fun _ => ret q) | None => ret NULL end)) Q s).
    assert (El : List.length (@arrb T ls) = List.length (d :: ds)) by (unfold arrb; rewrite map_length; exact E).
    rewrite <- El. rewrite firstn_app, firstn_all2 by lia. replace (List.length (@arrb T ls) + k - List.length (@arrb T ls)) with k by lia.
    replace (firstn k (repeat Vundef (List.length (@arrb T ls) + k))) with (@repeat (val T) Vundef k)
      by (rewrite Nat.add_comm, repeat_app, firstn_app, repeat_length, Nat.sub_diag, firstn_O, app_nil_r, firstn_all2; [reflexivity|rewrite repeat_length; lia]).
    apply wp_bind. eapply hs_alloc; [exact H|]. intros X' s1 H1. apply wp_bind.
    match type of H1 with hs _ (?a :: (?x, ?b) :: ?R) _ => assert (H2 : hs F ((x, b) :: a :: R) s1) by (eapply hs_perm; [|exact H1]; perm) end.
    eapply hs_free; [exact H2|]. intros s3 H3. apply wp_ret. apply HQ. exact H3.
Qed.

Lemma arrb_length ls : List.length (@arrb T ls) = List.length ls.
Proof. apply map_length. Qed.
Lemma arrb_set ls l w k : set_nth (@arrb T ls ++ repeat Vundef (S k)) (List.length ls) (Vptr (Some l)) = arrb (ls ++ [(l, w)]) ++ repeat Vundef k.
Proof.
  cbn [repeat]. rewrite <- (arrb_length ls), set_nth_app. unfold arrb. rewrite map_app, <- app_assoc. reflexivity.
Qed.

Lemma hs_top {F : loc -> option (@block T)} {L s} x L1 : hs F L s -> Permutation L (x :: L1) -> hs F (x :: L1) s.
Proof. intros H P. eapply hs_perm; eauto. Qed.

Definition xk (K : keys) X ls : keys := {| kE := kE K; kW := kW K; kA := kA K; kS := kS K; kX := X; kxl := ls; kI := kI K; kil := kil K |}.
Definition ik (K : keys) I ls : keys := {| kE := kE K; kW := kW K; kA := kA K; kS := kS K; kX := kX K; kxl := kxl K; kI := I; kil := ls |}.

Lemma zlen_snoc {A} (l : list A) a : zlen (l ++ [a]) = (zlen l + 1)%Z.
Proof. unfold zlen. rewrite app_length. cbn. lia. Qed.
Lemma zlen_app {A} (l l' : list A) : zlen (l ++ l') = (zlen l + zlen l')%Z.
Proof. unfold zlen. rewrite app_length. lia. Qed.
Lemma lkp_snoc X (ds : list (leak_data T)) d : lkp X (ds ++ [d]) = Some X.
Proof. destruct ds; reflexivity. Qed.
Lemma to_nat_snoc {A} (l : list A) : Z.to_nat (zlen l + 1) = List.length l + 1.
Proof. unfold zlen. lia. Qed.

Lemma wp_push_ext F R s p d src K ph lw (ws : list T) c dd ev nr err e (Q : option (bool * slot) -> st T -> Prop) : fit ph -> kok K ph ->
  hs F (flyb p d src K ph ++ R) s -> In (lw, List.map Vdbl ws) ((kW K, List.map Vdbl (ph_w ph)) :: R) -> List.length ws = List.length (ph_en ph) ->
  (forall K' s', kok K' (add_ext [mkLeak c dd ev nr ws] ph) -> kE K' = kE K -> kW K' = kW K ->
     hs F (flyb p d src K' (add_ext [mkLeak c dd ev nr ws] ph) ++ R) s' -> Q (Some (true, e)) s') ->
  wp (push_leak F_EXTLEAK F_NEXT (Some p) c dd ev nr (Some lw) err e) Q s.
Proof.
  intros Ft [Kx Ki] H I El HQ. unfold push_leak, flyb in *. cbn [app] in H.
  apply wp_bindF, wp_inM. eapply hs_load_int; [exact H|left; reflexivity|reflexivity|].
  apply wp_bindF, wp_inM. eapply hs_store; [exact H|cbn; lia|]. intros s1 H1.
  apply wp_bindF, wp_inM. eapply hs_load_ptr; [exact H1|left; reflexivity|reflexivity|]. rewrite to_nat_snoc.
  apply wp_bindF, wp_inM. match type of H1 with hs _ (?a :: ?b :: ?c :: _) _ =>
    eapply (hs_grow F (a :: b :: c :: csb K ph ++ lks (kI K) (kil K) (ph_int ph) ++ R) s1 (kX K) (kxl K) (ph_ext ph)); [eapply hs_perm; [|exact H1]; unfold leaksb; perm|exact Kx|] end.
  intros X s2 H2.
  apply wp_bindF, wp_inM. match type of H2 with hs _ (?x :: ?y ++ ?a :: ?R) _ => pose proof (hs_top a (x :: y ++ R) H2 ltac:(perm)) as H3 end.
  eapply hs_store; [exact H3|cbn; lia|]. intros s4 H4.
  apply wp_bindF, wp_inM. eapply hs_load_int; [exact H4|left; reflexivity|reflexivity|]. rewrite zlen_nat.
  apply wp_bindF, wp_inM. eapply (hs_leak_new _ _ s4 lw ws); [exact H4| |auto|].
  { destruct I as [I|I]; [rewrite <- I|]; cbn [In]; rewrite !in_app_iff; cbn [In]; rewrite ?in_app_iff; tauto. }
  intros l w s5 H5.
  apply wp_bindF, wp_inM. rewrite zlen_nat, <- Kx. match type of H5 with hs _ (?x :: ?y :: ?p :: ?a :: ?R) _ => pose proof (hs_top a (x :: y :: p :: R) H5 ltac:(perm)) as H6 end.
  eapply hs_store; [exact H6|rewrite app_length, arrb_length; cbn; lia|]. rewrite (arrb_set (kxl K) l w 0). cbn [repeat]. rewrite app_nil_r. intros s7 H7.
  apply wp_retF. apply (HQ (xk K X (kxl K ++ [(l, w)]))); [|reflexivity|reflexivity|].
  { split; cbn [kxl kil xk add_ext ph_ext ph_int]; rewrite ?app_length; cbn; lia. }
  eapply hs_perm; [|exact H7]. unfold flyb, pblock, leaksb, csb. cbn [xk kE kW kA kS kX kxl kI kil add_ext ph_start ph_sdir ph_selec ph_exit ph_edir ph_eelec ph_en ph_w ph_amu ph_scatf ph_irefl ph_dtravel ph_ext ph_int].
  rewrite zlen_snoc, lkp_snoc, lks_some, leakb_app by exact Kx. cbn [leakb fst snd lk_weights set_nth app photon_block vcells]. perm.
Qed.

Lemma wp_push_int F R s p d src K ph lw (ws : list T) c dd ev nr err e (Q : option (bool * slot) -> st T -> Prop) : fit ph -> kok K ph ->
  hs F (flyb p d src K ph ++ R) s -> In (lw, List.map Vdbl ws) ((kW K, List.map Vdbl (ph_w ph)) :: R) -> List.length ws = List.length (ph_en ph) ->
  (forall K' s', kok K' (add_int [mkLeak c dd ev nr ws] ph) -> kE K' = kE K -> kW K' = kW K ->
     hs F (flyb p d src K' (add_int [mkLeak c dd ev nr ws] ph) ++ R) s' -> Q (Some (true, e)) s') ->
  wp (push_leak F_INTLEAK F_NINT (Some p) c dd ev nr (Some lw) err e) Q s.
Proof.
  intros Ft [Kx Ki] H I El HQ. unfold push_leak, flyb in *. cbn [app] in H.
  apply wp_bindF, wp_inM. eapply hs_load_int; [exact H|left; reflexivity|reflexivity|].
  apply wp_bindF, wp_inM. eapply hs_store; [exact H|cbn; lia|]. intros s1 H1.
  apply wp_bindF, wp_inM. eapply hs_load_ptr; [exact H1|left; reflexivity|reflexivity|]. rewrite to_nat_snoc.
  apply wp_bindF, wp_inM. match type of H1 with hs _ (?a :: ?b :: ?c :: _) _ =>
    eapply (hs_grow F (a :: b :: c :: csb K ph ++ lks (kX K) (kxl K) (ph_ext ph) ++ R) s1 (kI K) (kil K) (ph_int ph)); [eapply hs_perm; [|exact H1]; unfold leaksb; perm|exact Ki|] end.
  intros X s2 H2.
  apply wp_bindF, wp_inM. match type of H2 with hs _ (?x :: ?y ++ ?a :: ?R) _ => pose proof (hs_top a (x :: y ++ R) H2 ltac:(perm)) as H3 end.
  eapply hs_store; [exact H3|cbn; lia|]. intros s4 H4.
  apply wp_bindF, wp_inM. eapply hs_load_int; [exact H4|left; reflexivity|reflexivity|]. rewrite zlen_nat.
  apply wp_bindF, wp_inM. eapply (hs_leak_new _ _ s4 lw ws); [exact H4| |auto|].
  { destruct I as [I|I]; [rewrite <- I|]; cbn [In]; rewrite !in_app_iff; cbn [In]; rewrite ?in_app_iff; tauto. }
  intros l w s5 H5.
  apply wp_bindF, wp_inM. rewrite zlen_nat, <- Ki. match type of H5 with hs _ (?x :: ?y :: ?p :: ?a :: ?R) _ => pose proof (hs_top a (x :: y :: p :: R) H5 ltac:(perm)) as H6 end.
  eapply hs_store; [exact H6|rewrite app_length, arrb_length; cbn; lia|]. rewrite (arrb_set (kil K) l w 0). cbn [repeat]. rewrite app_nil_r. intros s7 H7.
  apply wp_retF. apply (HQ (ik K X (kil K ++ [(l, w)]))); [|reflexivity|reflexivity|].
  { split; cbn [kxl kil ik add_int ph_ext ph_int]; rewrite ?app_length; cbn; lia. }
  eapply hs_perm; [|exact H7]. unfold flyb, pblock, leaksb, csb. cbn [ik kE kW kA kS kX kxl kI kil add_int ph_start ph_sdir ph_selec ph_exit ph_edir ph_eelec ph_en ph_w ph_amu ph_scatf ph_irefl ph_dtravel ph_ext ph_int].
  rewrite zlen_snoc, lkp_snoc, lks_some, leakb_app by exact Ki. cbn [leakb fst snd lk_weights set_nth app photon_block vcells]. perm.
Qed.

End Heap.
