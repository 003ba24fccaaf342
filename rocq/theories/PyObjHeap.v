(** * Constructors and destructors on a list of owned blocks *)
From Coq Require Import ZArith List Bool Lia String Permutation.
From Verif Require Import Num Mem SpecHeap HeapLib ErrorModel ProfileModel ProfileProofs Geometry ConsModel CapilModel DescProofs SrcProofs SepLib
  FlightRep FlightHeap FlightHeap2 FlightLaunch FlightLaunch2 PyModel PyResProofs PyResInv.
Import ListNotations.
Local Notation ret := Mem.ret.
Local Notation bind := Mem.bind.

Section Heap.
Context {T : Type} {N : Num T}.
Local Notation blocks := (list (loc * @block T)).
Implicit Types (s : st T) (F : loc -> option (@block T)).

(** ** The error variable: clean, or holding an INVALID_ARGUMENT error *)
Inductive slot (le : loc) : bool -> blocks -> Prop :=
| slot_clean : slot le false [(le, [Vptr NULL])]
| slot_error o t m : slot le true [(le, [Vptr (Some o)]); (o, [Vint POLYCAP_ERROR_INVALID_ARGUMENT; Vptr (Some t)]); (t, [Vstr m])].

Lemma hs_report F le b EB R m (Q : unit -> st T -> Prop) s : slot le b EB -> hs F (EB ++ R) s ->
  (forall EB' s', slot le true EB' -> hs F (EB' ++ R) s' -> Q tt s') ->
  wp (set_error_literal (Some le) POLYCAP_ERROR_INVALID_ARGUMENT (Some m)) Q s.
Proof.
  intros S H HQ. destruct S as [|o t m0].
  - eapply hs_first_error; [exact H|]. intros o t s' H'. eapply HQ; [apply (slot_error le o t m)|exact H'].
  - unfold set_error_literal. apply wp_bind. eapply hs_load_ptr; [exact H|left; reflexivity|reflexivity|]. apply wp_ret.
    eapply HQ; [apply (slot_error le o t m0)|exact H].
Qed.
Lemma hs_clear F le b EB R (Q : unit -> st T -> Prop) s : slot le b EB -> hs F (EB ++ R) s ->
  (forall s', hs F ((le, [Vptr NULL]) :: R) s' -> Q tt s') -> wp (clear_error (Some le)) Q s.
Proof.
  intros S H HQ. unfold clear_error. destruct S as [|o t m0]; cbn [app] in H.
  - apply wp_bind. eapply hs_load_ptr; [exact H|left; reflexivity|reflexivity|]. apply wp_ret. apply HQ. exact H.
  - apply wp_bind. eapply hs_load_ptr; [exact H|left; reflexivity|reflexivity|]. apply wp_bind. unfold error_free.
    apply wp_bind. eapply hs_load_ptr; [exact H|right; left; reflexivity|reflexivity|]. apply wp_bind.
    pull t H. eapply hs_free; [exact H|]. clear H s. intros s H. pull o H. eapply hs_free; [exact H|]. clear H s. intros s H.
    eapply hs_store; [exact H|cbn; lia|]. cbn [set_nth]. exact HQ.
Qed.

(** ** Writing a whole block *)
Lemma hs_put F l b b' (R : blocks) s : hs F ((l, b) :: R) s -> hs F ((l, b') :: R) (setmem s (upd (mem s) l (Some b'))).
Proof.
  intros (W & A & ND & H1 & H2 & H3). pose proof (H1 l b (or_introl eq_refl)) as El. cbn [map fst] in *. inversion ND; subst.
  split; [|split; [|split; [|split; [|split]]]]; cbn [map fst]; unfold setmem; cbn [mem nxt orc cnt].
  - intros x Hx. cbn [mem nxt] in *. rewrite upd_other; [apply W; auto|]. intros ->. rewrite W in El by auto. discriminate.
  - exact A.
  - auto.
  - intros x c [Ex|J].
    + injection Ex as <- <-. apply upd_same.
    + rewrite upd_other; [apply H1; cbn; auto|]. intros ->. apply H4. apply in_map_iff. exists (l, c). auto.
  - intros x J. rewrite upd_other by (intros ->; apply J; cbn; auto). apply H2. auto.
  - auto.
Qed.
Lemma hs_distinct F (R : blocks) s : hs F R s -> NoDup (map fst R).
Proof. intros H. apply H. Qed.
Lemma hs_fresh_in F l b (R : blocks) s l' b' : hs F ((l, b) :: R) s -> In (l', b') R -> l' <> l.
Proof. intros H I ->. apply hs_distinct in H. cbn in H. inversion H; subst. apply H2. apply in_map_iff. exists (l, b'). auto. Qed.

Lemma hs_copy_elems F diz dwi liz lwi izs wis n (R : blocks) (Q : unit -> st T -> Prop) s :
  n = List.length izs -> n = List.length wis ->
  hs F ((diz, repeat Vundef n) :: (dwi, repeat Vundef n) :: R) s -> In (liz, List.map Vint izs) R -> In (lwi, List.map Vdbl wis) R ->
  (forall s', hs F ((diz, List.map Vint izs) :: (dwi, List.map Vdbl wis) :: R) s' -> Q tt s') ->
  wp (for_n n 0 (copy_elem (Some diz) (Some dwi) (Some liz) (Some lwi))) Q s.
Proof.
  intros E1 E2 H I1 I2 HQ. pose proof (hs_distinct _ _ _ H) as ND. cbn in ND. inversion ND as [|? ? X1 ND1]; subst. inversion ND1 as [|? ? X2 _]; subst.
  assert (J1 := hs_fresh_in _ _ _ _ _ _ _ H (or_intror I1)). assert (J2 := hs_fresh_in _ _ _ _ _ _ _ H (or_intror I2)).
  assert (H' := H). pull dwi H'.
  assert (J3 := hs_fresh_in _ _ _ _ _ _ _ H' (or_intror I1)). assert (J4 := hs_fresh_in _ _ _ _ _ _ _ H' (or_intror I2)).
  eapply (wp_copy_elems diz dwi liz lwi izs wis).
  - reflexivity.
  - exact E2.
  - intros ->. apply X1. left. reflexivity.
  - exact J1.
  - exact J3.
  - exact J2.
  - exact J4.
  - eapply hs_in; [exact H|left; reflexivity].
  - eapply hs_in; [exact H|right; left; reflexivity].
  - eapply hs_in; [exact H|right; right; exact I1].
  - eapply hs_in; [exact H|right; right; exact I2].
  - apply HQ. pose proof (hs_put _ _ _ (List.map Vint izs) _ _ H) as K. pull dwi K. apply (hs_put _ _ _ (List.map Vdbl wis)) in K. pull diz K. exact K.
Qed.

Lemma hs_copy_points F qz qc qe lz lc le zs cs es n (R : blocks) (Q : unit -> st T -> Prop) s :
  n = List.length zs -> n = List.length cs -> n = List.length es ->
  hs F ((qz, repeat Vundef n) :: (qc, repeat Vundef n) :: (qe, repeat Vundef n) :: R) s ->
  In (lz, List.map Vdbl zs) R -> In (lc, List.map Vdbl cs) R -> In (le, List.map Vdbl es) R ->
  (forall s', hs F ((qz, List.map Vdbl zs) :: (qc, List.map Vdbl cs) :: (qe, List.map Vdbl es) :: R) s' -> Q tt s') ->
  wp (for_n n 0 (copy_point (Some qz) (Some qc) (Some qe) (Some lz) (Some lc) (Some le))) Q s.
Proof.
  intros E1 E2 E3 H I1 I2 I3 HQ. pose proof (hs_distinct _ _ _ H) as ND. cbn [map fst] in ND.
  assert (D : forall l b, In (l, b) R -> ~ In l [qz; qc; qe]).
  { intros l b I K. assert (Il : In l (map fst R)) by (apply in_map_iff; exists (l, b); auto). change (NoDup ([qz; qc; qe] ++ map fst R)) in ND.
    apply nodup_app_inv in ND. destruct ND as (_ & _ & D). exact (D _ K Il). }
  assert (ND3 : NoDup [qz; qc; qe]) by (change (NoDup ([qz; qc; qe] ++ map fst R)) in ND; apply nodup_app_inv in ND; apply ND).
  eapply (wp_copy_points qz qc qe lz lc le zs cs es); auto.
  - intros l [<-|[<-|[<-|[]]]]; eapply D; eauto.
  - eapply hs_in; [exact H|left; reflexivity].
  - eapply hs_in; [exact H|right; left; reflexivity].
  - eapply hs_in; [exact H|right; right; left; reflexivity].
  - eapply hs_in; [exact H|do 3 right; exact I1].
  - eapply hs_in; [exact H|do 3 right; exact I2].
  - eapply hs_in; [exact H|do 3 right; exact I3].
  - apply HQ. pose proof (hs_put _ _ _ (List.map Vdbl zs) _ _ H) as K. pull qc K. apply (hs_put _ _ _ (List.map Vdbl cs)) in K. pull qe K.
    apply (hs_put _ _ _ (List.map Vdbl es)) in K. pull qc K. pull qz K. exact K.
Qed.

(** ** The weight check *)
Lemma hs_percent F le l : forall rest n pre a b EB (R : blocks) (Q : option T -> st T -> Prop) s,
  n = List.length rest -> slot le b EB -> hs F ((l, List.map Vdbl (pre ++ rest)) :: EB ++ R) s ->
  (forall r o s', percent rest a = (r, Some o) -> hs F ((l, List.map Vdbl (pre ++ r)) :: EB ++ R) s' -> Q (Some o) s') ->
  (forall r EB' s', percent rest a = (r, None) -> slot le true EB' -> hs F ((l, List.map Vdbl (pre ++ r)) :: EB' ++ R) s' -> Q None s') ->
  wp (percent_loop n (List.length pre) (Some l) a (Some le)) Q s.
Proof.
  induction rest as [|x rest IH]; intros n pre a b EB R Q s -> Sl H HQ1 HQ2; cbn [List.length percent_loop].
  - apply wp_ret. eapply HQ1; [reflexivity|exact H].
  - assert (Hn : forall y, nth_error (List.map Vdbl (pre ++ y :: rest)) (List.length pre) = Some (Vdbl y)).
    { intros y. rewrite map_app, nth_error_app2; rewrite map_length; [|lia]. rewrite Nat.sub_diag. reflexivity. }
    set (y := (x / #100)%num) in *.
    assert (E1 : set_nth (List.map Vdbl (pre ++ x :: rest)) (List.length pre) (Vdbl y) = List.map Vdbl (pre ++ y :: rest)).
    { rewrite !map_app. cbn [List.map]. rewrite <- (map_length (@Vdbl T) pre). apply set_nth_app. }
    apply wp_bind. eapply hs_load_dbl; [exact H|left; reflexivity|apply Hn|].
    apply wp_bind. eapply hs_store; [exact H|rewrite map_length, app_length; cbn; lia|]. fold y. rewrite E1. clear H s. intros s H.
    apply wp_bind. eapply hs_load_dbl; [exact H|left; reflexivity|apply Hn|].
    cbn [percent] in HQ1, HQ2. fold y in HQ1, HQ2. destruct (nltb y (#0)%num) eqn:Ey.
    + apply wp_bind. eapply (hs_report F le b EB ((l, List.map Vdbl (pre ++ y :: rest)) :: R)); [exact Sl|eapply hs_perm; [|exact H]; perm|].
      intros EB' s' S' H'. apply wp_ret. eapply HQ2; [reflexivity|exact S'|eapply hs_perm; [|exact H']; perm].
    + replace (S (List.length pre)) with (List.length (pre ++ [y])) by (rewrite app_length; cbn; lia).
      eapply (IH _ (pre ++ [y]) (a + y)%num b EB R); [reflexivity|exact Sl|rewrite <- app_assoc; exact H| |].
      * intros r o s' Er H'. rewrite <- app_assoc in H'. destruct (percent rest (a + y)%num) as [r' o'] eqn:E2. injection Er as -> ->. eapply HQ1; [reflexivity|exact H'].
      * intros r EB' s' Er S' H'. rewrite <- app_assoc in H'. destruct (percent rest (a + y)%num) as [r' o'] eqn:E2. injection Er as -> ->. eapply HQ2; [reflexivity|exact S'|exact H'].
Qed.
Lemma hs_check_weight F le l ws (R : blocks) (Q : unit -> st T -> Prop) s :
  hs F ((l, List.map Vdbl ws) :: (le, [Vptr NULL]) :: R) s ->
  (forall EB s', slot le (negb (snd (norm_weights ws))) EB -> hs F ((l, List.map Vdbl (fst (norm_weights ws))) :: EB ++ R) s' -> Q tt s') ->
  wp (check_weight (List.length ws) (Some l) (Some le)) Q s.
Proof.
  intros H HQ. unfold check_weight. apply wp_bind.
  apply (wp_sum_loop l ws (List.length ws) [] ws); auto; [eapply hs_in; [exact H|left; reflexivity]|]. fold (sum_of ws).
  apply wp_bind. unfold norm_weights in *. destruct (nltb (#1)%num (sum_of ws)) eqn:E1.
  - apply (hs_percent F le l ws (List.length ws) [] _ false [(le, [Vptr NULL])] R); [reflexivity|constructor|exact H| |].
    + intros r o s' Er H'. rewrite Er in HQ. cbn [fst snd app] in *. destruct (neqb o (#1)%num) eqn:Eo; cbn [negb] in HQ.
      * apply wp_ret. eapply HQ; [apply slot_clean|exact H'].
      * eapply (hs_report F le false [(le, [Vptr NULL])] ((l, List.map Vdbl r) :: R)); [constructor|eapply hs_perm; [|exact H']; perm|].
        intros EB s2 S2 H2. eapply HQ; [exact S2|eapply hs_perm; [|exact H2]; perm].
    + intros r EB s' Er S' H'. rewrite Er in HQ. cbn [fst snd app negb] in *. apply wp_ret. eapply HQ; [exact S'|exact H'].
  - apply wp_ret. cbn [fst snd] in *. destruct (neqb (sum_of ws) (#1)%num) eqn:Eo; cbn [negb] in HQ.
    + apply wp_ret. eapply HQ; [apply slot_clean|exact H].
    + eapply (hs_report F le false [(le, [Vptr NULL])] ((l, List.map Vdbl ws) :: R)); [constructor|eapply hs_perm; [|exact H]; perm|].
      intros EB s2 S2 H2. eapply HQ; [exact S2|eapply hs_perm; [|exact H2]; perm].
Qed.

(** ** Releasing objects *)
Definition profb (p lz lc le : loc) (a : profile T) : blocks :=
  [(p, [Vint (Z.of_nat (p_nmax a)); Vptr (Some lz); Vptr (Some lc); Vptr (Some le)]); (lz, List.map Vdbl (p_z a)); (lc, List.map Vdbl (p_cap a)); (le, List.map Vdbl (p_ext a))].

Lemma hs_profile_free F p lz lc le n (bz bc be : @block T) (R : blocks) (Q : unit -> st T -> Prop) s :
  hs F ((p, [n; Vptr (Some lz); Vptr (Some lc); Vptr (Some le)]) :: (lz, bz) :: (lc, bc) :: (le, be) :: R) s ->
  (forall s', hs F R s' -> Q tt s') -> wp (profile_free (Some p)) Q s.
Proof.
  intros H HQ. unfold profile_free, free_if.
  apply wp_bind. eapply hs_load_ptr; [exact H|left; reflexivity|reflexivity|]. apply wp_bind. pull lz H. eapply hs_free; [exact H|]. clear H s. intros s H.
  apply wp_bind. eapply hs_load_ptr; [exact H|left; reflexivity|reflexivity|]. apply wp_bind. pull lc H. eapply hs_free; [exact H|]. clear H s. intros s H.
  apply wp_bind. eapply hs_load_ptr; [exact H|left; reflexivity|reflexivity|]. apply wp_bind. pull le H. eapply hs_free; [exact H|]. clear H s. intros s H.
  eapply hs_free; [exact H|]. exact HQ.
Qed.
Lemma hs_description_free F d liz lwi lp lz lc le open (o : optic T) (R : blocks) (Q : unit -> st T -> Prop) s :
  hs F (descb d liz lwi lp lz lc le open o ++ R) s -> (forall s', hs F R s' -> Q tt s') -> wp (description_free (Some d)) Q s.
Proof.
  intros H HQ. unfold description_free, free_if. unfold descb in H. cbn [app] in H.
  apply wp_bind. eapply hs_load_ptr; [exact H|left; reflexivity|reflexivity|]. apply wp_bind.
  pull le H. pull lc H. pull lz H. pull lp H. eapply (hs_profile_free F lp lz lc le); [exact H|].
  clear H s. intros s H.
  apply wp_bind. eapply hs_load_ptr; [exact H|left; reflexivity|reflexivity|]. apply wp_bind. pull liz H. eapply hs_free; [exact H|]. clear H s. intros s H.
  apply wp_bind. eapply hs_load_ptr; [exact H|left; reflexivity|reflexivity|]. apply wp_bind. pull lwi H. eapply hs_free; [exact H|]. clear H s. intros s H.
  eapply hs_free; [exact H|]. exact HQ.
Qed.
Definition srcb (p len lr lg d : loc) (nums ens : list T) (bg : @block T) : blocks :=
  [(p, Vptr (Some d) :: Vptr (Some lr) :: List.map Vdbl nums ++ [Vint (Z.of_nat (List.length ens)); Vptr (Some len)]);
   (len, List.map Vdbl ens); (lr, [Vptr (Some lg)]); (lg, bg)].
Lemma hs_source_free F p len lr lg d nums ens bg liz lwi lp lz lc le open (o : optic T) (R : blocks) (Q : unit -> st T -> Prop) s :
  List.length nums = 8 ->
  hs F (srcb p len lr lg d nums ens bg ++ descb d liz lwi lp lz lc le open o ++ R) s -> (forall s', hs F R s' -> Q tt s') -> wp (source_free (Some p)) Q s.
Proof.
  intros L8 H HQ. destruct nums as [|n0 [|n1 [|n2 [|n3 [|n4 [|n5 [|n6 [|n7 [|]]]]]]]]]; try discriminate L8.
  unfold source_free, free_if, rng_free. set (D := descb _ _ _ _ _ _ _ _ _) in H. unfold srcb in H. cbn [app List.map] in H.
  apply wp_bind. eapply hs_load_ptr; [exact H|left; reflexivity|reflexivity|]. apply wp_bind.
  match type of H with hs _ (?a :: ?b :: ?c :: ?e :: D ++ R) _ => eapply (hs_description_free F d liz lwi lp lz lc le open o (a :: b :: c :: e :: R)); [eapply hs_perm; [|exact H]; fold D; perm|] end.
  clear H s D. intros s H.
  apply wp_bind. eapply hs_load_ptr; [exact H|left; reflexivity|reflexivity|]. apply wp_bind.
  apply wp_bind. pull lr H. eapply hs_load_ptr; [exact H|left; reflexivity|reflexivity|]. apply wp_bind. pull lg H. eapply hs_free; [exact H|]. clear H s. intros s H.
  eapply hs_free; [exact H|]. clear H s. intros s H.
  apply wp_bind. eapply hs_load_ptr; [exact H|left; reflexivity|reflexivity|]. apply wp_bind. pull len H. eapply hs_free; [exact H|]. clear H s. intros s H.
  eapply hs_free; [exact H|]. exact HQ.
Qed.

End Heap.
