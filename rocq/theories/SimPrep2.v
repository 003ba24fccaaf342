(** * The preparation of a simulation, step by step *)
From Coq Require Import ZArith List Bool Lia String.
From Verif Require Import Num Mem SpecHeap ErrorModel ErrorProofs ProfileModel ProfileProofs Geometry SpecPhoton ConsModel HeapLib SpecResult ResultModel
  ResultProofs H5Model H5Table CapilModel RunModel SrcProofs SimModel SimHeap SimStep SpecSim SimPrep.
Import ListNotations.

Section Prep2.
Context {T : Type} {N : Num T}.
Implicit Types (s : st T) (L : nat -> loc) (C : nat -> list (val T)) (ids : list nat).
Variables (s0 : st T) (src : loc) (n ne mt : nat) (err : eslot).
Hypothesis Hlegal : legal_err s0 err.
Hypothesis Hfit : reports_fit err s0.

Local Notation plen := (len n ne mt (shared0 ne)).
Local Notation fcell := (cell src ne [] _ (shared0 ne)).

Lemma ha_alloc len' cl ids L s k b (Q : ptr -> st T -> Prop) :
  hp s0 ids L (arr len' cl) s -> ~ In k ids -> List.length b = len' k ->
  (forall l s', cnt s' = S (cnt s) -> hp s0 (k :: ids) (ov L k l) (arr len' (fun k' i => if Nat.eqb k' k then nth i b Vundef else cl k' i)) s' -> Q (Some l) s') ->
  (orc s0 (cnt s) = false -> forall s', cnt s' = S (cnt s) -> hp s0 ids L (arr len' cl) s' -> Q NULL s') ->
  wp (alloc b) Q s.
Proof.
  intros H Hk Lb H1 H2. eapply hp_alloc; [exact H|exact Hk| |exact H2].
  intros _ l s' Ec H'. apply (H1 l s' Ec). eapply hp_ext; [|exact H']. intros j _. unfold ov. destruct (Nat.eqb_spec j k) as [->|Ne].
  - unfold arr. rewrite Nat.eqb_refl. apply nth_error_ext. intros i. destruct (Nat.lt_ge_cases i (len' k)) as [A|A].
    + rewrite nth_map_seq by auto. symmetry. apply nth_error_nth'. lia.
    + rewrite (proj2 (nth_error_None _ _)) by (rewrite map_length, seq_length; auto). symmetry. apply nth_error_None. lia.
  - unfold arr. apply map_ext. intros i. apply Nat.eqb_neq in Ne. now rewrite Ne.
Qed.

Lemma nth_rep (m i : nat) : nth i (repeat (@Vundef T) m) Vundef = Vundef.
Proof. revert i; induction m; intros [|i]; cbn; auto. Qed.

Lemma ha_malloc len' cl ids L s k m (Q : ptr -> st T -> Prop) :
  hp s0 ids L (arr len' cl) s -> ~ In k ids -> m = len' k ->
  (forall l s', cnt s' = S (cnt s) -> hp s0 (k :: ids) (ov L k l) (arr len' (fun k' i => if Nat.eqb k' k then Vundef else cl k' i)) s' -> Q (Some l) s') ->
  (orc s0 (cnt s) = false -> forall s', cnt s' = S (cnt s) -> hp s0 ids L (arr len' cl) s' -> Q NULL s') ->
  wp (malloc m) Q s.
Proof.
  intros H Hk Lb H1 H2. unfold malloc. eapply ha_alloc; [exact H|exact Hk|rewrite repeat_length; exact Lb| |exact H2].
  intros l s' Ec H'. apply (H1 l s' Ec). eapply ha_ext; [| |exact H']; [reflexivity|]. intros k' i _ _. cbn. rewrite nth_rep. reflexivity.
Qed.

Lemma store_cnt (p : ptr) i v (Q : unit -> st T -> Prop) s c : cnt s = c ->
  wp (store p i v) (fun u s' => cnt s' = c -> Q u s') s -> wp (store p i v) Q s.
Proof.
  intros E H. unfold wp in *. destruct (store p i v s) as [[u s']|] eqn:K; [|exact H]. apply H.
  apply store_orc in K. destruct K. congruence.
Qed.

(** The clean-up of a preparation that made an object. *)
Definition cover ids : Prop := In 40 ids /\ In 41 ids /\ In 44 ids /\ (forall j, In j ids -> (In j image_fields \/ 40 <= j < 48)).
Lemma clean_up s0' ids L C s a b : hp s0' ids L C s -> cover ids ->
  C 44 = [a; Vptr (pid L ids 45); Vptr (pid L ids 46); Vptr (pid L ids 47); b] ->
  (In 47 ids -> forall f, In f image_fields -> nth_error (C 47) f = Some (Vptr (pid L ids f))) ->
  (forall f, In f image_fields -> In f ids -> In 47 ids) ->
  wp (efficiencies_free (Some (L 44)) ;;; free (Some (L 40)) ;;; ret (@None sim_vars))%mem
     (fun r s' => r = None /\ exists rest, List.length rest <= 3 /\ (rest = [] -> ids = []) /\ hp s0' rest L C s') s.
Proof.
  intros H (I40 & I41 & I44 & Cv) E F47 Sub. apply wp_bind. eapply eff_free_hp; eauto. clear s H. intros s ids' I' H.
  assert (Fld : forall f, In f image_fields -> 2 <= f < 38).
  { intros f Hf. unfold image_fields in Hf. repeat (destruct Hf as [<-|Hf]; [cbn; lia|]). destruct Hf. }
  apply wp_bind.
  assert (A40 : In 40 ids').
  { apply I'. split; [exact I40|]. cbn [In]. intros [X|[X|[X|[X|X]]]]; try discriminate. apply Fld in X. lia. }
  eapply (hp_free s0' ids' L C s 40 (remove Nat.eq_dec 40 ids')); [exact H|exact A40|apply remove_In| | |].
  - intros j Hj. apply in_remove_iff in Hj. tauto.
  - intros j Hj. destruct (Nat.eq_dec j 40); [auto|right; apply in_remove_iff; auto].
  - clear s H. intros s H. apply wp_ret. split; [reflexivity|].
    exists (filter (fun k => inb k ids') [41; 42; 43]). split.
    { cbn. repeat (destruct (inb _ ids')); cbn; lia. }
    split.
    { intros X. exfalso. assert (A41 : In 41 (filter (fun k => inb k ids') [41; 42; 43])).
      { apply filter_In. split; [cbn; auto|]. apply inb_spec, I'. split; [exact I41|].
        cbn [In]. intros [Y|[Y|[Y|[Y|Y]]]]; try discriminate. apply Fld in Y. lia. }
      rewrite X in A41. destruct A41. }
    eapply hp_ids; [|exact H]. intros k. rewrite in_remove_iff, filter_In. split.
    + intros (A & B). split; [|apply inb_spec; exact A]. apply I' in A. destruct A as (A & D). cbn [In] in D. apply Cv in A. destruct A as [A|A]; [tauto|].
      assert (k <> 44 /\ k <> 45 /\ k <> 46 /\ k <> 47) by (repeat split; intros ->; tauto). cbn. lia.
    + intros (A & B). apply inb_spec in B. split; [exact B|]. cbn in A. lia.
Qed.

(** Cells while the arrays of the images struct are being allocated: [G] are there. *)
Definition imc G L (i : nat) : val T :=
  if (Nat.ltb i 2 || Nat.eqb i 20 || Nat.eqb i 28)%bool then Vint 0 else Vptr (pid L G i).
Definition pcell G L (k i : nat) : val T :=
  if Nat.eqb k 44 then nth i [Vint 0; Vptr (Some (L 45)); Vptr (Some (L 46)); Vptr (Some (L 47)); Vptr NULL] Vundef else
  if Nat.eqb k 47 then imc G L i else if Nat.ltb k 20 then Vundef else cell src ne [] L (shared0 ne) k i.
Definition first_ids : list nat := [47; 46; 45; 44; 43; 42; 41; 40].
Definition pinv G L s : Prop := hp s0 (G ++ first_ids) L (arr plen (pcell G L)) s.

Lemma in_first k : In k first_ids <-> 40 <= k < 48.
Proof. unfold first_ids. cbn. lia. Qed.

Lemma pid_more L G k : k < 40 -> pid L (G ++ first_ids) k = pid L G k.
Proof.
  intros Lk. unfold pid. replace (inb k (G ++ first_ids)) with (inb k G); [reflexivity|]. unfold inb. rewrite existsb_app.
  replace (existsb (Nat.eqb k) first_ids) with false; [now rewrite orb_false_r|]. symmetry. apply (inb_false k first_ids). rewrite in_first. lia.
Qed.

Lemma image_field_lt f : In f image_fields -> 2 <= f < 38 /\ f <> 20 /\ f <> 28.
Proof. intros Hf. unfold image_fields in Hf. repeat (destruct Hf as [<-|Hf]; [cbn; lia|]). destruct Hf. Qed.

Lemma pinv_clean G L s s0' s1 : (forall j, In j G -> 2 <= j < 20) -> hp s0' (G ++ first_ids) L (arr plen (pcell G L)) s1 ->
  pinv G L s ->
  wp (efficiencies_free (Some (L 44)) ;;; free (Some (L 40)) ;;; ret (@None sim_vars))%mem
     (fun r s' => r = None /\ exists rest, List.length rest <= 3 /\ (rest = [] -> G ++ first_ids = []) /\ hp s0' rest L (arr plen (pcell G L)) s') s1.
Proof.
  intros HG H _.
  assert (P : forall k, 40 <= k < 48 -> pid L (G ++ first_ids) k = Some (L k)).
  { intros k Hk. unfold pid. replace (inb k (G ++ first_ids)) with true; [auto|]. symmetry. apply inb_spec, in_or_app. right. apply in_first. auto. }
  eapply clean_up; [exact H| | | |].
  - repeat split; try (apply in_or_app; right; apply in_first; lia). intros j Hj. apply in_app_or in Hj. destruct Hj as [Hj|Hj].
    + left. apply HG in Hj. assert (In j (seq 2 18)) as A by (apply in_seq; lia). revert A. unfold image_fields. cbn. intuition.
    + right. apply in_first, Hj.
  - rewrite !P by lia. reflexivity.
  - intros _ f Hf. apply image_field_lt in Hf. rewrite arr_nth by (cbn; lia). unfold pcell. cbn [Nat.eqb]. unfold imc.
    destruct (Nat.ltb_spec f 2); [lia|]. destruct (Nat.eqb_spec f 20); [lia|]. destruct (Nat.eqb_spec f 28); [lia|]. cbn [orb].
    rewrite pid_more by lia. reflexivity.
  - intros _ _ _. apply in_or_app. right. apply in_first. lia.
Qed.

Lemma pid_cons_other L G k l i : i <> k -> pid (ov L k l) (k :: G) i = pid L G i.
Proof.
  intros Ne. unfold pid, inb. cbn [existsb]. apply Nat.eqb_neq in Ne as E. rewrite E. cbn [orb].
  destruct (existsb _ G); [|reflexivity]. now rewrite ov_other.
Qed.

Lemma pcell_grow G L k l : 2 <= k < 20 -> ~ In k G -> (forall j, In j G -> 2 <= j < 20) -> forall k' i, In k' (k :: G ++ first_ids) -> i < plen k' ->
  pcell (k :: G) (ov L k l) k' i = putc (fun k' i => if Nat.eqb k' k then Vundef else pcell G L k' i) 47 k (Vptr (Some l)) k' i.
Proof.
  intros Hk Hn HG k' i Ik Hi. unfold putc. destruct (Nat.eqb_spec k' 47) as [->|N47]; cbn [andb].
  - destruct (Nat.eqb_spec i k) as [->|Ni].
    + unfold pcell. cbn [Nat.eqb]. unfold imc. destruct (Nat.ltb_spec k 2); [lia|]. destruct (Nat.eqb_spec k 20); [lia|]. destruct (Nat.eqb_spec k 28); [lia|].
      cbn [orb]. unfold pid, inb. cbn [existsb]. rewrite Nat.eqb_refl. cbn [orb]. now rewrite ov_same.
    + destruct (Nat.eqb_spec 47 k); [lia|]. unfold pcell. cbn [Nat.eqb]. unfold imc. destruct (_ || _)%bool; [reflexivity|]. now rewrite pid_cons_other.
  - destruct (Nat.eqb_spec k' k) as [->|Nk].
    + unfold pcell. destruct (Nat.eqb_spec k 44); [lia|]. destruct (Nat.eqb_spec k 47); [lia|]. destruct (Nat.ltb_spec k 20); [reflexivity|lia].
    + unfold pcell. destruct (Nat.eqb_spec k' 44) as [->|N44].
      { rewrite !ov_other by lia. reflexivity. }
      destruct (Nat.eqb_spec k' 47); [contradiction|]. destruct (Nat.ltb_spec k' 20); [reflexivity|].
      unfold cell. destruct (Nat.eqb_spec k' 44); [contradiction|].
      repeat match goal with |- context [if ?b then _ else _] => destruct b eqn:?; try reflexivity end.
      destruct Ik as [Ik|Ik]; [congruence|]. exfalso.
      repeat match goal with H : (_ <? _) = false |- _ => apply Nat.ltb_ge in H | H : (_ =? _) = false |- _ => apply Nat.eqb_neq in H end.
      apply in_app_or in Ik. destruct Ik as [Ik|Ik]; [apply HG in Ik|apply in_first in Ik]; lia.
Qed.

Lemma alloc_fields_ok fs : forall G L s (k : M T (option sim_vars)) (Q : option sim_vars -> st T -> Prop),
  pinv G L s -> NoDup (List.map fst fs) -> (forall i m, In (i, m) fs -> 2 <= i < 20 /\ m = plen i /\ ~ In i G) -> (forall j, In j G -> 2 <= j < 20) ->
  (forall L' s', (forall j, 40 <= j -> L' j = L j) -> pinv (rev (List.map fst fs) ++ G) L' s' -> wp k Q s') ->
  (forall s', gave_up err s0 s' -> Q None s') ->
  wp (alloc_fields (Some (L 47)) fs (Some (L 44)) (Some (L 40)) err k) Q s.
Proof.
  induction fs as [|(i & m) fs IH]; intros G L s k Q H Nd Hf HG HQ Hgo; cbn [alloc_fields].
  - apply (HQ L s); auto.
  - cbn [List.map fst] in Nd. inversion Nd as [|? ? Ni Nd']; subst. destruct (Hf i m) as (Hi & Hm & HiG); [cbn; auto|].
    unfold alloc_field. apply wp_bind.
    assert (NI : ~ In i (G ++ first_ids)) by (rewrite in_app_iff, in_first; intros [A|A]; [auto|lia]).
    eapply ha_malloc; [exact H|exact NI|exact Hm| |].
    + intros l s1 _ H1. apply wp_bind. rewrite <- (ov_other L i l 47) by lia.
      eapply (ha_store s0 (i :: G ++ first_ids) (ov L i l) plen _ s1 47 i); [exact H1|right; apply in_or_app; right; apply in_first; lia|cbn; lia|].
      intros s2 H2. 
      assert (H3 : pinv (i :: G) (ov L i l) s2).
      { unfold pinv. eapply ha_ext; [| |exact H2]; [reflexivity|]. intros k' j Ik Hj. apply pcell_grow; auto. }
      rewrite <- (ov_other L i l 44), <- (ov_other L i l 40) by lia.
      apply (IH (i :: G) (ov L i l) s2); auto.
      * intros i' m' Im. destruct (Hf i' m') as (A & B & D); [cbn; auto|]. repeat split; try lia. intros [<-|X]; [|auto].
        apply Ni. apply in_map_iff. exists (i, m'). auto.
      * intros j [<-|Hj]; auto.
      * intros L' s' EL HL. apply (HQ L' s'). { intros j Hj. rewrite EL by auto. apply ov_other. lia. }
        cbn [List.map fst rev]. rewrite <- app_assoc. exact HL.
    + intros Or s1 Ec H1. apply wp_bind. eapply (store_cnt _ _ _ _ _ _ Ec).
      eapply (ha_store s0 (G ++ first_ids) L plen _ s1 47 i); [exact H1|apply in_or_app; right; apply in_first; lia|cbn; lia|].
      intros s2 H2 Ec2.
      assert (H3 : pinv G L s2).
      { unfold pinv. eapply ha_ext; [| |exact H2]; [reflexivity|]. intros k' j Ik Hj. unfold putc.
        destruct (Nat.eqb_spec k' 47) as [->|]; cbn [andb]; [|reflexivity]. destruct (Nat.eqb_spec j i) as [->|]; [|reflexivity].
        unfold pcell. cbn [Nat.eqb]. unfold imc. destruct (Nat.ltb_spec i 2); [lia|]. destruct (Nat.eqb_spec i 20); [lia|]. destruct (Nat.eqb_spec i 28); [lia|].
        cbn [orb]. unfold pid. replace (inb i G) with false; [reflexivity|]. symmetry. apply inb_false, HiG. }
      eapply wp_give_up; [exact H3|exact Hlegal|exact Hfit|exact Or|exact Ec2|intros X; destruct G; discriminate X| |exact Hgo].
      intros s0' s3 H4. eapply pinv_clean; eauto.
Qed.

(** Lines 532-682. *)
Lemma prepare_result_ok L s desc (Q : option sim_vars -> st T -> Prop) :
  hp s0 [43; 42; 41; 40] L (arr plen (cell src ne [] L (shared0 ne))) s ->
  (forall L' s', in_memory s0 src n ne mt [] L' (shared0 ne) s' ->
     Q (Some (mkVars (Some src) desc mt (Some (L' 40)) (Some (L' 41)) (Some (L' 42)) (Some (L' 43)) (Some (L' 44)))) s') ->
  (forall s', gave_up err s0 s' -> Q None s') ->
  wp (prepare_result (Some src) desc mt n ne (Some (L 40)) (Some (L 41)) (Some (L 42)) (Some (L 43)) err) Q s.
Proof.
  intros H HQ Hgo. unfold prepare_result. apply wp_bind.
  eapply (ha_alloc _ _ _ _ _ 44); [exact H|cbn; intuition discriminate|reflexivity| |].
  2:{ intros Or s1 Ec H1. eapply wp_give_up; [exact H1|exact Hlegal|exact Hfit|exact Or|exact Ec|discriminate| |exact Hgo].
      intros s0' s2 H2. apply wp_bind. eapply (hp_free s0' _ L _ s2 40 [43; 42; 41]); [exact H2|cbn; tauto|cbn; lia| | |]; try (intros j; cbn; lia).
      intros s3 H3. apply wp_ret. split; [auto|]. exists [43; 42; 41]. split; [cbn; lia|]. split; [discriminate|exact H3]. }
  intros le s1 _ H1. unfold alloc_field at 1. apply wp_bind.
  eapply (ha_malloc _ _ _ _ _ 45); [exact H1|cbn; intuition discriminate|reflexivity| |].
  2:{ intros Or s2 Ec H2. apply wp_bind. eapply (store_cnt _ _ _ _ _ _ Ec).
      eapply (ha_store s0 _ (ov L 44 le) plen _ s2 44 1); [exact H2|cbn; tauto|cbn; lia|]. intros s3 H3 Ec3.
      eapply wp_give_up; [exact H3|exact Hlegal|exact Hfit|exact Or|exact Ec3|discriminate| |exact Hgo].
      intros s0' s4 H4. eapply (clean_up s0' _ (ov L 44 le)); [exact H4| |reflexivity| |].
      - repeat split; cbn; intuition lia.
      - cbn. intuition discriminate.
      - intros f Hf Hi. apply image_field_lt in Hf. cbn in Hi. lia. }
  intros l45 s2 _ H2. apply wp_bind.
  eapply (ha_store s0 _ (ov (ov L 44 le) 45 l45) plen _ s2 44 1); [exact H2|cbn; tauto|cbn; lia|]. clear s1 H1 s2 H2. intros s2 H2.
  unfold alloc_field at 1. apply wp_bind.
  eapply (ha_malloc _ _ _ _ _ 46); [exact H2|cbn; intuition discriminate|reflexivity| |].
  2:{ intros Or s3 Ec H3. apply wp_bind. eapply (store_cnt _ _ _ _ _ _ Ec).
      eapply (ha_store s0 _ (ov (ov L 44 le) 45 l45) plen _ s3 44 2); [exact H3|cbn; tauto|cbn; lia|]. intros s4 H4 Ec4.
      eapply wp_give_up; [exact H4|exact Hlegal|exact Hfit|exact Or|exact Ec4|discriminate| |exact Hgo].
      intros s0' s5 H5. eapply (clean_up s0' _ (ov (ov L 44 le) 45 l45)); [exact H5| |reflexivity| |].
      - repeat split; cbn; intuition lia.
      - cbn. intuition discriminate.
      - intros f Hf Hi. apply image_field_lt in Hf. cbn in Hi. lia. }
  intros l46 s3 _ H3. apply wp_bind.
  eapply (ha_store s0 _ (ov (ov (ov L 44 le) 45 l45) 46 l46) plen _ s3 44 2); [exact H3|cbn; tauto|cbn; lia|]. clear s2 H2 s3 H3. intros s3 H3.
  apply wp_bind. eapply (ha_alloc _ _ _ _ _ 47); [exact H3|cbn; intuition discriminate|reflexivity| |].
  2:{ intros Or s4 Ec H4. apply wp_bind. eapply (store_cnt _ _ _ _ _ _ Ec).
      eapply (ha_store s0 _ (ov (ov (ov L 44 le) 45 l45) 46 l46) plen _ s4 44 3); [exact H4|cbn; tauto|cbn; lia|]. intros s5 H5 Ec5.
      eapply wp_give_up; [exact H5|exact Hlegal|exact Hfit|exact Or|exact Ec5|discriminate| |exact Hgo].
      intros s0' s6 H6. eapply (clean_up s0' _ (ov (ov (ov L 44 le) 45 l45) 46 l46)); [exact H6| |reflexivity| |].
      - repeat split; cbn; intuition lia.
      - cbn. intuition discriminate.
      - intros f Hf Hi. apply image_field_lt in Hf. cbn in Hi. lia. }
  intros l47 s4 _ H4. apply wp_bind.
  set (L4 := ov (ov (ov (ov L 44 le) 45 l45) 46 l46) 47 l47) in *.
  eapply (ha_store s0 _ L4 plen _ s4 44 3); [exact H4|cbn; tauto|cbn; lia|]. clear s3 H3 s4 H4. intros s4 H4.
  assert (P0 : pinv [] L4 s4).
  { unfold pinv. cbn [app]. eapply ha_ext; [| |exact H4]; [reflexivity|]. intros k i Ik Hi. unfold first_ids in Ik.
    repeat (destruct Ik as [<-|Ik]; [try reflexivity; try (cbn in Hi; do 5 (destruct i as [|i]; [reflexivity|]); lia)|]); [|destruct Ik].
    cbn in Hi. do 38 (destruct i as [|i]; [reflexivity|]). lia. }
  change le with (L4 44). change (L 40) with (L4 40). change l47 with (L4 47).
  apply (alloc_fields_ok (first_arrays n ne) [] L4 s4); auto.
  - cbn. repeat constructor; cbn; intuition discriminate.
  - intros i m Im. cbn in Im. repeat (destruct Im as [Im|Im]; [injection Im as <- <-; cbn; repeat split; auto; lia|]). destruct Im.
  - intros j [].
  - intros L' s' EL HL. rewrite <- (EL 44) by lia. apply wp_bind.
    eapply (ha_store s0 _ L' plen _ s' 44 4); [exact HL|apply in_or_app; right; apply in_first; lia|cbn; lia|]. intros s5 H5.
    apply wp_ret. change (L 41) with (L4 41). change (L 42) with (L4 42). change (L 43) with (L4 43).
    rewrite <- !(EL _) by lia. apply (HQ L' s5).
    unfold in_memory. eapply (hp_ids s0 (rev (List.map fst (first_arrays n ne)) ++ first_ids)).
    { intros k. unfold first_arrays, first_ids, base_ids. cbn. intuition. }
    rewrite app_nil_r in H5. eapply ha_ext; [| |exact H5]; [reflexivity|].
    intros k i Ik Hi. cbn [first_arrays List.map fst rev app first_ids] in Ik.
    repeat (destruct Ik as [<-|Ik]; [first [reflexivity
      |cbn in Hi; do 5 (destruct i as [|i]; [reflexivity|]); exfalso; clear - Hi; lia
      |cbn in Hi; do 38 (destruct i as [|i]; [reflexivity|]); exfalso; clear - Hi; lia]|]). destruct Ik.
Qed.

Lemma wp_alloc_or_leak {A} ids cl L s k m msg (kk : ptr -> M T (option A)) (Q : option A -> st T -> Prop) :
  hp s0 ids L (arr plen cl) s -> ~ In k ids -> m = plen k -> List.length ids <= 3 -> (ids = [] -> cnt s = cnt s0) ->
  (forall l s', hp s0 (k :: ids) (ov L k l) (arr plen (fun k' i => if Nat.eqb k' k then Vundef else cl k' i)) s' -> wp (kk (Some l)) Q s') ->
  (forall s', gave_up err s0 s' -> Q None s') ->
  wp (alloc_or_leak m err msg kk) Q s.
Proof.
  intros H Hk Hm Hl Hc HQ Hgo. unfold alloc_or_leak. apply wp_bind. eapply (ha_malloc _ _ _ _ _ k); [exact H|exact Hk|exact Hm| |].
  - intros l s' _ H'. apply HQ, H'.
  - intros Or s1 Ec H1. eapply wp_give_up; [exact H1|exact Hlegal|exact Hfit|exact Or|exact Ec|exact Hc| |exact Hgo].
    intros s0' s2 H2. apply wp_ret. split; [auto|]. exists ids. auto.
Qed.

(** Lines 497-682. *)
Lemma prepare_arrays_ok desc (Q : option sim_vars -> st T -> Prop) m1 m2 m3 m4 : wf s0 ->
  (forall L' s', in_memory s0 src n ne mt [] L' (shared0 ne) s' ->
     Q (Some (mkVars (Some src) desc mt (Some (L' 40)) (Some (L' 41)) (Some (L' 42)) (Some (L' 43)) (Some (L' 44)))) s') ->
  (forall s', gave_up err s0 s' -> Q None s') ->
  wp (alloc_or_leak ne err m1 (fun sum =>
      for_n ne 0 (fun i => store sum i (Vdbl (#0)%num)) ;;;
      alloc_or_leak mt err m2 (fun ie =>
      alloc_or_leak mt err m3 (fun nent =>
      alloc_or_leak mt err m4 (fun ntr =>
      for_n mt 0 (fun i => store ie i (Vint 0) ;;; store nent i (Vint 0) ;;; store ntr i (Vint 0)) ;;;
      prepare_result (Some src) desc mt n ne sum ie nent ntr err)))))%mem Q s0.
Proof.
  intros W HQ Hgo.
  pose proof (hp_start s0 (fun _ => 0) (arr plen (fun _ _ => Vundef)) W) as H.
  eapply (wp_alloc_or_leak _ _ _ _ 40); [exact H|cbn; tauto|reflexivity|cbn; lia|reflexivity| |exact Hgo]. clear H. intros l0 s H.
  apply wp_bind.
  apply (wp_for_n (fun i s => hp s0 [40] (ov (fun _ => 0) 40 l0) (arr plen (fun k j => if Nat.eqb k 40 then if Nat.ltb j i then Vdbl (#0)%num else Vundef else Vundef)) s)).
  { eapply ha_ext; [| |exact H]; [reflexivity|]. intros k j [<-|[]] _. reflexivity. }
  { intros i s1 Hi H1. eapply (ha_store s0 [40] (ov (fun _ => 0) 40 l0) plen _ s1 40 i); [exact H1|cbn; auto|cbn; lia|]. intros s2 H2.
    eapply ha_ext; [| |exact H2]; [reflexivity|]. intros k j [<-|[]] _. unfold putc. cbn [Nat.eqb andb].
    destruct (Nat.eqb_spec j i) as [->|Nj]; [destruct (Nat.ltb_spec i (S i)); [reflexivity|lia]|].
    destruct (Nat.ltb_spec j (S i)), (Nat.ltb_spec j i); try reflexivity; lia. }
  clear s H. intros s H.
  eapply (wp_alloc_or_leak _ _ _ _ 41); [exact H|cbn; intuition discriminate|reflexivity|cbn; lia|discriminate| |exact Hgo]. clear s H. intros l1 s H.
  eapply (wp_alloc_or_leak _ _ _ _ 42); [exact H|cbn; intuition discriminate|reflexivity|cbn; lia|discriminate| |exact Hgo]. clear s H. intros l2 s H.
  eapply (wp_alloc_or_leak _ _ _ _ 43); [exact H|cbn; intuition discriminate|reflexivity|cbn; lia|discriminate| |exact Hgo]. clear s H. intros l3 s H.
  set (L4 := ov (ov (ov (ov (fun _ => 0) 40 l0) 41 l1) 42 l2) 43 l3) in *.
  apply wp_bind.
  apply (wp_for_n (fun i s => hp s0 [43; 42; 41; 40] L4 (arr plen (fun k j => if Nat.eqb k 40 then Vdbl (#0)%num else if Nat.ltb j i then Vint 0 else Vundef)) s)).
  { eapply ha_ext; [| |exact H]; [reflexivity|]. intros k j Ik Hj. destruct Ik as [<-|[<-|[<-|[<-|[]]]]]; try reflexivity.
    cbn in Hj. cbn. change (match ne with 0 => false | S m' => Nat.leb j m' end) with (Nat.ltb j ne). destruct (Nat.ltb_spec j ne); [reflexivity|lia]. }
  { intros i s1 Hi H1. 
    apply wp_bind. eapply (ha_store s0 _ L4 plen _ s1 41 i); [exact H1|cbn; tauto|cbn; lia|]. clear s1 H1. intros s1 H1.
    apply wp_bind. eapply (ha_store s0 _ L4 plen _ s1 42 i); [exact H1|cbn; tauto|cbn; lia|]. clear s1 H1. intros s1 H1.
    eapply (ha_store s0 _ L4 plen _ s1 43 i); [exact H1|cbn; tauto|cbn; lia|]. clear s1 H1. intros s1 H1.
    eapply ha_ext; [| |exact H1]; [reflexivity|]. intros k j Ik Hj. unfold putc.
    destruct Ik as [<-|[<-|[<-|[<-|[]]]]]; cbn [Nat.eqb andb]; try reflexivity;
    (destruct (Nat.eqb_spec j i) as [->|Nj]; [destruct (Nat.ltb_spec i (S i)); [reflexivity|lia]|];
    destruct (Nat.ltb_spec j (S i)), (Nat.ltb_spec j i); try reflexivity; lia). }
  clear s H. intros s H. change (0 + mt) with mt in H.
  apply (prepare_result_ok L4 s desc Q); auto.
  eapply ha_ext; [| |exact H]; [reflexivity|]. intros k j Ik Hj.
  destruct Ik as [<-|[<-|[<-|[<-|[]]]]]; cbn in Hj; cbn [Nat.eqb];
   try (destruct (Nat.ltb_spec j mt); [reflexivity|lia]).
  unfold cell. cbn [Nat.eqb Nat.ltb Nat.leb shared0 sh_sumw]. apply nth_dbl. apply nth_error_repeat. lia.
Qed.

End Prep2.

Section Prep3.
Context {T : Type} {N : Num T}.
Implicit Types (s : st T).

Lemma wp_refuse_sim {A} b err msg (k : M T (option A)) (Q : option A -> st T -> Prop) s : wf s -> legal_err s err -> report_fits err s ->
  (b = false -> wp k Q s) -> (b = true -> forall s' m, error_reported err POLYCAP_ERROR_INVALID_ARGUMENT m s s' -> Q None s') ->
  wp (refuse_sim b err msg k) Q s.
Proof.
  intros W Le Rf H1 H2. unfold refuse_sim. destruct b; [|auto]. apply wp_bind.
  apply (wp_report true err POLYCAP_ERROR_INVALID_ARGUMENT msg); auto.
  intros s' W' O' N' K R. apply wp_ret. eapply H2; eauto.
Qed.

Definition good_args (monitor desc : ptr) (ne : Z) (ep : ptr) (en : list T) (n_photons : Z) : bool :=
  is_null monitor && negb (is_null desc) && negb (Z.ltb ne 1) && negb (is_null ep) && forallb en_in_range (firstn (Z.to_nat ne) en) && negb (Z.ltb n_photons 1).

Lemma prepare_ok source monitor mt n omp err s (Q : option sim_vars -> st T -> Prop) :
  wf s -> legal_err s err ->
  match source with
  | None => report_fits err s /\ (forall s' m, error_reported err POLYCAP_ERROR_INVALID_ARGUMENT m s s' -> Q None s')
  | Some src => exists desc ne ep en, source_cells s src desc ne ep en /\
      if good_args monitor desc ne ep en n then
        reports_fit err s /\
        (forall L' s', in_memory s src (Z.to_nat n) (Z.to_nat ne) (Z.to_nat (clamp_threads mt omp)) [] L' (shared0 (Z.to_nat ne)) s' ->
          Q (Some (mkVars (Some src) desc (Z.to_nat (clamp_threads mt omp)) (Some (L' 40)) (Some (L' 41)) (Some (L' 42)) (Some (L' 43)) (Some (L' 44)))) s') /\
        (forall s', gave_up err s s' -> Q None s')
      else report_fits err s /\ (forall s' m, error_reported err POLYCAP_ERROR_INVALID_ARGUMENT m s s' -> Q None s')
  end ->
  wp (prepare source monitor mt n omp err) Q s.
Proof.
  intros W Le. unfold prepare. destruct source as [src|].
  2:{ intros (Rf & HQ). apply wp_refuse_sim; auto. cbn. discriminate. }
  intros (desc & ne & ep & en & (sb & Hs & H1 & H2 & H3 & H4 & H5) & HQ).
  assert (Chk : forall b msg k, (b = false -> wp k Q s) -> (b = true -> good_args monitor desc ne ep en n = false) -> wp (refuse_sim b err msg k) Q s).
  { intros b msg k K1 K2. unfold refuse_sim. destruct b; [|auto]. rewrite (K2 eq_refl) in HQ. destruct HQ as (Rf & HQ).
    apply wp_bind. apply (wp_report true err POLYCAP_ERROR_INVALID_ARGUMENT msg); auto.
    intros s' W' O' N' K R. apply wp_ret. eapply HQ; eauto. }
  apply Chk; [intros _|discriminate].
  apply Chk; [intros B1|unfold good_args; destruct (is_null monitor); [discriminate|reflexivity]].
  apply wp_bind. eapply wp_load_ptr; [exact Hs|exact H1|].
  apply Chk; [intros B2|unfold good_args; intros ->; cbn; rewrite andb_false_r; reflexivity].
  apply wp_bind. eapply wp_load_int; [exact Hs|exact H2|].
  apply Chk; [intros B3|unfold good_args; intros ->; cbn; rewrite andb_false_r; reflexivity].
  apply wp_bind. eapply wp_load_ptr; [exact Hs|exact H3|].
  apply Chk; [intros B4|unfold good_args; intros ->; cbn; rewrite andb_false_r; reflexivity].
  destruct ep as [le|]; [|discriminate].
  apply wp_bind. apply (wp_energy_loop le en en (Z.to_nat ne) []); [exact H5|reflexivity|apply H4; reflexivity|].
  apply Chk; [intros B5|unfold good_args; intros B; apply negb_true_iff in B; rewrite B; rewrite !andb_false_r; reflexivity].
  apply Chk; [intros B6|unfold good_args; intros ->; cbn; apply andb_false_r].
  unfold good_args in HQ. apply negb_false_iff in B1, B5. rewrite B1, B2, B3, B4, B5, B6 in HQ. cbn in HQ. destruct HQ as (Rf & HQ & Hgo).
  apply (prepare_arrays_ok s src (Z.to_nat n) (Z.to_nat ne) (Z.to_nat (clamp_threads mt omp)) err Le Rf); auto.
Qed.
End Prep3.
