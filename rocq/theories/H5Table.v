(** * Proofs about the HDF5 writer, part 3: tables, groups, sums *)
From Coq Require Import ZArith List Bool Lia String FunctionalExtensionality.
From Verif Require Import Num Mem SpecHeap ErrorModel ErrorProofs ProfileModel ProfileProofs Geometry ConsModel HeapLib
  DescProofs SpecPhoton PhotProofs ResultModel SpecResult ResultProofs H5Lib H5Model SpecH5 H5Proofs H5Write.
Import ListNotations.

Section P.
Context {T : Type} {N : Num T}.
Implicit Types (s : st T) (w : hw T).

Definition extends (s s' : st T) : Prop := forall l b, mem s l = Some b -> mem s' l = Some b.
(** Nothing has happened in memory (except that addresses were used and given back). *)
Definition quiet (s s' : st T) : Prop := same_memory s s' /\ wf s' /\ orc s' = orc s /\ nxt s <= nxt s'.

Lemma quiet_refl s : wf s -> quiet s s.
Proof. intros W. split; [|split; [|split]]; auto. intros l. reflexivity. Qed.
Lemma quiet_trans s1 s2 s3 : quiet s1 s2 -> quiet s2 s3 -> quiet s1 s3.
Proof. intros (A1 & A2 & A3 & A4) (B1 & B2 & B3 & B4). split; [|split; [|split]]; auto; [|congruence|lia]. intros l. now rewrite B1. Qed.

Section Fix.
Variables (v : h5version) (w0 : hw T) (tabs : loc) (err : ptr).

Lemma ready_extends s s' : ready v tabs err s -> wf s' -> extends s s' -> ready v tabs err s'.
Proof.
  intros (W & L & R) W' E. split; [exact W'|]. split.
  - destruct err as [e|]; [|exact I]. destruct L as [p Hp]. exists p. apply E. exact Hp.
  - eapply tables_ready_frame; eauto.
Qed.
Lemma reportable_orc s s' : reportable w0 err s -> orc s' = orc s -> reportable w0 err s'.
Proof. unfold reportable, memory_available, reports_fit. intros H E. rewrite E. exact H. Qed.
Lemma gave_up_extends s s1 s' : ready v tabs err s -> extends s s1 -> orc s1 = orc s -> gave_up v w0 err s1 s' -> gave_up v w0 err s s'.
Proof.
  intros (W & L & R) E O (H1 & H2 & H3 & c & Hc & F1 & F2). split.
  { unfold memory_available in *. now rewrite <- O. }
  split; [exact H2|]. split; [congruence|]. exists c. split; [exact Hc|]. split.
  - intros l b Hl Ho Hne. apply F1; auto.
  - intros e He. destruct (F2 e He) as [G1 G2]. split; [|intros p X; apply G2; apply E; exact X].
    intros X. destruct G1 as (p & t & m & A & B & C); [apply E; exact X|]. exists p, t, m. split; [exact A|]. split; [exact B|].
    intros l El No. specialize (C l El No). destruct (mem s l) as [b|] eqn:E1; [|reflexivity]. rewrite (E l b E1) in C. discriminate.
Qed.
Lemma quiet_extends s s' : quiet s s' -> extends s s'.
Proof. intros (H & _) l b Hl. now rewrite H. Qed.
Lemma ready_quiet s s' : ready v tabs err s -> quiet s s' -> ready v tabs err s'.
Proof. intros R Q. eapply ready_extends; eauto; [apply Q|now apply quiet_extends]. Qed.
Lemma reportable_quiet s s' : reportable w0 err s -> quiet s s' -> reportable w0 err s'.
Proof. intros R Q. eapply reportable_orc; eauto. apply Q. Qed.
Lemma gave_up_quiet s s1 s' : ready v tabs err s -> quiet s s1 -> gave_up v w0 err s1 s' -> gave_up v w0 err s s'.
Proof. intros R Q. eapply gave_up_extends; eauto; [now apply quiet_extends|apply Q]. Qed.

(** ** Filling a buffer row by row *)
Definition table_data (k n : nat) (val : nat -> nat -> T) : list T :=
  List.concat (List.map (fun c => List.map (val c) (seq 0 n)) (seq 0 k)).

Lemma table_data_length k n val : List.length (table_data k n val) = n * k.
Proof.
  unfold table_data. rewrite (concat_length_const _ n).
  - now rewrite map_length, seq_length.
  - rewrite Forall_forall. intros x Hx. apply in_map_iff in Hx. destruct Hx as (c & <- & _). now rewrite map_length, seq_length.
Qed.
Lemma table_data_nth k n val c j : c < k -> j < n -> nth_error (table_data k n val) (j + n * c) = Some (val c j).
Proof.
  intros Hc Hj. unfold table_data. rewrite Nat.add_comm.
  eapply nth_concat_const with (e := List.map (val c) (seq 0 n)).
  - rewrite Forall_forall. intros x Hx. apply in_map_iff in Hx. destruct Hx as (c' & <- & _). now rewrite map_length, seq_length.
  - rewrite nth_error_map, (nth_error_nth' (seq 0 k) 0) by (rewrite seq_length; lia). rewrite seq_nth by lia. reflexivity.
  - rewrite nth_error_map, (nth_error_nth' (seq 0 n) 0) by (rewrite seq_length; lia). rewrite seq_nth by lia. reflexivity.
Qed.

Lemma nth_error_ext {A} (l m : list A) : (forall i, nth_error l i = nth_error m i) -> l = m.
Proof.
  revert m. induction l as [|x l IH]; intros [|y m] H; auto; try (specialize (H 0); discriminate).
  pose proof (H 0) as H0. cbn in H0. injection H0 as ->. f_equal. apply IH. intros i. exact (H (S i)).
Qed.

(** What is in the buffer after the rows before [j] and, of row [j], the components before [c]. *)
Definition filled (k n : nat) (val : nat -> nat -> T) (j c : nat) (b : list (@Mem.val T)) : Prop :=
  List.length b = n * k /\
  forall j' c', c' < k -> j' < n -> (j' < j \/ (j' = j /\ c' < c)) -> nth_error b (j' + n * c') = Some (Vdbl (val c' j')).

Lemma filled_all k n val b : filled k n val n 0 b -> b = List.map Vdbl (table_data k n val).
Proof.
  intros [L F]. apply nth_error_ext. intros i. destruct (Nat.lt_ge_cases i (n * k)) as [Hi|Hi].
  - assert (n <> 0) by (intros ->; lia).
    set (c := i / n). set (j := i mod n).
    assert (Ei : i = j + n * c) by (unfold c, j; rewrite Nat.add_comm; apply Nat.div_mod; auto).
    assert (Hj : j < n) by (apply Nat.mod_upper_bound; auto).
    assert (Hc : c < k). { unfold c. apply Nat.div_lt_upper_bound; auto. }
    rewrite Ei, nth_error_map, table_data_nth by auto. rewrite F by auto. reflexivity.
  - rewrite !(proj2 (nth_error_None _ _)); auto; [rewrite map_length, table_data_length; lia|lia].
Qed.

Lemma pair_inj n j c j' c' : j < n -> j' < n -> j + n * c = j' + n * c' -> j = j' /\ c = c'.
Proof.
  intros H H' E. assert (c = c') by (destruct (Nat.lt_trichotomy c c') as [L|[L|L]]; auto; exfalso; nia).
  subst. split; [lia|reflexivity].
Qed.

Lemma wp_fill tmp k n (rd : nat -> nat -> M T T) val b (Q : unit -> st T -> Prop) s :
  mem s tmp = Some b -> List.length b = n * k ->
  (forall b' c j, c < k -> j < n -> forall Q' : T -> st T -> Prop, Q' (val c j) (setmem s (upd (mem s) tmp (Some b'))) ->
     wp (rd c j) Q' (setmem s (upd (mem s) tmp (Some b')))) ->
  Q tt (setmem s (upd (mem s) tmp (Some (List.map Vdbl (table_data k n val))))) ->
  wp (for_n n 0 (fill_body (Some tmp) k n rd)) Q s.
Proof.
  intros Hb Lb Hrd HQ.
  apply wp_for_n with (I := fun j s1 => exists b', s1 = setmem s (upd (mem s) tmp (Some b')) /\ filled k n val j 0 b').
  - exists b. split; [rewrite upd_id by exact Hb; now rewrite setmem_id|]. split; [exact Lb|]. intros j' c' _ _ H. lia.
  - intros j s1 Hj (b1 & -> & F1). unfold fill_body.
    apply wp_for_n with (I := fun c s1 => exists b', s1 = setmem s (upd (mem s) tmp (Some b')) /\ filled k n val j c b').
    + exists b1. auto.
    + intros c s1 Hc (b2 & -> & L2 & F2). cbn [plus] in *. apply wp_bind. apply Hrd; [lia|lia|].
      assert (j + n * c < List.length b2) by (rewrite L2; nia).
      eapply wp_store; [cbn [mem setmem]; apply upd_same|assumption|].
      cbn [mem setmem nxt orc cnt]. exists (set_nth b2 (j + n * c) (Vdbl (val c j))).
      split; [unfold setmem; now rewrite upd_shadow|]. split; [now rewrite length_set_nth|].
      intros j' c' Hc' Hj' H'. destruct (Nat.eq_dec (j + n * c) (j' + n * c')) as [E|E].
      * destruct (pair_inj n j c j' c') as [-> ->]; [lia|lia|exact E|]. apply nth_error_set_nth_same. exact H.
      * rewrite nth_error_set_nth_other by exact E. apply F2; auto.
        destruct H' as [H'|[-> H']]; [now left|]. right. split; [reflexivity|].
        assert (c' <> c) by (intros ->; congruence). lia.
    + intros s1 (b2 & -> & L2 & F2). exists b2. split; [reflexivity|]. split; [exact L2|].
      intros j' c' Hc' Hj' H'. apply F2; auto. cbn [plus]. lia.
  - intros s1 (b1 & -> & F1). cbn [plus] in F1. apply filled_all in F1. subst b1. exact HQ.
Qed.

Hypothesis (EX : h5_explains w0).

(** The buffer is allocated, filled, written and released. *)
Lemma wp_write_table f nx O C w s file k n dims rd val name unit (Q : bool -> hw T -> st T -> Prop) :
  At w0 f nx O C w -> ready v tabs err s -> reportable w0 err s ->
  assoc file O = Some (HFile f) -> dims_size dims = n * k -> String.length unit <> 0 ->
  (can_create C name = true \/ ~ h5_works w0) ->
  (forall s1 c j, extends s s1 -> c < k -> j < n -> forall Q' : T -> st T -> Prop, Q' (val c j) s1 -> wp (rd c j) Q' s1) ->
  (forall nx' w' s', can_create C name = true -> (nx <= nx')%Z ->
     At w0 f nx' O (add_ds C (ds name dims (table_data k n val) unit)) w' -> quiet s s' -> Q true w' s') ->
  (forall w' s', gave_up v w0 err s s' -> Left w0 f w' -> Q false w' s') ->
  wpW (write_table (Some tabs) file k n dims rd name unit err) Q w s.
Proof.
  intros A Rd Rp Hf Hd Hu Hc Hrd HT HF. pose proof Rd as (Wf & Le & Tr). unfold write_table.
  apply wpW_bind. apply wpW_lift. unfold malloc. apply wp_alloc; intros Or.
  - set (tmp := nxt s).
    set (s1 := mkSt (upd (mem s) tmp (Some (repeat Vundef (n * k)))) (S (nxt s)) (orc s) (S (cnt s))).
    apply wpW_bind. apply wpW_lift.
    assert (Fr : mem s tmp = None) by (apply Wf; unfold tmp; lia).
    assert (Ex : forall b, extends s (setmem s1 (upd (mem s1) tmp (Some b)))).
    { intros b l x Hl. cbn. rewrite upd_shadow. rewrite upd_other; [exact Hl|]. congruence. }
    eapply (wp_fill tmp k n rd val); [cbn; apply upd_same|now rewrite repeat_length| |].
    { intros b' c j Hc' Hj Q' HQ'. apply Hrd; auto. }
    set (s2 := setmem s1 (upd (mem s1) tmp (Some (List.map Vdbl (table_data k n val))))).
    assert (W2 : wf s2). { intros l Hl. cbn in *. rewrite upd_shadow. rewrite upd_other by (unfold tmp; lia). apply Wf. lia. }
    unfold andthen. apply wpW_bind.
    eapply (wp_write_dataset v w0 tabs err EX f nx O C w s2 file dims name (Some tmp) 0 unit (table_data k n val)); auto.
    + eapply ready_extends; [exact Rd|exact W2|apply Ex].
    + exists (List.map Vdbl (table_data k n val)), [], []. cbn. rewrite upd_shadow, upd_same, app_nil_r. auto.
    + rewrite Hd. apply table_data_length.
    + intros nx' w' Hc' Hn A'. apply wpW_bind. apply wpW_lift.
      eapply wp_free; [cbn; rewrite upd_shadow; apply upd_same|]. apply wpW_ret. cbn [mem nxt orc cnt s2 s1 setmem].
      eapply HT; eauto. split; [|split; [|split]]; cbn [mem nxt orc].
      * intros l. rewrite !upd_shadow. cbn [mem]. destruct (Nat.eq_dec l tmp) as [El|Hne]; [rewrite El; unfold tmp; rewrite upd_same; now symmetry|now rewrite upd_other by auto].
      * intros l Hl. cbn in *. rewrite !upd_shadow. rewrite upd_other by (unfold tmp; lia). apply Wf. lia.
      * reflexivity.
      * lia.
    + intros w' s' G Lf. apply wpW_ret. apply HF; [|exact Lf]. eapply gave_up_extends; [exact Rd|apply Ex| |exact G]. reflexivity.
  - apply wpW_lift. apply wp_bind. apply (wp_report true err POLYCAP_ERROR_MEMORY strerror_enomem); auto.
    + intros Hne. cbn [orc cnt]. destruct Rp as [|[MA|[_ RF]]]; [contradiction|rewrite MA in Or; discriminate|].
      destruct (RF _ Or) as [|[X1 X2]]; [contradiction|]. auto.
    + intros s' W' O' N' K R. apply wp_ret. apply HF; [|exists nx, O, C; exact A]. split; [intros [_ MA]; rewrite MA in Or; discriminate|].
      split; [exact W'|]. split; [exact O'|]. exists POLYCAP_ERROR_MEMORY. split; [now left|].
      match type of R with error_reported _ _ _ ?S1 _ => eapply failed_from with (s1 := S1) end; eauto.
Qed.

(** ** The average weights *)
Definition total_data (ne n : nat) (val : nat -> nat -> T) (started : Z) : list T :=
  List.map (fun j => (List.fold_left nadd (List.map (fun k => val k j) (seq 0 n)) (#0)%num / nofZ started)%num) (seq 0 ne).

Lemma fold_left_snoc {A B} (g : A -> B -> A) l x a : List.fold_left g (l ++ [x]) a = g (List.fold_left g l a) x.
Proof. now rewrite fold_left_app. Qed.

Lemma wp_total tmp im fw ne n started val b (Q : unit -> st T -> Prop) s :
  mem s tmp = Some b -> List.length b = ne ->
  (forall b' k j, k < n -> j < ne -> forall (K : T -> M T unit) (Q' : unit -> st T -> Prop), wp (K (val k j)) Q' (setmem s (upd (mem s) tmp (Some b'))) ->
     wp (bind (load_ptr im fw) (fun q => bind (load_dbl q (k * ne + j)) K)) Q' (setmem s (upd (mem s) tmp (Some b')))) ->
  Q tt (setmem s (upd (mem s) tmp (Some (List.map Vdbl (total_data ne n val started))))) ->
  wp (for_n ne 0 (total_body (Some tmp) im fw ne n started)) Q s.
Proof.
  intros Hb Lb Hrd HQ. set (D := total_data ne n val started).
  assert (LD : List.length D = ne) by (unfold D, total_data; now rewrite map_length, seq_length).
  apply wp_for_n with (I := fun j s1 => exists b', s1 = setmem s (upd (mem s) tmp (Some b')) /\ List.length b' = ne /\
     forall i, i < j -> nth_error b' i = nth_error (List.map Vdbl D) i).
  - exists b. split; [rewrite upd_id by exact Hb; now rewrite setmem_id|]. split; [exact Lb|]. intros i Hi; lia.
  - intros j s1 Hj (b1 & -> & L1 & F1). cbn [plus] in Hj. unfold total_body. apply wp_bind.
    eapply wp_store; [cbn [mem setmem]; apply upd_same|lia|]. cbn [mem setmem nxt orc cnt]. apply wp_bind.
    set (acc := fun k => List.fold_left nadd (List.map (fun k => val k j) (seq 0 k)) (#0)%num).
    apply wp_for_n with (I := fun k s1 => s1 = setmem s (upd (mem s) tmp (Some (set_nth b1 j (Vdbl (acc k)))))).
    + unfold setmem. rewrite upd_shadow. reflexivity.
    + intros k s1 Hk ->. cbn [plus] in Hk. apply Hrd; [lia|lia|].
      apply wp_bind. eapply wp_load_dbl; [cbn [mem setmem]; apply upd_same|apply nth_error_set_nth_same; lia|].
      eapply wp_store; [cbn [mem setmem]; apply upd_same|rewrite length_set_nth; lia|]. cbn [mem setmem nxt orc cnt].
      unfold setmem. rewrite upd_shadow, set_nth_twice. do 5 f_equal. unfold acc. rewrite seq_S, map_app. cbn [List.map plus].
      now rewrite fold_left_snoc.
    + intros s1 ->. cbn [plus]. apply wp_bind.
      eapply wp_load_dbl; [cbn [mem setmem]; apply upd_same|apply nth_error_set_nth_same; lia|].
      eapply wp_store; [cbn [mem setmem]; apply upd_same|rewrite length_set_nth; lia|]. cbn [mem setmem nxt orc cnt].
      exists (set_nth b1 j (Vdbl (acc n / nofZ started)%num)). split; [unfold setmem; now rewrite upd_shadow, set_nth_twice|].
      split; [now rewrite length_set_nth|]. intros i Hi. destruct (Nat.eq_dec i j) as [->|Hne].
      * rewrite nth_error_set_nth_same by lia. unfold D, total_data. rewrite !nth_error_map.
        rewrite (nth_error_nth' (seq 0 ne) 0) by (rewrite seq_length; lia). rewrite seq_nth by lia. reflexivity.
      * rewrite nth_error_set_nth_other by auto. apply F1. lia.
  - intros s1 (b1 & -> & L1 & F1). cbn [plus] in F1.
    replace b1 with (List.map Vdbl D) in *; [exact HQ|]. symmetry. apply nth_error_ext. intros i.
    destruct (Nat.lt_ge_cases i ne) as [Hi|Hi]; [auto|].
    rewrite !(proj2 (nth_error_None _ _)); auto; [rewrite map_length; lia|lia].
Qed.

Lemma wp_write_total f nx O C w s file im fw ne n started val name (Q : bool -> hw T -> st T -> Prop) :
  At w0 f nx O C w -> ready v tabs err s -> reportable w0 err s -> memory_available s ->
  assoc file O = Some (HFile f) -> (can_create C name = true \/ ~ h5_works w0) ->
  (forall s1 k j, extends s s1 -> k < n -> j < ne -> forall (K : T -> M T unit) (Q' : unit -> st T -> Prop), wp (K (val k j)) Q' s1 ->
     wp (bind (load_ptr im fw) (fun q => bind (load_dbl q (k * ne + j)) K)) Q' s1) ->
  (forall nx' w' s', can_create C name = true -> (nx <= nx')%Z ->
     At w0 f nx' O (add_ds C (ds name [ne] (total_data ne n val started) "a.u."%string)) w' -> quiet s s' -> Q true w' s') ->
  (forall w' s', gave_up v w0 err s s' -> Left w0 f w' -> Q false w' s') ->
  wpW (write_total (Some tabs) file im fw ne n started name err) Q w s.
Proof.
  intros A Rd Rp MA Hf Hc Hrd HT HF. pose proof Rd as (Wf & Le & Tr). unfold write_total.
  apply wpW_bind. apply wpW_lift. unfold malloc. apply wp_alloc; intros Or; [|rewrite MA in Or; discriminate].
  set (tmp := nxt s).
  set (s1 := mkSt (upd (mem s) tmp (Some (repeat Vundef ne))) (S (nxt s)) (orc s) (S (cnt s))).
  apply wpW_bind. apply wpW_lift.
  assert (Fr : mem s tmp = None) by (apply Wf; unfold tmp; lia).
  assert (Ex : forall b, extends s (setmem s1 (upd (mem s1) tmp (Some b)))).
  { intros b l x Hl. cbn. rewrite upd_shadow. rewrite upd_other; [exact Hl|]. congruence. }
  eapply (wp_total tmp im fw ne n started val); [cbn; apply upd_same|now rewrite repeat_length| |].
  { intros b' c j Hc' Hj K Q' HQ'. apply Hrd; auto. }
  set (D := total_data ne n val started).
  assert (LD : List.length D = ne) by (unfold D, total_data; now rewrite map_length, seq_length).
  set (s2 := setmem s1 (upd (mem s1) tmp (Some (List.map Vdbl D)))).
  assert (W2 : wf s2). { intros l Hl. cbn in *. rewrite upd_shadow. rewrite upd_other by (unfold tmp; lia). apply Wf. lia. }
  unfold andthen. apply wpW_bind.
  eapply (wp_write_dataset v w0 tabs err EX f nx O C w s2 file [ne] name (Some tmp) 0 "a.u." D); auto.
  + eapply ready_extends; [exact Rd|exact W2|apply Ex].
  + exists (List.map Vdbl D), [], []. cbn. rewrite upd_shadow, upd_same, app_nil_r. auto.
  + rewrite LD. cbn. lia.
  + discriminate.
  + intros nx' w' Hc' Hn A'. apply wpW_bind. apply wpW_lift.
    eapply wp_free; [cbn; rewrite upd_shadow; apply upd_same|]. apply wpW_ret. cbn [mem nxt orc cnt s2 s1 setmem].
    eapply HT; eauto. split; [|split; [|split]]; cbn [mem nxt orc].
    * intros l. rewrite !upd_shadow. cbn [mem]. destruct (Nat.eq_dec l tmp) as [El|Hne]; [rewrite El; unfold tmp; rewrite upd_same; now symmetry|now rewrite upd_other by auto].
    * intros l Hl. cbn in *. rewrite !upd_shadow. rewrite upd_other by (unfold tmp; lia). apply Wf. lia.
    * reflexivity.
    * lia.
  + intros w' s' G Lf. apply wpW_ret. apply HF; [|exact Lf]. eapply gave_up_extends; [exact Rd|apply Ex| |exact G]. reflexivity.
Qed.

(** ** Groups *)
Lemma wp_group {B} (k : Z -> W T B) (Q : B -> hw T -> st T -> Prop) f nx O C w s file p :
  At w0 f nx O C w -> assoc file O = Some (HFile f) -> can_create C p = true ->
  (forall w', At w0 f (nx + 1) ((nx, HGroup f) :: O) (mkContent (c_groups C ++ [p]) (c_dsets C)) w' -> wpW (k nx) Q w' s) ->
  (forall w', ~ h5_works w0 -> At w0 f nx O C w' -> wpW (k (-1)%Z) Q w' s) ->
  wpW (bindW (H5Gcreate2 file p) k) Q w s.
Proof.
  intros A Hf Hc H1 H2. unfold H5Gcreate2.
  eapply (wp_unchecked_open w0 _ _ _ f nx O C w s (HGroup f)); [exact A| | |exact H1|exact H2];
    rewrite (At_lookup _ _ _ _ _ _ _ (At_tick _ _ _ _ _ _ A)), Hf, (at_lib _ _ _ _ _ _ (At_tick _ _ _ _ _ _ A)), Hc; [|discriminate].
  intros y E; apply Some_inj in E; subst y. eexists. split; [reflexivity|]. eapply At_set_lib. apply At_tick. exact A.
Qed.

End Fix.
End P.
