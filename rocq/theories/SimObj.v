(** * The object a simulation returns *)
From Coq Require Import ZArith List Bool Lia String Permutation.
From Verif Require Import Num Mem SpecHeap ErrorModel ErrorProofs ProfileModel ProfileProofs Geometry SpecPhoton ConsModel HeapLib SpecResult ResultModel
  H5Model H5Table CapilModel RunModel SpecSim SimModel SimHeap SimStep SimPrep SimEnd.
Import ListNotations.

Section Lists.
Lemma seq_shift_map m a : seq a m = List.map (fun i => a + i) (seq 0 m).
Proof.
  revert a. induction m as [|m IH]; intros a; cbn; [reflexivity|]. f_equal; [lia|]. rewrite (IH (S a)), (IH 1), map_map.
  apply map_ext. intros i. lia.
Qed.
Lemma map_seq_split {B} (g : nat -> B) a b : List.map g (seq 0 (a + b)) = List.map g (seq 0 a) ++ List.map (fun i => g (a + i)) (seq 0 b).
Proof. rewrite seq_app, map_app. f_equal. rewrite (seq_shift_map b (0 + a)), map_map. reflexivity. Qed.

(** Rows of [m] elements one after the other. *)
Lemma concat_rows {B} (g : nat -> nat -> B) m n : 1 <= m ->
  List.concat (List.map (fun j => List.map (g j) (seq 0 m)) (seq 0 n)) = List.map (fun i => g (i / m) (i mod m)) (seq 0 (n * m)).
Proof.
  intros Hm. induction n as [|n IH]; [reflexivity|].
  rewrite seq_S, map_app, concat_app, IH. cbn [List.map List.concat Nat.add]. rewrite app_nil_r.
  replace (S n * m) with (n * m + m) by lia. rewrite map_seq_split. f_equal.
  apply map_ext_in. intros i Hi. apply in_seq in Hi.
  rewrite Nat.div_add_l, Nat.div_small, Nat.add_0_r by lia. f_equal.
  rewrite Nat.add_comm, Nat.mod_add, Nat.mod_small by lia. reflexivity.
Qed.

Lemma map_nth {A B} (h : A -> B) (u : B) (l : list A) :
  List.map h l = List.map (fun i => match nth_error (List.map Some l) i with Some (Some d) => h d | _ => u end) (seq 0 (List.length l)).
Proof.
  apply nth_error_ext. intros i. destruct (Nat.lt_ge_cases i (List.length l)) as [A1|A1].
  - rewrite nth_map_seq by auto. rewrite !nth_error_map. destruct (nth_error l i) eqn:E; [reflexivity|]. apply nth_error_None in E. lia.
  - rewrite !(proj2 (nth_error_None _ _)); auto; rewrite map_length; [rewrite seq_length|]; auto.
Qed.

Lemma concat_nth {A B} (f : A -> list B) (u : B) (m : nat) (l : list A) : 1 <= m -> Forall (fun a => List.length (f a) = m) l ->
  List.concat (List.map f l) = List.map (fun i => match nth_error (List.map Some l) (i / m) with Some (Some d) => nth (i mod m) (f d) u | _ => u end) (seq 0 (List.length l * m)).
Proof.
  intros Hm F.
  rewrite <- (concat_rows (fun j i => match nth_error (List.map Some l) j with Some (Some d) => nth i (f d) u | _ => u end) m (List.length l) Hm).
  f_equal. rewrite (map_nth f [] l). apply map_ext_in. intros j Hj. apply in_seq in Hj. rewrite !nth_error_map.
  destruct (nth_error l j) as [a|] eqn:E; [|apply nth_error_None in E; lia]. cbn [option_map].
  rewrite Forall_forall in F. pose proof (F a (nth_error_In _ _ E)) as La.
  apply nth_error_ext. intros i. destruct (Nat.lt_ge_cases i m) as [A1|A1].
  - rewrite nth_map_seq by auto. apply nth_error_nth'. lia.
  - rewrite !(proj2 (nth_error_None _ _)); auto; [rewrite map_length, seq_length; auto|lia].
Qed.
End Lists.

Section Obj.
Context {T : Type} {N : Num T}.
Implicit Types (s : st T) (L : nat -> loc).
Variables (s0 : st T) (src d le : loc) (db : list (val T)) (en : list T) (n mt : nat).
Local Notation ne := (List.length en).
Hypothesis Hne1 : 1 <= ne.
Hypothesis Hdl : 2 < List.length db.
Hypothesis Hd : mem s0 d = Some db.
Variables (L : nat -> loc) (sh : shared T) (el il : list (leak_data T)).
Hypothesis Hel : sh_ext sh = List.map Some el.
Hypothesis Hil : sh_int sh = List.map Some il.
Hypothesis Hie : sh_iext sh = Z.of_nat (List.length el).
Hypothesis Hii : sh_iint sh = Z.of_nat (List.length il).
Hypothesis Fel : Forall (fun k => List.length (lk_weights k) = ne) el.
Hypothesis Fil : Forall (fun k => List.length (lk_weights k) = ne) il.
Hypothesis Hno : sh_single sh = false -> el = [] /\ il = [].
Hypothesis HS : List.length (sh_sumw sh) = ne.
Hypothesis Hex : total CExit mt sh = Z.of_nat n.
Variable row : nat -> exit_row T.
Hypothesis Hrow : forall j, j < n -> row_records (sh_img sh) ne j (row j).

Definition lrow (k : leak_data T) : leak_row T :=
  mkLeakRow (lk_coords k) (vx (lk_dir k), vy (lk_dir k)) (vx (lk_elecv k), vy (lk_elecv k)) (lk_nrefl k) (lk_weights k).
Definition obj : SpecResult.result T :=
  SpecResult.mkResult (ie mt sh + nen mt sh + ntr mt sh) (List.map row (seq 0 n)) (List.map lrow el) (List.map lrow il) en (effs mt sh).
Definition ptrs (ks : list nat) : list ptr := List.map (fun k => Some (L k)) ks.
Definition lptrs (ks : list nat) : list ptr := List.map (fun k => if sh_single sh then Some (L k) else NULL) ks.

Lemma holds_obj b : holds obj (finish en mt b sh).
Proof.
  unfold holds. split; [reflexivity|]. split; [reflexivity|]. split; [reflexivity|]. split; [|split; [|split; [|split; [|split]]]].
  - cbn. rewrite map_length, seq_length. auto.
  - intros j r E. cbn [q_rows obj] in E. rewrite nth_error_map in E. destruct (nth_error (seq 0 n) j) as [i|] eqn:E2; [|discriminate].
    assert (Lj : j < n).
    { assert (j < List.length (seq 0 n)) as A by (apply nth_error_Some; congruence). rewrite seq_length in A. exact A. }
    rewrite (nth_error_nth' _ 0) in E2 by (rewrite seq_length; auto). rewrite seq_nth in E2 by auto. injection E2 as <-. injection E as <-.
    cbn [re_img finish re_energies]. apply Hrow. exact Lj.
  - cbn [re_ext finish]. rewrite Hel. cbn [q_ext obj]. clear. induction el as [|k l IH]; cbn; constructor; auto. exists k. repeat split.
  - cbn. rewrite map_length. auto.
  - cbn [re_int finish]. rewrite Hil. cbn [q_int obj]. clear. induction il as [|k l IH]; cbn; constructor; auto. split; exists k; repeat split.
  - cbn. rewrite map_length. auto.
Qed.

Lemma regular_obj : regular obj.
Proof.
  repeat split; cbn.
  - unfold effs. rewrite map_length. exact HS.
  - apply Forall_map. apply Forall_forall. intros j Hj. apply in_seq in Hj. destruct (Hrow j) as (_ & _ & _ & _ & _ & _ & _ & _ & _ & _ & _ & _ & _ & _ & _ & _ & _ & E & _); [lia|exact E].
  - apply Forall_map. eapply Forall_impl; [|exact Fel]. auto.
  - apply Forall_map. eapply Forall_impl; [|exact Fil]. auto.
Qed.

Lemma map_nth_full {B} (l : list B) u m : m = List.length l -> List.map (fun i => nth i l u) (seq 0 m) = l.
Proof.
  intros ->. apply nth_error_ext. intros i. destruct (Nat.lt_ge_cases i (List.length l)) as [A|A].
  - rewrite nth_map_seq by auto. symmetry. apply nth_error_nth'. auto.
  - rewrite !(proj2 (nth_error_None _ _)); auto. rewrite map_length, seq_length. auto.
Qed.

Lemma object_ok s : let G := grown sh in
  hp (s0e s0 d db mt sh) (G ++ seq 2 18 ++ seq 44 4) L (arr (len n ne mt sh) (ecell src en mt G L sh ne)) s ->
  let p1 := ptrs (seq 2 18) in let p2 := lptrs (seq 21 7) in let p3 := lptrs (seq 29 9) in
  result_object s (L 44) (L 47) (Some (L 45)) (Some (L 46)) (Some src) p1 p2 p3 obj /\
  NoDup (result_blocks (L 44) (L 47) (Some (L 45)) (Some (L 46)) p1 p2 p3) /\
  all_free s0 (result_blocks (L 44) (L 47) (Some (L 45)) (Some (L 46)) p1 p2 p3) /\
  same_memory_except (result_blocks (L 44) (L 47) (Some (L 45)) (Some (L 46)) p1 p2 p3) (s0e s0 d db mt sh) s.
Proof.
  intros G H p1 p2 p3.
  assert (B : forall k, In k (G ++ seq 2 18 ++ seq 44 4) -> mem s (L k) = Some (List.map (ecell src en mt G L sh ne k) (seq 0 (len n ne mt sh k)))).
  { intros k Hk. apply (hp_mem _ _ _ _ _ _ H Hk). }
  assert (I1 : forall k, 2 <= k < 20 -> In k (G ++ seq 2 18 ++ seq 44 4)) by (intros k Hk; apply in_or_app; right; apply in_or_app; left; apply in_seq; lia).
  assert (I2 : forall k, 44 <= k < 48 -> In k (G ++ seq 2 18 ++ seq 44 4)) by (intros k Hk; apply in_or_app; right; apply in_or_app; right; apply in_seq; lia).
  assert (Bl : exists ids, result_blocks (L 44) (L 47) (Some (L 45)) (Some (L 46)) p1 p2 p3 = List.map L ids /\ NoDup ids /\ (forall k, In k ids <-> In k (G ++ seq 2 18 ++ seq 44 4))).
  { unfold p2, p3, lptrs, G, grown. destruct (sh_single sh).
    - exists (45 :: 46 :: seq 2 18 ++ seq 21 7 ++ seq 29 9 ++ [47; 44]). split; [reflexivity|]. split.
      + cbn. repeat constructor; cbn; lia.
      + intros k. unfold leak_ids. cbn [In]. rewrite !in_app_iff, !in_seq. cbn [In]. lia.
    - exists (45 :: 46 :: seq 2 18 ++ [47; 44]). split; [reflexivity|]. split.
      + cbn. repeat constructor; cbn; lia.
      + intros k. cbn [In]. rewrite !in_app_iff, !in_seq. cbn [In]. lia. }
  destruct Bl as (ids & Eb & Nd & Iff). rewrite Eb.
  pose proof H as (W & O & Mm & Inj & Fr & K & X).
  split; [|split; [|split]].
  2:{ clear - Nd Iff Inj. assert (J : forall k k', In k ids -> In k' ids -> L k = L k' -> k = k') by (intros; apply Inj; try apply Iff; auto).
      clear Iff Inj. induction Nd as [|k ids Hk Nd IH]; cbn; constructor.
      - intros A. apply in_map_iff in A. destruct A as (k' & E & Hk'). apply J in E; cbn; auto. subst. contradiction.
      - apply IH. intros; apply J; cbn; auto. }
  2:{ intros l Hl. apply in_map_iff in Hl. destruct Hl as (k & <- & Hk). apply Iff in Hk. pose proof (Fr k Hk) as E. unfold s0e in E. cbn in E.
      unfold upd in E. destruct (Nat.eqb (L k) d); [discriminate|exact E]. }
  2:{ intros l Hl. destruct (mem (s0e s0 d db mt sh) l) as [b|] eqn:E; [apply K, E|]. destruct (mem s l) as [b|] eqn:E2; [|reflexivity].
      destruct (X l b E2 E) as (k & Hk & ->). destruct Hl. apply in_map, Iff, Hk. }
  clear Eb Nd Iff ids.
  split; [exact regular_obj|]. split; [|split; [|split; [|split; [|split; [|split]]]]].
  - rewrite B by (apply I2; lia). reflexivity.
  - rewrite B by (apply I2; lia).
    change (len n ne mt sh 47) with 38. cbn [q_rows q_ext q_int obj q_started]. rewrite !map_length, seq_length, <- Hex, <- Hie, <- Hii.
    unfold p2, p3, lptrs, G, grown. destruct (sh_single sh); reflexivity.
  - exists []. rewrite app_nil_r. rewrite B by (apply I2; lia). f_equal. cbn [q_energies obj]. rewrite <- (map_nth_full (List.map Vdbl en) Vundef ne) by (rewrite map_length; reflexivity).
    apply map_seq_ext. intros i Hi. cbn in Hi. unfold ecell. cbn [Nat.eqb]. destruct (Nat.ltb_spec i ne); [reflexivity|lia].
  - exists []. rewrite app_nil_r. rewrite B by (apply I2; lia). f_equal. cbn [q_effs obj]. rewrite <- (map_nth_full (List.map Vdbl (effs mt sh)) Vundef ne) by (unfold effs; rewrite !map_length; auto).
    apply map_seq_ext. intros i Hi. cbn in Hi. unfold ecell. cbn [Nat.eqb]. destruct (Nat.ltb_spec i ne); [reflexivity|lia].
  - assert (Col : forall k f, 2 <= k < 19 -> (forall j, j < n -> img_cell (sh_img sh (row_field k) j) = f (row j)) ->
      begins s (Some (L k)) (List.map f (List.map row (seq 0 n)))).
    { intros k f Hk Hf. exists []. rewrite app_nil_r, B by (apply I1; lia). f_equal. rewrite map_map.
      replace (len n ne mt sh k) with n.
      2:{ unfold len. destruct (Nat.eqb_spec k 19); [lia|]. destruct (Nat.ltb_spec k 20); [auto|lia]. }
      apply map_seq_ext. intros j Hj. rewrite <- Hf by auto. unfold ecell, cell.
      repeat match goal with |- context [Nat.eqb k ?c] => destruct (Nat.eqb_spec k c); [lia|] end. cbn [andb]. destruct (Nat.ltb_spec k 20); [reflexivity|lia]. }
    unfold p1, ptrs, row_columns, dcol, icol. cbn [seq List.map q_rows obj].
    Ltac rc Hrow j := let Hj := fresh in intros j Hj; destruct (Hrow j Hj) as (R1 & R2 & R3 & R4 & R5 & R6 & R7 & R8 & R9 & R10 & R11 & R12 & R13 & R14 & R15 & R16 & R17 & _); cbn [row_field];
      match goal with E : sh_img _ ?f j = _ |- img_cell (sh_img _ ?f j) = _ => rewrite E; reflexivity end.
    repeat (constructor; [first [apply Col; [lia|rc Hrow j]|idtac]|]); [|constructor].
    exists []. rewrite app_nil_r, B by (apply I1; lia). f_equal. unfold wcol. rewrite map_map. change (len n ne mt sh 19) with (n * ne).
    transitivity (List.concat (List.map (fun j => List.map (fun k => img_cell (sh_img sh (FWeight k) j)) (seq 0 ne)) (seq 0 n))).
    { rewrite (concat_rows (fun j k => img_cell (sh_img sh (FWeight k) j)) ne n Hne1). reflexivity. }
    f_equal. apply map_ext_in. intros j Hj. apply in_seq in Hj.
    destruct (Hrow j) as (_ & _ & _ & _ & _ & _ & _ & _ & _ & _ & _ & _ & _ & _ & _ & _ & _ & E & F); [lia|].
    apply nth_error_ext. intros k. destruct (Nat.lt_ge_cases k ne) as [A|A].
    + rewrite nth_map_seq by auto. rewrite nth_error_map. destruct (nth_error (r_weights (row j)) k) as [w|] eqn:Ew; [|apply nth_error_None in Ew; lia].
      rewrite (F k w Ew). reflexivity.
    + rewrite !(proj2 (nth_error_None _ _)); auto; rewrite map_length; [lia|rewrite seq_length; auto].
  - destruct (sh_single sh) eqn:Es.
    2:{ destruct (Hno eq_refl) as [E1 E2]. unfold p2, lptrs. rewrite Es. cbn [q_ext obj]. rewrite E1. cbn. repeat (constructor; [reflexivity|]). constructor. }
    assert (I3 : forall k, 21 <= k < 28 -> In k (G ++ seq 2 18 ++ seq 44 4)).
    { intros k Hk. apply in_or_app. left. unfold G, grown. rewrite Es. apply in_or_app. left. apply in_seq. lia. }
    assert (Col : forall k f, 21 <= k < 28 -> k <> 26 -> (forall x, leak_cell k x = f (lrow x)) ->
      begins s (Some (L k)) (List.map f (List.map lrow el))).
    { intros k f Hk Hk2 Hf. exists []. rewrite app_nil_r, B by (apply I3; lia). f_equal. rewrite map_map.
      rewrite (map_nth (fun x => f (lrow x)) Vundef el).
      replace (len n ne mt sh k) with (List.length el).
      2:{ unfold len. destruct (Nat.eqb_spec k 19); [lia|]. destruct (Nat.ltb_spec k 20); [lia|]. destruct (Nat.eqb_spec k 26); [lia|]. destruct (Nat.ltb_spec k 28); [|lia].
          rewrite Hel, map_length. reflexivity. }
      apply map_seq_ext. intros j Hj. unfold ecell, cell.
      repeat match goal with |- context [Nat.eqb k ?c] => destruct (Nat.eqb_spec k c); [lia|] end. cbn [andb]. 
      destruct (Nat.ltb_spec k 20); [lia|]. destruct (Nat.ltb_spec k 28); [|lia].
      unfold lk_at. rewrite Hel, !nth_error_map. destruct (nth_error el j); [cbn; auto|reflexivity]. }
    unfold p2, lptrs. rewrite Es. unfold ext_columns, dcol, icol. cbn [seq List.map q_ext obj].
    repeat (constructor; [first [apply Col; [lia|lia|reflexivity]|idtac]|]); [|constructor].
    exists []. rewrite app_nil_r, B by (apply I3; lia). f_equal. unfold wcol. rewrite map_map. cbn [k_weights lrow].
    rewrite (concat_nth (fun x => List.map Vdbl (lk_weights x)) Vundef ne el Hne1).
    2:{ eapply Forall_impl; [|exact Fel]. intros x. rewrite map_length. auto. }
    replace (len n ne mt sh 26) with (List.length el * ne) by (unfold len; cbn [Nat.eqb Nat.ltb Nat.leb]; rewrite Hel, map_length; reflexivity).
    apply map_seq_ext. intros i Hi. unfold ecell, cell. cbn [Nat.eqb Nat.ltb Nat.leb andb]. unfold lk_w. rewrite Hel. reflexivity.
  - destruct (sh_single sh) eqn:Es.
    2:{ destruct (Hno eq_refl) as [E1 E2]. unfold p3, lptrs. rewrite Es. cbn [q_int obj]. rewrite E2. cbn. repeat (constructor; [reflexivity|]). constructor. }
    assert (I3 : forall k, 29 <= k < 38 -> In k (G ++ seq 2 18 ++ seq 44 4)).
    { intros k Hk. apply in_or_app. left. unfold G, grown. rewrite Es. apply in_or_app. right. apply in_seq. lia. }
    assert (Col : forall k f, 29 <= k < 38 -> k <> 36 -> (forall x, leak_cell k x = f (lrow x)) ->
      begins s (Some (L k)) (List.map f (List.map lrow il))).
    { intros k f Hk Hk2 Hf. exists []. rewrite app_nil_r, B by (apply I3; lia). f_equal. rewrite map_map.
      rewrite (map_nth (fun x => f (lrow x)) Vundef il).
      replace (len n ne mt sh k) with (List.length il).
      2:{ unfold len. destruct (Nat.eqb_spec k 19); [lia|]. destruct (Nat.ltb_spec k 20); [lia|]. destruct (Nat.eqb_spec k 26); [lia|]. destruct (Nat.ltb_spec k 28); [lia|].
          destruct (Nat.eqb_spec k 36); [lia|]. destruct (Nat.ltb_spec k 38); [|lia]. rewrite Hil, map_length. reflexivity. }
      apply map_seq_ext. intros j Hj. unfold ecell, cell.
      repeat match goal with |- context [Nat.eqb k ?c] => destruct (Nat.eqb_spec k c); [lia|] end. cbn [andb]. 
      destruct (Nat.ltb_spec k 20); [lia|]. destruct (Nat.ltb_spec k 28); [lia|]. destruct (Nat.ltb_spec k 38); [|lia].
      unfold lk_at. rewrite Hil, !nth_error_map. destruct (nth_error il j); [cbn; auto|reflexivity]. }
    unfold p3, lptrs. rewrite Es. unfold int_columns, dcol, icol. cbn [seq List.map q_int obj].
    repeat (constructor; [first [apply Col; [lia|lia|reflexivity]|idtac]|]); [|constructor].
    exists []. rewrite app_nil_r, B by (apply I3; lia). f_equal. unfold wcol. rewrite map_map. cbn [k_weights lrow].
    rewrite (concat_nth (fun x => List.map Vdbl (lk_weights x)) Vundef ne il Hne1).
    2:{ eapply Forall_impl; [|exact Fil]. intros x. rewrite map_length. auto. }
    replace (len n ne mt sh 36) with (List.length il * ne) by (unfold len; cbn [Nat.eqb Nat.ltb Nat.leb]; rewrite Hil, map_length; reflexivity).
    apply map_seq_ext. intros i Hi. unfold ecell, cell. cbn [Nat.eqb Nat.ltb Nat.leb andb]. unfold lk_w. rewrite Hil. reflexivity.
Qed.
End Obj.
