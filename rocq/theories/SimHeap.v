(** * Reasoning about a growing family of named blocks *)
From Coq Require Import ZArith List Bool Lia String.
From Verif Require Import Num Mem SpecHeap ErrorModel ErrorProofs ProfileModel ProfileProofs Geometry ConsModel HeapLib ResultModel H5Model H5Table.
Import ListNotations.

Section Heap.
Context {T : Type}.
Implicit Types (s : st T) (L : nat -> loc) (C : nat -> list (val T)) (ids : list nat).

(** In [s] the blocks named by [ids] are at [L] with contents [C]; all other blocks are those
    of [s0]. *)
Definition hp (s0 : st T) ids L C s : Prop :=
  wf s /\ orc s = orc s0 /\
  (forall k, In k ids -> mem s (L k) = Some (C k)) /\
  (forall k k', In k ids -> In k' ids -> L k = L k' -> k = k') /\
  (forall k, In k ids -> mem s0 (L k) = None) /\
  (forall l b, mem s0 l = Some b -> mem s l = Some b) /\
  (forall l b, mem s l = Some b -> mem s0 l = None -> exists k, In k ids /\ l = L k).

Lemma hp_start s L C : wf s -> hp s [] L C s.
Proof.
  intros W. split; [auto|]. split; [auto|]. split; [intros k []|]. split; [intros k k' []|]. split; [intros k []|].
  split; [auto|]. intros l b E1 E2. congruence.
Qed.

(** [f] with value [a] at [k]. *)
Definition ov {A} (f : nat -> A) (k : nat) (a : A) : nat -> A := fun j => if Nat.eqb j k then a else f j.
Lemma ov_same {A} (f : nat -> A) k a : ov f k a k = a.
Proof. unfold ov. now rewrite Nat.eqb_refl. Qed.
Lemma ov_other {A} (f : nat -> A) k a j : j <> k -> ov f k a j = f j.
Proof. intros H. unfold ov. apply Nat.eqb_neq in H. now rewrite H. Qed.

Lemma hp_mem s0 ids L C s k : hp s0 ids L C s -> In k ids -> mem s (L k) = Some (C k).
Proof. intros H. apply H. Qed.
Lemma hp_old s0 ids L C s l b : hp s0 ids L C s -> mem s0 l = Some b -> mem s l = Some b.
Proof. intros H. apply H. Qed.
Lemma hp_wf s0 ids L C s : hp s0 ids L C s -> wf s.
Proof. intros H. apply H. Qed.
Lemma hp_orc s0 ids L C s : hp s0 ids L C s -> orc s = orc s0.
Proof. intros H. apply H. Qed.

Lemma hp_ext s0 ids L C C' s : (forall k, In k ids -> C' k = C k) -> hp s0 ids L C s -> hp s0 ids L C' s.
Proof. intros E (H1 & H2 & H3 & H4). split; [auto|]. split; [auto|]. split; [|auto]. intros k Hk. rewrite E; auto. Qed.

Lemma hp_store s0 ids L C s k i v C' (Q : unit -> st T -> Prop) :
  hp s0 ids L C s -> In k ids -> i < List.length (C k) ->
  (forall j, In j ids -> C' j = if Nat.eqb j k then set_nth (C k) i v else C j) ->
  (forall s', hp s0 ids L C' s' -> Q tt s') ->
  wp (store (Some (L k)) i v) Q s.
Proof.
  intros (W & O & M & I & F & K & X) Hk Hi E HQ.
  eapply wp_store; [exact (M k Hk)|exact Hi|]. apply HQ.
  pose proof (M k Hk) as Mk.
  repeat split; cbn [mem orc nxt].
  - intros l Hl. cbn [mem nxt] in *. rewrite upd_other; [apply W; auto|]. intros ->. rewrite (W _ Hl) in Mk. discriminate.
  - auto.
  - intros j Hj. rewrite (E j Hj). destruct (Nat.eqb_spec j k) as [->|Ne]; [apply upd_same|].
    rewrite upd_other by (intros El; apply Ne; apply I; auto). apply M; auto.
  - auto.
  - auto.
  - intros l b Hl. rewrite upd_other; [auto|]. intros ->. rewrite (F k Hk) in Hl. discriminate.
  - intros l b Hl E0. unfold upd in Hl. destruct (Nat.eqb_spec l (L k)) as [->|]; eauto.
Qed.

Lemma hp_store_old s0 ids L C s d b i v (Q : unit -> st T -> Prop) :
  hp s0 ids L C s -> mem s0 d = Some b -> i < List.length b ->
  (forall s', hp (setmem s0 (upd (mem s0) d (Some (set_nth b i v)))) ids L C s' -> Q tt s') ->
  wp (store (Some d) i v) Q s.
Proof.
  intros (W & O & M & I & F & K & X) Hd Hi HQ.
  eapply wp_store; [exact (K _ _ Hd)|exact Hi|]. apply HQ. pose proof (K _ _ Hd) as Md.
  repeat split; cbn [mem orc nxt setmem].
  - intros l Hl. cbn [mem nxt] in *. rewrite upd_other; [apply W; auto|]. intros ->. rewrite (W _ Hl) in Md. discriminate.
  - auto.
  - intros j Hj. rewrite upd_other; [auto|]. intros El. rewrite <- El, (F j Hj) in Hd. discriminate.
  - auto.
  - intros j Hj. rewrite upd_other; [auto|]. intros El. rewrite <- El, (F j Hj) in Hd. discriminate.
  - intros l x. unfold upd. destruct (Nat.eqb l d); auto.
  - intros l x. unfold upd. destruct (Nat.eqb l d); [discriminate|]. eauto.
Qed.

Lemma hp_alloc s0 ids L C s k b (Q : ptr -> st T -> Prop) :
  hp s0 ids L C s -> ~ In k ids ->
  (orc s0 (cnt s) = true -> forall l s', cnt s' = S (cnt s) -> hp s0 (k :: ids) (ov L k l) (ov C k b) s' -> Q (Some l) s') ->
  (orc s0 (cnt s) = false -> forall s', cnt s' = S (cnt s) -> hp s0 ids L C s' -> Q NULL s') ->
  wp (alloc b) Q s.
Proof.
  intros (W & O & M & I & F & K & X) Hk H1 H2.
  assert (Lk : forall j, In j ids -> L j < nxt s).
  { intros j Hj. destruct (Nat.lt_ge_cases (L j) (nxt s)) as [|G]; auto. pose proof (M j Hj) as E. rewrite (W _ G) in E. discriminate. }
  assert (Hlt : forall l, mem s0 l <> None -> l < nxt s).
  { intros l Hl. destruct (mem s0 l) as [x|] eqn:E; [|congruence]. destruct (Nat.lt_ge_cases l (nxt s)) as [|G]; auto.
    pose proof (K l x E) as E2. rewrite (W _ G) in E2. discriminate. }
  assert (EL : forall l j, In j ids -> ov L k l j = L j).
  { intros l j Hj. apply ov_other. intros ->. contradiction. }
  assert (EC : forall j, In j ids -> ov C k b j = C j).
  { intros j Hj. apply ov_other. intros ->. contradiction. }
  apply wp_alloc; intros Or; rewrite O in Or.
  - apply (H1 Or); [reflexivity|].
    repeat split; cbn [mem nxt orc cnt].
    + intros l Hl. cbn [mem nxt] in *. rewrite upd_other by lia. apply W. lia.
    + auto.
    + intros j [<-|Hj]; [rewrite !ov_same; apply upd_same|]. rewrite (EL _ j Hj), (EC j Hj), upd_other; [auto|]. specialize (Lk j Hj). lia.
    + intros j j' [<-|Hj] [<-|Hj']; auto; rewrite ?ov_same, ?(EL _ _ Hj), ?(EL _ _ Hj').
      * specialize (Lk j' Hj'). lia.
      * specialize (Lk j Hj). lia.
      * auto.
    + intros j [<-|Hj]; [rewrite ov_same|rewrite (EL _ j Hj); auto]. destruct (mem s0 (nxt s)) eqn:E; auto.
      assert (nxt s < nxt s) by (apply Hlt; congruence). lia.
    + intros l x Hl. rewrite upd_other; [auto|]. intros ->. assert (nxt s < nxt s) by (apply Hlt; congruence). lia.
    + intros l x Hl E0. unfold upd in Hl. destruct (Nat.eqb_spec l (nxt s)) as [->|].
      * exists k. rewrite ov_same. cbn. auto.
      * destruct (X l x Hl E0) as (j & Hj & ->). exists j. split; [right; auto|]. rewrite EL; auto.
  - apply (H2 Or); cbn; auto. repeat split; auto.
Qed.

Lemma hp_free s0 ids L C s k ids' (Q : unit -> st T -> Prop) :
  hp s0 ids L C s -> In k ids -> ~ In k ids' -> (forall j, In j ids' -> In j ids) -> (forall j, In j ids -> j = k \/ In j ids') ->
  (forall s', hp s0 ids' L C s' -> Q tt s') ->
  wp (free (Some (L k))) Q s.
Proof.
  intros (W & O & M & I & F & K & X) Hk Hk' Sub Cov HQ.
  eapply wp_free; [exact (M k Hk)|]. apply HQ.
  repeat split; cbn [mem nxt orc cnt].
  - intros l Hl. cbn [mem nxt] in *. unfold upd. destruct (Nat.eqb l (L k)); auto.
  - auto.
  - intros j Hj. rewrite upd_other; [auto|]. intros E. apply I in E; auto. subst. contradiction.
  - auto.
  - auto.
  - intros l b Hl. rewrite upd_other; [auto|]. intros ->. rewrite (F k Hk) in Hl. discriminate.
  - intros l b Hl E0. unfold upd in Hl. destruct (Nat.eqb_spec l (L k)) as [->|Ne]; [discriminate|].
    destruct (X l b Hl E0) as (j & Hj & ->). exists j. split; [|auto]. destruct (Cov j Hj) as [->|]; [congruence|auto].
Qed.

(** Loads. *)
Lemma hp_load_ptr s0 ids L C s k i p (Q : ptr -> st T -> Prop) : hp s0 ids L C s -> In k ids -> nth_error (C k) i = Some (Vptr p) ->
  Q p s -> wp (load_ptr (Some (L k)) i) Q s.
Proof. intros H Hk E HQ. eapply wp_load_ptr; [apply (hp_mem _ _ _ _ _ _ H Hk)|exact E|exact HQ]. Qed.
Lemma hp_load_int s0 ids L C s k i p (Q : Z -> st T -> Prop) : hp s0 ids L C s -> In k ids -> nth_error (C k) i = Some (Vint p) ->
  Q p s -> wp (load_int (Some (L k)) i) Q s.
Proof. intros H Hk E HQ. eapply wp_load_int; [apply (hp_mem _ _ _ _ _ _ H Hk)|exact E|exact HQ]. Qed.
Lemma hp_load_dbl s0 ids L C s k i p (Q : T -> st T -> Prop) : hp s0 ids L C s -> In k ids -> nth_error (C k) i = Some (Vdbl p) ->
  Q p s -> wp (load_dbl (Some (L k)) i) Q s.
Proof. intros H Hk E HQ. eapply wp_load_dbl; [apply (hp_mem _ _ _ _ _ _ H Hk)|exact E|exact HQ]. Qed.

(** Arrays given by a function of the index. *)
Lemma nth_map_seq {A} (g : nat -> A) m i : i < m -> nth_error (List.map g (seq 0 m)) i = Some (g i).
Proof.
  intros H. rewrite nth_error_map. rewrite (nth_error_nth' (seq 0 m) 0) by (rewrite seq_length; auto).
  rewrite seq_nth by auto. reflexivity.
Qed.
Lemma set_map_seq {A} (g g' : nat -> A) m i v : (i < m -> g' i = v) -> (forall j, j < m -> j <> i -> g' j = g j) ->
  set_nth (List.map g (seq 0 m)) i v = List.map g' (seq 0 m).
Proof.
  intros E1 E2. apply nth_error_ext. intros j.
  destruct (Nat.lt_ge_cases j m) as [Lj|Gj].
  - rewrite (nth_map_seq g' m j Lj). destruct (Nat.eq_dec j i) as [->|Ne].
    + rewrite nth_error_set_nth_same by (rewrite map_length, seq_length; auto). rewrite E1; auto.
    + rewrite nth_error_set_nth_other by auto. rewrite nth_map_seq by auto. rewrite E2; auto.
  - rewrite (proj2 (nth_error_None _ _)) by (rewrite length_set_nth, map_length, seq_length; auto).
    rewrite (proj2 (nth_error_None _ _)) by (rewrite map_length, seq_length; auto). reflexivity.
Qed.

(** Blocks given cell by cell. *)
Definition arr (len : nat -> nat) (cell : nat -> nat -> val T) : nat -> list (val T) := fun k => List.map (cell k) (seq 0 (len k)).
Definition putc (cell : nat -> nat -> val T) (k i : nat) (v : val T) : nat -> nat -> val T :=
  fun k' i' => if (Nat.eqb k' k && Nat.eqb i' i)%bool then v else cell k' i'.
Lemma arr_length len cell k : List.length (arr len cell k) = len k.
Proof. unfold arr. now rewrite map_length, seq_length. Qed.
Lemma arr_nth len cell k i : i < len k -> nth_error (arr len cell k) i = Some (cell k i).
Proof. apply nth_map_seq. Qed.
Lemma map_seq_ext {A} (f g : nat -> A) n : (forall i, i < n -> f i = g i) -> List.map f (seq 0 n) = List.map g (seq 0 n).
Proof. intros H. apply map_ext_in. intros i Hi. apply in_seq in Hi. apply H. lia. Qed.
Lemma ha_ext s0 ids L len len' cell cell' s :
  (forall k, In k ids -> len' k = len k) -> (forall k i, In k ids -> i < len k -> cell' k i = cell k i) ->
  hp s0 ids L (arr len cell) s -> hp s0 ids L (arr len' cell') s.
Proof. intros El Ec. apply hp_ext. intros k Hk. unfold arr. rewrite (El k Hk). apply map_seq_ext. intros i Hi. apply Ec; auto. Qed.
Lemma ha_store s0 ids L len cell s k i v (Q : unit -> st T -> Prop) :
  hp s0 ids L (arr len cell) s -> In k ids -> i < len k ->
  (forall s', hp s0 ids L (arr len (putc cell k i v)) s' -> Q tt s') ->
  wp (store (Some (L k)) i v) Q s.
Proof.
  intros H Hk Hi HQ. eapply hp_store; [exact H|exact Hk|rewrite arr_length; exact Hi| |exact HQ].
  intros j Hj. unfold arr. destruct (Nat.eqb_spec j k) as [->|Ne].
  - symmetry. apply set_map_seq.
    + intros _. unfold putc. now rewrite !Nat.eqb_refl.
    + intros i' _ Hn. unfold putc. apply Nat.eqb_neq in Hn. now rewrite Hn, andb_false_r.
  - apply map_ext. intros i'. unfold putc. apply Nat.eqb_neq in Ne. now rewrite Ne.
Qed.
Lemma ha_load_ptr s0 ids L len cell s k i p (Q : ptr -> st T -> Prop) : hp s0 ids L (arr len cell) s -> In k ids -> i < len k ->
  cell k i = Vptr p -> Q p s -> wp (load_ptr (Some (L k)) i) Q s.
Proof. intros H Hk Hi E HQ. eapply hp_load_ptr; eauto. rewrite arr_nth by auto. now rewrite E. Qed.
Lemma ha_load_int s0 ids L len cell s k i p (Q : Z -> st T -> Prop) : hp s0 ids L (arr len cell) s -> In k ids -> i < len k ->
  cell k i = Vint p -> Q p s -> wp (load_int (Some (L k)) i) Q s.
Proof. intros H Hk Hi E HQ. eapply hp_load_int; eauto. rewrite arr_nth by auto. now rewrite E. Qed.
Lemma ha_load_dbl s0 ids L len cell s k i p (Q : T -> st T -> Prop) : hp s0 ids L (arr len cell) s -> In k ids -> i < len k ->
  cell k i = Vdbl p -> Q p s -> wp (load_dbl (Some (L k)) i) Q s.
Proof. intros H Hk Hi E HQ. eapply hp_load_dbl; eauto. rewrite arr_nth by auto. now rewrite E. Qed.

End Heap.
