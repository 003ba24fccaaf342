(** * Proofs about the result object *)
From Coq Require Import ZArith List Bool Lia String FunctionalExtensionality.
From Verif Require Import Num Mem SpecHeap ErrorModel ErrorProofs ProfileModel ProfileProofs Geometry ConsModel HeapLib
  DescProofs SpecPhoton PhotProofs ResultModel SpecResult.
Import ListNotations.

Section Lib.
Context {T : Type} {N : Num T}.
Implicit Types s : st T.

(** ** Reading columns *)
Lemma nth_dcol {A} (f : A -> T) l i a more : nth_error l i = Some a -> nth_error (dcol f l ++ more) i = Some (Vdbl (f a)).
Proof.
  intros H. assert (i < List.length l) by (apply nth_error_Some; congruence).
  rewrite nth_error_app1 by (unfold dcol; rewrite map_length; auto). unfold dcol. now rewrite nth_error_map, H.
Qed.
Lemma nth_icol {A} (f : A -> Z) l i a more : nth_error l i = Some a -> nth_error (icol f l ++ more) i = Some (@Vint T (f a)).
Proof.
  intros H. assert (i < List.length l) by (apply nth_error_Some; congruence).
  rewrite nth_error_app1 by (unfold icol; rewrite map_length; auto). unfold icol. now rewrite nth_error_map, H.
Qed.

Lemma wp_dbl_at {A B} im b j p (f : A -> T) l i a (k : T -> M T B) Q s :
  mem s im = Some b -> nth_error b j = Some (Vptr p) -> begins s p (dcol f l) -> nth_error l i = Some a ->
  wp (k (f a)) Q s -> wp (bind (load_ptr (Some im) j) (fun x => bind (load_dbl x i) k)) Q s.
Proof.
  intros Hb Hj Hp Hi HQ. apply wp_bind. eapply wp_load_ptr; [exact Hb|exact Hj|]. apply wp_bind.
  destruct p as [p|]; cbn in Hp.
  - destruct Hp as [more Hp]. eapply wp_load_dbl; [exact Hp|apply nth_dcol; exact Hi|exact HQ].
  - destruct l; [destruct i; discriminate|discriminate].
Qed.
Lemma wp_int_at {A B} im b j p (f : A -> Z) l i a (k : Z -> M T B) Q s :
  mem s im = Some b -> nth_error b j = Some (Vptr p) -> begins s p (icol f l) -> nth_error l i = Some a ->
  wp (k (f a)) Q s -> wp (bind (load_ptr (Some im) j) (fun x => bind (load_int x i) k)) Q s.
Proof.
  intros Hb Hj Hp Hi HQ. apply wp_bind. eapply wp_load_ptr; [exact Hb|exact Hj|]. apply wp_bind.
  destruct p as [p|]; cbn in Hp.
  - destruct Hp as [more Hp]. eapply wp_load_int; [exact Hp|apply nth_icol; exact Hi|exact HQ].
  - destruct l; [destruct i; discriminate|discriminate].
Qed.

(** ** Writing arrays *)
Definition cells3 (vs : list (vec3 T)) : list (val T) := List.concat (List.map vcells vs).
Lemma cells3_length vs : List.length (cells3 vs) = 3 * List.length vs.
Proof. unfold cells3. induction vs as [|v vs IH]; [reflexivity|]. cbn [List.map List.concat]. rewrite app_length, IH. cbn. lia. Qed.
Lemma cells3_nth vs : forall i v, nth_error vs i = Some v ->
  nth_error (cells3 vs) (3 * i) = Some (Vdbl (vx v)) /\ nth_error (cells3 vs) (S (3 * i)) = Some (Vdbl (vy v)) /\
  nth_error (cells3 vs) (S (S (3 * i))) = Some (Vdbl (vz v)).
Proof.
  induction vs as [|w vs IH]; intros [|i] v H; try discriminate.
  - injection H as ->. cbn. auto.
  - cbn [nth_error] in H. apply IH in H. unfold cells3 in *. cbn [List.map List.concat].
    replace (3 * S i) with (S (S (S (3 * i)))) by lia. cbn [vcells app nth_error]. exact H.
Qed.

Lemma wp_store_vec q vs i v (Q : unit -> st T -> Prop) s :
  mem s q = Some (copied (cells3 vs) (3 * i)) -> nth_error vs i = Some v ->
  Q tt (setmem s (upd (mem s) q (Some (copied (cells3 vs) (3 * S i))))) ->
  wp (store_vec (Some q) (3 * i) v) Q s.
Proof.
  intros Hq Hi HQ. destruct (cells3_nth vs i v Hi) as (C1 & C2 & C3).
  assert (Li : i < List.length vs) by (apply nth_error_Some; congruence).
  pose proof (cells3_length vs) as L.
  unfold store_vec. apply wp_bind. eapply wp_store; [exact Hq|rewrite copied_length; lia|].
  rewrite (copied_step _ _ _ C1). apply wp_bind.
  eapply wp_store; [cbn [mem]; apply upd_same|rewrite copied_length; lia|]. rewrite (copied_step _ _ _ C2). cbn [mem nxt orc cnt].
  eapply wp_store; [cbn [mem]; apply upd_same|rewrite copied_length; lia|]. rewrite (copied_step _ _ _ C3). cbn [mem nxt orc cnt].
  rewrite !upd_shadow. replace (S (S (S (3 * i)))) with (3 * S i) by lia. exact HQ.
Qed.

Lemma wp_store_cell q cs i c (Q : unit -> st T -> Prop) s :
  mem s q = Some (copied cs i) -> nth_error cs i = Some c ->
  Q tt (setmem s (upd (mem s) q (Some (copied cs (S i))))) ->
  wp (store (Some q) i c) Q s.
Proof.
  intros Hq Hi HQ. assert (Li : i < List.length cs) by (apply nth_error_Some; congruence).
  eapply wp_store; [exact Hq|rewrite copied_length; lia|]. rewrite (copied_step _ _ _ Hi). exact HQ.
Qed.

(** ** Reports *)
Lemma failed_from err c m outs s s1 s' :
  (forall l b, mem s l = Some b -> ~ In l outs -> mem s1 l = Some b) ->
  (forall e, err = Some e -> ~ In e outs) -> legal_err s err ->
  (forall l b, mem s1 l = Some b -> err <> Some l -> mem s' l = Some b) ->
  error_reported err c m s1 s' -> failed err c outs s s'.
Proof.
  intros H1 He Le H2 R. split.
  - intros l b Hl Ho Hne. apply H2; auto.
  - intros e ->. cbn in R. destruct R as [R1 R2]. specialize (He e eq_refl). split.
    + intros Hs. destruct R1 as (p & t & S1 & S2 & F1 & F2 & _); [apply H1; auto|]. exists p, t, m. split; [exact S1|]. split; [exact S2|].
      intros l El No. destruct (mem s l) as [b|] eqn:E; [|reflexivity]. specialize (H1 l b E No). destruct El as [->| ->]; congruence.
    + intros p Hs. unfold slot_holds in *. rewrite (R2 p); [|apply H1; auto]. apply H1; auto.
Qed.

Lemma wp_refuse b err msg k outs s0 (Q : bool -> st T -> Prop) s :
  (b = false -> wp k Q s) ->
  (b = true -> wf s /\ legal_err s0 err /\ (err <> None -> orc s (cnt s) = true /\ orc s (S (cnt s)) = true) /\
     (forall l x, mem s0 l = Some x -> ~ In l outs -> mem s l = Some x) /\
     (forall e, err = Some e -> ~ In e outs) /\
     (forall s', failed err POLYCAP_ERROR_INVALID_ARGUMENT outs s0 s' -> Q false s')) ->
  wp (refuse b err msg k) Q s.
Proof.
  intros H1 H2. unfold refuse. destruct b; [|auto]. destruct H2 as (W & Le & Ho & Fr & He & HQ); auto.
  apply wp_bind. apply (wp_report true err POLYCAP_ERROR_INVALID_ARGUMENT msg); auto.
  { destruct err as [e|]; [|exact I]. destruct Le as [p Hp]. exists p. apply Fr; auto. }
  intros s' W' O' N' K R. apply wp_ret. apply HQ. eapply failed_from; eauto.
Qed.

(** An allocation whose result goes to cell [i] of [out]. *)
Lemma wp_alloc_out out i n err msg k b outs s0 (Q : bool -> st T -> Prop) s :
  wf s -> mem s out = Some b -> i < List.length b ->
  (orc s (cnt s) = true ->
     wp (k (Some (nxt s))) Q
       (mkSt (upd (upd (mem s) (nxt s) (Some (repeat Vundef n))) out (Some (set_nth b i (Vptr (Some (nxt s)))))) (S (nxt s)) (orc s) (S (cnt s)))) ->
  (orc s (cnt s) = false ->
     legal_err s0 err /\ reports_fit err s /\ err <> Some out /\ (mem s0 out = None \/ In out outs) /\
     (forall l x, mem s0 l = Some x -> ~ In l outs -> mem s l = Some x) /\
     (forall e, err = Some e -> ~ In e outs) /\
     (forall s', failed err POLYCAP_ERROR_MEMORY outs s0 s' -> Q false s')) ->
  wp (alloc_out (Some out) i n err msg k) Q s.
Proof.
  intros W Ho Li H1 H2. pose proof (live_lt _ _ _ W Ho) as Lo.
  unfold alloc_out. apply wp_bind. unfold malloc. apply wp_alloc; intros Or.
  - apply wp_bind. eapply wp_store; [cbn [mem]; rewrite upd_other by lia; exact Ho|exact Li|]. cbn [mem nxt orc cnt]. auto.
  - destruct (H2 Or) as (Le & Rf & Ne & Ou & Fr & He & HQ).
    apply wp_bind. eapply wp_store; [cbn [mem]; exact Ho|exact Li|]. cbn [mem nxt orc cnt].
    apply wp_bind. change (mem_error err msg) with (@report_fn T false err POLYCAP_ERROR_MEMORY msg).
    assert (Fr1 : forall l x, mem s0 l = Some x -> ~ In l outs ->
       upd (mem s) out (Some (set_nth b i (Vptr NULL))) l = Some x).
    { intros l x Hl Hn. rewrite upd_other; [auto|]. intros ->. destruct Ou; [congruence|contradiction]. }
    apply wp_report.
    + intros l Hl. cbn in *. rewrite upd_other by lia. apply W. lia.
    + destruct err as [e|]; [|exact I]. destruct Le as [p Hp]. exists p. cbn [slot_holds mem]. apply Fr1; auto.
    + intros Hne. cbn [orc cnt]. destruct (Rf _ Or) as [|[A1 A2]]; [contradiction|auto].
    + intros s' W' O' N' K R. apply wp_ret. apply HQ.
      match type of R with error_reported _ _ _ ?S1 _ => exact (failed_from err _ msg outs s0 S1 s' Fr1 He Le K R) end.
Qed.

(** ** Weights, row by row *)
Lemma wcol_nth {A} (f : A -> list T) l m more : forall i a j x, Forall (fun a => List.length (f a) = m) l ->
  nth_error l i = Some a -> nth_error (f a) j = Some x -> nth_error (wcol f l ++ more) (i * m + j) = Some (Vdbl x).
Proof.
  unfold wcol. induction l as [|b l IH]; intros [|i] a j x F Hi Hj; try discriminate; cbn [nth_error List.map List.concat] in *.
  - injection Hi as ->. cbn [mult plus]. rewrite <- app_assoc. rewrite nth_error_app1.
    + rewrite nth_error_map, Hj. reflexivity.
    + rewrite map_length. apply nth_error_Some. congruence.
  - pose proof (Forall_inv F) as F1. apply Forall_inv_tail in F. rewrite <- app_assoc.
    rewrite nth_error_app2; rewrite map_length, F1; [|cbn; lia]. replace (S i * m + j - m) with (i * m + j) by (cbn; lia).
    eapply IH; eauto.
Qed.

Lemma wp_copy_weights {A} dst p (f : A -> list T) l i a m (Q : unit -> st T -> Prop) s :
  begins s p (wcol f l) -> Forall (fun a => List.length (f a) = m) l -> nth_error l i = Some a ->
  mem s dst = Some (repeat Vundef m) -> p <> Some dst ->
  Q tt (setmem s (upd (mem s) dst (Some (List.map Vdbl (f a))))) ->
  wp (copy_weights (Some dst) p i m) Q s.
Proof.
  intros Hp F Hi Hd Hne HQ. unfold copy_weights.
  assert (Lm : List.length (f a) = m). { rewrite Forall_forall in F. apply F. eapply nth_error_In; eauto. }
  assert (Lc : List.length (List.map Vdbl (f a)) = m) by (rewrite map_length; exact Lm).
  apply wp_for_n with (I := fun j s' => s' = setmem s (upd (mem s) dst (Some (copied (List.map Vdbl (f a)) j)))).
  - rewrite copied_0, Lc. rewrite upd_id by exact Hd. now rewrite setmem_id.
  - intros j s1 Hj ->. destruct (nth_error_Some_ex (f a) j) as [x Hx]; [lia|].
    pose proof (wcol_nth f l m) as W.
    destruct p as [p|].
    + destruct Hp as [more Hp]. apply wp_bind. eapply wp_load_dbl; [cbn [mem setmem]; rewrite upd_other by congruence; exact Hp|eapply W; eauto|].
      eapply wp_store_cell; [cbn [mem setmem]; apply upd_same|rewrite nth_error_map, Hx; reflexivity|].
      unfold setmem. cbn [mem nxt orc cnt]. now rewrite upd_shadow.
    + exfalso. cbn in Hp. pose proof (W [] i a j x F Hi Hx) as K. rewrite Hp in K. destruct (i * m + j); discriminate.
  - intros s1 ->. cbn [plus]. rewrite <- Lc, copied_all. exact HQ.
Qed.

Lemma wp_for_ok (I : nat -> st T -> Prop) body n : forall from (Q : bool -> st T -> Prop) s,
  I from s ->
  (forall i s, from <= i < from + n -> I i s -> wp (body i) (fun (b : bool) s' => if b then I (S i) s' else Q false s') s) ->
  (forall s, I (from + n) s -> Q true s) ->
  wp (for_ok n from body) Q s.
Proof.
  induction n as [|n IH]; intros from Q s HI Hb HQ.
  - apply wp_ret. apply HQ. now rewrite Nat.add_0_r.
  - cbn [for_ok]. apply wp_bind. eapply wp_mono.
    + apply Hb; [lia|exact HI].
    + intros [] s' HI'; [|apply wp_ret; exact HI']. apply IH; auto.
      * intros i s'' Hi. apply Hb. lia.
      * intros s'' H''. apply HQ. now rewrite Nat.add_succ_r.
Qed.

Lemma nth_ptrs (b n i : nat) : i < n -> nth_error (List.map (fun a : loc => @Vptr T (Some a)) (seq b n)) i = Some (Vptr (Some (b + i))).
Proof.
  intros H. rewrite nth_error_map. assert (E : @nth_error loc (seq b n) i = Some (b + i)).
  { unfold loc. rewrite (nth_error_nth' _ 0) by (rewrite seq_length; exact H). rewrite seq_nth by exact H. reflexivity. }
  now rewrite E.
Qed.

End Lib.

(** ** A result object in memory *)
Lemma Forall2_nth {A B} (P : A -> B -> Prop) l m k c : Forall2 P l m -> nth_error m k = Some c ->
  exists p, nth_error l k = Some p /\ P p c.
Proof.
  intros F. revert k. induction F as [|x y l m H F IH]; intros [|k] E; try discriminate; cbn in *.
  - injection E as <-. eauto.
  - auto.
Qed.
Lemma Forall2_In_impl {A B} (P Q : A -> B -> Prop) l m : (forall a b, In a l -> P a b -> Q a b) -> Forall2 P l m -> Forall2 Q l m.
Proof. intros H F. induction F; constructor; [apply H; cbn; auto|]. apply IHF. intros. apply H; cbn; auto. Qed.

Lemma Forall2_len {A B} (P : A -> B -> Prop) l m : Forall2 P l m -> List.length l = List.length m.
Proof. intros F. induction F; cbn; congruence. Qed.

Lemma not_in_app {A} (x : A) l m : ~ In x (l ++ m) -> ~ In x l /\ ~ In x m.
Proof. intros H. split; intros K; apply H; apply in_or_app; auto. Qed.

Lemma in_plocs (l : loc) (p : ptr) ps : In p ps -> p = Some l -> In l (List.concat (List.map plocs ps)).
Proof. intros H ->. apply in_concat. exists [l]. split; [|cbn; auto]. apply in_map_iff. exists (Some l). auto. Qed.

Lemma wp_refuse_no {T} {N : Num T} b err msg (k : M T bool) Q s : b = false -> wp k Q s -> wp (refuse b err msg k) Q s.
Proof. intros -> H. exact H. Qed.

Ltac qlia := solve [repeat match goal with H : _ <> _ |- _ => clear H end; lia].
Ltac nq := first [assumption | apply not_eq_sym; assumption | qlia].
Ltac lk := cbn [mem setmem nxt orc cnt]; repeat first [rewrite upd_same | rewrite upd_other by nq]; first [eassumption | reflexivity].

Section Obj.
Context {T : Type} {N : Num T}.
Variable s : st T.
Variables eff im : loc.
Variables pen peff src : ptr.
Variables p1 p2 p3 : list ptr.
Variable r : result T.
Hypothesis Wf : wf s.
Hypothesis Robj : result_object s eff im pen peff src p1 p2 p3 r.
Let RB := result_blocks eff im pen peff p1 p2 p3.
Let n := List.length (q_rows r).
Let ne := List.length (q_energies r).
Let imblock : list (val T) :=
  Vint (q_started r) :: Vint (Z.of_nat (List.length (q_rows r))) :: List.map Vptr p1 ++
  Vint (Z.of_nat (List.length (q_ext r))) :: List.map Vptr p2 ++
  Vint (Z.of_nat (List.length (q_int r))) :: List.map Vptr p3.

(** The object is untouched in [s']. *)
Definition keeps (s' : st T) : Prop := forall l, In l RB -> mem s' l = mem s l.

Lemma im_RB : In im RB. Proof. unfold RB, result_blocks. apply in_or_app. cbn. auto. Qed.
Lemma eff_RB : In eff RB. Proof. unfold RB, result_blocks. apply in_or_app. cbn. auto. Qed.

Lemma begins_keep p cells s' : In p (pen :: peff :: p1 ++ p2 ++ p3) -> keeps s' -> begins s p cells -> begins s' p cells.
Proof.
  intros Hp K. unfold begins. destruct p as [l|]; [|auto]. rewrite K; [auto|].
  unfold RB, result_blocks. apply in_or_app. left. eapply in_plocs; eauto.
Qed.

Lemma obj_keep s' : keeps s' -> result_object s' eff im pen peff src p1 p2 p3 r.
Proof.
  intros K. destruct Robj as (R1 & R2 & R3 & R4 & R5 & R6 & R7 & R8). unfold result_object.
  rewrite (K im im_RB), (K eff eff_RB).
  repeat (split; [assumption|]).
  split; [apply begins_keep; cbn; auto|]. split; [apply begins_keep; cbn; auto|].
  split; [|split].
  - revert R6. apply Forall2_In_impl. intros a b Hi. apply begins_keep; auto. cbn. right. right. apply in_or_app. auto.
  - revert R7. apply Forall2_In_impl. intros a b Hi. apply begins_keep; auto. cbn. right. right. apply in_or_app. right. apply in_or_app. auto.
  - revert R8. apply Forall2_In_impl. intros a b Hi. apply begins_keep; auto. cbn. right. right. apply in_or_app. right. apply in_or_app. auto.
Qed.

Lemma RB_lt l : In l RB -> mem s l <> None -> l < nxt s.
Proof. intros _ H. destruct (mem s l) eqn:E; [|congruence]. exact (live_lt _ _ _ Wf E). Qed.
Lemma RB_live l : In l RB -> exists b, mem s l = Some b.
Proof.
  destruct Robj as (R1 & R2 & R3 & R4 & R5 & R6 & R7 & R8).
  unfold RB, result_blocks. intros H. apply in_app_or in H. destruct H as [H|[<-|[<-|[]]]]; eauto.
  apply in_concat in H. destruct H as (ps & H & Hl). apply in_map_iff in H. destruct H as (p & <- & Hp).
  destruct p as [p|]; [|destruct Hl]. destruct Hl as [->|[]].
  assert (B : exists c, begins s (Some l) c).
  { destruct Hp as [->|[->|Hp]]; eauto.
    assert (G : forall qs cs, Forall2 (begins s) qs cs -> In (Some l) qs -> exists c, begins s (Some l) c).
    { intros qs cs F. induction F; intros []; subst; eauto. }
    apply in_app_or in Hp. destruct Hp as [Hp|Hp]; [eauto|]. apply in_app_or in Hp. destruct Hp; eauto. }
  destruct B as (c & more & E). eauto.
Qed.
Lemma RB_old l : In l RB -> l < nxt s.
Proof. intros H. destruct (RB_live l H) as [b E]. exact (live_lt _ _ _ Wf E). Qed.

Lemma lens : List.length p1 = 18 /\ List.length p2 = 7 /\ List.length p3 = 9.
Proof.
  destruct Robj as (R1 & R2 & R3 & R4 & R5 & R6 & R7 & R8).
  apply Forall2_len in R6, R7, R8. rewrite R6, R7, R8. auto.
Qed.

Lemma im_mem s' : keeps s' -> mem s' im = Some imblock.
Proof. intros K. rewrite (K im im_RB). destruct Robj as (_ & _ & H & _). exact H. Qed.
Lemma eff_mem s' : keeps s' -> mem s' eff = Some [Vint (Z.of_nat ne); Vptr pen; Vptr peff; Vptr (Some im); Vptr src].
Proof. intros K. rewrite (K eff eff_RB). destruct Robj as (_ & H & _). exact H. Qed.

Lemma nth_map_app {A B} (f : A -> B) l rest k p : nth_error l k = Some p -> nth_error (List.map f l ++ rest) k = Some (f p).
Proof.
  intros H. rewrite nth_error_app1 by (rewrite map_length; apply nth_error_Some; congruence). now rewrite nth_error_map, H.
Qed.

Lemma row_col k c s' : keeps s' -> nth_error (row_columns (q_rows r)) k = Some c ->
  exists p, nth_error imblock (2 + k) = Some (Vptr p) /\ begins s' p c.
Proof.
  intros K H. destruct (obj_keep s' K) as (_ & _ & _ & _ & _ & F & _ & _).
  destruct (Forall2_nth _ _ _ _ _ F H) as (p & E & B). exists p. split; [|exact B].
  unfold imblock. cbn [plus nth_error]. apply nth_map_app. exact E.
Qed.
Lemma ext_col k c s' : keeps s' -> nth_error (ext_columns (q_ext r)) k = Some c ->
  exists p, nth_error imblock (21 + k) = Some (Vptr p) /\ begins s' p c.
Proof.
  intros K H. destruct (obj_keep s' K) as (_ & _ & _ & _ & _ & _ & F & _).
  destruct (Forall2_nth _ _ _ _ _ F H) as (p & E & B). exists p. split; [|exact B].
  destruct lens as (L1 & L2 & L3).
  unfold imblock. change (21 + k) with (S (S (19 + k))). cbn [nth_error].
  rewrite nth_error_app2; rewrite map_length, L1; [|lia]. replace (19 + k - 18) with (S k) by lia. cbn [nth_error].
  apply nth_map_app. exact E.
Qed.
Lemma int_col k c s' : keeps s' -> nth_error (int_columns (q_int r)) k = Some c ->
  exists p, nth_error imblock (29 + k) = Some (Vptr p) /\ begins s' p c.
Proof.
  intros K H. destruct (obj_keep s' K) as (_ & _ & _ & _ & _ & _ & _ & F).
  destruct (Forall2_nth _ _ _ _ _ F H) as (p & E & B). exists p. split; [|exact B].
  destruct lens as (L1 & L2 & L3).
  unfold imblock. change (29 + k) with (S (S (27 + k))). cbn [nth_error].
  rewrite nth_error_app2; rewrite map_length, L1; [|lia]. replace (27 + k - 18) with (S (8 + k)) by lia. cbn [nth_error].
  rewrite nth_error_app2; rewrite map_length, L2; [|lia]. replace (8 + k - 7) with (S k) by lia. cbn [nth_error].
  rewrite nth_error_map, E. reflexivity.
Qed.

Lemma wp_row_dbl {B} k f i row (c : T -> M T B) Q s' :
  nth_error (row_columns (q_rows r)) k = Some (dcol f (q_rows r)) -> nth_error (q_rows r) i = Some row -> keeps s' ->
  wp (c (f row)) Q s' -> wp (bind (load_ptr (Some im) (2 + k)) (fun x => bind (load_dbl x i) c)) Q s'.
Proof.
  intros Hk Hi K HQ. destruct (row_col k _ s' K Hk) as (p & E & Bg).
  eapply wp_dbl_at; [apply im_mem, K|exact E|exact Bg|exact Hi|exact HQ].
Qed.
Lemma wp_row_int {B} k f i row (c : Z -> M T B) Q s' :
  nth_error (row_columns (q_rows r)) k = Some (icol f (q_rows r)) -> nth_error (q_rows r) i = Some row -> keeps s' ->
  wp (c (f row)) Q s' -> wp (bind (load_ptr (Some im) (2 + k)) (fun x => bind (load_int x i) c)) Q s'.
Proof.
  intros Hk Hi K HQ. destruct (row_col k _ s' K Hk) as (p & E & Bg).
  eapply wp_int_at; [apply im_mem, K|exact E|exact Bg|exact Hi|exact HQ].
Qed.

(** *** Start data *)
Lemma keeps_upd s' q b : keeps s' -> nxt s <= q -> keeps (setmem s' (upd (mem s') q b)).
Proof.
  intros K Hq l Hl. cbn [mem setmem]. rewrite upd_other; [apply K, Hl|]. pose proof (RB_old l Hl). lia.
Qed.

Definition start_coords_of (x : exit_row T) : vec3 T := mkV (fst (r_start x)) (snd (r_start x)) (#0)%num.
Definition start_dir_of (x : exit_row T) : vec3 T := unit_vec (fst (r_start_dir x)) (snd (r_start_dir x)).
Definition start_elecv_of (x : exit_row T) : vec3 T := unit_vec (fst (r_start_elecv x)) (snd (r_start_elecv x)).
Definition src_coords_of (x : exit_row T) : vec3 T := mkV (fst (r_src x)) (snd (r_src x)) (#0)%num.

Lemma start_loop q1 q2 q3 q4 (Q : unit -> st T -> Prop) s0 :
  keeps s0 -> NoDup [q1; q2; q3; q4] -> (forall q, In q [q1; q2; q3; q4] -> nxt s <= q) ->
  (forall q, In q [q1; q2; q3; q4] -> mem s0 q = Some (repeat Vundef (3 * n))) ->
  (forall s', nxt s' = nxt s0 -> orc s' = orc s0 -> cnt s' = cnt s0 ->
     vec_array s' q1 (List.map start_coords_of (q_rows r)) -> vec_array s' q2 (List.map start_dir_of (q_rows r)) ->
     vec_array s' q3 (List.map start_elecv_of (q_rows r)) -> vec_array s' q4 (List.map src_coords_of (q_rows r)) ->
     same_memory_except [q1; q2; q3; q4] s0 s' -> Q tt s') ->
  wp (for_n n 0 (start_body (Some im) (Some q1) (Some q2) (Some q3) (Some q4))) Q s0.
Proof.
  intros K0 ND Hq H0 HQ.
  pose proof (Hq q1 ltac:(cbn; auto)) as B1. pose proof (Hq q2 ltac:(cbn; auto)) as B2.
  pose proof (Hq q3 ltac:(cbn; auto)) as B3. pose proof (Hq q4 ltac:(cbn; auto 6)) as B4. clear Hq.
  pose proof (H0 q1 ltac:(cbn; auto)) as M1. pose proof (H0 q2 ltac:(cbn; auto)) as M2.
  pose proof (H0 q3 ltac:(cbn; auto)) as M3. pose proof (H0 q4 ltac:(cbn; auto 6)) as M4. clear H0.
  assert (D : q1 <> q2 /\ q1 <> q3 /\ q1 <> q4 /\ q2 <> q3 /\ q2 <> q4 /\ q3 <> q4).
  { inversion ND as [|? ? n1 ND1]; subst. inversion ND1 as [|? ? n2 ND2]; subst. inversion ND2 as [|? ? n3 ND3]; subst.
    nin_split n1. nin_split n2. nin_split n3. auto 10. }
  destruct D as (d12 & d13 & d14 & d23 & d24 & d34).
  set (V1 := List.map start_coords_of (q_rows r)) in *. set (V2 := List.map start_dir_of (q_rows r)) in *.
  set (V3 := List.map start_elecv_of (q_rows r)) in *. set (V4 := List.map src_coords_of (q_rows r)) in *.
  assert (LL : forall f : exit_row T -> vec3 T, List.length (cells3 (List.map f (q_rows r))) = 3 * n).
  { intros f. rewrite cells3_length, map_length. reflexivity. }
  apply wp_for_n with (I := fun i s' => keeps s' /\ nxt s' = nxt s0 /\ orc s' = orc s0 /\ cnt s' = cnt s0 /\
     mem s' q1 = Some (copied (cells3 V1) (3 * i)) /\ mem s' q2 = Some (copied (cells3 V2) (3 * i)) /\
     mem s' q3 = Some (copied (cells3 V3) (3 * i)) /\ mem s' q4 = Some (copied (cells3 V4) (3 * i)) /\
     same_memory_except [q1; q2; q3; q4] s0 s').
  - split; [exact K0|]. repeat (split; [reflexivity|]). change (3 * 0) with 0. rewrite !copied_0.
    unfold V1, V2, V3, V4. rewrite !LL. repeat (split; [assumption|]). intros l _. reflexivity.
  - intros i s1 Hi (K & N1 & O1 & C1 & E1 & E2 & E3 & E4 & X).
    destruct (nth_error_Some_ex (q_rows r) i) as [row Hr]; [unfold n in Hi; lia|].
    assert (NV : forall f : exit_row T -> vec3 T, nth_error (List.map f (q_rows r)) i = Some (f row)).
    { intros f. rewrite nth_error_map, Hr. reflexivity. }
    unfold start_body.
    eapply (wp_row_dbl 2); [reflexivity|exact Hr|exact K|]. eapply (wp_row_dbl 3); [reflexivity|exact Hr|exact K|].
    apply wp_bind. eapply (wp_store_vec q1 V1); [exact E1|apply (NV start_coords_of)|].
    apply keeps_upd with (q := q1) (b := Some (copied (cells3 V1) (3 * S i))) in K; auto.
    eapply (wp_row_dbl 4); [reflexivity|exact Hr|exact K|]. eapply (wp_row_dbl 5); [reflexivity|exact Hr|exact K|].
    apply wp_bind. eapply (wp_store_vec q2 V2); [cbn [mem setmem]; rewrite upd_other by auto; exact E2|apply (NV start_dir_of)|].
    apply keeps_upd with (q := q2) (b := Some (copied (cells3 V2) (3 * S i))) in K; auto.
    eapply (wp_row_dbl 6); [reflexivity|exact Hr|exact K|]. eapply (wp_row_dbl 7); [reflexivity|exact Hr|exact K|].
    apply wp_bind. eapply (wp_store_vec q3 V3); [cbn [mem setmem]; rewrite !upd_other by auto; exact E3|apply (NV start_elecv_of)|].
    apply keeps_upd with (q := q3) (b := Some (copied (cells3 V3) (3 * S i))) in K; auto.
    eapply (wp_row_dbl 0); [reflexivity|exact Hr|exact K|]. eapply (wp_row_dbl 1); [reflexivity|exact Hr|exact K|].
    eapply (wp_store_vec q4 V4); [cbn [mem setmem]; rewrite !upd_other by auto; exact E4|apply (NV src_coords_of)|].
    apply keeps_upd with (q := q4) (b := Some (copied (cells3 V4) (3 * S i))) in K; auto.
    split; [exact K|]. cbn [nxt orc cnt mem setmem]. repeat (split; [assumption|]).
    split; [rewrite !upd_other by auto; apply upd_same|]. split; [rewrite !upd_other by auto; apply upd_same|].
    split; [rewrite !upd_other by auto; apply upd_same|]. split; [apply upd_same|].
    intros l Hl. rewrite <- X by exact Hl. nin_split Hl. cbn [mem setmem]. rewrite !upd_other by assumption. reflexivity.
  - intros s1 (K & N1 & O1 & C1 & E1 & E2 & E3 & E4 & X). cbn [plus] in *.
    assert (CA : forall f : exit_row T -> vec3 T, copied (cells3 (List.map f (q_rows r))) (3 * n) = cells3 (List.map f (q_rows r))).
    { intros f. rewrite <- (LL f). apply copied_all. }
    unfold V1, V2, V3, V4 in *. rewrite CA in E1, E2, E3, E4. apply HQ; auto.
Qed.


(** Old blocks survive updates at new addresses and at the out variables. *)
Lemma outs_keeps outs s' : (forall l, In l outs -> ~ In l RB) ->
  (forall l b, mem s l = Some b -> ~ In l outs -> mem s' l = Some b) -> keeps s'.
Proof.
  intros D F l Hl. destruct (RB_live l Hl) as [b E]. rewrite E. apply F; auto. intros Ho. exact (D l Ho Hl).
Qed.

Ltac frame_tac :=
  let l := fresh "l" in let b := fresh "b" in let Hl := fresh "Hl" in let Hn := fresh "Hn" in
  intros l b Hl Hn; pose proof (live_lt _ _ _ Wf Hl);
  cbn [mem setmem];
  repeat (rewrite upd_other; [|first [qlia | intros ->; apply Hn; cbn; tauto]]); exact Hl.
Ltac wf_tac := let l := fresh "l" in let H := fresh "H" in
  intros l H; cbn [mem nxt] in *; repeat (rewrite upd_other; [|qlia]); apply Wf; qlia.

Lemma get_start_ok nsp nxp o1 o2 o3 o4 err :
  let outs := [nsp; nxp; o1; o2; o3; o4] in
  q_started r <> 0%Z -> q_rows r <> [] ->
  NoDup outs -> (forall l, In l outs -> variable s l /\ ~ In l RB /\ err <> Some l) ->
  legal_err s err -> reports_fit err s ->
  wp (get_start_data (Some eff) (Some nsp) (Some nxp) (Some o1) (Some o2) (Some o3) (Some o4) err)
     (fun ok s' =>
        ok = true /\ mem s' nsp = Some [Vint (q_started r)] /\ mem s' nxp = Some [Vint (Z.of_nat n)] /\
          (exists l1 l2 l3 l4,
             mem s' o1 = Some [Vptr (Some l1)] /\ mem s' o2 = Some [Vptr (Some l2)] /\
             mem s' o3 = Some [Vptr (Some l3)] /\ mem s' o4 = Some [Vptr (Some l4)] /\
             vec_array s' l1 (List.map start_coords_of (q_rows r)) /\ vec_array s' l2 (List.map start_dir_of (q_rows r)) /\
             vec_array s' l3 (List.map start_elecv_of (q_rows r)) /\ vec_array s' l4 (List.map src_coords_of (q_rows r)) /\
             NoDup [l1; l2; l3; l4] /\ all_free s [l1; l2; l3; l4] /\ same_memory_except ([l1; l2; l3; l4] ++ outs) s s')
        \/ ok = false /\ (exists k, orc s k = false) /\ failed err POLYCAP_ERROR_MEMORY outs s s') s.
Proof.
  intros outs Hs Hr ND Hv Le Rf.
  assert (Kall : forall s', (forall l b, mem s l = Some b -> ~ In l outs -> mem s' l = Some b) -> keeps s').
  { intros s' F. apply (outs_keeps outs); auto. intros l Hl. apply Hv. exact Hl. }
  assert (He : forall e, err = Some e -> ~ In e outs) by (intros e E Hi; apply (Hv e Hi); exact E).
  destruct (Hv nsp) as ([v1 V1] & _); [cbn; auto|]. destruct (Hv nxp) as ([v2 V2] & _); [cbn; auto|].
  destruct (Hv o1) as ([v3 V3] & _ & X3); [cbn; auto|]. destruct (Hv o2) as ([v4 V4] & _ & X4); [cbn; auto 6|].
  destruct (Hv o3) as ([v5 V5] & _ & X5); [cbn; auto 7|]. destruct (Hv o4) as ([v6 V6] & _ & X6); [cbn; auto 8|].
  pose proof (live_lt _ _ _ Wf V1). pose proof (live_lt _ _ _ Wf V2). pose proof (live_lt _ _ _ Wf V3).
  pose proof (live_lt _ _ _ Wf V4). pose proof (live_lt _ _ _ Wf V5). pose proof (live_lt _ _ _ Wf V6).
  assert (ND' := ND). unfold outs in ND'.
  inversion ND' as [|? ? n1 ND1]; subst. inversion ND1 as [|? ? n2 ND2]; subst. inversion ND2 as [|? ? n3 ND3]; subst.
  inversion ND3 as [|? ? n4 ND4]; subst. inversion ND4 as [|? ? n5 ND5]; subst. clear ND' ND1 ND2 ND3 ND4 ND5.
  nin_split n1. nin_split n2. nin_split n3. nin_split n4. nin_split n5. clear n1 n2 n3 n4 n5.
  unfold get_start_data. cbn [is_null].
  apply wp_refuse_no; [reflexivity|]. apply wp_bind. eapply wp_load_ptr; [apply eff_mem; intros l _; reflexivity|reflexivity|].
  apply wp_refuse_no; [reflexivity|]. apply wp_bind. eapply wp_load_int; [apply im_mem; intros l _; reflexivity|reflexivity|].
  apply wp_bind. eapply wp_store; [exact V1|cbn; lia|]. cbn [set_nth].
  apply wp_refuse_no; [apply Z.eqb_neq; exact Hs|].
  apply wp_bind. eapply wp_load_int; [apply im_mem; apply Kall; frame_tac|reflexivity|].
  apply wp_bind. eapply wp_store; [lk|cbn; lia|]. cbn [set_nth mem nxt orc cnt].
  apply wp_refuse_no; [apply Z.eqb_neq; destruct (q_rows r); [congruence|cbn; lia]|].
  rewrite Nat2Z.id. fold n.
  eapply (wp_alloc_out _ _ _ _ _ _ _ outs s); [wf_tac|lk|cbn; lia| |];
    [|intros Or; split; [exact Le|]; split; [exact Rf|]; split; [exact X3|]; split; [right; cbn; auto 10|]; split; [frame_tac|]; split; [exact He|];
      intros s' F; right; split; [reflexivity|split; [eexists; exact Or|exact F]]].
  intros _. cbn [set_nth mem nxt orc cnt].
  eapply (wp_alloc_out _ _ _ _ _ _ _ outs s); [wf_tac|lk|cbn; lia| |];
    [|intros Or; split; [exact Le|]; split; [exact Rf|]; split; [exact X4|]; split; [right; cbn; auto 10|]; split; [frame_tac|]; split; [exact He|];
      intros s' F; right; split; [reflexivity|split; [eexists; exact Or|exact F]]].
  intros _. cbn [set_nth mem nxt orc cnt].
  eapply (wp_alloc_out _ _ _ _ _ _ _ outs s); [wf_tac|lk|cbn; lia| |];
    [|intros Or; split; [exact Le|]; split; [exact Rf|]; split; [exact X5|]; split; [right; cbn; auto 10|]; split; [frame_tac|]; split; [exact He|];
      intros s' F; right; split; [reflexivity|split; [eexists; exact Or|exact F]]].
  intros _. cbn [set_nth mem nxt orc cnt].
  eapply (wp_alloc_out _ _ _ _ _ _ _ outs s); [wf_tac|lk|cbn; lia| |];
    [|intros Or; split; [exact Le|]; split; [exact Rf|]; split; [exact X6|]; split; [right; cbn; auto 10|]; split; [frame_tac|]; split; [exact He|];
      intros s' F; right; split; [reflexivity|split; [eexists; exact Or|exact F]]].
  intros _. cbn [set_nth mem nxt orc cnt].
  apply wp_bind. apply start_loop.
  - apply Kall. frame_tac.
  - repeat constructor; cbn [In]; qlia.
  - intros q Hq. cbn in Hq. qlia.
  - intros q Hq. cbn in Hq. destruct Hq as [<-|[<-|[<-|[<-|[]]]]]; lk.
  - intros s' N1 O1 C1 A1 A2 A3 A4 X. apply wp_ret. left. split; [reflexivity|].
    split; [rewrite X by (cbn [In]; qlia); lk|]. split; [rewrite X by (cbn [In]; qlia); lk|].
    exists (nxt s), (S (nxt s)), (S (S (nxt s))), (S (S (S (nxt s)))).
    split; [rewrite X by (cbn [In]; qlia); lk|]. split; [rewrite X by (cbn [In]; qlia); lk|].
    split; [rewrite X by (cbn [In]; qlia); lk|]. split; [rewrite X by (cbn [In]; qlia); lk|].
    repeat (split; [assumption|]).
    split; [repeat constructor; cbn [In]; qlia|].
    split; [intros l Hl; apply Wf; cbn in Hl; qlia|].
    intros l Hl. apply not_in_app in Hl. destruct Hl as [Hl1 Hl2]. rewrite X by exact Hl1.
    nin_split Hl1. unfold outs in Hl2. nin_split Hl2. lk.
Qed.


End Obj.
