(** * Proofs about the result object: leaks *)
From Coq Require Import ZArith List Bool Lia String FunctionalExtensionality.
From Verif Require Import Num Mem SpecHeap ErrorModel ErrorProofs ProfileModel ProfileProofs Geometry ConsModel HeapLib
  DescProofs SpecPhoton PhotProofs ResultModel SpecResult ResultProofs.
Import ListNotations.

Ltac stl := eapply wp_store; [cbn [mem]; apply upd_same|cbn; lia|]; cbn [set_nth repeat mem nxt orc cnt app vcells vx vy vz]; rewrite upd_shadow.

Section Leak.
Context {T : Type} {N : Num T}.
Variable s : st T.
Variable im : loc.
Variable ks : list (leak_row T).
Variable ne : nat.
Variable keeps : st T -> Prop.
Hypothesis Wf : wf s.
Hypothesis keeps_new : forall s' s'', keeps s' -> (forall l, l < nxt s -> mem s'' l = mem s' l) -> keeps s''.
Definition acc (j : nat) (c : list (val T)) : Prop := forall s', keeps s' ->
  exists p b, mem s' im = Some b /\ nth_error b j = Some (Vptr p) /\ begins s' p c /\ (forall l, p = Some l -> l < nxt s).
Variables ic id iw ir : nat.
Variable ie : option nat.
Hypothesis A1 : acc ic (dcol (fun k => vx (k_coords k)) ks).
Hypothesis A2 : acc (ic + 1) (dcol (fun k => vy (k_coords k)) ks).
Hypothesis A3 : acc (ic + 2) (dcol (fun k => vz (k_coords k)) ks).
Hypothesis A4 : acc id (dcol (fun k => fst (k_dir k)) ks).
Hypothesis A5 : acc (id + 1) (dcol (fun k => snd (k_dir k)) ks).
Hypothesis A6 : acc iw (wcol k_weights ks).
Hypothesis A7 : acc ir (icol k_nrefl ks).
Hypothesis A8 : forall j, ie = Some j -> acc j (dcol (fun k => fst (k_elecv k)) ks) /\ acc (j + 1) (dcol (fun k => snd (k_elecv k)) ks).
Hypothesis Reg : Forall (fun k => List.length (k_weights k) = ne) ks.
Let n := List.length ks.

Lemma acc_dbl {B} j f i a (k : T -> M T B) Q s' : acc j (dcol f ks) -> keeps s' -> nth_error ks i = Some a ->
  wp (k (f a)) Q s' -> wp (bind (load_ptr (Some im) j) (fun x => bind (load_dbl x i) k)) Q s'.
Proof. intros A K Hi HQ. destruct (A s' K) as (p & b & E1 & E2 & E3 & _). eapply wp_dbl_at; eauto. Qed.
Lemma acc_int {B} j f i a (k : Z -> M T B) Q s' : acc j (icol f ks) -> keeps s' -> nth_error ks i = Some a ->
  wp (k (f a)) Q s' -> wp (bind (load_ptr (Some im) j) (fun x => bind (load_int x i) k)) Q s'.
Proof. intros A K Hi HQ. destruct (A s' K) as (p & b & E1 & E2 & E3 & _). eapply wp_int_at; eauto. Qed.

Definition leak_dir_of (k : leak_row T) : vec3 T := unit_vec (fst (k_dir k)) (snd (k_dir k)).
Definition leak_ev_of (k : leak_row T) : option (vec3 T) :=
  match ie with Some _ => Some (unit_vec (fst (k_elecv k)) (snd (k_elecv k))) | None => None end.

(** Filling a fresh leak object at [l]. *)
Lemma fill_leak l k i (Q : bool -> st T -> Prop) s1 err outs sr :
  keeps s1 -> wf s1 -> nxt s <= l < nxt s1 -> mem s1 l = Some (repeat Vundef 12) -> nth_error ks i = Some k ->
  mem sr l = None -> err <> Some l ->
  legal_err sr err -> reports_fit err s1 -> (forall l x, mem sr l = Some x -> ~ In l outs -> mem s1 l = Some x) ->
  (forall e, err = Some e -> ~ In e outs) ->
  (forall s', wf s' -> nxt s' = S (nxt s1) -> orc s' = orc s1 -> cnt s' = S (cnt s1) ->
     leak_record s' l (nxt s1) (k_coords k) (leak_dir_of k) (leak_ev_of k) (k_nrefl k) (k_weights k) ->
     (forall m, m <> l -> m <> nxt s1 -> mem s' m = mem s1 m) -> Q true s') ->
  (forall s', orc s1 (cnt s1) = false -> failed err POLYCAP_ERROR_MEMORY outs sr s' -> Q false s') ->
  wp (leak_fill (Some im) ne ic id iw ir ie err (Some l) i) Q s1.
Proof.
  intros K W Hl Ml Hk Mr Xl Le Rf Fr He HQ HF.
  assert (Lw : List.length (k_weights k) = ne).
  { rewrite Forall_forall in Reg. apply Reg. eapply nth_error_In; eauto. }
  assert (KU : forall b, keeps (mkSt (upd (mem s1) l b) (nxt s1) (orc s1) (cnt s1))).
  { intros b. eapply keeps_new; [exact K|]. intros m Hm. cbn [mem]. apply upd_other. lia. }
  unfold leak_fill, store_vec.
  eapply acc_dbl; [exact A1|exact K|exact Hk|]. eapply acc_dbl; [exact A2|exact K|exact Hk|].
  eapply acc_dbl; [exact A3|exact K|exact Hk|]. cbn [vx vy vz].
  apply wp_bind. apply wp_bind. eapply wp_store; [exact Ml|cbn; lia|]. cbn [set_nth repeat mem nxt orc cnt].
  apply wp_bind. stl. stl.
  eapply acc_dbl; [exact A4|apply KU|exact Hk|]. eapply acc_dbl; [exact A5|apply KU|exact Hk|].
  apply wp_bind. apply wp_bind. stl. apply wp_bind. stl. stl.
  assert (E : exists c6 c7 c8, match leak_ev_of k with Some v => vcells v | None => [Vundef; Vundef; Vundef] end = [c6; c7; c8] /\
    forall Q' : unit -> st T -> Prop, Q' tt (mkSt (upd (mem s1) l (Some (vcells (k_coords k) ++ vcells (leak_dir_of k) ++ [c6; c7; c8] ++ [Vundef; Vundef; Vundef]))) (nxt s1) (orc s1) (cnt s1)) ->
     wp (match ie with
            | None => ret tt
            | Some ie => bind (load_ptr (Some im) ie) (fun a => bind (load_dbl a i) (fun x =>
                         bind (load_ptr (Some im) (ie + 1)) (fun a => bind (load_dbl a i) (fun y =>
                         store_vec (Some l) 6 (unit_vec x y)))))
            end) Q' (mkSt (upd (mem s1) l (Some (vcells (k_coords k) ++ vcells (leak_dir_of k) ++ repeat Vundef 6))) (nxt s1) (orc s1) (cnt s1))).
  { unfold leak_ev_of. destruct ie as [j|].
    - destruct (A8 j eq_refl) as [B1 B2]. eexists _, _, _. split; [reflexivity|]. intros Q' HQ'.
      eapply acc_dbl; [exact B1|apply KU|exact Hk|]. eapply acc_dbl; [exact B2|apply KU|exact Hk|].
      unfold store_vec. apply wp_bind. stl. apply wp_bind. stl. stl. exact HQ'.
    - eexists _, _, _. split; [reflexivity|]. intros Q' HQ'. apply wp_ret. exact HQ'. }
  destruct E as (c6 & c7 & c8 & Ev & E). apply wp_bind. apply E. clear E.
  cbn [vcells repeat app].
  apply wp_bind. stl.
  eapply acc_int; [exact A7|apply KU|exact Hk|].
  apply wp_bind. stl.
  eapply (wp_alloc_out _ _ _ _ _ _ _ outs sr); [|cbn [mem]; apply upd_same|cbn; lia| |].
  - intros m Hm. cbn [mem nxt] in *. rewrite upd_other by lia. apply W. lia.
  - intros Or. cbn [mem nxt orc cnt set_nth] in *.
    match goal with |- wp _ _ ?S2 => set (s2 := S2) in * end.
    assert (K2 : keeps s2).
    { eapply keeps_new; [exact K|]. intros m Hm. unfold s2. cbn [mem]. rewrite !upd_other by lia. reflexivity. }
    destruct (A6 s2 K2) as (p & b & E1 & E2 & E3 & E4).
    apply wp_bind. eapply wp_load_ptr; [exact E1|exact E2|].
    apply wp_bind. eapply (wp_copy_weights _ _ k_weights ks i k ne); [exact E3|exact Reg|exact Hk| | |].
    + unfold s2. cbn [mem]. rewrite upd_other by lia. apply upd_same.
    + intros ->. specialize (E4 _ eq_refl). lia.
    + apply wp_ret. apply HQ.
      * intros m Hm. cbn [mem nxt setmem s2] in *. rewrite !upd_other by lia. apply W. lia.
      * reflexivity.
      * reflexivity.
      * reflexivity.
      * split.
        -- unfold s2. cbn [mem setmem]. rewrite upd_other by lia. rewrite upd_same. rewrite Ev, Lw. reflexivity.
        -- unfold dbl_array. cbn [mem setmem]. apply upd_same.
      * intros m M1 M2. unfold s2. cbn [mem setmem]. rewrite !upd_other by assumption. reflexivity.
  - intros Or. cbn [orc cnt] in Or. split; [exact Le|]. split; [exact Rf|]. split; [exact Xl|]. split; [left; exact Mr|].
    split. { intros m x Hm Ho. cbn [mem]. rewrite upd_other by (intros ->; congruence). auto. }
    split; [exact He|]. intros s' F. apply HF; auto.
Qed.

Lemma leak_loop q outs err (Q : bool -> st T -> Prop) s0 :
  keeps s0 -> wf s0 -> orc s0 = orc s ->
  (forall e, err = Some e -> ~ In e outs) -> legal_err s err -> reports_fit err s ->
  (forall l b, mem s l = Some b -> ~ In l outs -> mem s0 l = Some b) ->
  nxt s <= q < nxt s0 -> mem s0 q = Some (repeat Vundef n) ->
  (forall s' ls, wf s' -> leak_blocks ls = seq (nxt s0) (2 * n) ->
     leak_records s' q ls leak_dir_of leak_ev_of ks ->
     same_memory_except (q :: leak_blocks ls) s0 s' -> Q true s') ->
  (forall s' k, orc s k = false -> failed err POLYCAP_ERROR_MEMORY outs s s' -> Q false s') ->
  wp (for_ok n 0 (leak_body (Some im) ne ic id iw ir ie (Some q) err)) Q s0.
Proof.
  intros K0 W0 O0 He Le Rf F0 Hq Mq HQ HF.
  set (pairs := List.map (fun i => (nxt s0 + 2 * i, nxt s0 + 2 * i + 1)) (seq 0 n)).
  set (V := List.map (fun lw : loc * loc => @Vptr T (Some (fst lw))) pairs).
  assert (LV : List.length V = n) by (unfold V, pairs; rewrite !map_length, seq_length; reflexivity).
  assert (NV : forall i, i < n -> nth_error V i = Some (Vptr (Some (nxt s0 + 2 * i)))).
  { intros i Hi. unfold V, pairs. rewrite map_map, nth_error_map.
    rewrite (nth_error_nth' _ 0) by (rewrite seq_length; exact Hi). rewrite seq_nth by exact Hi. reflexivity. }
  apply wp_for_ok with (I := fun i s' => keeps s' /\ wf s' /\ nxt s' = nxt s0 + 2 * i /\ orc s' = orc s /\
     mem s' q = Some (copied V i) /\
     (forall j k, j < i -> nth_error ks j = Some k ->
        leak_record s' (nxt s0 + 2 * j) (nxt s0 + 2 * j + 1) (k_coords k) (leak_dir_of k) (leak_ev_of k) (k_nrefl k) (k_weights k)) /\
     (forall l, l < nxt s0 -> l <> q -> mem s' l = mem s0 l)).
  - split; [exact K0|]. split; [exact W0|]. split; [lia|]. split; [exact O0|]. rewrite copied_0, LV. split; [exact Mq|].
    split; [intros; lia|]. reflexivity.
  - intros i s1 Hi (K & W & N1 & O1 & E1 & ER & X).
    destruct (nth_error_Some_ex ks i) as [k Hk]; [unfold n in Hi; lia|].
    assert (Fr : forall l b, mem s l = Some b -> ~ In l outs -> mem s1 l = Some b).
    { intros l b Hl Ho. pose proof (live_lt _ _ _ Wf Hl). rewrite X by lia. auto. }
    assert (Xq : err <> Some q).
    { intros ->. destruct Le as [pe He']. pose proof (live_lt _ _ _ Wf He'). lia. }
    unfold leak_body.
    eapply (wp_alloc_out _ _ _ _ _ _ _ outs s); [exact W|exact E1|rewrite copied_length; lia| |].
    + intros Or. rewrite (copied_step V i (Vptr (Some (nxt s1)))) by (rewrite N1; apply NV; lia).
      match goal with |- wp _ _ ?S2 => set (s2 := S2) in * end.
      eapply (fill_leak _ k i _ s2 err outs s).
      * eapply keeps_new; [exact K|]. intros m Hm. unfold s2. cbn [mem]. rewrite !upd_other by lia. reflexivity.
      * intros m Hm. unfold s2 in *. cbn [mem nxt] in *. rewrite !upd_other by lia. apply W. lia.
      * unfold s2. cbn [nxt]. lia.
      * unfold s2. cbn [mem]. rewrite upd_other by lia. apply upd_same.
      * exact Hk.
      * apply Wf. lia.
      * intros ->. destruct Le as [pe He']. pose proof (live_lt _ _ _ Wf He'). lia.
      * exact Le.
      * unfold reports_fit in *. unfold s2. cbn [orc]. rewrite O1. exact Rf.
      * intros l b Hl Ho. pose proof (live_lt _ _ _ Wf Hl). unfold s2. cbn [mem]. rewrite !upd_other by lia. auto.
      * exact He.
      * intros s' W' N' O' C' LR X'. unfold s2 in *. cbn [nxt orc cnt mem] in *.
        assert (Y : forall m, m <> q -> m <> nxt s1 -> m <> S (nxt s1) -> mem s' m = mem s1 m).
        { intros m Y1 Y2 Y3. rewrite X' by assumption. rewrite !upd_other by assumption. reflexivity. }
        split. { eapply keeps_new; [exact K|]. intros m Hm. apply Y; lia. }
        split; [exact W'|]. split; [lia|]. split; [congruence|].
        split. { rewrite X' by lia. apply upd_same. }
        split.
        -- intros j kj Hj Hkj. destruct (Nat.eq_dec j i) as [->|Nj].
           ++ rewrite Hk in Hkj. injection Hkj as <-. rewrite <- N1.
              replace (nxt s1 + 1) with (S (nxt s1)) by lia. exact LR.
           ++ destruct (ER j kj) as [R1 R2]; [lia|exact Hkj|]. split.
              ** rewrite Y by lia. exact R1.
              ** unfold dbl_array in *. rewrite Y by lia. exact R2.
        -- intros l L1 L2. rewrite Y by lia. apply X; assumption.
      * intros s' Or' F. unfold s2 in Or'. cbn [orc cnt] in Or'. rewrite O1 in Or'. eapply HF; eauto.
    + intros Or. split; [exact Le|]. split; [unfold reports_fit in *; rewrite O1; exact Rf|].
      split; [exact Xq|]. split; [left; apply Wf; lia|]. split; [exact Fr|]. split; [exact He|].
      intros s' F. apply (HF s' (cnt s1)); [rewrite <- O1; exact Or|exact F].
  - intros s1 (K & W & N1 & O1 & E1 & ER & X). cbn [plus] in *.
    rewrite <- LV, copied_all in E1.
    assert (LB : forall b m, leak_blocks (List.map (fun i => (nxt s0 + 2 * i, nxt s0 + 2 * i + 1)) (seq b m)) = seq (nxt s0 + 2 * b) (2 * m)).
    { intros b m. revert b. induction m as [|m IH]; intros b; [reflexivity|].
      replace (2 * S m) with (S (S (2 * m))) by lia. cbn [seq List.map]. unfold leak_blocks in *. cbn [List.map List.concat fst snd app].
      rewrite IH. f_equal. replace (nxt s0 + 2 * b + 1) with (S (nxt s0 + 2 * b)) by lia. f_equal. f_equal. lia. }
    assert (LB0 : leak_blocks pairs = seq (nxt s0) (2 * n)).
    { unfold pairs. rewrite LB. f_equal. lia. }
    apply (HQ s1 pairs); [exact W|exact LB0| |].
    + split; [exact E1|].
      assert (G : forall rows b, (forall j k, nth_error rows j = Some k ->
           leak_record s1 (nxt s0 + 2 * (b + j)) (nxt s0 + 2 * (b + j) + 1) (k_coords k) (leak_dir_of k) (leak_ev_of k) (k_nrefl k) (k_weights k)) ->
         Forall2 (fun lw k => leak_record s1 (fst lw) (snd lw) (k_coords k) (leak_dir_of k) (leak_ev_of k) (k_nrefl k) (k_weights k))
           (List.map (fun i => (nxt s0 + 2 * i, nxt s0 + 2 * i + 1)) (seq b (List.length rows))) rows).
      { induction rows as [|x rows IH]; intros b Hrow; cbn [List.length seq List.map]; constructor.
        - cbn [fst snd]. specialize (Hrow 0 x eq_refl). rewrite Nat.add_0_r in Hrow. exact Hrow.
        - apply IH. intros j row Hj. replace (S b + j) with (b + S j) by lia. apply Hrow. exact Hj. }
      apply (G ks 0). intros j k Hj. cbn [plus]. apply ER; [|exact Hj]. unfold n. apply nth_error_Some. congruence.
    + intros l Hl. cbn [In] in Hl. rewrite LB0, in_seq in Hl.
      destruct (Nat.lt_ge_cases l (nxt s0)) as [Lt|Ge]; [apply X; [auto|intros ->; apply Hl; auto]|].
      rewrite (W0 l Ge). apply W. unfold loc in *. lia.
Qed.

End Leak.
