(** * Proofs about the result object: exit data *)
From Coq Require Import ZArith List Bool Lia String FunctionalExtensionality.
From Verif Require Import Num Mem SpecHeap ErrorModel ErrorProofs ProfileModel ProfileProofs Geometry ConsModel HeapLib
  DescProofs SpecPhoton PhotProofs ResultModel SpecResult ResultProofs.
Import ListNotations.

Section Obj.
Context {T : Type} {N : Num T}.
Variable s : st T.
Variables eff im : loc.
Variables pen peff src : ptr.
Variables p1 p2 p3 : list ptr.
Variable r : result T.
Hypothesis Wf : wf s.
Hypothesis Robj : result_object s eff im pen peff src p1 p2 p3 r.
Let RB := result_blocks eff im pen peff p1 p2 p3.
Let n := List.length (q_rows r).
Let ne := List.length (q_energies r).
Local Notation keeps := (ResultProofs.keeps s eff im pen peff p1 p2 p3).
Local Notation row_col := (ResultProofs.row_col s eff im pen peff src p1 p2 p3 r Robj).
Local Notation RB_old := (ResultProofs.RB_old s eff im pen peff src p1 p2 p3 r Wf Robj).
Local Notation RB_live := (ResultProofs.RB_live s eff im pen peff src p1 p2 p3 r Robj).
Local Notation wp_row_dbl := (ResultProofs.wp_row_dbl s eff im pen peff src p1 p2 p3 r Robj).
Local Notation wp_row_int := (ResultProofs.wp_row_int s eff im pen peff src p1 p2 p3 r Robj).
Local Notation keeps_upd := (ResultProofs.keeps_upd s eff im pen peff src p1 p2 p3 r Wf Robj).
Local Notation im_mem := (ResultProofs.im_mem s eff im pen peff src p1 p2 p3 r Robj).
Local Notation eff_mem := (ResultProofs.eff_mem s eff im pen peff src p1 p2 p3 r Robj).
Local Notation outs_keeps := (ResultProofs.outs_keeps s eff im pen peff src p1 p2 p3 r Robj).


(** *** Exit data *)
Definition exit_coords_of (x : exit_row T) : vec3 T := r_exit x.
Definition exit_dir_of (x : exit_row T) : vec3 T := unit_vec (fst (r_exit_dir x)) (snd (r_exit_dir x)).
Definition exit_elecv_of (x : exit_row T) : vec3 T := unit_vec (fst (r_exit_elecv x)) (snd (r_exit_elecv x)).

Lemma rows_regular : Forall (fun x => List.length (r_weights x) = ne) (q_rows r).
Proof. destruct Robj as ((_ & H & _) & _). exact H. Qed.

Lemma vec_eta (v : vec3 T) : mkV (vx v) (vy v) (vz v) = v.
Proof. destruct v; reflexivity. Qed.

Lemma exit_loop q1 q2 q3 q4 q5 q6 outs err (Q : bool -> st T -> Prop) s0 :
  wf s0 -> orc s0 = orc s ->
  (forall l, In l outs -> ~ In l RB) -> (forall e, err = Some e -> ~ In e outs) -> legal_err s err -> reports_fit err s ->
  (forall l b, mem s l = Some b -> ~ In l outs -> mem s0 l = Some b) ->
  NoDup [q1; q2; q3; q4; q5; q6] -> (forall q, In q [q1; q2; q3; q4; q5; q6] -> nxt s <= q < nxt s0) ->
  (forall q, In q [q1; q2; q3] -> mem s0 q = Some (repeat Vundef (3 * n))) ->
  (forall q, In q [q4; q5; q6] -> mem s0 q = Some (repeat Vundef n)) ->
  (forall s', wf s' ->
     vec_array s' q1 (List.map exit_coords_of (q_rows r)) -> vec_array s' q2 (List.map exit_dir_of (q_rows r)) ->
     vec_array s' q3 (List.map exit_elecv_of (q_rows r)) -> int_array s' q4 (List.map r_nrefl (q_rows r)) ->
     dbl_array s' q5 (List.map r_travel (q_rows r)) ->
     dbl_arrays s' q6 (seq (nxt s0) n) (List.map r_weights (q_rows r)) ->
     same_memory_except ([q1; q2; q3; q4; q5; q6] ++ seq (nxt s0) n) s0 s' -> Q true s') ->
  (forall s' k, orc s k = false -> failed err POLYCAP_ERROR_MEMORY outs s s' -> Q false s') ->
  wp (for_ok n 0 (exit_body (Some im) ne (Some q1) (Some q2) (Some q3) (Some q4) (Some q5) (Some q6) err)) Q s0.
Proof.
  intros W0 O0 Dou He Le Rf F0 ND Hq H3 H1 HQ HF.
  assert (L0 : nxt s <= nxt s0) by (pose proof (Hq q1 ltac:(cbn; auto)); lia).
  pose proof (Hq q1 ltac:(cbn; auto)) as B1. pose proof (Hq q2 ltac:(cbn; auto)) as B2.
  pose proof (Hq q3 ltac:(cbn; auto)) as B3. pose proof (Hq q4 ltac:(cbn; auto 6)) as B4.
  pose proof (Hq q5 ltac:(cbn; auto 7)) as B5. pose proof (Hq q6 ltac:(cbn; auto 8)) as B6. clear Hq.
  pose proof (H3 q1 ltac:(cbn; auto)) as M1. pose proof (H3 q2 ltac:(cbn; auto)) as M2.
  pose proof (H3 q3 ltac:(cbn; auto)) as M3. pose proof (H1 q4 ltac:(cbn; auto 6)) as M4.
  pose proof (H1 q5 ltac:(cbn; auto 6)) as M5. pose proof (H1 q6 ltac:(cbn; auto 6)) as M6. clear H1 H3.
  assert (ND' := ND).
  inversion ND' as [|? ? n1 ND1]; subst. inversion ND1 as [|? ? n2 ND2]; subst. inversion ND2 as [|? ? n3 ND3]; subst.
  inversion ND3 as [|? ? n4 ND4]; subst. inversion ND4 as [|? ? n5 ND5]; subst. clear ND' ND1 ND2 ND3 ND4 ND5.
  nin_split n1. nin_split n2. nin_split n3. nin_split n4. nin_split n5. clear n1 n2 n3 n4 n5.
  set (V1 := List.map exit_coords_of (q_rows r)) in *. set (V2 := List.map exit_dir_of (q_rows r)) in *.
  set (V3 := List.map exit_elecv_of (q_rows r)) in *. set (V4 := icol (T := T) r_nrefl (q_rows r)).
  set (V5 := dcol r_travel (q_rows r)). set (V6 := List.map (fun a : loc => @Vptr T (Some a)) (seq (nxt s0) n)).
  assert (LL : forall f : exit_row T -> vec3 T, List.length (cells3 (List.map f (q_rows r))) = 3 * n).
  { intros f. rewrite cells3_length, map_length. reflexivity. }
  assert (L4 : List.length V4 = n) by (unfold V4, icol; apply map_length).
  assert (L5 : List.length V5 = n) by (unfold V5, dcol; apply map_length).
  assert (L6 : List.length V6 = n) by (unfold V6; rewrite map_length, seq_length; reflexivity).
  apply wp_for_ok with (I := fun i s' => wf s' /\ nxt s' = nxt s0 + i /\ orc s' = orc s /\
     mem s' q1 = Some (copied (cells3 V1) (3 * i)) /\ mem s' q2 = Some (copied (cells3 V2) (3 * i)) /\
     mem s' q3 = Some (copied (cells3 V3) (3 * i)) /\ mem s' q4 = Some (copied V4 i) /\ mem s' q5 = Some (copied V5 i) /\
     mem s' q6 = Some (copied V6 i) /\
     (forall j row, j < i -> nth_error (q_rows r) j = Some row -> mem s' (nxt s0 + j) = Some (List.map Vdbl (r_weights row))) /\
     (forall l, l < nxt s0 -> ~ In l [q1; q2; q3; q4; q5; q6] -> mem s' l = mem s0 l)).
  - split; [exact W0|]. split; [qlia|]. split; [exact O0|]. change (3 * 0) with 0. rewrite !copied_0.
    unfold V1, V2, V3. rewrite !LL, L4, L5, L6. repeat (split; [assumption|]). split; [intros; qlia|]. reflexivity.
  - intros i s1 Hi (W1 & N1 & O1 & E1 & E2 & E3 & E4 & E5 & E6 & EW & X).
    destruct (nth_error_Some_ex (q_rows r) i) as [row Hr]; [unfold n in Hi; qlia|].
    assert (NV : forall f : exit_row T -> vec3 T, nth_error (List.map f (q_rows r)) i = Some (f row)).
    { intros f. rewrite nth_error_map, Hr. reflexivity. }
    assert (NV1 : nth_error (List.map exit_coords_of (q_rows r)) i = Some (mkV (vx (r_exit row)) (vy (r_exit row)) (vz (r_exit row)))).
    { rewrite vec_eta. apply NV. }
    assert (K : keeps s1).
    { intros l Hl. pose proof (RB_old l Hl). rewrite X; [|qlia|cbn [In]; qlia].
      destruct (RB_live l Hl) as [b Eb]. rewrite Eb. apply F0; auto. intros Ho. exact (Dou l Ho Hl). }
    unfold exit_body.
    eapply (wp_row_int 15); [reflexivity|exact Hr|exact K|].
    apply wp_bind. eapply (wp_store_cell q4 V4); [exact E4|unfold V4, icol; rewrite nth_error_map, Hr; reflexivity|].
    assert (K' := K); clear K; pose proof (keeps_upd _ q4 (Some (copied V4 (S i))) K' ltac:(qlia)) as K; clear K'.
    eapply (wp_row_dbl 16); [reflexivity|exact Hr|exact K|].
    apply wp_bind. eapply (wp_store_cell q5 V5); [lk|unfold V5, dcol; rewrite nth_error_map, Hr; reflexivity|].
    assert (K' := K); clear K; pose proof (keeps_upd _ q5 (Some (copied V5 (S i))) K' ltac:(qlia)) as K; clear K'.
    eapply (wp_row_dbl 8); [reflexivity|exact Hr|exact K|]. eapply (wp_row_dbl 9); [reflexivity|exact Hr|exact K|].
    eapply (wp_row_dbl 10); [reflexivity|exact Hr|exact K|].
    apply wp_bind. eapply (wp_store_vec q1 V1); [lk|exact NV1|].
    assert (K' := K); clear K; pose proof (keeps_upd _ q1 (Some (copied (cells3 V1) (3 * S i))) K' ltac:(qlia)) as K; clear K'.
    eapply (wp_row_dbl 11); [reflexivity|exact Hr|exact K|]. eapply (wp_row_dbl 12); [reflexivity|exact Hr|exact K|].
    apply wp_bind. eapply (wp_store_vec q2 V2); [lk|apply (NV exit_dir_of)|].
    assert (K' := K); clear K; pose proof (keeps_upd _ q2 (Some (copied (cells3 V2) (3 * S i))) K' ltac:(qlia)) as K; clear K'.
    eapply (wp_row_dbl 13); [reflexivity|exact Hr|exact K|]. eapply (wp_row_dbl 14); [reflexivity|exact Hr|exact K|].
    apply wp_bind. eapply (wp_store_vec q3 V3); [lk|apply (NV exit_elecv_of)|].
    assert (K' := K); clear K; pose proof (keeps_upd _ q3 (Some (copied (cells3 V3) (3 * S i))) K' ltac:(qlia)) as K; clear K'.
    match goal with |- wp _ _ ?S2 => set (s2 := S2) in * end.
    assert (W2 : wf s2).
    { intros l Hl. cbn [mem nxt setmem s2] in *. repeat (rewrite upd_other; [|qlia]). apply W1. qlia. }
    assert (N2 : nxt s2 = nxt s0 + i) by exact N1.
    assert (X2 : forall l, l < nxt s0 -> ~ In l [q1; q2; q3; q4; q5; q6] -> mem s2 l = mem s0 l).
    { intros l Hl Hn. rewrite <- (X l Hl Hn). nin_split Hn. unfold s2. lk. }
    assert (G1 : mem s2 q1 = Some (copied (cells3 V1) (3 * S i))) by (unfold s2; lk).
    assert (G2 : mem s2 q2 = Some (copied (cells3 V2) (3 * S i))) by (unfold s2; lk).
    assert (G3 : mem s2 q3 = Some (copied (cells3 V3) (3 * S i))) by (unfold s2; lk).
    assert (G4 : mem s2 q4 = Some (copied V4 (S i))) by (unfold s2; lk).
    assert (G5 : mem s2 q5 = Some (copied V5 (S i))) by (unfold s2; lk).
    assert (G6 : mem s2 q6 = Some (copied V6 i)) by (unfold s2; lk).
    assert (GW : forall j row, j < i -> nth_error (q_rows r) j = Some row -> mem s2 (nxt s0 + j) = Some (List.map Vdbl (r_weights row))).
    { intros j rj Hj Hrj. rewrite <- (EW j rj Hj Hrj). unfold s2. lk. }
    assert (O2 : orc s2 = orc s) by exact O1.
    clearbody s2. clear W1 N1 O1 E1 E2 E3 E4 E5 E6 EW X.
    eapply (wp_alloc_out _ _ _ _ _ _ _ outs s); [exact W2|exact G6|rewrite copied_length; qlia| |].
    + intros _. rewrite (copied_step V6 i (Vptr (Some (nxt s2)))) by (rewrite N2; unfold V6; apply nth_ptrs; qlia).
      match goal with |- wp _ _ ?S3 => set (s3 := S3) in * end.
      assert (K3 : keeps s3).
      { intros l Hl. pose proof (RB_old l Hl). unfold s3. cbn [mem]. rewrite !upd_other by qlia. apply K, Hl. }
      destruct (row_col 17 _ s3 K3 eq_refl) as (p & Ep & Bp).
      apply wp_bind. eapply wp_load_ptr; [apply im_mem, K3|exact Ep|].
      apply wp_bind. eapply (wp_copy_weights _ _ r_weights (q_rows r) i row ne); [exact Bp|exact rows_regular|exact Hr|unfold s3; lk| |].
      { intros ->. destruct (row_col 17 _ s ltac:(intros l _; reflexivity) eq_refl) as (p' & Ep' & Bp'). rewrite Ep in Ep'. injection Ep' as <-.
        destruct Bp' as [more Bp']. pose proof (live_lt _ _ _ Wf Bp'). qlia. }
      apply wp_ret. unfold s3. cbn [mem nxt orc cnt setmem].
      split. { intros l Hl. cbn [mem nxt setmem] in *. repeat (rewrite upd_other; [|qlia]). apply W2. qlia. }
      split; [qlia|]. split; [exact O2|].
      split; [lk|]. split; [lk|]. split; [lk|]. split; [lk|]. split; [lk|]. split; [lk|]. split.
      * intros j rj Hj Hrj. destruct (Nat.eq_dec j i) as [->|Nj].
        -- rewrite Hr in Hrj. injection Hrj as <-. rewrite <- N2. apply upd_same.
        -- assert (Hji : j < i) by (clear - Hj Nj; lia). rewrite !upd_other by qlia. apply GW; [exact Hji|exact Hrj].
      * intros l Hl Hn. rewrite <- (X2 l Hl Hn). nin_split Hn. lk.
    + intros Or. split; [exact Le|]. split; [unfold reports_fit in *; rewrite O2; exact Rf|].
      split. { intros ->. destruct Le as [pe He']. pose proof (live_lt _ _ _ Wf He'). qlia. }
      split; [left; apply Wf; qlia|].
      split. { intros l b Hl Ho. pose proof (live_lt _ _ _ Wf Hl). rewrite X2; [apply F0; auto|qlia|cbn [In]; qlia]. }
      split; [exact He|]. intros s' Hf. apply (HF s' (cnt s2)); [rewrite <- O2; exact Or|exact Hf].
  - intros s1 (W1 & N1 & O1 & E1 & E2 & E3 & E4 & E5 & E6 & EW & X). cbn [plus] in *.
    assert (CA : forall f : exit_row T -> vec3 T, copied (cells3 (List.map f (q_rows r))) (3 * n) = cells3 (List.map f (q_rows r))).
    { intros f. rewrite <- (LL f). apply copied_all. }
    unfold V1, V2, V3 in *. rewrite CA in E1, E2, E3.
    rewrite <- L4, copied_all in E4. rewrite <- L5, copied_all in E5. rewrite <- L6, copied_all in E6.
    apply HQ; auto.
    + unfold int_array. rewrite E4. unfold V4, icol. now rewrite map_map.
    + unfold dbl_array. rewrite E5. unfold V5, dcol. now rewrite map_map.
    + split; [exact E6|].
      assert (G : forall rows b k, (forall j row, nth_error rows j = Some row -> mem s1 (b + j) = Some (List.map Vdbl (r_weights row))) ->
         k = List.length rows -> Forall2 (dbl_array s1) (seq b k) (List.map r_weights rows)).
      { induction rows as [|x rows IH]; intros b k Hrow ->; cbn [List.length seq List.map]; constructor.
        - unfold dbl_array. rewrite <- (Hrow 0 x eq_refl). f_equal. qlia.
        - apply IH; [|reflexivity]. intros j row Hj. replace (S b + j) with (b + S j) by qlia. apply Hrow. exact Hj. }
      apply G; [|reflexivity]. intros j row Hj. apply EW; [|exact Hj]. unfold n. apply nth_error_Some. congruence.
    + intros l Hl. apply not_in_app in Hl. destruct Hl as [Hl1 Hl2].
      destruct (Nat.lt_ge_cases l (nxt s0)) as [Lt|Ge]; [apply X; auto|].
      rewrite (W0 l Ge). apply W1. rewrite in_seq in Hl2. qlia.
Qed.


Ltac frame_tac :=
  let l := fresh "l" in let b := fresh "b" in let Hl := fresh "Hl" in let Hn := fresh "Hn" in
  intros l b Hl Hn; pose proof (live_lt _ _ _ Wf Hl);
  cbn [mem setmem];
  repeat (rewrite upd_other; [|first [qlia | intros ->; apply Hn; cbn; tauto]]); exact Hl.
Ltac wf_tac := let l := fresh "l" in let H := fresh "H" in
  intros l H; cbn [mem nxt] in *; repeat (rewrite upd_other; [|qlia]); apply Wf; qlia.

Lemma get_exit_ok nxp nep o1 o2 o3 o4 o5 o6 err :
  let outs := [nxp; nep; o1; o2; o3; o4; o5; o6] in
  q_started r <> 0%Z ->
  NoDup outs -> (forall l, In l outs -> variable s l /\ ~ In l RB /\ err <> Some l) ->
  legal_err s err -> reports_fit err s ->
  wp (get_exit_data (Some eff) (Some nxp) (Some o1) (Some o2) (Some o3) (Some o4) (Some o5) (Some nep) (Some o6) err)
     (fun ok s' =>
        ok = true /\ mem s' nxp = Some [Vint (Z.of_nat n)] /\ mem s' nep = Some [Vint (Z.of_nat ne)] /\
          (exists l1 l2 l3 l4 l5 l6 lw,
             mem s' o1 = Some [Vptr (Some l1)] /\ mem s' o2 = Some [Vptr (Some l2)] /\
             mem s' o3 = Some [Vptr (Some l3)] /\ mem s' o4 = Some [Vptr (Some l4)] /\
             mem s' o5 = Some [Vptr (Some l5)] /\ mem s' o6 = Some [Vptr (Some l6)] /\
             vec_array s' l1 (List.map exit_coords_of (q_rows r)) /\ vec_array s' l2 (List.map exit_dir_of (q_rows r)) /\
             vec_array s' l3 (List.map exit_elecv_of (q_rows r)) /\ int_array s' l4 (List.map r_nrefl (q_rows r)) /\
             dbl_array s' l5 (List.map r_travel (q_rows r)) /\ dbl_arrays s' l6 lw (List.map r_weights (q_rows r)) /\
             NoDup ([l1; l2; l3; l4; l5; l6] ++ lw) /\ all_free s ([l1; l2; l3; l4; l5; l6] ++ lw) /\
             same_memory_except (([l1; l2; l3; l4; l5; l6] ++ lw) ++ outs) s s')
        \/ ok = false /\ (exists k, orc s k = false) /\ failed err POLYCAP_ERROR_MEMORY outs s s') s.
Proof.
  intros outs Hs ND Hv Le Rf.
  assert (Dou : forall l, In l outs -> ~ In l RB) by (intros l Hl; apply Hv; exact Hl).
  assert (Kall : forall s', (forall l b, mem s l = Some b -> ~ In l outs -> mem s' l = Some b) -> keeps s').
  { intros s' F. apply (outs_keeps outs); auto. }
  assert (He : forall e, err = Some e -> ~ In e outs) by (intros e E Hi; apply (Hv e Hi); exact E).
  destruct (Hv nxp) as ([v1 V1] & _ & X1); [cbn; auto 12|].
  destruct (Hv nep) as ([v2 V2] & _ & X2); [cbn; auto 12|].
  destruct (Hv o1) as ([v3 V3] & _ & X3); [cbn; auto 12|].
  destruct (Hv o2) as ([v4 V4] & _ & X4); [cbn; auto 12|].
  destruct (Hv o3) as ([v5 V5] & _ & X5); [cbn; auto 12|].
  destruct (Hv o4) as ([v6 V6] & _ & X6); [cbn; auto 12|].
  destruct (Hv o5) as ([v7 V7] & _ & X7); [cbn; auto 12|].
  destruct (Hv o6) as ([v8 V8] & _ & X8); [cbn; auto 12|].
  pose proof (live_lt _ _ _ Wf V1).  pose proof (live_lt _ _ _ Wf V2).  pose proof (live_lt _ _ _ Wf V3).  pose proof (live_lt _ _ _ Wf V4).  pose proof (live_lt _ _ _ Wf V5).  pose proof (live_lt _ _ _ Wf V6).  pose proof (live_lt _ _ _ Wf V7).  pose proof (live_lt _ _ _ Wf V8).
  assert (ND' := ND). unfold outs in ND'.
  inversion ND' as [|? ? n1 ND1]; subst. inversion ND1 as [|? ? n2 ND2]; subst. inversion ND2 as [|? ? n3 ND3]; subst.
  inversion ND3 as [|? ? n4 ND4]; subst. inversion ND4 as [|? ? n5 ND5]; subst. inversion ND5 as [|? ? n6 ND6]; subst.
  inversion ND6 as [|? ? n7 ND7]; subst. clear ND' ND1 ND2 ND3 ND4 ND5 ND6 ND7.
  nin_split n1. nin_split n2. nin_split n3. nin_split n4. nin_split n5. nin_split n6. nin_split n7. clear n1 n2 n3 n4 n5 n6 n7.
  unfold get_exit_data. cbn [is_null].
  apply wp_refuse_no; [reflexivity|]. apply wp_bind. eapply wp_load_ptr; [apply eff_mem; intros l _; reflexivity|reflexivity|].
  apply wp_refuse_no; [reflexivity|]. apply wp_bind. eapply wp_load_int; [apply im_mem; intros l _; reflexivity|reflexivity|].
  apply wp_bind. eapply wp_store; [exact V1|cbn; qlia|]. cbn [set_nth].
  apply wp_bind. eapply wp_load_int; [apply eff_mem; apply Kall; frame_tac|reflexivity|].
  apply wp_bind. eapply wp_store; [lk|cbn; qlia|]. cbn [set_nth mem nxt orc cnt].
  apply wp_bind. eapply wp_load_int; [apply im_mem; apply Kall; frame_tac|reflexivity|].
  apply wp_refuse_no; [apply Z.eqb_neq; exact Hs|].
  rewrite !Nat2Z.id. fold n. fold ne.
  eapply (wp_alloc_out _ _ _ _ _ _ _ outs s); [wf_tac|lk|cbn; qlia| |];
    [|intros Or; split; [exact Le|]; split; [exact Rf|]; split; [exact X3|]; split; [right; cbn; auto 12|]; split; [frame_tac|]; split; [exact He|];
      intros s' F; right; split; [reflexivity|split; [eexists; exact Or|exact F]]].
  intros _. cbn [set_nth mem nxt orc cnt].
  eapply (wp_alloc_out _ _ _ _ _ _ _ outs s); [wf_tac|lk|cbn; qlia| |];
    [|intros Or; split; [exact Le|]; split; [exact Rf|]; split; [exact X4|]; split; [right; cbn; auto 12|]; split; [frame_tac|]; split; [exact He|];
      intros s' F; right; split; [reflexivity|split; [eexists; exact Or|exact F]]].
  intros _. cbn [set_nth mem nxt orc cnt].
  eapply (wp_alloc_out _ _ _ _ _ _ _ outs s); [wf_tac|lk|cbn; qlia| |];
    [|intros Or; split; [exact Le|]; split; [exact Rf|]; split; [exact X5|]; split; [right; cbn; auto 12|]; split; [frame_tac|]; split; [exact He|];
      intros s' F; right; split; [reflexivity|split; [eexists; exact Or|exact F]]].
  intros _. cbn [set_nth mem nxt orc cnt].
  eapply (wp_alloc_out _ _ _ _ _ _ _ outs s); [wf_tac|lk|cbn; qlia| |];
    [|intros Or; split; [exact Le|]; split; [exact Rf|]; split; [exact X6|]; split; [right; cbn; auto 12|]; split; [frame_tac|]; split; [exact He|];
      intros s' F; right; split; [reflexivity|split; [eexists; exact Or|exact F]]].
  intros _. cbn [set_nth mem nxt orc cnt].
  eapply (wp_alloc_out _ _ _ _ _ _ _ outs s); [wf_tac|lk|cbn; qlia| |];
    [|intros Or; split; [exact Le|]; split; [exact Rf|]; split; [exact X7|]; split; [right; cbn; auto 12|]; split; [frame_tac|]; split; [exact He|];
      intros s' F; right; split; [reflexivity|split; [eexists; exact Or|exact F]]].
  intros _. cbn [set_nth mem nxt orc cnt].
  eapply (wp_alloc_out _ _ _ _ _ _ _ outs s); [wf_tac|lk|cbn; qlia| |];
    [|intros Or; split; [exact Le|]; split; [exact Rf|]; split; [exact X8|]; split; [right; cbn; auto 12|]; split; [frame_tac|]; split; [exact He|];
      intros s' F; right; split; [reflexivity|split; [eexists; exact Or|exact F]]].
  intros _. cbn [set_nth mem nxt orc cnt].
  apply (exit_loop _ _ _ _ _ _ outs).
  - wf_tac.
  - reflexivity.
  - exact Dou.
  - exact He.
  - exact Le.
  - exact Rf.
  - frame_tac.
  - repeat constructor; cbn [In]; qlia.
  - intros q Hq. cbn in Hq. cbn [nxt]. qlia.
  - intros q Hq. cbn in Hq. destruct Hq as [<-|[<-|[<-|[]]]]; lk.
  - intros q Hq. cbn in Hq. destruct Hq as [<-|[<-|[<-|[]]]]; lk.
  - cbn [nxt]. intros s' W1 A1 A2 A3 A4 A5 A6 X. left. split; [reflexivity|].
    assert (Y : forall l, l < nxt s -> mem s' l =
       upd (upd (upd (upd (upd (upd (upd (upd (mem s) nxp (Some [Vint (Z.of_nat n)])) nep (Some [Vint (Z.of_nat ne)])) o1 (Some [Vptr (Some (nxt s))]))
        o2 (Some [Vptr (Some (S (nxt s)))])) o3 (Some [Vptr (Some (S (S (nxt s))))])) o4 (Some [Vptr (Some (S (S (S (nxt s)))))]))
        o5 (Some [Vptr (Some (S (S (S (S (nxt s))))))])) o6 (Some [Vptr (Some (S (S (S (S (S (nxt s)))))))]) l).
    { intros l Hl. rewrite X. 2: { rewrite in_app_iff, in_seq. cbn [In]. qlia. }
      cbn [mem]. unfold upd. repeat match goal with |- context [Nat.eqb ?a ?b] => destruct (Nat.eqb_spec a b); [first [reflexivity | exfalso; subst; qlia]|] end. reflexivity. }
    split; [rewrite Y by qlia; lk|]. split; [rewrite Y by qlia; lk|].
    exists (nxt s), (S (nxt s)), (S (S (nxt s))), (S (S (S (nxt s)))), (S (S (S (S (nxt s))))), (S (S (S (S (S (nxt s)))))).
    eexists. do 6 (split; [rewrite Y by qlia; lk|]).
    do 5 (split; [assumption|]). split; [exact A6|].
    match goal with |- NoDup ?L /\ _ => set (LQ := L); assert (LE : LQ = seq (nxt s) (6 + n)) by reflexivity; clearbody LQ; subst LQ end.
    split; [apply seq_NoDup|].
    split; [intros l Hl; apply in_seq in Hl; apply Wf; qlia|].
    intros l Hl. apply not_in_app in Hl. destruct Hl as [Hl1 Hl2].
    destruct (Nat.lt_ge_cases l (nxt s)) as [Lt|Ge].
    + rewrite Y by exact Lt. unfold outs in Hl2. nin_split Hl2. lk.
    + rewrite in_seq in Hl1. rewrite X. 2: { rewrite in_app_iff, in_seq. cbn [In]. qlia. }
      lk.
  - intros s' k Hk F. right. split; [reflexivity|split; [eexists; exact Hk|exact F]].
Qed.

End Obj.
