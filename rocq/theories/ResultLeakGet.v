(** * Proofs about the result object: the leak getters *)
From Coq Require Import ZArith List Bool Lia String FunctionalExtensionality.
From Verif Require Import Num Mem SpecHeap ErrorModel ErrorProofs ProfileModel ProfileProofs Geometry ConsModel HeapLib
  DescProofs SpecPhoton PhotProofs ResultModel SpecResult ResultProofs ResultLeak.
Import ListNotations.

Section Obj.
Context {T : Type} {N : Num T}.
Variable s : st T.
Variables eff im : loc.
Variables pen peff src : ptr.
Variables p1 p2 p3 : list ptr.
Variable r : result T.
Hypothesis Wf : wf s.
Hypothesis Robj : result_object s eff im pen peff src p1 p2 p3 r.
Let RB := result_blocks eff im pen peff p1 p2 p3.
Let ne := List.length (q_energies r).
Local Notation keeps := (ResultProofs.keeps s eff im pen peff p1 p2 p3).
Local Notation RB_old := (ResultProofs.RB_old s eff im pen peff src p1 p2 p3 r Wf Robj).
Local Notation im_mem := (ResultProofs.im_mem s eff im pen peff src p1 p2 p3 r Robj).
Local Notation eff_mem := (ResultProofs.eff_mem s eff im pen peff src p1 p2 p3 r Robj).
Local Notation outs_keeps := (ResultProofs.outs_keeps s eff im pen peff src p1 p2 p3 r Robj).
Local Notation ext_col := (ResultProofs.ext_col s eff im pen peff src p1 p2 p3 r Robj).
Local Notation int_col := (ResultProofs.int_col s eff im pen peff src p1 p2 p3 r Robj).

Lemma keeps_new s' s'' : keeps s' -> (forall l, l < nxt s -> mem s'' l = mem s' l) -> keeps s''.
Proof. intros K H l Hl. rewrite H by (apply RB_old; exact Hl). apply K. exact Hl. Qed.

Lemma ptr_RB (p : ptr) l : In p (pen :: peff :: p1 ++ p2 ++ p3) -> p = Some l -> In l RB.
Proof. intros H E. unfold RB, result_blocks. apply in_or_app. left. eapply in_plocs; eauto. Qed.

Lemma col_old k s' p c : keeps s' ->
  nth_error (@Vint T (q_started r) :: Vint (Z.of_nat (List.length (q_rows r))) :: List.map Vptr p1 ++
   Vint (Z.of_nat (List.length (q_ext r))) :: List.map Vptr p2 ++
   Vint (Z.of_nat (List.length (q_int r))) :: List.map Vptr p3) k = Some (Vptr p) -> begins s' p c -> forall l, p = Some l -> l < nxt s.
Proof.
  intros K H _ l El. apply nth_error_In in H. apply RB_old. apply (ptr_RB p); [|exact El].
  assert (G : forall ps : list ptr, In (Vptr p) (List.map (@Vptr T) ps) -> In p ps).
  { intros ps Hp. apply in_map_iff in Hp. destruct Hp as (x & E & Hp). injection E as ->. exact Hp. }
  cbn [In] in H. destruct H as [H|[H|H]]; try discriminate. cbn [In]. right. right.
  apply in_app_or in H. destruct H as [H|[H|H]]; [apply in_or_app; auto|discriminate|].
  apply in_or_app. right. apply in_app_or in H. destruct H as [H|[H|H]]; [apply in_or_app; auto|discriminate|].
  apply in_or_app. right. auto.
Qed.

Lemma ext_acc k c : nth_error (ext_columns (q_ext r)) k = Some c -> acc s im keeps (21 + k) c.
Proof.
  intros H s' K. destruct (ext_col k c s' K H) as (p & E & B). eexists _, _.
  split; [apply im_mem, K|]. split; [exact E|]. split; [exact B|]. eapply col_old; eauto.
Qed.
Lemma int_acc k c : nth_error (int_columns (q_int r)) k = Some c -> acc s im keeps (29 + k) c.
Proof.
  intros H s' K. destruct (int_col k c s' K H) as (p & E & B). eexists _, _.
  split; [apply im_mem, K|]. split; [exact E|]. split; [exact B|]. eapply col_old; eauto.
Qed.

Ltac frame_tac :=
  let l := fresh "l" in let b := fresh "b" in let Hl := fresh "Hl" in let Hn := fresh "Hn" in
  intros l b Hl Hn; pose proof (live_lt _ _ _ Wf Hl);
  cbn [mem setmem];
  repeat (rewrite upd_other; [|first [qlia | intros ->; apply Hn; cbn; tauto]]); exact Hl.
Ltac wf_tac := let l := fresh "l" in let H := fresh "H" in
  intros l H; cbn [mem nxt] in *; repeat (rewrite upd_other; [|qlia]); apply Wf; qlia.

(** What a leak getter does when there are leaks. *)
Definition leaks_delivered (lp np : loc) (err : ptr) (ev : leak_row T -> option (vec3 T)) (ks : list (leak_row T)) (ok : bool) (s' : st T) : Prop :=
  ok = true /\ mem s' np = Some [Vint (Z.of_nat (List.length ks))] /\
    (exists q ls, mem s' lp = Some [Vptr (Some q)] /\ leak_records s' q ls leak_dir_of ev ks /\
       NoDup (q :: leak_blocks ls) /\ all_free s (q :: leak_blocks ls) /\
       same_memory_except ((q :: leak_blocks ls) ++ [lp; np]) s s')
  \/ ok = false /\ (exists k, orc s k = false) /\ failed err POLYCAP_ERROR_MEMORY [lp; np] s s'.

Lemma get_leak_ok inn ic id iw ir ie ks lp np err :
  (forall s', keeps s' -> exists b, mem s' im = Some b /\ nth_error b inn = Some (Vint (Z.of_nat (List.length ks)))) ->
  acc s im keeps ic (dcol (fun k => vx (k_coords k)) ks) ->
  acc s im keeps (ic + 1) (dcol (fun k => vy (k_coords k)) ks) ->
  acc s im keeps (ic + 2) (dcol (fun k => vz (k_coords k)) ks) ->
  acc s im keeps id (dcol (fun k => fst (k_dir k)) ks) ->
  acc s im keeps (id + 1) (dcol (fun k => snd (k_dir k)) ks) ->
  acc s im keeps iw (wcol k_weights ks) ->
  acc s im keeps ir (icol k_nrefl ks) ->
  (forall j, ie = Some j -> acc s im keeps j (dcol (fun k => fst (k_elecv k)) ks) /\ acc s im keeps (j + 1) (dcol (fun k => snd (k_elecv k)) ks)) ->
  Forall (fun k => List.length (k_weights k) = ne) ks ->
  ks <> [] -> lp <> np -> (forall l, In l [lp; np] -> variable s l /\ ~ In l RB /\ err <> Some l) ->
  legal_err s err -> reports_fit err s ->
  wp (get_leak_data inn ic id iw ir ie (Some eff) (Some lp) (Some np) err)
     (leaks_delivered lp np err (leak_ev_of ie) ks) s.
Proof.
  intros Hn A1 A2 A3 A4 A5 A6 A7 A8 Reg Hks Hd Hv Le Rf. unfold leaks_delivered.
  set (outs := [lp; np]) in *.
  assert (Kall : forall s', (forall l b, mem s l = Some b -> ~ In l outs -> mem s' l = Some b) -> keeps s').
  { intros s' F. apply (outs_keeps outs); auto. intros l Hl. apply Hv, Hl. }
  assert (He : forall e, err = Some e -> ~ In e outs) by (intros e E Hi; apply (Hv e Hi); exact E).
  destruct (Hv lp) as ([v1 V1] & _ & X1); [cbn; auto|]. destruct (Hv np) as ([v2 V2] & _ & X2); [cbn; auto|].
  pose proof (live_lt _ _ _ Wf V1). pose proof (live_lt _ _ _ Wf V2).
  assert (Kn : Z.eqb (Z.of_nat (List.length ks)) 0 = false) by (apply Z.eqb_neq; destruct ks; [congruence|cbn; lia]).
  unfold get_leak_data. cbn [is_null].
  apply wp_refuse_no; [reflexivity|]. apply wp_bind. eapply wp_load_ptr; [apply eff_mem; intros l _; reflexivity|reflexivity|].
  apply wp_refuse_no; [reflexivity|]. destruct (Hn s) as (b & B1 & B2); [intros l _; reflexivity|].
  apply wp_bind. eapply wp_load_int; [exact B1|exact B2|].
  apply wp_bind. eapply wp_store; [exact V2|cbn; lia|]. cbn [set_nth]. rewrite Kn.
  apply wp_bind. apply wp_ret. apply wp_refuse_no; [reflexivity|].
  apply wp_bind. eapply wp_load_int; [apply eff_mem; apply Kall; frame_tac|reflexivity|].
  rewrite !Nat2Z.id.
  eapply (wp_alloc_out _ _ _ _ _ _ _ outs s); [wf_tac|lk|cbn; lia| |];
    [|intros Or; split; [exact Le|]; split; [exact Rf|]; split; [exact X1|]; split; [right; cbn; auto 10|]; split; [frame_tac|]; split; [exact He|];
      intros s' F; right; split; [reflexivity|split; [eexists; exact Or|exact F]]].
  intros _. cbn [set_nth mem nxt orc cnt].
  eapply (leak_loop s im ks _ keeps Wf keeps_new ic id iw ir ie A1 A2 A3 A4 A5 A6 A7 A8 Reg _ outs).
  - apply Kall. frame_tac.
  - wf_tac.
  - reflexivity.
  - exact He.
  - exact Le.
  - exact Rf.
  - frame_tac.
  - cbn [nxt]. lia.
  - lk.
  - cbn [nxt]. intros s' ls W1 LB LR X. left. split; [reflexivity|].
    assert (FB : forall l, l < nxt s -> ~ In l (nxt s :: leak_blocks ls)).
    { intros l Hl. cbn [In]. rewrite LB, in_seq. lia. }
    split; [rewrite X by (apply FB; lia); lk|].
    exists (nxt s), ls. split; [rewrite X by (apply FB; lia); lk|].
    split; [exact LR|]. split; [constructor; [rewrite LB, in_seq; lia|rewrite LB; apply seq_NoDup]|].
    split; [intros l Hl; apply Wf; cbn [In] in Hl; rewrite LB, in_seq in Hl; lia|].
    intros l Hl. apply not_in_app in Hl. destruct Hl as [Hl1 Hl2]. rewrite X by exact Hl1.
    cbn [In] in Hl1. apply Decidable.not_or in Hl1. destruct Hl1 as [Hl1 _]. unfold outs in Hl2. nin_split Hl2. lk.
  - intros s' k Hk F. right. split; [reflexivity|split; [eexists; exact Hk|exact F]].
Qed.

Lemma get_extleak_ok lp np err : q_ext r <> [] -> lp <> np ->
  (forall l, In l [lp; np] -> variable s l /\ ~ In l RB /\ err <> Some l) -> legal_err s err -> reports_fit err s ->
  wp (get_extleak_data (Some eff) (Some lp) (Some np) err)
     (leaks_delivered lp np err (fun _ => None) (q_ext r)) s.
Proof.
  intros. apply (get_leak_ok 20 21 24 26 27 None); auto.
  - intros s' K. eexists. split; [apply im_mem, K|].
    destruct (ResultProofs.lens s eff im pen peff src p1 p2 p3 r Robj) as (L1 & _).
    match goal with |- nth_error (_ :: _ :: ?L) _ = ?R => change (nth_error L 18 = R) end. rewrite nth_error_app2; rewrite map_length, L1; [|lia]. reflexivity.
  - apply (ext_acc 0); reflexivity.
  - apply (ext_acc 1); reflexivity.
  - apply (ext_acc 2); reflexivity.
  - apply (ext_acc 3); reflexivity.
  - apply (ext_acc 4); reflexivity.
  - apply (ext_acc 5); reflexivity.
  - apply (ext_acc 6); reflexivity.
  - discriminate.
  - destruct Robj as ((_ & _ & H' & _) & _). exact H'.
Qed.

Lemma get_intleak_ok lp np err : q_int r <> [] -> lp <> np ->
  (forall l, In l [lp; np] -> variable s l /\ ~ In l RB /\ err <> Some l) -> legal_err s err -> reports_fit err s ->
  wp (get_intleak_data (Some eff) (Some lp) (Some np) err)
     (leaks_delivered lp np err (fun k => Some (unit_vec (fst (k_elecv k)) (snd (k_elecv k)))) (q_int r)) s.
Proof.
  intros. apply (get_leak_ok 28 29 32 36 37 (Some 34)); auto.
  - intros s' K. eexists. split; [apply im_mem, K|].
    destruct (ResultProofs.lens s eff im pen peff src p1 p2 p3 r Robj) as (L1 & L2 & _).
    match goal with |- nth_error (_ :: _ :: ?L) _ = ?R => change (nth_error L 26 = R) end. rewrite nth_error_app2; rewrite map_length, L1; [|lia].
    match goal with |- nth_error (_ :: ?L) _ = ?R => change (nth_error L 7 = R) end. rewrite nth_error_app2; rewrite map_length, L2; [|lia]. reflexivity.
  - apply (int_acc 0); reflexivity.
  - apply (int_acc 1); reflexivity.
  - apply (int_acc 2); reflexivity.
  - apply (int_acc 3); reflexivity.
  - apply (int_acc 4); reflexivity.
  - apply (int_acc 7); reflexivity.
  - apply (int_acc 8); reflexivity.
  - intros j Hj. injection Hj as <-. split; [apply (int_acc 5)|apply (int_acc 6)]; reflexivity.
  - destruct Robj as ((_ & _ & _ & H') & _). exact H'.
Qed.

End Obj.
