(** * polycap_description_new under allocation failure *)
From Coq Require Import ZArith List Bool Lia String FunctionalExtensionality.
From Verif Require Import Num Mem SpecHeap ErrorModel ErrorProofs ProfileModel ProfileProofs Geometry ConsModel HeapLib DescProofs DescProofs2.
Import ListNotations.

Section Oom.
Context {T : Type} {N : Num T}.
Implicit Types s : st T.

(** Report an allocation failure, then release the blocks [L] obtained so far. *)
Lemma wp_mem_cleanup err m L (cont : M T ptr) s s1 :
  legal_err s err -> wf s1 -> orc s1 = orc s ->
  (err <> None -> isolated_failures s) -> (exists n, cnt s1 = S n /\ orc s n = false) ->
  (forall l, In l L -> mem s l = None /\ mem s1 l <> None) ->
  same_memory_except L s s1 ->
  (forall s2, wf s2 -> (forall l b, In l L -> mem s1 l = Some b -> mem s2 l = Some b) ->
     wp cont (fun p s3 => p = None /\ (forall l, In l L -> mem s3 l = None) /\
                          (forall l, ~ In l L -> mem s3 l = mem s2 l)) s2) ->
  wp (bind (mem_error err m) (fun _ => cont))
    (fun p s' => p = None /\ exists m, error_reported err POLYCAP_ERROR_MEMORY m s s') s1.
Proof.
  intros Hle Hwf1 Ho1 Hiso (n & Hn & Hf) HL Hx Hcont.
  apply wp_bind. change (mem_error err m) with (@report_fn T false err POLYCAP_ERROR_MEMORY m).
  apply wp_report; auto.
  - destruct err as [l|]; [|exact I]. cbn. destruct Hle as [q Hq]. exists q.
    unfold slot_holds in *. rewrite Hx; auto.
    intros Hin. destruct (HL l Hin) as [X _]. congruence.
  - intros Hne. rewrite Ho1, Hn. apply Hiso; auto.
  - intros s2 Hwf2 Ho2 Hn2 Hpres Hrep.
    eapply wp_mono; [apply Hcont; auto|].
    + intros l b Hl Hb. apply Hpres; auto. intros ->. destruct Hle as [q Hq].
      destruct (HL l Hl) as [X _]. unfold slot_holds in Hq. congruence.
    + intros p s3 (-> & G1 & G2). split; auto. exists m.
      eapply error_reported_frame with (L := L); eauto.
Qed.

Ltac killL := match goal with |- In _ _ => cbn [In]; tauto end.

(** Some block of the second half could not be obtained. *)
Lemma dp_oom d b0 diz bi dwi bw p lz lc le n err n_cap s s1 :
  legal_err s err -> wf s -> (err <> None -> isolated_failures s) ->
  wf s1 -> orc s1 = orc s ->
  d < nxt s1 -> diz < nxt s1 -> dwi < nxt s1 -> d <> diz -> d <> dwi -> diz <> dwi ->
  mem s d = None -> mem s diz = None -> mem s dwi = None ->
  mem s1 d = Some b0 -> List.length b0 = 8 -> mem s1 diz = Some bi -> mem s1 dwi = Some bw ->
  same_memory_except [d; diz; dwi] s s1 -> nxt s <= nxt s1 ->
  mem s p = Some [Vint n; Vptr (Some lz); Vptr (Some lc); Vptr (Some le)] ->
  ~ allocs_succeed 4 s1 ->
  wp (description_profile (Some d) (Some diz) (Some dwi) (Some p) n_cap err)
     (fun p s' => p = None /\ exists m, error_reported err POLYCAP_ERROR_MEMORY m s s') s1.
Proof.
  intros Hle Hwf Hiso Wf1 Or1 Ld Ldi Ldw D1 D2 D3 Fd Fdi Fdw Md Lb Mdi Mdw Sx Nx Hp Hno.
  destruct b0 as [|f0 [|f1 [|f2 [|f3 [|f4 [|f5 [|f6 [|f7 [|]]]]]]]]]; try discriminate Lb. clear Lb.
  pose proof (live_lt _ _ _ Hwf Hp) as Lp.
  assert (Dp : p <> d /\ p <> diz /\ p <> dwi) by (repeat split; intros ->; congruence).
  destruct Dp as (P1 & P2 & P3).
  assert (Mp : mem s1 p = Some [Vint n; Vptr (Some lz); Vptr (Some lc); Vptr (Some le)])
    by (rewrite Sx by nin; exact Hp).
  assert (FR : forall l, nxt s1 <= l -> mem s l = None) by (intros l Hl; apply Hwf; lia).
  unfold description_profile.
  apply wp_bind. apply wp_alloc; intros O0; wsimp.
  2:{ wstep. eapply wp_store; [exact Md | cbn; lia |]. wsimp. cbn [set_nth].
      apply wp_mem_cleanup with (L := [d; diz; dwi]); cbn [mem nxt orc cnt]; auto.
      - intros l Hl. cbn [mem nxt] in *. upd_simpl. apply Wf1. lia.
      - exists (cnt s1). rewrite <- Or1. auto.
      - intros l [<-|[<-|[<-|[]]]]; (split; [assumption|]); rewrite ?upd_same, ?upd_other by auto; congruence.
      - intros l Hl. nin_split Hl. cbn [mem]. rewrite upd_other by auto. apply Sx. nin.
      - intros s2 W2 Pr.
        pose proof (Pr d _ ltac:(killL) ltac:(apply upd_same)) as Q1.
        pose proof (Pr diz _ ltac:(killL) ltac:(rewrite upd_other by auto; exact Mdi)) as Q2.
        pose proof (Pr dwi _ ltac:(killL) ltac:(rewrite upd_other by auto; exact Mdw)) as Q3.
        repeat wstep. split; [reflexivity|]. split; cbn [mem].
        + intros l [<-|[<-|[<-|[]]]]; upd_simpl; reflexivity.
        + intros l Hl. nin_split Hl. rewrite !upd_other by auto. reflexivity. }
  assert (Fq : nxt s1 <> p) by lia.
  wstep. wstep.
  wstep. wstep. wstep. wstep. unfold malloc. wstep. apply wp_alloc; intros O1; wsimp; cbn [orc cnt] in O1.
  2:{ wstep. wstep.
      apply wp_mem_cleanup with (L := [d; diz; dwi; nxt s1]); cbn [mem nxt orc cnt]; auto.
      - intros l Hl. cbn [mem nxt] in *. upd_simpl. apply Wf1. lia.
      - exists (S (cnt s1)). rewrite <- Or1. auto.
      - intros l [<-|[<-|[<-|[<-|[]]]]]; (split; [first [assumption | apply FR; lia]|]); upd_simpl; congruence.
      - intros l Hl. nin_split Hl. cbn [mem]. rewrite !upd_other by auto. apply Sx. nin.
      - intros s2 W2 Pr.
        pose proof (Pr d _ ltac:(killL) ltac:(upd_simpl; reflexivity)) as Q1.
        pose proof (Pr diz _ ltac:(killL) ltac:(upd_simpl; exact Mdi)) as Q2.
        pose proof (Pr dwi _ ltac:(killL) ltac:(upd_simpl; exact Mdw)) as Q3.
        pose proof (Pr (nxt s1) _ ltac:(killL) ltac:(upd_simpl; reflexivity)) as Q4.
        repeat wstep. split; [reflexivity|]. split; cbn [mem].
        + intros l [<-|[<-|[<-|[<-|[]]]]]; upd_simpl; reflexivity.
        + intros l Hl. nin_split Hl. rewrite !upd_other by auto. reflexivity. }
  wstep. wstep. wstep. unfold malloc. apply wp_alloc; intros O2; wsimp; cbn [orc cnt] in O2.
  2:{ wstep. wstep.
      apply wp_mem_cleanup with (L := [d; diz; dwi; nxt s1; S (nxt s1)]); cbn [mem nxt orc cnt]; auto.
      - intros l Hl. cbn [mem nxt] in *. upd_simpl. apply Wf1. lia.
      - exists (S (S (cnt s1))). rewrite <- Or1. auto.
      - intros l [<-|[<-|[<-|[<-|[<-|[]]]]]]; (split; [first [assumption | apply FR; lia]|]); upd_simpl; congruence.
      - intros l Hl. nin_split Hl. cbn [mem]. rewrite !upd_other by auto. apply Sx. nin.
      - intros s2 W2 Pr.
        pose proof (Pr d _ ltac:(killL) ltac:(upd_simpl; reflexivity)) as Q1.
        pose proof (Pr diz _ ltac:(killL) ltac:(upd_simpl; exact Mdi)) as Q2.
        pose proof (Pr dwi _ ltac:(killL) ltac:(upd_simpl; exact Mdw)) as Q3.
        pose proof (Pr (nxt s1) _ ltac:(killL) ltac:(upd_simpl; reflexivity)) as Q4.
        pose proof (Pr (S (nxt s1)) _ ltac:(killL) ltac:(upd_simpl; reflexivity)) as Q5.
        repeat wstep. split; [reflexivity|]. split; cbn [mem].
        + intros l [<-|[<-|[<-|[<-|[<-|[]]]]]]; upd_simpl; reflexivity.
        + intros l Hl. nin_split Hl. rewrite !upd_other by auto. reflexivity. }
  wstep. wstep. wstep. unfold malloc. apply wp_alloc; intros O3; wsimp; cbn [orc cnt] in O3.
  2:{ wstep. wstep.
      apply wp_mem_cleanup with (L := [d; diz; dwi; nxt s1; S (nxt s1); S (S (nxt s1))]); cbn [mem nxt orc cnt]; auto.
      - intros l Hl. cbn [mem nxt] in *. upd_simpl. apply Wf1. lia.
      - exists (S (S (S (cnt s1)))). rewrite <- Or1. auto.
      - intros l [<-|[<-|[<-|[<-|[<-|[<-|[]]]]]]]; (split; [first [assumption | apply FR; lia]|]); upd_simpl; congruence.
      - intros l Hl. nin_split Hl. cbn [mem]. rewrite !upd_other by auto. apply Sx. nin.
      - intros s2 W2 Pr.
        pose proof (Pr d _ ltac:(killL) ltac:(upd_simpl; reflexivity)) as Q1.
        pose proof (Pr diz _ ltac:(killL) ltac:(upd_simpl; exact Mdi)) as Q2.
        pose proof (Pr dwi _ ltac:(killL) ltac:(upd_simpl; exact Mdw)) as Q3.
        pose proof (Pr (nxt s1) _ ltac:(killL) ltac:(upd_simpl; reflexivity)) as Q4.
        pose proof (Pr (S (nxt s1)) _ ltac:(killL) ltac:(upd_simpl; reflexivity)) as Q5.
        pose proof (Pr (S (S (nxt s1))) _ ltac:(killL) ltac:(upd_simpl; reflexivity)) as Q6.
        repeat wstep. split; [reflexivity|]. split; cbn [mem].
        + intros l [<-|[<-|[<-|[<-|[<-|[<-|[]]]]]]]; upd_simpl; reflexivity.
        + intros l Hl. nin_split Hl. rewrite !upd_other by auto. reflexivity. }
  exfalso. apply Hno. intros j Hj.
  destruct j as [|[|[|[|j]]]]; [replace (cnt s1 + 0) with (cnt s1) by lia
    |replace (cnt s1 + 1) with (S (cnt s1)) by lia
    |replace (cnt s1 + 2) with (S (S (cnt s1))) by lia
    |replace (cnt s1 + 3) with (S (S (S (cnt s1)))) by lia|lia]; assumption.
Qed.

Lemma dn_oom p lz lc le n sig n_cap nelem liz lwi (izs : list Z) (wis : list T) dens err s :
  wf s -> legal_err s err -> (err <> None -> isolated_failures s) ->
  int_array s liz izs -> dbl_array s lwi wis ->
  nelem = List.length izs -> nelem = List.length wis -> desc_args_ok sig n_cap izs dens ->
  mem s p = Some [Vint n; Vptr (Some lz); Vptr (Some lc); Vptr (Some le)] ->
  snd (norm_weights wis) = true ->
  ~ allocs_succeed 7 s ->
  wp (description_new (Some p) sig n_cap nelem (Some liz) (Some lwi) dens err)
     (fun p s' => p = None /\ exists m, error_reported err POLYCAP_ERROR_MEMORY m s s') s.
Proof.
  intros Hwf Hle Hiso Aiz Awi En Ew Ok Hp Hnw Hno.
  assert (D : allocs_succeed 3 s \/ exists k, k < 3 /\ orc s (cnt s + k) = false).
  { unfold allocs_succeed. destruct (orc s (cnt s + 0)) eqn:E0; [|right; exists 0; auto].
    destruct (orc s (cnt s + 1)) eqn:E1; [|right; exists 1; auto].
    destruct (orc s (cnt s + 2)) eqn:E2; [|right; exists 2; auto].
    left. intros [|[|[|k]]]; auto. lia. }
  destruct D as [D|D].
  - apply dn_to_profile with (izs := izs) (wis := wis); auto; [congruence|].
    intros d diz dwi s1 Ed Ediz Edwi Es1 (Wf1 & Hle1 & Hne). split; [intros _|congruence].
    assert (Nx : nxt s1 = 3 + nxt s) by (subst s1; reflexivity).
    assert (M1 : mem s1 d = Some [Vdbl sig; Vint n_cap; Vdbl (#0)%num; Vint (Z.of_nat nelem); Vptr (Some diz); Vptr (Some dwi);
                     Vdbl dens; Vptr NULL]) by (subst s1 d diz dwi; cbn [mem]; upd_simpl; reflexivity).
    assert (M2 : mem s1 diz = Some (List.map Vint izs)) by (subst s1 d diz dwi; cbn [mem]; upd_simpl; reflexivity).
    assert (M3 : mem s1 dwi = Some (List.map Vdbl (fst (norm_weights wis)))) by (subst s1 d diz dwi; cbn [mem]; upd_simpl; reflexivity).
    eapply dp_oom; eauto; try lia; try (apply Hwf; lia).
    + subst s1; reflexivity.
    + intros l Hl. nin_split Hl. subst s1. cbn [mem]. rewrite !upd_other by auto. reflexivity.
    + intros K. apply Hno. intros k Hk. destruct (Nat.lt_ge_cases k 3) as [L|L]; [apply D, L|].
      specialize (K (k - 3) ltac:(lia)). subst s1. cbn [orc cnt] in K.
      replace (3 + cnt s + (k - 3)) with (cnt s + k) in K by lia. exact K.
  - destruct D as (k & Hk & Hf). clear Hno.
    destruct Ok as (B1 & B2 & B3 & B4 & B5).
    pose proof (live_lt _ _ _ Hwf Aiz). pose proof (live_lt _ _ _ Hwf Awi).
    assert (F0 : mem s (nxt s) = None) by (apply Hwf; lia).
    assert (F1 : mem s (S (nxt s)) = None) by (apply Hwf; lia).
    unfold description_new.
    apply wp_reject; [congruence|intros _]. apply wp_reject; [intros H1; apply Z.leb_le in H1; lia|intros _].
    apply wp_reject; [intros H1; apply Nat.ltb_lt in H1; lia|intros _].
    apply wp_reject; [discriminate|intros _]. apply wp_reject; [discriminate|intros _].
    apply wp_reject; [congruence|intros _].
    apply wp_bind. apply (wp_iz_loop liz izs izs nelem []); auto; [lia|].
    rewrite En at 1. rewrite firstn_all, B5. apply wp_reject; [discriminate|intros _].
    apply wp_bind. apply wp_alloc; intros O0; wsimp.
    2:{ apply wp_mem_cleanup with (L := []); cbn [mem nxt orc cnt]; auto.
        - exists (cnt s). auto.
        - intros l [].
        - intros l _. reflexivity.
        - intros s2 W2 _. apply wp_ret. repeat split; auto. intros l []. }
    wstep. unfold malloc. wstep; [|].
    2:{ wstep. wstep.
      apply wp_mem_cleanup with (L := [nxt s]); cbn [mem nxt orc cnt]; auto.
      - intros l Hl. cbn [mem nxt] in *. upd_simpl. apply Hwf. lia.
      - exists (S (cnt s)). auto.
      - intros l [<-|[]]; (split; [assumption|]); upd_simpl; congruence.
      - intros l Hl. nin_split Hl. cbn [mem]. rewrite !upd_other by auto. reflexivity.
      - intros s2 W2 Pr.
        pose proof (Pr (nxt s) _ ltac:(killL) ltac:(upd_simpl; reflexivity)) as Q4.
        repeat wstep. split; [reflexivity|]. split; cbn [mem].
        + intros l [<-|[]]; upd_simpl; reflexivity.
        + intros l Hl. nin_split Hl. rewrite !upd_other by auto. reflexivity. }
    wstep. wstep. wstep. unfold malloc. wstep; [|].
    2:{ wstep. wstep.
      apply wp_mem_cleanup with (L := [nxt s; S (nxt s)]); cbn [mem nxt orc cnt]; auto.
      - intros l Hl. cbn [mem nxt] in *. upd_simpl. apply Hwf. lia.
      - exists (S (S (cnt s))). auto.
      - intros l [<-|[<-|[]]]; (split; [assumption|]); upd_simpl; congruence.
      - intros l Hl. nin_split Hl. cbn [mem]. rewrite !upd_other by auto. reflexivity.
      - intros s2 W2 Pr.
        pose proof (Pr (nxt s) _ ltac:(killL) ltac:(upd_simpl; reflexivity)) as Q4.
        pose proof (Pr (S (nxt s)) _ ltac:(killL) ltac:(upd_simpl; reflexivity)) as Q5.
        repeat wstep. split; [reflexivity|]. split; cbn [mem].
        + intros l [<-|[<-|[]]]; upd_simpl; reflexivity.
        + intros l Hl. nin_split Hl. rewrite !upd_other by auto. reflexivity. }
    exfalso. destruct k as [|[|[|k]]]; [| | |lia].
    + replace (cnt s + 0) with (cnt s) in Hf by lia. congruence.
    + replace (cnt s + 1) with (S (cnt s)) in Hf by lia. congruence.
    + replace (cnt s + 2) with (S (S (cnt s))) in Hf by lia. congruence.
Qed.

End Oom.
