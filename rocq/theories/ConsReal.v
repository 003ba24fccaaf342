(** * The composition check over the reals; reading the guards as inequalities *)
From Coq Require Import ZArith List Bool Lia Reals Lra.
From Verif Require Import Num Mem SpecHeap ErrorModel ProfileModel Geometry ConsModel DescProofs SrcProofs.
Import ListNotations.
Local Open Scope R_scope.

(** Sum of a list of reals. *)
Definition Rsum (l : list R) : R := fold_right Rplus 0 l.

Lemma fold_left_Rplus l : forall a, fold_left Rplus l a = a + Rsum l.
Proof. induction l as [|x l IH]; intros a; cbn; [ring|]. rewrite IH. unfold Rsum. cbn. ring. Qed.
Lemma sum_of_R (l : list R) : sum_of l = Rsum l.
Proof. unfold sum_of. cbn [nadd RNum nofZ]. rewrite fold_left_Rplus. ring. Qed.

Lemma Rsum_div l : Rsum (map (fun w => w / 100) l) = Rsum l / 100.
Proof. induction l as [|x l IH]; cbn; [field|]. change (fold_right Rplus 0 (map (fun w : R => w / 100) l)) with (Rsum (map (fun w => w / 100) l)). rewrite IH. unfold Rsum. field. Qed.

Lemma percent_R ws : forall a,
  (Forall (fun w => 0 <= w) ws -> percent ws a = (map (fun w => w / 100) ws, Some (a + Rsum (map (fun w => w / 100) ws)))) /\
  (~ Forall (fun w => 0 <= w) ws -> snd (percent ws a) = None).
Proof.
  induction ws as [|w ws IH]; intros a; split; intros H.
  - cbn. f_equal. f_equal. cbn. ring.
  - exfalso. apply H. constructor.
  - inversion H; subst. cbn [percent]. rnum. rewrite Rltb_false by lra.
    destruct (IH (a + w / 100)) as [I1 _]. rewrite (I1 H3). cbn [map]. f_equal. f_equal. unfold Rsum. cbn [map fold_right]. ring.
  - cbn [percent]. rnum. destruct (Rltb_spec (w / 100) 0) as [L|L]; [reflexivity|].
    destruct (IH (a + w / 100)) as [_ I2].
    assert (K : ~ Forall (fun w => 0 <= w) ws) by (intros F; apply H; constructor; [lra|exact F]).
    specialize (I2 K). destruct (percent ws (a + w / 100)). exact I2.
Qed.

(** What the composition check accepts, and what it leaves in the array. *)
Lemma norm_weights_R (ws : list R) :
  (snd (norm_weights ws) = true <-> Rsum ws = 1 \/ (Rsum ws = 100 /\ Forall (fun w => 0 <= w) ws)) /\
  (Rsum ws <= 1 -> fst (norm_weights ws) = ws) /\
  (1 < Rsum ws -> Forall (fun w => 0 <= w) ws -> fst (norm_weights ws) = map (fun w => w / 100) ws).
Proof.
  unfold norm_weights. rewrite sum_of_R. rnum.
  destruct (Rltb_spec 1 (Rsum ws)) as [L|L].
  - destruct (percent_R ws 0) as [I1 I2].
    assert (D : Forall (fun w => 0 <= w) ws \/ ~ Forall (fun w => 0 <= w) ws).
    { clear. induction ws as [|w ws [IH|IH]]; [left; constructor| |].
      - destruct (Rle_dec 0 w); [left; constructor; auto|right; intros K; inversion K; auto].
      - right; intros K; inversion K; auto. }
    destruct D as [D|D].
    + rewrite (I1 D). cbn [fst snd]. rewrite Rsum_div. split; [|split; [lra|auto]].
      destruct (Reqb_spec (0 + Rsum ws / 100) 1) as [E|E]; split; auto; try discriminate.
      * intros _. right. split; auto. lra.
      * intros [H|[H _]]; exfalso; lra.
    + specialize (I2 D). destruct (percent ws 0) as [r o]. cbn in I2. subst o. cbn [fst snd].
      split; [|split; [lra|intros _ K; contradiction]]. split; [discriminate|]. intros [H|[_ H]]; [lra|contradiction].
  - cbn [fst snd]. split; [|split; [auto|lra]].
    destruct (Reqb_spec (Rsum ws) 1) as [E|E]; split; auto; try discriminate. intros [H|[H _]]; [contradiction|lra].
Qed.

Lemma norm_weights_idem (ws : list R) : snd (norm_weights ws) = true ->
  Rsum (fst (norm_weights ws)) = 1.
Proof.
  intros H. destruct (norm_weights_R ws) as (I1 & I2 & I3). apply I1 in H. destruct H as [H|[H F]].
  - rewrite I2 by lra. exact H.
  - rewrite I3 by (auto; lra). rewrite Rsum_div, H. field.
Qed.

Lemma norm_weights_one (ws : list R) : Rsum ws = 1 -> snd (norm_weights ws) = true /\ fst (norm_weights ws) = ws.
Proof. intros H. destruct (norm_weights_R ws) as (I1 & I2 & _). split; [apply I1; auto|apply I2; lra]. Qed.

Lemma iz_range (z : Z) : iz_in_range z = true <-> (1 <= z <= 111)%Z.
Proof.
  unfold iz_in_range. destruct (Z.ltb_spec z 1), (Z.ltb_spec 111 z); cbn; split; intros; try discriminate; try lia; reflexivity.
Qed.
Lemma iz_all (l : list Z) : forallb iz_in_range l = true <-> Forall (fun z => 1 <= z <= 111)%Z l.
Proof. rewrite forallb_forall, Forall_forall. split; intros H x Hx; apply iz_range; auto. Qed.
Lemma en_range (x : R) : en_in_range x = true <-> 1 <= x <= 100.
Proof. unfold en_in_range. rnum. repeat rcase; cbn; split; intros; try discriminate; try lra; reflexivity. Qed.
Lemma en_all (l : list R) : forallb en_in_range l = true <-> Forall (fun x => 1 <= x <= 100) l.
Proof. rewrite forallb_forall, Forall_forall. split; intros H x Hx; apply en_range; auto. Qed.

Lemma desc_args_R sig n_cap izs dens :
  0 <= sig -> (1 < n_cap)%Z -> (1 <= length izs)%nat -> 0 < dens -> Forall (fun z => 1 <= z <= 111)%Z izs ->
  desc_args_ok sig n_cap izs dens.
Proof.
  intros. unfold desc_args_ok. rnum. rewrite Rltb_false by lra. rewrite Rleb_false by lra.
  repeat split; auto. now apply iz_all.
Qed.
Lemma src_args_R d x y hp ens :
  0 < d -> 0 < x -> 0 < y -> -1 <= hp <= 1 -> (1 <= length ens)%nat -> Forall (fun e => 1 <= e <= 100) ens ->
  src_args_ok d x y hp ens.
Proof.
  intros. unfold src_args_ok. rnum. rewrite !Rleb_false by lra. rewrite Rltb_false by (apply Rabs_le; lra).
  repeat split; auto. now apply en_all.
Qed.
