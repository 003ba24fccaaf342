(** * Reasoning library for the constructor models (heap level) *)
From Coq Require Import ZArith List Bool Lia String FunctionalExtensionality.
From Verif Require Import Num Mem SpecHeap ErrorModel ErrorProofs ProfileModel ProfileProofs Geometry ConsModel.
Import ListNotations.

Section Lib.
Context {T : Type} {N : Num T}.
Implicit Types s : st T.

Lemma upd_shadow (m : loc -> option (@block T)) l a b : upd (upd m l a) l b = upd m l b.
Proof. extensionality x. unfold upd. destruct (Nat.eqb x l); reflexivity. Qed.
Lemma upd_id (m : loc -> option (@block T)) l b : m l = b -> upd m l b = m.
Proof. intros <-. extensionality x. unfold upd. destruct (Nat.eqb_spec x l); congruence. Qed.
Lemma upd_comm (m : loc -> option (@block T)) l l' a b :
  l <> l' -> upd (upd m l a) l' b = upd (upd m l' b) l a.
Proof.
  intros H. extensionality x. unfold upd.
  destruct (Nat.eqb_spec x l'), (Nat.eqb_spec x l); congruence.
Qed.

Lemma setmem_id s : setmem s (mem s) = s.
Proof. now destruct s. Qed.

(** Reading an array of doubles. *)
Lemma wp_read_dbls l xs : forall n from (Q : list T -> st T -> Prop) s,
  mem s l = Some (List.map Vdbl xs) -> from + n <= List.length xs ->
  Q (firstn n (skipn from xs)) s -> wp (read_dbls n from (Some l)) Q s.
Proof.
  induction n as [|n IH]; intros from Q s Hl Hn HQ; cbn [read_dbls].
  - apply wp_ret. exact HQ.
  - destruct (nth_error xs from) as [x|] eqn:Hx.
    2:{ apply nth_error_None in Hx. lia. }
    apply wp_bind. eapply wp_load_dbl; [exact Hl| rewrite nth_error_map, Hx; reflexivity |].
    apply wp_bind. apply IH; auto; [lia|]. apply wp_ret.
    apply nth_error_split in Hx. destruct Hx as (a & b & -> & <-).
    rewrite skipn_app, skipn_all, Nat.sub_diag in HQ. cbn [skipn app firstn] in HQ.
    replace (skipn (S (List.length a)) (a ++ x :: b)) with b; [exact HQ|].
    rewrite skipn_app, skipn_all2 by lia. replace (S (List.length a) - List.length a) with 1 by lia. reflexivity.
Qed.

Lemma wp_read_all l xs n (Q : list T -> st T -> Prop) s :
  mem s l = Some (List.map Vdbl xs) -> n = List.length xs -> Q xs s -> wp (read_dbls n 0 (Some l)) Q s.
Proof.
  intros Hl -> HQ. eapply wp_read_dbls; [exact Hl | lia |]. cbn [skipn]. now rewrite firstn_all.
Qed.

Lemma nth_error_Some_ex {A} (l : list A) i : i < List.length l -> exists x, nth_error l i = Some x.
Proof.
  intros H. destruct (nth_error l i) eqn:E; eauto. apply nth_error_None in E. lia.
Qed.

(** An array whose first [i] cells have been copied from [xs]. *)
Definition copied (xs : list (val T)) (i : nat) : list (val T) :=
  firstn i xs ++ repeat Vundef (List.length xs - i).
Lemma copied_0 xs : copied xs 0 = repeat Vundef (List.length xs).
Proof. unfold copied. cbn. now rewrite Nat.sub_0_r. Qed.
Lemma copied_all xs : copied xs (List.length xs) = xs.
Proof. unfold copied. rewrite firstn_all, Nat.sub_diag. cbn. apply app_nil_r. Qed.
Lemma copied_length xs i : i <= List.length xs -> List.length (copied xs i) = List.length xs.
Proof. intros. unfold copied. rewrite app_length, firstn_length, repeat_length. lia. Qed.
Lemma copied_step xs i x : nth_error xs i = Some x -> set_nth (copied xs i) i x = copied xs (S i).
Proof.
  intros H. assert (Hi : i < List.length xs) by (apply nth_error_Some; congruence).
  unfold copied. replace (List.length xs - i) with (S (List.length xs - S i)) by lia. cbn [repeat].
  assert (E : firstn (S i) xs = firstn i xs ++ [x]).
  { clear Hi. revert i H. induction xs as [|y xs IH]; intros [|i] H; cbn in *; try congruence.
    f_equal. now apply IH. }
  rewrite E, <- app_assoc. cbn [app].
  pose proof (set_nth_app (firstn i xs) (repeat Vundef (List.length xs - S i)) Vundef x) as G.
  rewrite firstn_length, Nat.min_l in G by lia. exact G.
Qed.

(** The loop copying iz and wi. *)
Lemma wp_copy_elems diz dwi liz lwi (izs : list Z) (wis : list T) n (Q : unit -> st T -> Prop) s :
  n = List.length izs -> n = List.length wis ->
  diz <> dwi -> liz <> diz -> liz <> dwi -> lwi <> diz -> lwi <> dwi ->
  mem s diz = Some (repeat Vundef n) -> mem s dwi = Some (repeat Vundef n) ->
  int_array s liz izs -> dbl_array s lwi wis ->
  Q tt (setmem s (upd (upd (mem s) diz (Some (List.map Vint izs))) dwi (Some (List.map Vdbl wis)))) ->
  wp (for_n n 0 (copy_elem (Some diz) (Some dwi) (Some liz) (Some lwi))) Q s.
Proof.
  intros Ei Ew d1 d2 d3 d4 d5 Hi Hw Hiz Hwi HQ. unfold int_array, dbl_array in *.
  set (I := fun i s1 => s1 = setmem s (upd (upd (mem s) diz (Some (copied (List.map Vint izs) i)))
                                         dwi (Some (copied (List.map Vdbl wis) i)))).
  apply wp_for_n with (I := I).
  - unfold I. rewrite !copied_0, !map_length, <- Ei, <- Ew.
    rewrite (upd_id _ diz) by auto. rewrite upd_id by auto. now rewrite setmem_id.
  - intros i s1 Hi1 ->. unfold copy_elem. 
    destruct (nth_error_Some_ex izs i) as [x Hx]; [lia|].
    destruct (nth_error_Some_ex wis i) as [y Hy]; [lia|].
    assert (Hx' : nth_error (List.map (@Vint T) izs) i = Some (Vint x)) by (rewrite nth_error_map, Hx; reflexivity).
    assert (Hy' : nth_error (List.map Vdbl wis) i = Some (Vdbl y)) by (rewrite nth_error_map, Hy; reflexivity).
    apply wp_bind. eapply wp_load_int; [cbn [mem setmem]; rewrite !upd_other by auto; exact Hiz | exact Hx' |].
    apply wp_bind. eapply wp_store; [cbn [mem setmem]; rewrite upd_other by auto; apply upd_same | |].
    { rewrite copied_length; rewrite map_length; lia. }
    rewrite (copied_step _ _ _ Hx'). cbn [mem setmem nxt orc cnt].
    apply wp_bind. eapply wp_load_dbl; [cbn [mem]; rewrite !upd_other by auto; exact Hwi | exact Hy' |].
    eapply wp_store; [cbn [mem]; rewrite upd_other by auto; apply upd_same | |].
    { rewrite copied_length; rewrite map_length; lia. }
    rewrite (copied_step _ _ _ Hy'). cbn [mem setmem nxt orc cnt]. unfold I, setmem.
    rewrite (upd_comm _ dwi diz) by auto. rewrite upd_shadow, upd_shadow. reflexivity.
  - intros s1 ->. cbn [plus]. rewrite Ei at 1. rewrite <- (map_length (@Vint T) izs) at 1. rewrite copied_all.
    rewrite Ew. rewrite <- (map_length (@Vdbl T) wis) at 1. rewrite copied_all. exact HQ.
Qed.

(** The loop copying the profile. *)
Lemma wp_copy_points qz qc qe lz lc le (zs cs es : list T) n (Q : unit -> st T -> Prop) s :
  n = List.length zs -> n = List.length cs -> n = List.length es ->
  NoDup [qz; qc; qe] -> (forall l, In l [lz; lc; le] -> ~ In l [qz; qc; qe]) ->
  mem s qz = Some (repeat Vundef n) -> mem s qc = Some (repeat Vundef n) -> mem s qe = Some (repeat Vundef n) ->
  dbl_array s lz zs -> dbl_array s lc cs -> dbl_array s le es ->
  Q tt (setmem s (upd (upd (upd (mem s) qz (Some (List.map Vdbl zs))) qc (Some (List.map Vdbl cs)))
                    qe (Some (List.map Vdbl es)))) ->
  wp (for_n n 0 (copy_point (Some qz) (Some qc) (Some qe) (Some lz) (Some lc) (Some le))) Q s.
Proof.
  intros Ez Ec Ee ND D Hz Hc He Az Ac Ae HQ. unfold dbl_array in *.
  destruct (nodup3 _ _ _ ND) as (d1 & d2 & d3).
  assert (Dz : lz <> qz /\ lz <> qc /\ lz <> qe) by (specialize (D lz); cbn in D; repeat split; intro; subst; tauto).
  assert (Dc : lc <> qz /\ lc <> qc /\ lc <> qe) by (specialize (D lc); cbn in D; repeat split; intro; subst; tauto).
  assert (De : le <> qz /\ le <> qc /\ le <> qe) by (specialize (D le); cbn in D; repeat split; intro; subst; tauto).
  destruct Dz as (a1 & a2 & a3), Dc as (b1 & b2 & b3), De as (c1 & c2 & c3). clear D ND.
  set (I := fun i s1 => s1 = setmem s (upd (upd (upd (mem s) qz (Some (copied (List.map Vdbl zs) i)))
                          qc (Some (copied (List.map Vdbl cs) i))) qe (Some (copied (List.map Vdbl es) i)))).
  apply wp_for_n with (I := I).
  - unfold I. rewrite !copied_0, !map_length, <- Ez, <- Ec, <- Ee.
    rewrite (upd_id _ qz) by auto. rewrite (upd_id _ qc) by auto. rewrite upd_id by auto. now rewrite setmem_id.
  - intros i s1 Hi1 ->. unfold copy_point.
    destruct (nth_error_Some_ex zs i) as [x Hx]; [lia|].
    destruct (nth_error_Some_ex cs i) as [y Hy]; [lia|].
    destruct (nth_error_Some_ex es i) as [w Hw]; [lia|].
    assert (Hx' : nth_error (List.map Vdbl zs) i = Some (Vdbl x)) by (rewrite nth_error_map, Hx; reflexivity).
    assert (Hy' : nth_error (List.map Vdbl cs) i = Some (Vdbl y)) by (rewrite nth_error_map, Hy; reflexivity).
    assert (Hw' : nth_error (List.map Vdbl es) i = Some (Vdbl w)) by (rewrite nth_error_map, Hw; reflexivity).
    apply wp_bind. eapply wp_load_dbl; [cbn [mem setmem]; rewrite !upd_other by auto; exact Az | exact Hx' |].
    apply wp_bind. eapply wp_store; [cbn [mem setmem]; rewrite !upd_other by auto; apply upd_same | |].
    { rewrite copied_length; rewrite map_length; lia. }
    rewrite (copied_step _ _ _ Hx'). cbn [mem setmem nxt orc cnt].
    rewrite (upd_comm _ qe qz) by auto. rewrite (upd_comm _ qc qz) by auto. rewrite upd_shadow.
    apply wp_bind. eapply wp_load_dbl; [cbn [mem]; rewrite !upd_other by auto; exact Ac | exact Hy' |].
    apply wp_bind. eapply wp_store; [cbn [mem]; rewrite upd_other by auto; apply upd_same | |].
    { rewrite copied_length; rewrite map_length; lia. }
    rewrite (copied_step _ _ _ Hy'). cbn [mem setmem nxt orc cnt].
    rewrite (upd_comm _ qe qc) by auto. rewrite upd_shadow.
    apply wp_bind. eapply wp_load_dbl; [cbn [mem]; rewrite !upd_other by auto; exact Ae | exact Hw' |].
    eapply wp_store; [cbn [mem]; apply upd_same | |].
    { rewrite copied_length; rewrite map_length; lia. }
    rewrite (copied_step _ _ _ Hw'). cbn [mem setmem nxt orc cnt]. unfold I, setmem. now rewrite upd_shadow.
  - intros s1 ->. cbn [plus].
    rewrite Ez at 1. rewrite <- (map_length (@Vdbl T) zs) at 1. rewrite copied_all.
    rewrite Ec at 1. rewrite <- (map_length (@Vdbl T) cs) at 1. rewrite copied_all.
    rewrite Ee. rewrite <- (map_length (@Vdbl T) es) at 1. rewrite copied_all. exact HQ.
Qed.

End Lib.

(** Membership in a literal list of addresses. *)
Lemma nin_cons (l a : loc) L : l <> a -> ~ In l L -> ~ In l (a :: L).
Proof. intros H1 H2 [H|H]; [now apply H1|auto]. Qed.
Lemma nin_cons_inv (l a : loc) L : ~ In l (a :: L) -> l <> a /\ ~ In l L.
Proof. intros H. split; [intros ->; apply H; now left | intros K; apply H; now right]. Qed.
Lemma nin_nil (l : loc) : ~ In l [].
Proof. intros []. Qed.
Ltac nin := repeat (apply nin_cons; [first [assumption | congruence | lia]|]); first [apply nin_nil | assumption].
Ltac nin_split H := repeat (let A := fresh "ni" in apply nin_cons_inv in H; destruct H as [A H]).
