(** * Proofs about the error model *)
From Coq Require Import ZArith List Bool Lia String.
From Verif Require Import Mem SpecHeap ErrorModel.
Import ListNotations.

Section Proofs.
Context {T : Type}.
Implicit Types s : st T.

(** A report: through polycap_set_error (true) or polycap_set_error_literal. *)
Definition report := (bool * (Z * string))%type.
Definition do_report (err : eslot) (r : report) : M T unit :=
  let '(fmt, (c, m)) := r in
  if fmt then set_error err c (Some m) else set_error_literal err c (Some m).
Fixpoint do_reports (err : eslot) (rs : list report) : M T unit :=
  match rs with
  | [] => ret tt
  | r :: rs => bind (do_report err r) (fun _ => do_reports err rs)
  end.

Lemma wp_error_new c m (Q : ptr -> st T -> Prop) s :
  wf s -> memory_available s ->
  (forall s',
     wf s' -> memory_available s' ->
     nxt s' = S (S (nxt s)) ->
     (forall l, mem s' l = upd (upd (mem s) (S (nxt s)) (Some [Vstr m])) (nxt s)
                             (Some [Vint c; Vptr (Some (S (nxt s)))]) l) ->
     Q (Some (nxt s)) s') ->
  wp (error_new c (Some m)) Q s.
Proof.
  intros Hwf Hma HQ. unfold error_new.
  repeat wstep; try (rewrite Hma in *; discriminate).
  unfold strdup. repeat wstep; try (rewrite Hma in *; discriminate).
  apply HQ; cbn.
  - intros l Hl. cbn in *. rewrite !upd_other by lia. apply Hwf. lia.
  - exact Hma.
  - reflexivity.
  - intros l. unfold upd.
    destruct (Nat.eqb_spec l (nxt s)); [reflexivity|].
    destruct (Nat.eqb_spec l (S (nxt s))); [reflexivity|]. reflexivity.
Qed.

Lemma report_empty err r s :
  wf s -> memory_available s -> slot_holds s err NULL ->
  wp (do_report (Some err) r)
     (fun _ s' => wf s' /\ memory_available s' /\
        exists e t, slot_holds s' err (Some e) /\
          error_object s' e t (fst (snd r)) (snd (snd r)) /\
          mem s e = None /\ mem s t = None /\ e <> err /\ t <> err /\
          same_memory_except [err; e; t] s s') s.
Proof.
  intros Hwf Hma Hs. destruct r as [fmt [c m]]. cbn [do_report fst snd].
  assert (Herr : err < nxt s).
  { destruct (Nat.lt_ge_cases err (nxt s)) as [H|H]; auto.
    unfold slot_holds in Hs. rewrite (Hwf err H) in Hs. discriminate. }
  assert (Fin : forall s' : st T, wf s' -> memory_available s' -> nxt s' = S (S (nxt s)) ->
     (forall l, mem s' l = upd (upd (mem s) (S (nxt s)) (Some [Vstr m])) (nxt s)
                             (Some [Vint c; Vptr (Some (S (nxt s)))]) l) ->
     (fun s' => wf s' /\ memory_available s' /\
        exists e t, slot_holds s' err (Some e) /\ error_object s' e t c m /\
          mem s e = None /\ mem s t = None /\ e <> err /\ t <> err /\
          same_memory_except [err; e; t] s s')
     (mkSt (upd (mem s') err (Some [Vptr (Some (nxt s))])) (nxt s') (orc s') (cnt s'))).
  { intros s' Hwf' Hma' Hn Hm. repeat split.
    - intros l Hl. cbn in *. rewrite upd_other by lia. apply Hwf'; lia.
    - exact Hma'.
    - exists (nxt s), (S (nxt s)). repeat split.
      + unfold slot_holds. cbn. now rewrite upd_same.
      + cbn. rewrite upd_other by lia. rewrite Hm. now upd_simpl.
      + cbn. rewrite upd_other by lia. rewrite Hm. now upd_simpl.
      + lia.
      + apply Hwf; lia.
      + apply Hwf; lia.
      + lia.
      + lia.
      + intros l Hl. cbn in Hl. cbn. rewrite upd_other by (intro; subst; tauto). rewrite Hm.
        rewrite !upd_other by (intro; subst; tauto). reflexivity. }
  destruct fmt.
  - unfold set_error. apply wp_bind. apply wp_error_new; auto.
    intros s' Hwf' Hma' Hn Hm.
    apply wp_bind. eapply wp_load_ptr with (b := [Vptr NULL]);
      [rewrite Hm; now upd_simpl | reflexivity |].
    eapply wp_store with (b := [Vptr NULL]); [rewrite Hm; now upd_simpl | cbn; lia |].
    cbn [set_nth]. now apply Fin.
  - unfold set_error_literal. apply wp_bind. eapply wp_load_ptr; [exact Hs | reflexivity |].
    apply wp_bind. apply wp_error_new; auto. intros s' Hwf' Hma' Hn Hm.
    eapply wp_store with (b := [Vptr NULL]); [rewrite Hm; now upd_simpl | cbn; lia |].
    cbn [set_nth]. now apply Fin.
Qed.

Lemma report_occupied err e r s :
  wf s -> memory_available s -> slot_holds s err (Some e) ->
  wp (do_report (Some err) r)
     (fun _ s' => wf s' /\ memory_available s' /\ same_memory s s') s.
Proof.
  intros Hwf Hma Hs. destruct r as [fmt [c m]]. cbn [do_report].
  assert (Herr : err < nxt s).
  { destruct (Nat.lt_ge_cases err (nxt s)) as [H|H]; auto.
    unfold slot_holds in Hs. rewrite (Hwf err H) in Hs. discriminate. }
  destruct fmt.
  - unfold set_error. apply wp_bind. apply wp_error_new; auto.
    intros s' Hwf' Hma' Hn Hm.
    apply wp_bind. eapply wp_load_ptr with (b := [Vptr (Some e)]);
      [rewrite Hm; now upd_simpl | reflexivity |].
    apply wp_bind. eapply wp_load_ptr; [rewrite Hm; upd_simpl; reflexivity | reflexivity |].
    unfold error_free. apply wp_bind.
    eapply wp_load_ptr; [rewrite Hm; upd_simpl; reflexivity | reflexivity |].
    apply wp_bind. eapply wp_free; [rewrite Hm; upd_simpl; reflexivity |].
    eapply wp_free; [cbn; upd_simpl; rewrite Hm; upd_simpl; reflexivity |]. cbn.
    repeat split.
    + intros l Hl. cbn in *. rewrite !upd_other by lia. apply Hwf'. lia.
    + exact Hma'.
    + intros l. cbn. unfold upd at 1 2.
      destruct (Nat.eqb_spec l (nxt s)); [subst; symmetry; apply Hwf; lia|].
      destruct (Nat.eqb_spec l (S (nxt s))); [subst; symmetry; apply Hwf; lia|].
      rewrite Hm. rewrite !upd_other by lia. reflexivity.
  - unfold set_error_literal. apply wp_bind. eapply wp_load_ptr; [exact Hs | reflexivity |].
    apply wp_ret. repeat split; auto.
Qed.

Lemma reports_occupied err e rs : forall s,
  wf s -> memory_available s -> slot_holds s err (Some e) ->
  wp (do_reports (Some err) rs)
     (fun _ s' => wf s' /\ memory_available s' /\ same_memory s s') s.
Proof.
  induction rs as [|r rs IH]; intros s Hwf Hma Hs.
  - apply wp_ret. repeat split; auto.
  - cbn [do_reports]. apply wp_bind. eapply wp_mono; [eapply report_occupied; eauto|].
    intros [] s' (Hwf' & Hma' & Hsame). eapply wp_mono.
    + apply IH; auto. unfold slot_holds. now rewrite Hsame.
    + intros [] s'' (Hwf'' & Hma'' & Hsame'). repeat split; auto.
      intros l. now rewrite Hsame', Hsame.
Qed.

Lemma reports_empty err r rs s :
  wf s -> memory_available s -> slot_holds s err NULL ->
  wp (do_reports (Some err) (r :: rs))
     (fun _ s' => exists e t, slot_holds s' err (Some e) /\
          error_object s' e t (fst (snd r)) (snd (snd r)) /\
          mem s e = None /\ mem s t = None /\
          same_memory_except [err; e; t] s s') s.
Proof.
  intros Hwf Hma Hs. cbn [do_reports]. apply wp_bind.
  eapply wp_mono; [apply report_empty; auto|].
  intros [] s' (Hwf' & Hma' & e & t & Hs' & He & H1 & H2 & H3 & H4 & Hx).
  eapply wp_mono; [eapply reports_occupied; eauto|].
  intros [] s'' (Hwf'' & Hma'' & Hsame). exists e, t. repeat split; auto.
  - unfold slot_holds. now rewrite Hsame.
  - rewrite Hsame. apply He.
  - rewrite Hsame. apply He.
  - apply He.
  - intros l Hl. rewrite Hsame. apply Hx, Hl.
Qed.

Lemma reports_null rs s : wp (do_reports NULL rs) (fun _ s' => s' = s) s.
Proof.
  induction rs as [|[fmt [c m]] rs IH].
  - now apply wp_ret.
  - cbn [do_reports]. apply wp_bind. destruct fmt; cbn; apply IH.
Qed.

(** ** Ownership through histories *)

(** A client with [slots] error variables performing error operations. *)
Inductive eop :=
| OReport (i : nat) (r : report)        (* report into variable i *)
| OPropagate (i j : nat)                (* polycap_propagate_error(&v_i, v_j); v_j = NULL *)
| OClear (i : nat)                      (* polycap_clear_error(&v_i) *)
| OCopy (i j : nat).                    (* if v_j is NULL: v_j = polycap_error_copy(v_i) *)

Definition do_eop (slots : list loc) (o : eop) : M T unit :=
  match o with
  | OReport i r => match nth_error slots i with Some l => do_report (Some l) r | None => ret tt end
  | OPropagate i j =>
      match nth_error slots i, nth_error slots j with
      | Some a, Some b =>
          if Nat.eqb i j then ret tt else
          bind (load_ptr (Some b) 0) (fun p =>
          bind (propagate_error (Some a) p) (fun _ => store (Some b) 0 (Vptr NULL)))
      | _, _ => ret tt
      end
  | OClear i => match nth_error slots i with Some l => clear_error (Some l) | None => ret tt end
  | OCopy i j =>
      match nth_error slots i, nth_error slots j with
      | Some a, Some b =>
          bind (load_ptr (Some b) 0) (fun p => match p with
          | Some _ => ret tt
          | None => bind (load_ptr (Some a) 0) (fun e =>
                    bind (error_copy e) (fun c => store (Some b) 0 (Vptr c)))
          end)
      | _, _ => ret tt
      end
  end.
Fixpoint do_eops (slots : list loc) (os : list eop) : M T unit :=
  match os with
  | [] => ret tt
  | o :: os => bind (do_eop slots o) (fun _ => do_eops slots os)
  end.
Fixpoint clear_all (slots : list loc) : M T unit :=
  match slots with
  | [] => ret tt
  | l :: t => bind (clear_error (Some l)) (fun _ => clear_all t)
  end.


(** What variable number [i] owns: the error object and its text, or nothing. *)
Definition owner := nat -> option (loc * loc).

Definition owns s (l : loc) (a : option (loc * loc)) : Prop :=
  match a with
  | None => slot_holds s l NULL
  | Some (e, t) => slot_holds s l (Some e) /\ exists c m, error_object s e t c m
  end.

(** The memory is the initial one [m0] plus the variables plus exactly the error
    objects they own, which are pairwise disjoint. *)
Record einv (m0 : loc -> option block) (slots : list loc) (A : owner) s : Prop := {
  ei_wf : wf s;
  ei_mem : memory_available s;
  ei_own : forall i l, nth_error slots i = Some l -> owns s l (A i);
  ei_dom : forall i, A i <> None -> i < List.length slots;
  ei_fresh : forall i e t, A i = Some (e, t) ->
      ~ In e slots /\ ~ In t slots /\ m0 e = None /\ m0 t = None;
  ei_disj : forall i j e t e' t', i <> j -> A i = Some (e, t) -> A j = Some (e', t') ->
      e <> e' /\ e <> t' /\ t <> e' /\ t <> t';
  ei_rest : forall l, ~ In l slots ->
      (forall i e t, A i = Some (e, t) -> l <> e /\ l <> t) -> mem s l = m0 l
}.

Definition aupd (A : owner) (i : nat) (a : option (loc * loc)) : owner :=
  fun j => if Nat.eqb j i then a else A j.

Lemma aupd_same A i a : aupd A i a i = a.
Proof. unfold aupd. now rewrite Nat.eqb_refl. Qed.
Lemma aupd_other A i a j : j <> i -> aupd A i a j = A j.
Proof. unfold aupd. intros H. apply Nat.eqb_neq in H. now rewrite H. Qed.

Lemma ei_live m0 slots A s : einv m0 slots A s -> forall i e t, A i = Some (e, t) ->
  mem s e <> None /\ mem s t <> None /\ e <> t.
Proof.
  intros H i e t Ha.
  assert (Hi : i < List.length slots) by (apply (ei_dom _ _ _ _ H); congruence).
  apply nth_error_Some in Hi. destruct (nth_error slots i) as [l|] eqn:E; [|congruence].
  pose proof (ei_own _ _ _ _ H i l E) as Ho. rewrite Ha in Ho.
  destruct Ho as [_ (c & m & H1 & H2 & H3)]. rewrite H1, H2. repeat split; congruence.
Qed.

Lemma slot_neq (slots : list loc) : NoDup slots -> forall i j a b,
  nth_error slots i = Some a -> nth_error slots j = Some b -> i <> j -> a <> b.
Proof.
  intros ND i j a b Ha Hb Hij ->. apply Hij.
  eapply (proj1 (NoDup_nth_error slots)); eauto.
  - apply nth_error_Some. congruence.
  - congruence.
Qed.

Lemma owns_ext s s' l a :
  mem s' l = mem s l ->
  (forall e t, a = Some (e, t) -> mem s' e = mem s e /\ mem s' t = mem s t) ->
  owns s l a -> owns s' l a.
Proof.
  intros H1 H2 Ho. destruct a as [[e t]|]; cbn in *.
  - destruct (H2 e t eq_refl) as [He Ht]. destruct Ho as [Hs (c & m & Ha & Hb & Hc)].
    split; [unfold slot_holds in *; congruence|].
    exists c, m. repeat split; congruence.
  - unfold slot_holds in *; congruence.
Qed.

(** Variable [i], which owned nothing, now owns a fresh object. *)
Lemma einv_gain m0 slots A s s' i l e t :
  NoDup slots -> einv m0 slots A s -> nth_error slots i = Some l -> A i = None ->
  wf s' -> memory_available s' -> slot_holds s' l (Some e) ->
  (exists c m, error_object s' e t c m) ->
  mem s e = None -> mem s t = None ->
  same_memory_except [l; e; t] s s' ->
  einv m0 slots (aupd A i (Some (e, t))) s'.
Proof.
  intros ND H Hi HA Hwf Hma Hs He Hfe Hft Hx.
  assert (NI : forall x, mem s x = None -> ~ In x slots).
  { intros x Hx0 Hin. apply In_nth_error in Hin. destruct Hin as [k Hk].
    pose proof (ei_own _ _ _ _ H k x Hk) as Ho.
    destruct (A k) as [[? ?]|]; cbn in Ho; unfold slot_holds in Ho; [destruct Ho as [Ho _]|]; congruence. }
  assert (M0 : forall x, mem s x = None -> m0 x = None).
  { intros x Hx0. rewrite <- (ei_rest _ _ _ _ H x); auto.
    intros k e' t' Hk. pose proof (ei_live _ _ _ _ H k e' t' Hk) as (L1 & L2 & _).
    split; intros ->; auto. }
  split; auto.
  - intros k lk Hk. destruct (Nat.eq_dec k i) as [->|Hki].
    + rewrite aupd_same. assert (lk = l) by congruence. subst. split; auto.
    + rewrite aupd_other by auto.
      assert (lk <> l) by (eapply slot_neq; eauto).
      pose proof (nth_error_In _ _ Hk) as Hin.
      pose proof (ei_own _ _ _ _ H k lk Hk) as Hown.
      eapply owns_ext; [| |exact Hown].
      * apply Hx. cbn. intros [?|[?|[?|[]]]]; subst; try congruence;
          [eapply (NI lk); eauto|eapply (NI lk); eauto].
      * intros e' t' Ha. pose proof (ei_live _ _ _ _ H k e' t' Ha) as (L1 & L2 & _).
        pose proof (ei_fresh _ _ _ _ H k e' t' Ha) as (F1 & F2 & _).
        apply nth_error_In in Hi.
        split; apply Hx; cbn; intros [?|[?|[?|[]]]]; subst; auto.
  - intros k Hk. destruct (Nat.eq_dec k i) as [->|Hki].
    + apply nth_error_Some. congruence.
    + rewrite aupd_other in Hk by auto. apply (ei_dom _ _ _ _ H k Hk).
  - intros k e' t' Hk. destruct (Nat.eq_dec k i) as [->|Hki].
    + rewrite aupd_same in Hk. injection Hk as <- <-. auto.
    + rewrite aupd_other in Hk by auto. apply (ei_fresh _ _ _ _ H k _ _ Hk).
  - intros k1 k2 e1 t1 e2 t2 Hne H1 H2.
    destruct (Nat.eq_dec k1 i) as [->|]; [|rewrite aupd_other in H1 by auto].
    + rewrite aupd_same in H1. injection H1 as <- <-. rewrite aupd_other in H2 by auto.
      pose proof (ei_live _ _ _ _ H k2 _ _ H2) as (L1 & L2 & _).
      repeat split; intros ->; auto.
    + destruct (Nat.eq_dec k2 i) as [->|]; [|rewrite aupd_other in H2 by auto].
      * rewrite aupd_same in H2. injection H2 as <- <-.
        pose proof (ei_live _ _ _ _ H k1 _ _ H1) as (L1 & L2 & _).
        repeat split; intros ->; auto.
      * apply (ei_disj _ _ _ _ H k1 k2); auto.
  - intros x Hxs Hxo. rewrite Hx.
    + apply (ei_rest _ _ _ _ H); auto. intros k e' t' Hk.
      destruct (Nat.eq_dec k i) as [->|Hki]; [congruence|].
      apply (Hxo k). now rewrite aupd_other.
    + destruct (Hxo i e t) as [Hx1 Hx2]; [apply aupd_same|].
      apply nth_error_In in Hi. cbn. intros [?|[?|[?|[]]]]; subst; auto.
Qed.

(** Variable [i] lost its object, which was released. *)
Lemma einv_lose m0 slots A s s' i l e t :
  NoDup slots -> einv m0 slots A s -> nth_error slots i = Some l -> A i = Some (e, t) ->
  wf s' -> memory_available s' -> slot_holds s' l NULL ->
  mem s' e = None -> mem s' t = None ->
  same_memory_except [l; e; t] s s' ->
  einv m0 slots (aupd A i None) s'.
Proof.
  intros ND H Hi HA Hwf Hma Hs Hfe Hft Hx.
  pose proof (ei_fresh _ _ _ _ H i e t HA) as (F1 & F2 & F3 & F4).
  split; auto.
  - intros k lk Hk. destruct (Nat.eq_dec k i) as [->|Hki].
    + rewrite aupd_same. assert (lk = l) by congruence. subst. exact Hs.
    + rewrite aupd_other by auto.
      assert (lk <> l) by (eapply slot_neq; eauto).
      pose proof (nth_error_In _ _ Hk) as Hin.
      pose proof (ei_own _ _ _ _ H k lk Hk) as Hown.
      eapply owns_ext; [| |exact Hown].
      * apply Hx. cbn. intros [?|[?|[?|[]]]]; subst; auto.
      * intros e' t' Ha.
        pose proof (ei_disj _ _ _ _ H k i e' t' e t Hki Ha HA) as (D1 & D2 & D3 & D4).
        pose proof (ei_fresh _ _ _ _ H k e' t' Ha) as (G1 & G2 & _).
        apply nth_error_In in Hi.
        split; apply Hx; cbn; intros [?|[?|[?|[]]]]; subst; auto.
  - intros k Hk. destruct (Nat.eq_dec k i) as [->|Hki].
    + rewrite aupd_same in Hk; congruence.
    + rewrite aupd_other in Hk by auto. apply (ei_dom _ _ _ _ H k Hk).
  - intros k e' t' Hk. destruct (Nat.eq_dec k i) as [->|Hki].
    + rewrite aupd_same in Hk; congruence.
    + rewrite aupd_other in Hk by auto. apply (ei_fresh _ _ _ _ H k _ _ Hk).
  - intros k1 k2 e1 t1 e2 t2 Hne H1 H2.
    destruct (Nat.eq_dec k1 i) as [->|]; [rewrite aupd_same in H1; congruence|].
    destruct (Nat.eq_dec k2 i) as [->|]; [rewrite aupd_same in H2; congruence|].
    rewrite aupd_other in H1 by auto. rewrite aupd_other in H2 by auto.
    apply (ei_disj _ _ _ _ H k1 k2); auto.
  - intros x Hxs Hxo.
    destruct (Nat.eq_dec x e) as [->|]; [congruence|].
    destruct (Nat.eq_dec x t) as [->|]; [congruence|].
    rewrite Hx.
    + apply (ei_rest _ _ _ _ H); auto. intros k e' t' Hk.
      destruct (Nat.eq_dec k i) as [->|Hki].
      * rewrite HA in Hk. injection Hk as <- <-. auto.
      * apply (Hxo k). now rewrite aupd_other.
    + apply nth_error_In in Hi. cbn. intros [?|[?|[?|[]]]]; subst; auto.
Qed.

(** The memory did not change: neither does the ownership. *)
Lemma einv_same m0 slots A s s' :
  einv m0 slots A s -> wf s' -> memory_available s' -> same_memory s s' -> einv m0 slots A s'.
Proof.
  intros H Hwf Hma Hs. split; auto; try apply H.
  - intros k lk Hk. eapply owns_ext; [apply Hs| |apply (ei_own _ _ _ _ H k lk Hk)].
    intros; split; apply Hs.
  - intros l H1 H2. rewrite Hs. now apply (ei_rest _ _ _ _ H).
Qed.

Lemma wf_upd s l b : wf s -> mem s l <> None ->
  wf (mkSt (upd (mem s) l b) (nxt s) (orc s) (cnt s)).
Proof.
  intros Hwf Hl x Hx. cbn in *. rewrite upd_other; [apply Hwf; auto|].
  intros ->. apply Hl. apply Hwf. auto.
Qed.

Lemma wp_error_free e t c m (Q : unit -> st T -> Prop) s :
  wf s -> memory_available s -> error_object s e t c m ->
  (forall s', wf s' -> memory_available s' -> nxt s' = nxt s ->
     (forall l, mem s' l = upd (upd (mem s) t None) e None l) -> Q tt s') ->
  wp (error_free (Some e)) Q s.
Proof.
  intros Hwf Hma (H1 & H2 & H3) HQ. unfold error_free.
  apply wp_bind. eapply wp_load_ptr; [exact H1 | reflexivity |].
  apply wp_bind. eapply wp_free; [exact H2 |].
  eapply wp_free; [cbn; rewrite upd_other by auto; exact H1 |].
  apply HQ; cbn; auto.
  intros l Hl. cbn in *. rewrite !upd_other; [apply Hwf; auto | |].
  - intros ->. rewrite (Hwf _ Hl) in H2. discriminate.
  - intros ->. rewrite (Hwf _ Hl) in H1. discriminate.
Qed.

Lemma slot_lt s l p : wf s -> slot_holds s l p -> l < nxt s.
Proof.
  intros Hwf Hs. destruct (Nat.lt_ge_cases l (nxt s)) as [H|H]; auto.
  unfold slot_holds in Hs. rewrite (Hwf _ H) in Hs. discriminate.
Qed.

Lemma eop_clear m0 slots A i s :
  NoDup slots -> einv m0 slots A s -> i < List.length slots ->
  wp (do_eop slots (OClear i)) (fun _ s' => einv m0 slots (aupd A i None) s') s.
Proof.
  intros ND H Hi. cbn [do_eop]. apply nth_error_Some in Hi.
  destruct (nth_error slots i) as [l|] eqn:E; [|congruence]. clear Hi.
  pose proof (ei_own _ _ _ _ H i l E) as Ho. unfold clear_error.
  destruct (A i) as [[e t]|] eqn:EA; cbn in Ho.
  - destruct Ho as [Hs (c & m & He)].
    apply wp_bind. eapply wp_load_ptr; [exact Hs | reflexivity |].
    apply wp_bind. eapply wp_error_free; [apply H | apply H | exact He |].
    intros s' Hwf' Hma' Hn Hm.
    pose proof (ei_fresh _ _ _ _ H i e t EA) as (F1 & F2 & _).
    assert (l <> e) by (intros ->; apply F1; eapply nth_error_In; eauto).
    assert (l <> t) by (intros ->; apply F2; eapply nth_error_In; eauto).
    eapply wp_store with (b := [Vptr (Some e)]);
      [rewrite Hm, !upd_other by auto; exact Hs | cbn; lia |].
    cbn [set_nth]. eapply einv_lose; eauto.
    + apply wf_upd; auto. rewrite Hm, !upd_other by auto. unfold slot_holds in Hs. congruence.
    + unfold slot_holds. cbn. now rewrite upd_same.
    + cbn. rewrite upd_other by auto. rewrite Hm. now rewrite upd_same.
    + cbn. rewrite upd_other by auto. rewrite Hm.
      rewrite upd_other by (destruct He; intuition congruence). now rewrite upd_same.
    + intros x Hx. cbn in Hx. cbn. rewrite upd_other by (intro; subst; tauto).
      rewrite Hm, !upd_other by (intro; subst; tauto). reflexivity.
  - apply wp_bind. eapply wp_load_ptr; [exact Ho | reflexivity |].
    apply wp_ret.
    assert (Ex : forall j, aupd A i None j = A j).
    { intros j. unfold aupd. destruct (Nat.eqb_spec j i); congruence. }
    destruct H as [h1 h2 h3 h4 h5 h6 h7]. split; auto.
    + intros. rewrite Ex. auto.
    + intros j. rewrite Ex. exact (h4 j).
    + intros j. rewrite Ex. exact (h5 j).
    + intros j k. rewrite !Ex. exact (h6 j k).
    + intros x Hx Hy. apply h7; auto. intros j e t Hj. apply (Hy j). now rewrite Ex.
Qed.

Lemma eop_report m0 slots A i r s :
  NoDup slots -> einv m0 slots A s ->
  wp (do_eop slots (OReport i r)) (fun _ s' => exists A', einv m0 slots A' s') s.
Proof.
  intros ND H. cbn [do_eop]. destruct (nth_error slots i) as [l|] eqn:E;
    [|apply wp_ret; eauto].
  pose proof (ei_own _ _ _ _ H i l E) as Ho.
  destruct (A i) as [[e t]|] eqn:EA; cbn in Ho.
  - destruct Ho as [Hs _]. eapply wp_mono.
    + eapply report_occupied; [apply H | apply H | exact Hs].
    + intros [] s' (Hwf & Hma & Hsame). exists A. eapply einv_same; eauto.
  - eapply wp_mono.
    + eapply report_empty; [apply H | apply H | exact Ho].
    + intros [] s' (Hwf & Hma & e & t & h1 & h2 & h3 & h4 & h5 & h6 & h7).
      exists (aupd A i (Some (e, t))). eapply einv_gain; eauto.
Qed.

Lemma eop_propagate m0 slots A i j s :
  NoDup slots -> einv m0 slots A s ->
  wp (do_eop slots (OPropagate i j)) (fun _ s' => exists A', einv m0 slots A' s') s.
Proof.
  intros ND H. cbn [do_eop].
  destruct (nth_error slots i) as [a|] eqn:Ei; [|apply wp_ret; eauto].
  destruct (nth_error slots j) as [b|] eqn:Ej; [|apply wp_ret; eauto].
  destruct (Nat.eqb_spec i j); [apply wp_ret; eauto|].
  pose proof (ei_own _ _ _ _ H i a Ei) as Hoi.
  pose proof (ei_own _ _ _ _ H j b Ej) as Hoj.
  assert (Hab : a <> b) by (eapply slot_neq; eauto).
  destruct (A j) as [[e t]|] eqn:EA; cbn in Hoj.
  - destruct Hoj as [Hs (c & m & He)].
    apply wp_bind. eapply wp_load_ptr; [exact Hs | reflexivity |].
    apply wp_bind. unfold propagate_error.
    pose proof (ei_fresh _ _ _ _ H j e t EA) as (F1 & F2 & F3 & F4).
    assert (b <> e) by (intros ->; apply F1; eapply nth_error_In; eauto).
    assert (b <> t) by (intros ->; apply F2; eapply nth_error_In; eauto).
    assert (a <> e) by (intros ->; apply F1; eapply nth_error_In; eauto).
    assert (a <> t) by (intros ->; apply F2; eapply nth_error_In; eauto).
    destruct (A i) as [[e' t']|] eqn:EAi; cbn in Hoi.
    + destruct Hoi as [Hsi _].
      apply wp_bind. eapply wp_load_ptr; [exact Hsi | reflexivity |].
      apply wp_bind. eapply wp_load_ptr; [apply He | reflexivity |].
      eapply wp_error_free; [apply H | apply H | exact He |].
      intros s' Hwf' Hma' Hn Hm.
      eapply wp_store with (b := [Vptr (Some e)]);
        [rewrite Hm, !upd_other by auto; exact Hs | cbn; lia |].
      cbn [set_nth]. exists (aupd A j None). eapply einv_lose; eauto.
      * apply wf_upd; auto. rewrite Hm, !upd_other by auto. unfold slot_holds in Hs. congruence.
      * unfold slot_holds. cbn. now rewrite upd_same.
      * cbn. rewrite upd_other by auto. rewrite Hm. now rewrite upd_same.
      * cbn. rewrite upd_other by auto. rewrite Hm.
        rewrite upd_other by (destruct He; intuition congruence). now rewrite upd_same.
      * intros x Hx. cbn in Hx. cbn. rewrite upd_other by (intro; subst; tauto).
        rewrite Hm, !upd_other by (intro; subst; tauto). reflexivity.
    + apply wp_bind. eapply wp_load_ptr; [exact Hoi | reflexivity |].
      eapply wp_store with (b := [Vptr NULL]); [exact Hoi | cbn; lia |]. cbn [set_nth].
      eapply wp_store with (b := [Vptr (Some e)]);
        [cbn; rewrite upd_other by auto; exact Hs | cbn; lia |].
      cbn [set_nth nxt orc cnt mem].
      exists (aupd (aupd A j None) i (Some (e, t))).
      (* first give up the object as if released, then gain it *)
      set (s1 := mkSt (upd (upd (upd (mem s) b (Some [Vptr NULL])) e None) t None)
                      (nxt s) (orc s) (cnt s)).
      assert (HH1 : einv m0 slots (aupd A j None) s1).
      { eapply einv_lose; eauto.
        - intros l Hl. cbn in *. pose proof (ei_wf _ _ _ _ H l Hl) as N.
          destruct He as (X & Y & _). unfold slot_holds in Hs.
          rewrite !upd_other; auto; intros ->; congruence.
        - exact (ei_mem _ _ _ _ H).
        - unfold slot_holds. cbn. rewrite !upd_other by auto. now rewrite upd_same.
        - cbn. rewrite upd_other by (destruct He; intuition). now rewrite upd_same.
        - cbn. now rewrite upd_same.
        - intros x Hx. cbn in Hx. cbn. now rewrite !upd_other by (intro; subst; tauto). }
      eapply einv_gain with (s := s1); eauto.
      * rewrite aupd_other by auto. exact EAi.
      * intros l Hl. cbn in *. pose proof (ei_wf _ _ _ _ H l Hl) as N.
        unfold slot_holds in Hs, Hoi.
        rewrite !upd_other; auto; intros ->; congruence.
      * exact (ei_mem _ _ _ _ H).
      * unfold slot_holds. cbn. rewrite upd_other by auto. now rewrite upd_same.
      * exists c, m. destruct He as (X & Y & Z). repeat split; auto; cbn;
          rewrite !upd_other by auto; assumption.
      * cbn. rewrite upd_other by (destruct He; intuition). now rewrite upd_same.
      * cbn. now rewrite upd_same.
      * intros x Hx. cbn in Hx. cbn.
        rewrite (upd_other _ t) by (intro; subst; tauto).
        rewrite (upd_other _ e) by (intro; subst; tauto).
        unfold upd at 1 3. destruct (Nat.eqb_spec x b); [reflexivity|].
        now rewrite upd_other by (intro; subst; tauto).
  - apply wp_bind. eapply wp_load_ptr; [exact Hoj | reflexivity |].
    apply wp_bind. cbn [propagate_error]. apply wp_ret.
    eapply wp_store with (b := [Vptr NULL]); [exact Hoj | cbn; lia |]. cbn [set_nth].
    exists A. eapply einv_same; eauto.
    + apply wf_upd; [apply H|]. unfold slot_holds in Hoj. congruence.
    + exact (ei_mem _ _ _ _ H).
    + intros x. cbn. unfold upd. destruct (Nat.eqb_spec x b); [subst; symmetry; exact Hoj|reflexivity].
Qed.

Lemma eop_copy m0 slots A i j s :
  NoDup slots -> einv m0 slots A s ->
  wp (do_eop slots (OCopy i j)) (fun _ s' => exists A', einv m0 slots A' s') s.
Proof.
  intros ND H. cbn [do_eop].
  destruct (nth_error slots i) as [a|] eqn:Ei; [|apply wp_ret; eauto].
  destruct (nth_error slots j) as [b|] eqn:Ej; [|apply wp_ret; eauto].
  pose proof (ei_own _ _ _ _ H i a Ei) as Hoi.
  pose proof (ei_own _ _ _ _ H j b Ej) as Hoj.
  pose proof (ei_wf _ _ _ _ H) as Hwf. pose proof (ei_mem _ _ _ _ H) as Hma.
  destruct (A j) as [[ej tj]|] eqn:EA; cbn in Hoj.
  - destruct Hoj as [Hs _]. apply wp_bind. eapply wp_load_ptr; [exact Hs | reflexivity |].
    apply wp_ret. eauto.
  - apply wp_bind. eapply wp_load_ptr; [exact Hoj | reflexivity |].
    pose proof (slot_lt _ _ _ Hwf Hoj) as Lb.
    destruct (A i) as [[e t]|] eqn:EAi; cbn in Hoi.
    + destruct Hoi as [Hsi (c & m & He1 & He2 & He3)].
      apply wp_bind. eapply wp_load_ptr; [exact Hsi | reflexivity |].
      apply wp_bind. unfold error_copy.
      assert (Le : e < nxt s).
      { destruct (Nat.lt_ge_cases e (nxt s)) as [L|L]; auto. rewrite (Hwf _ L) in He1. discriminate. }
      assert (Lt : t < nxt s).
      { destruct (Nat.lt_ge_cases t (nxt s)) as [L|L]; auto. rewrite (Hwf _ L) in He2. discriminate. }
      unfold strdup.
      repeat wstep; try (rewrite Hma in *; discriminate).
      assert (Hb' : mem s b = Some [Vptr NULL]) by exact Hoj.
      repeat wstep.
      exists (aupd A j (Some (nxt s, S (nxt s)))).
      eapply einv_gain with (l := b); eauto.
      * intros x Hx. cbn in *. rewrite !upd_other by lia. apply Hwf. lia.
      * unfold slot_holds. cbn. upd_simpl. reflexivity.
      * exists c, m. repeat split; cbn; upd_simpl; auto.
      * intros x Hx. cbn in Hx. cbn.
        rewrite !upd_other by (intro; subst; tauto). reflexivity.
    + apply wp_bind. eapply wp_load_ptr; [exact Hoi | reflexivity |].
      apply wp_bind. cbn [error_copy]. apply wp_ret.
      eapply wp_store with (b := [Vptr NULL]); [exact Hoj | cbn; lia |]. cbn [set_nth].
      exists A. eapply einv_same; eauto.
      * apply wf_upd; [apply H|]. unfold slot_holds in Hoj. congruence.
      * intros x. cbn. unfold upd. destruct (Nat.eqb_spec x b); [subst; symmetry; exact Hoj|reflexivity].
Qed.

Lemma eops_inv m0 slots os : NoDup slots -> forall A s,
  einv m0 slots A s ->
  wp (do_eops slots os) (fun _ s' => exists A', einv m0 slots A' s') s.
Proof.
  intros ND. induction os as [|o os IH]; intros A s H; [apply wp_ret; eauto|].
  cbn [do_eops]. apply wp_bind.
  assert (W : wp (do_eop slots o) (fun _ s' => exists A', einv m0 slots A' s') s).
  { destruct o as [i r|i j|i|i j].
    - eapply eop_report; eauto.
    - eapply eop_propagate; eauto.
    - destruct (Nat.lt_ge_cases i (List.length slots)) as [L|L].
      + eapply wp_mono; [eapply eop_clear; eauto|]. cbn; eauto.
      + cbn [do_eop]. apply nth_error_None in L. rewrite L. apply wp_ret; eauto.
    - eapply eop_copy; eauto. }
  eapply wp_mono; [exact W|]. intros [] s' [A' HA']. eauto.
Qed.

Lemma clear_all_inv m0 slots : NoDup slots -> forall n A s, n <= List.length slots ->
  einv m0 slots A s -> (forall i, n <= i -> A i = None) ->
  wp (do_eops slots (List.map OClear (List.rev (seq 0 n))))
     (fun _ s' => exists A', einv m0 slots A' s' /\ forall i, A' i = None) s.
Proof.
  intros ND. induction n as [|n IH]; intros A s Hn H HA.
  - apply wp_ret. exists A. split; auto. intros; apply HA; lia.
  - rewrite seq_S, rev_app_distr. cbn [List.rev List.app List.map do_eops].
    apply wp_bind. eapply wp_mono; [eapply eop_clear; eauto; lia|].
    intros [] s' H'. cbn in H'. eapply IH; eauto; [lia|].
    intros i Hi. unfold aupd. destruct (Nat.eqb_spec i n); [reflexivity|]. apply HA. lia.
Qed.

(** Full history statement: any operations, then clear every variable. *)
Lemma history_no_leak slots os s :
  NoDup slots -> wf s -> memory_available s ->
  (forall l, In l slots -> slot_holds s l NULL) ->
  wp (bind (do_eops slots os) (fun _ =>
        do_eops slots (List.map OClear (List.rev (seq 0 (List.length slots))))))
     (fun _ s' => same_memory s s') s.
Proof.
  intros ND Hwf Hma Hs.
  assert (H0 : einv (mem s) slots (fun _ => None) s).
  { split; auto; try congruence.
    intros i l E. cbn. apply Hs. eapply nth_error_In; eauto. }
  apply wp_bind. eapply wp_mono; [eapply eops_inv; eauto|].
  intros [] s1 [A1 H1]. eapply wp_mono.
  - eapply clear_all_inv; eauto. intros i Hi.
    destruct (A1 i) as [p|] eqn:E; auto.
    assert (A1 i <> None) by congruence. pose proof (ei_dom _ _ _ _ H1 i H). lia.
  - intros [] s2 (A2 & H2 & HN) l.
    destruct (in_dec Nat.eq_dec l slots) as [I|I].
    + rewrite (Hs l I). apply In_nth_error in I. destruct I as [k Hk].
      pose proof (ei_own _ _ _ _ H2 k l Hk) as Ho. rewrite HN in Ho. exact Ho.
    + apply (ei_rest _ _ _ _ H2); auto. intros i e t Hi. rewrite HN in Hi. discriminate.
Qed.

(** Copy: same code and text, in two fresh blocks; the original is untouched. *)
Lemma copy_spec e t c m s :
  wf s -> memory_available s -> error_object s e t c m ->
  wp (error_copy (Some e))
     (fun p s' => exists e' t', p = Some e' /\ error_object s' e' t' c m /\
        mem s e' = None /\ mem s t' = None /\ same_memory_except [e'; t'] s s') s.
Proof.
  intros Hwf Hma (He1 & He2 & He3). unfold error_copy, strdup.
  assert (Le : e < nxt s).
  { destruct (Nat.lt_ge_cases e (nxt s)) as [L|L]; auto. rewrite (Hwf _ L) in He1. discriminate. }
  assert (Lt : t < nxt s).
  { destruct (Nat.lt_ge_cases t (nxt s)) as [L|L]; auto. rewrite (Hwf _ L) in He2. discriminate. }
  repeat wstep; try (rewrite Hma in *; discriminate).
  exists (nxt s), (S (nxt s)). repeat split; cbn; upd_simpl; auto; try (apply Hwf; lia).
  intros x Hx. cbn in *. rewrite !upd_other by (intro; subst; tauto). reflexivity.
Qed.

(** With no memory for the error object itself, reporting an error is undefined
    behaviour (write through NULL, src/polycap-error.c:52 and 84). *)
Lemma report_oom_ub fmt c m err s :
  slot_holds s err NULL -> orc s (cnt s) = false ->
  do_report (Some err) (fmt, (c, m)) s = UB.
Proof.
  intros Hs Ho. unfold do_report. destruct fmt.
  - unfold set_error, error_new, bind, malloc, alloc. rewrite Ho. reflexivity.
  - unfold set_error_literal, error_new, bind, malloc, alloc, load_ptr, load, bind.
    unfold slot_holds in Hs. rewrite Hs. cbn. rewrite Ho. reflexivity.
Qed.

End Proofs.
