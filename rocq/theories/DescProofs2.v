(** * polycap_description_new when the profile is refused *)
From Coq Require Import ZArith List Bool Lia String FunctionalExtensionality.
From Verif Require Import Num Mem SpecHeap ErrorModel ErrorProofs ProfileModel ProfileProofs Geometry ConsModel HeapLib DescProofs.
Import ListNotations.

Section Desc.
Context {T : Type} {N : Num T}.
Implicit Types s : st T.


(** ** clear_error on any legal slot *)
Definition slot_content s (e : loc) (old : option (loc * loc)) : Prop :=
  match old with
  | None => slot_holds s e NULL
  | Some (x, t) => slot_holds s e (Some x) /\ exists c m, error_object s x t c m
  end.
Definition gone (old : option (loc * loc)) : list loc := match old with None => [] | Some (x, t) => [x; t] end.

Lemma wp_clear_error e old (Q : unit -> st T -> Prop) s :
  slot_content s e old ->
  (forall s', nxt s' = nxt s -> orc s' = orc s -> cnt s' = cnt s -> slot_holds s' e NULL ->
     (forall l, In l (gone old) -> mem s' l = None) ->
     same_memory_except (e :: gone old) s s' -> Q tt s') ->
  wp (clear_error (Some e)) Q s.
Proof.
  intros Hs HQ. destruct old as [[x t]|]; cbn in Hs.
  - destruct Hs as [Hs (c & m & Hx & Ht & Hxt)]. unfold slot_holds in *.
    assert (e <> x) by congruence. assert (e <> t) by congruence.
    unfold clear_error. wstep. eapply wp_load_ptr; [exact Hs|reflexivity|]. cbn.
    wstep. unfold error_free. wstep. eapply wp_load_ptr; [exact Hx|reflexivity|]. cbn.
    wstep. eapply wp_free; [exact Ht|]. eapply wp_free; [cbn [mem]; rewrite upd_other by auto; exact Hx|].
    eapply wp_store; [cbn [mem]; rewrite !upd_other by auto; exact Hs | cbn; lia |].
    cbn [set_nth mem nxt orc cnt]. apply HQ; auto.
    + unfold slot_holds. cbn [mem]. apply upd_same.
    + cbn [gone In]. intros l [<-|[<-|[]]]; cbn [mem]; rewrite upd_other by auto.
      * apply upd_same.
      * rewrite upd_other by auto. apply upd_same.
    + intros l Hl. cbn [gone In mem] in *. rewrite !upd_other by (intro; subst; tauto). reflexivity.
  - unfold slot_holds in Hs. unfold clear_error. wstep. eapply wp_load_ptr; [exact Hs|reflexivity|]. cbn.
    apply wp_ret. apply HQ; auto; [intros l [] | intros l _; reflexivity].
Qed.

(** The profile is refused, with an error variable holding anything: the call returns
    NULL and the variable holds a new INVALID_ARGUMENT error; an error stored there
    before has been destroyed; the copied ext array stays allocated. *)
Lemma dn_bad_profile_err p lz lc le n zs cs es sig n_cap nelem liz lwi (izs : list Z) (wis : list T) dens v e old s :
  wf s -> memory_available s -> slot_content s e old ->
  int_array s liz izs -> dbl_array s lwi wis ->
  nelem = List.length izs -> nelem = List.length wis -> desc_args_ok sig n_cap izs dens ->
  mem s p = Some [Vint n; Vptr (Some lz); Vptr (Some lc); Vptr (Some le)] ->
  dbl_array s lz zs -> dbl_array s lc cs -> dbl_array s le es ->
  (0 <= n)%Z -> List.length zs = Z.to_nat (n + 1) -> List.length cs = Z.to_nat (n + 1) -> List.length es = Z.to_nat (n + 1) ->
  snd (norm_weights wis) = true ->
  profile_validate (mkProfile (Z.to_nat n) zs cs es) n_cap = Some v -> v <> 1%Z ->
  wp (description_new (Some p) sig n_cap nelem (Some liz) (Some lwi) dens (Some e))
    (fun r s' => r = None /\ exists x t m leaked,
       slot_holds s' e (Some x) /\ error_object s' x t POLYCAP_ERROR_INVALID_ARGUMENT m /\
       mem s leaked = None /\ dbl_array s' leaked es /\
       (forall l, In l (gone old) -> l <> x -> l <> t -> mem s' l = None) /\
       same_memory_except (e :: x :: t :: leaked :: gone old) s s') s.
Proof.
  intros Hwf Ho Hold Aiz Awi En Ew Ok Hp Az Ac Ae Hn Lz Lc Le Hnw Hv Hv1.
  pose proof (live_lt _ _ _ Hwf Hp). pose proof (live_lt _ _ _ Hwf Az).
  pose proof (live_lt _ _ _ Hwf Ac). pose proof (live_lt _ _ _ Hwf Ae).
  unfold dbl_array in Az, Ac, Ae.
  assert (Hsl : exists o, mem s e = Some [Vptr o]).
  { destruct old as [[x t]|]; cbn in Hold; unfold slot_holds in Hold; [destruct Hold as [Hold _]|]; eauto. }
  destruct Hsl as [o0 Hsl]. pose proof (live_lt _ _ _ Hwf Hsl).
  assert (Hgone : forall l, In l (gone old) -> l < nxt s /\ l <> e).
  { destruct old as [[x t]|]; cbn [gone In]; [|tauto]. destruct Hold as (Hs0 & c0 & m0 & X1 & X2 & X3).
    unfold slot_holds in Hs0. pose proof (live_lt _ _ _ Hwf X1). pose proof (live_lt _ _ _ Hwf X2).
    intros l [<-|[<-|[]]]; (split; [lia|congruence]). }
  apply dn_to_profile with (izs := izs) (wis := wis); auto.
  { exists o0. exact Hsl. }
  { intros k Hk. apply Ho. }
  intros d diz dwi s1 Ed Ediz Edwi Es1 (Wf1 & Hle1 & Hne). split; [intros _|congruence].
  assert (X : nxt s1 = 3 + nxt s) by (subst s1; reflexivity).
  assert (O1 : orc s1 = orc s) by (subst s1; reflexivity).
  assert (M1 : mem s1 d = Some [Vdbl sig; Vint n_cap; Vdbl (#0)%num; Vint (Z.of_nat nelem); Vptr (Some diz); Vptr (Some dwi);
                     Vdbl dens; Vptr NULL]) by (subst s1 d diz dwi; cbn [mem]; upd_simpl; reflexivity).
  assert (M2 : mem s1 diz = Some (List.map Vint izs)) by (subst s1 d diz dwi; cbn [mem]; upd_simpl; reflexivity).
  assert (M3 : mem s1 dwi = Some (List.map Vdbl (fst (norm_weights wis)))) by (subst s1 d diz dwi; cbn [mem]; upd_simpl; reflexivity).
  assert (M8 : forall l, l <> d -> l <> diz -> l <> dwi -> mem s1 l = mem s l)
    by (intros l ? ? ?; subst s1 d diz dwi; cbn [mem]; rewrite !upd_other by auto; reflexivity).
  clear Es1.
  eapply dp_to_validate with (n := n) (zs := zs) (cs := cs) (es := es); unfold dbl_array; rewrite ?M8 by lia; try eassumption; try lia.
  { intros k Hk. rewrite O1. apply Ho. }
  { rewrite M8 by lia. exact Az. }
  { rewrite M8 by lia. exact Ac. }
  { rewrite M8 by lia. exact Ae. }
  intros q qz qc qe s' Eq Eqz Eqc Eqe Es'.
  assert (A1 : mem s' q = Some [Vint n; Vptr (Some qz); Vptr (Some qc); Vptr (Some qe)]) by (subst s'; cbn [mem]; upd_simpl; reflexivity).
  assert (A2 : mem s' qz = Some (List.map Vdbl zs)) by (subst s'; unfold dbl_array; cbn [mem]; upd_simpl; reflexivity).
  assert (A3 : mem s' qc = Some (List.map Vdbl cs)) by (subst s'; unfold dbl_array; cbn [mem]; upd_simpl; reflexivity).
  assert (A4 : mem s' qe = Some (List.map Vdbl es)) by (subst s'; unfold dbl_array; cbn [mem]; upd_simpl; reflexivity).
  assert (A5 : mem s' diz = Some (List.map Vint izs)) by (subst s'; cbn [mem]; upd_simpl; assumption).
  assert (A6 : mem s' dwi = Some (List.map Vdbl (fst (norm_weights wis)))) by (subst s'; cbn [mem]; upd_simpl; assumption).
  assert (A7 : exists b, mem s' d = Some b) by (subst s'; cbn [mem]; upd_simpl; eauto).
  destruct A7 as [b7 A7].
  assert (A8 : forall l, ~ In l [d; q; qz; qc; qe] -> mem s' l = mem s1 l).
  { intros l Hl. cbn in Hl. subst s'. cbn [mem]. rewrite !upd_other by (intro; subst; tauto). reflexivity. }
  assert (A9 : forall l, l < nxt s -> mem s' l = mem s l).
  { intros l Hl. rewrite A8 by (cbn; lia). apply M8; lia. }
  assert (Wf' : wf s').
  { intros l Hl. subst s'. cbn [mem nxt] in *. upd_simpl. apply Wf1. lia. }
  assert (N' : nxt s' = 7 + nxt s) by (subst s'; cbn [nxt]; lia).
  assert (Or' : orc s' = orc s) by (subst s'; exact O1).
  clear Es'.
  (* the tail, from a state where the slot has been cleared *)
  set (Post := fun (r : ptr) (sf : st T) => r = None /\ exists x t m leaked,
       slot_holds sf e (Some x) /\ error_object sf x t POLYCAP_ERROR_INVALID_ARGUMENT m /\
       mem s leaked = None /\ dbl_array sf leaked es /\
       (forall l, In l (gone old) -> l <> x -> l <> t -> mem sf l = None) /\
       same_memory_except (e :: x :: t :: leaked :: gone old) s sf).
  assert (Tail : forall s2, wf s2 -> orc s2 = orc s -> slot_holds s2 e NULL ->
     (forall l, In l (gone old) -> mem s2 l = None) ->
     same_memory_except (e :: gone old) s' s2 ->
     wp (bind (invalid (Some e) "polycap_description_new: description->profile is faulty. Some capillary coordinates are outside of the external radius.")
        (fun _ => bind (free (Some diz)) (fun _ => bind (free (Some dwi)) (fun _ => bind (free (Some qc)) (fun _ => bind (free (Some qz)) 
        (fun _ => bind (free (Some q)) (fun _ => bind (free (Some d)) (fun _ => ret NULL)))))))) Post s2).
  { intros s2 Wf2 Or2 Sl2 G2 E2. apply wp_bind.
    match goal with |- wp (invalid _ ?m) _ _ => apply (wp_report true (Some e) POLYCAP_ERROR_INVALID_ARGUMENT m) end; auto.
    { exists NULL. exact Sl2. }
    { intros _. rewrite Or2. split; apply Ho. }
    intros s3 Wf3 Or3 Nx3 Pr3 (Rp & _).
    destruct (Rp Sl2) as (x & t & R1 & (R2a & R2b & R2c) & R3 & R4 & R5). unfold slot_holds in R1.
    assert (Big : forall l, nxt s <= l -> ~ In l (e :: gone old)).
    { intros l Hl [<-|Hin]; [lia|]. apply Hgone in Hin. lia. }
    assert (C : forall l b, nxt s <= l -> mem s' l = Some b -> mem s3 l = Some b).
    { intros l b Hl Hb. apply Pr3; [rewrite E2 by (apply Big; lia); exact Hb | intros K; injection K; lia]. }
    pose proof (C diz _ ltac:(lia) A5) as C5. pose proof (C dwi _ ltac:(lia) A6) as C6.
    pose proof (C qc _ ltac:(lia) A3) as C3. pose proof (C qz _ ltac:(lia) A2) as C2.
    pose proof (C q _ ltac:(lia) A1) as C1. pose proof (C d _ ltac:(lia) A7) as C7. pose proof (C qe _ ltac:(lia) A4) as C4.
    assert (F : forall l b, nxt s <= l -> mem s' l = Some b -> x <> l /\ t <> l).
    { intros l b Hl Hb. assert (K : mem s2 l = Some b) by (rewrite E2 by (apply Big; lia); exact Hb).
      split; intros ->; congruence. }
    assert (Ee : e < nxt s) by assumption. clear Hne.
    repeat wstep. unfold Post. split; [reflexivity|].
    exists x, t. eexists. exists qe. split; [|split; [|split; [|split; [|split]]]].
    - unfold slot_holds. cbn [mem]. upd_simpl. exact R1.
    - pose proof (F diz _ ltac:(lia) A5) as [? ?]. pose proof (F dwi _ ltac:(lia) A6) as [? ?]. pose proof (F qc _ ltac:(lia) A3) as [? ?].
      pose proof (F qz _ ltac:(lia) A2) as [? ?]. pose proof (F q _ ltac:(lia) A1) as [? ?]. pose proof (F d _ ltac:(lia) A7) as [? ?].
      split; [|split; [|exact R2c]]; cbn [mem]; rewrite !upd_other by assumption; eassumption.
    - apply Hwf; lia.
    - unfold dbl_array. cbn [mem]. upd_simpl. exact C4.
    - intros l Hl nx nt. cbn [mem]. pose proof (Hgone l Hl). upd_simpl.
      rewrite R5 by (destruct (Hgone l Hl); nin). apply G2, Hl.
    - intros l Hl. nin_split Hl. cbn [mem]. unfold upd.
      repeat match goal with |- context [Nat.eqb l ?a] => destruct (Nat.eqb_spec l a); [subst l; symmetry; apply Hwf; lia|] end.
      rewrite R5 by nin. rewrite E2 by nin.
      rewrite A8 by nin. apply M8; auto. }
  apply wp_bind.
  assert (Hold' : slot_content s' e old).
  { destruct old as [[x t]|]; cbn in Hold |- *; unfold slot_holds, error_object in *.
    - destruct Hold as (Hs0 & c0 & m0 & X1 & X2 & X3).
      pose proof (live_lt _ _ _ Hwf X1). pose proof (live_lt _ _ _ Hwf X2).
      rewrite !A9 by lia. eauto 10.
    - rewrite A9 by lia. exact Hold. }
  assert (Direct : forall sa, wf sa -> orc sa = orc s -> same_memory s' sa ->
     wp (bind (clear_error (Some e)) (fun _ => bind (invalid (Some e) "polycap_description_new: description->profile is faulty. Some capillary coordinates are outside of the external radius.")
        (fun _ => bind (free (Some diz)) (fun _ => bind (free (Some dwi)) (fun _ => bind (free (Some qc)) (fun _ => bind (free (Some qz)) 
        (fun _ => bind (free (Some q)) (fun _ => bind (free (Some d)) (fun _ => ret NULL))))))))) Post sa).
  { intros sa Wa Oa Sa. apply wp_bind. apply (wp_clear_error e old).
    { destruct old as [[x t]|]; cbn in Hold' |- *; unfold slot_holds, error_object in *; rewrite !Sa; exact Hold'. }
    intros s2 N2 Or2 C2 S2 G2 E2. apply Tail; auto; try congruence.
    - intros l Hl. rewrite N2 in Hl. destruct (in_dec Nat.eq_dec l (e :: gone old)) as [Hin|Hin].
      + destruct Hin as [<-|Hin]; [|apply G2, Hin]. 
        assert (mem sa e = Some [Vptr o0]) by (rewrite Sa, A9 by lia; exact Hsl). rewrite (Wa _ Hl) in *. discriminate.
      + rewrite E2 by exact Hin. apply Wa, Hl.
    - intros l Hl. rewrite E2 by exact Hl. apply Sa. }
  apply (wp_validate_heap q qz qc qe n zs cs es n_cap v); auto.
  - intros _. destruct (Z.eqb_spec v 1); [contradiction|]. cbn [negb].
    apply Direct; auto. intros l. reflexivity.
  - intros _. apply wp_bind.
    match goal with |- wp (set_error_literal _ _ (Some ?m)) _ _ => apply (wp_report true (Some e) POLYCAP_ERROR_INVALID_ARGUMENT m) end; auto.
    { exists o0. unfold slot_holds. rewrite A9 by lia. exact Hsl. }
    { intros _. rewrite Or'. split; apply Ho. }
    intros s3 Wf3 Or3 Nx3 Pr3 (Rp1 & Rp2). apply wp_ret. cbn [negb Z.eqb Pos.eqb].
    destruct old as [[x t]|].
    + destruct Hold' as (Hs0 & Hob). apply Direct; auto; try congruence. eapply Rp2. exact Hs0.
    + destruct (Rp1 Hold') as (x & t & R1 & R2 & R3 & R4 & R5).
      apply wp_bind. apply (wp_clear_error e (Some (x, t))); [split; eauto|].
      intros s2 N2 Or2 C2 S2 G2 E2. apply Tail; auto; try congruence.
      * intros l Hl. rewrite N2 in Hl. destruct (in_dec Nat.eq_dec l (e :: gone (Some (x, t)))) as [Hin|Hin].
        -- destruct Hin as [<-|Hin]; [|apply G2, Hin]. unfold slot_holds in R1. rewrite (Wf3 _ Hl) in R1. discriminate.
        -- rewrite E2 by exact Hin. apply Wf3, Hl.
      * intros l [].
      * intros l Hl. cbn [gone In] in *.
        destruct (in_dec Nat.eq_dec l [x; t]) as [Hin|Hin].
        -- rewrite G2 by exact Hin. cbn in Hin. destruct Hin as [<-|[<-|[]]]; symmetry; assumption.
        -- nin_split Hl. nin_split Hin. rewrite E2 by nin. apply R5. nin.
Qed.

End Desc.
