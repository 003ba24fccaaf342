(** * Photon and leak objects: construction, destruction, copies *)
From Coq Require Import ZArith List Bool Lia String FunctionalExtensionality.
From Verif Require Import Num Mem SpecHeap SpecPhoton ErrorModel ErrorProofs ProfileModel ProfileProofs Geometry ConsModel HeapLib DescProofs.
Import ListNotations.

Section Phot.
Context {T : Type} {N : Num T}.
Implicit Types s : st T.

Definition zero3 : vec3 T := mkV (#0)%num (#0)%num (#0)%num.

Lemma pn_badarg desc coords dir elecv err s :
  wf s -> legal_err s err -> (err <> None -> orc s (cnt s) = true /\ orc s (S (cnt s)) = true) ->
  (desc = None \/ nltb (vz coords) (#0)%num = true \/ nltb (vz dir) (#0)%num = true) ->
  wp (photon_new desc coords dir elecv err)
     (fun r s' => r = None /\ exists m, error_reported err POLYCAP_ERROR_INVALID_ARGUMENT m s s') s.
Proof.
  intros Hwf Hle Ho Hbad.
  assert (R : forall m, wp (bind (report_fn true err POLYCAP_ERROR_INVALID_ARGUMENT m) (fun _ => ret NULL))
    (fun r s' => r = None /\ exists m, error_reported err POLYCAP_ERROR_INVALID_ARGUMENT m s s') s).
  { intros m. apply wp_bind. apply wp_report; auto. intros. apply wp_ret. eauto. }
  unfold photon_new.
  apply wp_reject; [auto|intros B1]. apply wp_reject; [auto|intros B2]. apply wp_reject; [auto|intros B3].
  exfalso. destruct Hbad as [H|[H|H]]; try congruence. subst; discriminate.
Qed.

Lemma pn_oom d coords dir elecv err s :
  wf s -> legal_err s err -> (err <> None -> isolated_failures s) -> orc s (cnt s) = false ->
  nltb (vz coords) (#0)%num = false -> nltb (vz dir) (#0)%num = false ->
  wp (photon_new (Some d) coords dir elecv err)
     (fun r s' => r = None /\ exists m, error_reported err POLYCAP_ERROR_MEMORY m s s') s.
Proof.
  intros Hwf Hle Hiso Ho B2 B3. unfold photon_new.
  apply wp_reject; [discriminate|intros _]. apply wp_reject; [congruence|intros _]. apply wp_reject; [congruence|intros _].
  apply wp_bind. apply wp_alloc; [congruence|intros _]. apply wp_bind.
  match goal with |- wp (mem_error _ ?m) _ _ => apply (wp_report false err POLYCAP_ERROR_MEMORY m) end; auto.
  { intros K. cbn [orc cnt]. apply Hiso; auto. }
  intros s2 W2 O2 N2 P2 R. apply wp_ret. split; [reflexivity|]. eexists.
  unfold error_reported in *. destruct err as [e|]; exact R.
Qed.

Lemma pn_ok d coords dir elecv err s :
  wf s -> orc s (cnt s) = true ->
  nltb (vz coords) (#0)%num = false -> nltb (vz dir) (#0)%num = false ->
  wp (photon_new (Some d) coords dir elecv err)
     (fun r s' => wf s' /\ exists p, r = Some p /\ mem s p = None /\
        mem s' p = Some (photon_block (Some d) NULL NULL 0 0 coords dir elecv coords dir elecv zero3
                           0 NULL NULL NULL NULL 0 (#0)%num) /\
        same_memory_except [p] s s') s.
Proof.
  intros Hwf Ho B2 B3. unfold photon_new.
  apply wp_reject; [discriminate|intros _]. apply wp_reject; [congruence|intros _]. apply wp_reject; [congruence|intros _].
  apply wp_bind. apply wp_alloc; [intros _|congruence]. unfold store_vec.
  repeat wstep.
  split. { intros l Hl. cbn [mem nxt] in *. upd_simpl. apply Hwf. lia. }
  exists (nxt s). split; [reflexivity|]. split; [apply Hwf; lia|]. split.
  - cbn [mem]. rewrite upd_same. reflexivity.
  - intros l Hl. nin_split Hl. cbn [mem]. rewrite !upd_other by assumption. reflexivity.
Qed.

Lemma memcpy_full {A} (xs : list A) v n : n = List.length xs -> firstn n xs ++ skipn n (repeat v n) = xs.
Proof.
  intros ->. rewrite firstn_all. rewrite skipn_all2 by (rewrite repeat_length; lia). apply app_nil_r.
Qed.

(** ** Leaks *)
Lemma ln_ok coords dir elecv nrefl lw (ws : list T) n err s :
  wf s -> allocs_succeed 2 s -> dbl_array s lw ws -> n = List.length ws ->
  wp (leak_new coords dir elecv nrefl n (Some lw) err)
     (fun r s' => wf s' /\ exists l w, r = Some l /\ l <> w /\
        leak_object s' l w (mkLeak coords dir elecv nrefl ws) /\
        all_free s [l; w] /\ same_memory_except [l; w] s s') s.
Proof.
  intros Hwf Ho A En. unfold dbl_array in A. pose proof (live_lt _ _ _ Hwf A).
  pose proof (Ho 0 ltac:(lia)) as O0. pose proof (Ho 1 ltac:(lia)) as O1.
  replace (cnt s + 0) with (cnt s) in O0 by lia. replace (cnt s + 1) with (S (cnt s)) in O1 by lia.
  unfold leak_new, malloc, store_vec. repeat (wstep; try congruence).
  eapply wp_memcpy; [wlook | wlook | rewrite repeat_length; lia | rewrite map_length; lia |].
  wsimp. rewrite memcpy_full by (rewrite map_length; exact En). subst n.
  apply wp_ret. split. { intros l Hl. cbn [mem nxt] in *. upd_simpl. apply Hwf. lia. }
  exists (nxt s), (S (nxt s)). split; [reflexivity|]. split; [lia|]. split; [|split].
  - split; unfold dbl_array; cbn [mem]; upd_simpl; reflexivity.
  - intros l [<-|[<-|[]]]; apply Hwf; lia.
  - intros l Hl. nin_split Hl. cbn [mem]. rewrite !upd_other by assumption. reflexivity.
Qed.

Lemma lf_ok l w d (Q : unit -> st T -> Prop) s :
  l <> w -> leak_object s l w d ->
  Q tt (setmem s (upd (upd (mem s) w None) l None)) ->
  wp (leak_free (Some l)) Q s.
Proof.
  intros D [H1 H2] HQ. unfold dbl_array in H2. unfold leak_free, free_if.
  apply wp_bind. eapply wp_load_ptr; [exact H1|reflexivity|]. apply wp_bind. eapply wp_free; [exact H2|].
  eapply wp_free; [cbn [mem]; rewrite upd_other by assumption; exact H1|]. exact HQ.
Qed.

Lemma leak_object_frame s s' l w d :
  mem s' l = mem s l -> mem s' w = mem s w -> leak_object s l w d -> leak_object s' l w d.
Proof. intros E1 E2 [H1 H2]. unfold leak_object, dbl_array in *. rewrite E1, E2. auto. Qed.

Lemma leaks_frame s s' ls ds :
  (forall l, In l (leak_blocks ls) -> mem s' l = mem s l) ->
  Forall2 (fun lw d => leak_object s (fst lw) (snd lw) d) ls ds ->
  Forall2 (fun lw d => leak_object s' (fst lw) (snd lw) d) ls ds.
Proof.
  intros H F. induction F as [|[l w] d ls ds H1 F IH]; constructor.
  - apply leak_object_frame with (s := s); auto; apply H; cbn; auto.
  - apply IH. intros x Hx. apply H. cbn. auto.
Qed.

(** The loop of photon_free over the leaks not yet freed. *)
Lemma free_leaks_loop arr : forall ls ds pre (Q : unit -> st T -> Prop) s,
  NoDup (arr :: leak_blocks ls) ->
  mem s arr = Some (pre ++ List.map (fun lw : loc * loc => Vptr (Some (fst lw))) ls) ->
  Forall2 (fun lw d => leak_object s (fst lw) (snd lw) d) ls ds ->
  (forall s', nxt s' = nxt s -> orc s' = orc s -> cnt s' = cnt s ->
      (forall l, In l (leak_blocks ls) -> mem s' l = None) ->
      same_memory_except (leak_blocks ls) s s' -> Q tt s') ->
  wp (for_n (List.length ls) (List.length pre) (fun i => bind (load_ptr (Some arr) i) leak_free)) Q s.
Proof.
  induction ls as [|[l w] ls IH]; intros ds pre Q s ND Ha F HQ; cbn [for_n List.length].
  - apply wp_ret. apply HQ; auto; [intros ? []|intros ? ?; reflexivity].
  - inversion F as [|? d ? ds' F1 F2]; subst. cbn [fst snd] in F1.
    cbn [leak_blocks List.map concat app fst snd] in ND.
    inversion ND as [|? ? n1 ND1]; subst. inversion ND1 as [|? ? n2 ND2]; subst. inversion ND2 as [|? ? n3 ND3]; subst.
    fold (leak_blocks ls) in *. nin_split n1. nin_split n2.
    apply wp_bind. apply wp_bind. eapply wp_load_ptr; [exact Ha| |].
    { rewrite nth_error_app2 by lia. rewrite Nat.sub_diag. reflexivity. }
    apply lf_ok with (w := w) (d := d); auto.
    unfold setmem. specialize (IH ds' (pre ++ [Vptr (Some l)]) Q). rewrite app_length in IH. cbn [List.length] in IH.
    replace (List.length pre + 1) with (S (List.length pre)) in IH by lia.
    apply IH.
    + constructor; auto.
    + cbn [mem]. rewrite !upd_other by auto. rewrite Ha, <- app_assoc. reflexivity.
    + apply leaks_frame with (s := s); auto. intros x Hx. cbn [mem].
      rewrite !upd_other; [reflexivity|..]; intros ->; contradiction.
    + intros s' N1 O1 C1 G1 G2. apply HQ; auto.
      * cbn [leak_blocks List.map concat app fst snd]. fold (leak_blocks ls). intros x [<-|[<-|Hx]]; auto.
        -- rewrite G2 by assumption. cbn [mem]. apply upd_same.
        -- rewrite G2 by assumption. cbn [mem]. rewrite upd_other by auto. apply upd_same.
      * cbn [leak_blocks List.map concat app fst snd]. fold (leak_blocks ls). intros x Hx. nin_split Hx.
        rewrite G2 by assumption. cbn [mem]. rewrite !upd_other by assumption. reflexivity.
Qed.

Lemma wp_free_leaks p n ls ds (Q : unit -> st T -> Prop) s :
  opt_leaks s p n ls ds -> NoDup (plocs p ++ leak_blocks ls) ->
  (forall s', nxt s' = nxt s -> orc s' = orc s -> cnt s' = cnt s ->
      (forall l, In l (plocs p ++ leak_blocks ls) -> mem s' l = None) ->
      same_memory_except (plocs p ++ leak_blocks ls) s s' -> Q tt s') ->
  wp (free_leaks p (Z.to_nat n)) Q s.
Proof.
  intros [-> H] ND HQ. rewrite Nat2Z.id. destruct p as [a|]; cbn [free_leaks plocs app] in *.
  - destruct H as [Ha F]. apply wp_bind.
    apply (free_leaks_loop a ls ds []); auto.
    intros s' N1 O1 C1 G1 G2. inversion ND as [|? ? n1 ND1]; subst.
    eapply wp_free; [rewrite G2 by assumption; exact Ha|].
    apply HQ; cbn [mem nxt orc cnt]; auto.
    + intros l [<-|Hl]; [apply upd_same|]. unfold upd. destruct (Nat.eqb_spec l a); auto.
    + intros l Hl. nin_split Hl. cbn [mem]. rewrite upd_other by assumption. apply G2. assumption.
  - destruct H as [-> ->]. apply wp_ret. apply HQ; auto; [intros ? []|intros ? ?; reflexivity].
Qed.

Lemma wp_free_if p (Q : unit -> st T -> Prop) s :
  opt_block s p ->
  (forall s', nxt s' = nxt s -> orc s' = orc s -> cnt s' = cnt s ->
      (forall l, In l (plocs p) -> mem s' l = None) ->
      same_memory_except (plocs p) s s' -> Q tt s') ->
  wp (free_if p) Q s.
Proof.
  intros H HQ. destruct p as [l|]; cbn in *.
  - destruct (mem s l) as [b|] eqn:E; [|congruence]. eapply wp_free; [exact E|].
    apply HQ; auto; cbn [mem].
    + intros x [<-|[]]. apply upd_same.
    + intros x Hx. nin_split Hx. cbn [mem]. apply upd_other. assumption.
  - apply wp_ret. apply HQ; auto; [intros ? []|intros ? ?; reflexivity].
Qed.

Lemma nodup_app_disj {A} (l1 l2 : list A) x : NoDup (l1 ++ l2) -> In x l1 -> ~ In x l2.
Proof.
  induction l1 as [|a l1 IH]; intros ND; [intros []|]. inversion ND; subst.
  intros [->|H]; [intros H'; apply H1, in_or_app; auto|auto].
Qed.
Lemma nodup_app_r {A} (l1 l2 : list A) : NoDup (l1 ++ l2) -> NoDup l2.
Proof. induction l1 as [|a l1 IH]; intros ND; auto. inversion ND; auto. Qed.
Lemma nodup_app_l {A} (l1 l2 : list A) : NoDup (l1 ++ l2) -> NoDup l1.
Proof.
  induction l1 as [|a l1 IH]; intros ND; constructor; inversion ND; subst; auto.
  intros H. apply H1, in_or_app. auto.
Qed.

Definition photon_blocks (p : loc) (en w a f x : ptr) (xl : list (loc * loc)) (i : ptr) (il : list (loc * loc)) : list loc :=
  plocs en ++ plocs w ++ plocs a ++ plocs f ++ (plocs x ++ leak_blocks xl) ++ (plocs i ++ leak_blocks il) ++ [p].

Lemma pf_ok p desc x i nx ni start sdir selec exit edir eelec src nen en w a f irefl dt xl xd il id_
    (Q : unit -> st T -> Prop) s :
  mem s p = Some (photon_block desc x i nx ni start sdir selec exit edir eelec src nen en w a f irefl dt) ->
  opt_block s en -> opt_block s w -> opt_block s a -> opt_block s f ->
  opt_leaks s x nx xl xd -> opt_leaks s i ni il id_ ->
  NoDup (photon_blocks p en w a f x xl i il) ->
  (forall s', nxt s' = nxt s -> orc s' = orc s -> cnt s' = cnt s ->
      (forall l, In l (photon_blocks p en w a f x xl i il) -> mem s' l = None) ->
      same_memory_except (photon_blocks p en w a f x xl i il) s s' -> Q tt s') ->
  wp (photon_free (Some p)) Q s.
Proof.
  intros Hp Ben Bw Ba Bf Lx Li ND HQ.
  set (B := photon_block desc x i nx ni start sdir selec exit edir eelec src nen en w a f irefl dt) in *.
  (* one stage: a list X of blocks is freed, the rest keeps its content *)
  unfold photon_blocks in *. unfold photon_free.
  assert (Pin : forall X Y, NoDup (X ++ Y) -> In p Y -> ~ In p X).
  { intros X Y HN Hy Hx. apply (nodup_app_disj X Y p HN Hx Hy). }
  apply wp_bind. eapply wp_load_ptr; [exact Hp|reflexivity|]. apply wp_bind. apply wp_free_if; [exact Ben|].
  intros s1 N1 O1 C1 G1 U1.
  assert (D1 : forall l, In l (plocs w ++ plocs a ++ plocs f ++ (plocs x ++ leak_blocks xl) ++ (plocs i ++ leak_blocks il) ++ [p]) -> mem s1 l = mem s l).
  { intros l Hl. apply U1. intros Hx. apply (nodup_app_disj _ _ l ND Hx Hl). }
  pose proof (nodup_app_r _ _ ND) as ND1.
  assert (Pl : forall A C D E F, In p (A ++ C ++ D ++ E ++ F ++ [p])).
  { intros. do 5 (apply in_or_app; right). left. reflexivity. }
  apply wp_bind. eapply wp_load_ptr; [rewrite D1 by apply Pl; exact Hp|reflexivity|]. apply wp_bind.
  apply wp_free_if. { destruct w as [l|]; [|exact I]. cbn. rewrite D1 by (left; reflexivity). exact Bw. }
  intros s2 N2 O2 C2 G2 U2.
  assert (D2 : forall l, In l (plocs a ++ plocs f ++ (plocs x ++ leak_blocks xl) ++ (plocs i ++ leak_blocks il) ++ [p]) -> mem s2 l = mem s l).
  { intros l Hl. rewrite U2 by (intros Hx; apply (nodup_app_disj _ _ l ND1 Hx Hl)). apply D1. apply in_or_app. auto. }
  pose proof (nodup_app_r _ _ ND1) as ND2.
  assert (Pl2 : forall A C D E, In p (A ++ C ++ D ++ E ++ [p])) by (intros; exact (Pl [] A C D E)).
  apply wp_bind. eapply wp_load_ptr; [rewrite D2 by apply Pl2; exact Hp|reflexivity|]. apply wp_bind.
  apply wp_free_if. { destruct a as [l|]; [|exact I]. cbn. rewrite D2 by (left; reflexivity). exact Ba. }
  intros s3 N3 O3 C3 G3 U3.
  assert (D3 : forall l, In l (plocs f ++ (plocs x ++ leak_blocks xl) ++ (plocs i ++ leak_blocks il) ++ [p]) -> mem s3 l = mem s l).
  { intros l Hl. rewrite U3 by (intros Hx; apply (nodup_app_disj _ _ l ND2 Hx Hl)). apply D2. apply in_or_app. auto. }
  pose proof (nodup_app_r _ _ ND2) as ND3.
  assert (Pl3 : forall A C D, In p (A ++ C ++ D ++ [p])) by (intros; exact (Pl [] [] A C D)).
  apply wp_bind. eapply wp_load_ptr; [rewrite D3 by apply Pl3; exact Hp|reflexivity|]. apply wp_bind.
  apply wp_free_if. { destruct f as [l|]; [|exact I]. cbn. rewrite D3 by (left; reflexivity). exact Bf. }
  intros s4 N4 O4 C4 G4 U4.
  assert (D4 : forall l, In l ((plocs x ++ leak_blocks xl) ++ (plocs i ++ leak_blocks il) ++ [p]) -> mem s4 l = mem s l).
  { intros l Hl. rewrite U4 by (intros Hx; apply (nodup_app_disj _ _ l ND3 Hx Hl)). apply D3. apply in_or_app. auto. }
  pose proof (nodup_app_r _ _ ND3) as ND4.
  assert (Pl4 : forall A C, In p (A ++ C ++ [p])) by (intros; exact (Pl [] [] [] A C)).
  apply wp_bind. eapply wp_load_ptr; [rewrite D4 by apply Pl4; exact Hp|reflexivity|].
  apply wp_bind. eapply wp_load_int; [rewrite D4 by apply Pl4; exact Hp|reflexivity|]. apply wp_bind.
  eapply wp_free_leaks with (ls := xl) (ds := xd); [| |].
  { destruct Lx as [En Lx]. split; [exact En|]. destruct x as [arr|]; [|exact Lx]. destruct Lx as [L1 L2]. split.
    - rewrite D4 by (left; reflexivity). exact L1.
    - apply leaks_frame with (s := s); auto. intros l Hl. apply D4. apply in_or_app. left. apply in_or_app. auto. }
  { apply (nodup_app_l _ _ ND4). }
  intros s5 N5 O5 C5 G5 U5.
  assert (D5 : forall l, In l ((plocs i ++ leak_blocks il) ++ [p]) -> mem s5 l = mem s l).
  { intros l Hl. rewrite U5 by (intros Hx; apply (nodup_app_disj _ _ l ND4 Hx Hl)). apply D4. apply in_or_app. auto. }
  pose proof (nodup_app_r _ _ ND4) as ND5.
  assert (Pl5 : forall A, In p (A ++ [p])) by (intros; exact (Pl [] [] [] [] A)).
  apply wp_bind. eapply wp_load_ptr; [rewrite D5 by apply Pl5; exact Hp|reflexivity|].
  apply wp_bind. eapply wp_load_int; [rewrite D5 by apply Pl5; exact Hp|reflexivity|]. apply wp_bind.
  eapply wp_free_leaks with (ls := il) (ds := id_); [| |].
  { destruct Li as [En Li]. split; [exact En|]. destruct i as [arr|]; [|exact Li]. destruct Li as [L1 L2]. split.
    - rewrite D5 by (left; reflexivity). exact L1.
    - apply leaks_frame with (s := s); auto. intros l Hl. apply D5. apply in_or_app. left. apply in_or_app. auto. }
  { apply (nodup_app_l _ _ ND5). }
  intros s6 N6 O6 C6 G6 U6.
  assert (D6 : mem s6 p = mem s p).
  { rewrite U6 by (intros Hx; apply (nodup_app_disj _ _ p ND5 Hx); left; reflexivity). apply D5. apply Pl5. }
  eapply wp_free; [rewrite D6; exact Hp|].
  apply HQ; cbn [nxt orc cnt]; try congruence.
  - intros l Hl. cbn [mem]. unfold upd. destruct (Nat.eqb_spec l p); [reflexivity|].
    apply in_app_or in Hl. destruct (in_dec Nat.eq_dec l (plocs i ++ leak_blocks il)) as [I6|I6]; [apply G6, I6|rewrite U6 by exact I6].
    destruct (in_dec Nat.eq_dec l (plocs x ++ leak_blocks xl)) as [I5|I5]; [apply G5, I5|rewrite U5 by exact I5].
    destruct (in_dec Nat.eq_dec l (plocs f)) as [I4|I4]; [apply G4, I4|rewrite U4 by exact I4].
    destruct (in_dec Nat.eq_dec l (plocs a)) as [I3|I3]; [apply G3, I3|rewrite U3 by exact I3].
    destruct (in_dec Nat.eq_dec l (plocs w)) as [I2|I2]; [apply G2, I2|rewrite U2 by exact I2].
    destruct Hl as [Hl|Hl]; [apply G1, Hl|].
    repeat (apply in_app_or in Hl; destruct Hl as [Hl|Hl]; [exfalso; first [contradiction | apply I5, Hl | apply I6, Hl] |]).
    destruct Hl as [Hl|[]]; congruence.
  - intros l Hl. cbn [mem].
    assert (K : forall A C, ~ In l (A ++ C) -> ~ In l A /\ ~ In l C).
    { intros A C HN. split; intros HH; apply HN, in_or_app; auto. }
    apply K in Hl. destruct Hl as [K1 Hl]. apply K in Hl. destruct Hl as [K2 Hl]. apply K in Hl. destruct Hl as [K3 Hl].
    apply K in Hl. destruct Hl as [K4 Hl]. apply K in Hl. destruct Hl as [K5 Hl]. apply K in Hl. destruct Hl as [K6 Hl].
    nin_split Hl. rewrite upd_other by assumption. rewrite U6, U5, U4, U3, U2, U1 by assumption. reflexivity.
Qed.

(** ** polycap_photon_get_extleak_data / get_intleak_data *)
Lemma leak_cells (d : leak_data T) w :
  exists c0 c1 c2 c3 c4 c5 c6 c7 c8,
    vcells (lk_coords d) ++ vcells (lk_dir d) ++ vcells (lk_elecv d) ++
      [Vint (Z.of_nat (List.length (lk_weights d))); Vptr (Some w); Vint (lk_nrefl d)] =
    [Vdbl c0; Vdbl c1; Vdbl c2; Vdbl c3; Vdbl c4; Vdbl c5; Vdbl c6; Vdbl c7; Vdbl c8;
     Vint (Z.of_nat (List.length (lk_weights d))); Vptr (Some w); Vint (lk_nrefl d)] /\
    forall w', vcells (lk_coords d) ++ vcells (lk_dir d) ++ vcells (lk_elecv d) ++
      [Vint (Z.of_nat (List.length (lk_weights d))); Vptr (Some w'); Vint (lk_nrefl d)] =
    [Vdbl c0; Vdbl c1; Vdbl c2; Vdbl c3; Vdbl c4; Vdbl c5; Vdbl c6; Vdbl c7; Vdbl c8;
     Vint (Z.of_nat (List.length (lk_weights d))); Vptr (Some w'); Vint (lk_nrefl d)].
Proof. do 9 eexists. split; reflexivity. Qed.

Lemma leaks_lt s ls ds : wf s -> Forall2 (fun lw d => leak_object s (fst lw) (snd lw) d) ls ds ->
  forall l, In l (leak_blocks ls) -> l < nxt s.
Proof.
  intros Hwf F. induction F as [|[l w] d ls ds [H1 H2] F IH]; [intros ? []|].
  cbn [leak_blocks List.map concat app fst snd]. fold (leak_blocks ls).
  intros x [<-|[<-|Hx]]; [eapply live_lt; eauto|eapply live_lt; eauto|auto].
Qed.

Lemma wp_copy_leaks out arr err : forall ls ds pre preS (Q : bool -> st T -> Prop) s,
  wf s -> allocs_succeed (2 * List.length ls) s ->
  mem s arr = Some (preS ++ List.map (fun lw : loc * loc => Vptr (Some (fst lw))) ls) ->
  Forall2 (fun lw d => leak_object s (fst lw) (snd lw) d) ls ds ->
  mem s out = Some (pre ++ repeat Vundef (List.length ls)) ->
  List.length pre = List.length preS -> out <> arr -> ~ In out (leak_blocks ls) ->
  (forall s' ls', wf s' -> nxt s <= nxt s' ->
     Forall2 (fun lw d => leak_object s' (fst lw) (snd lw) d) ls' ds ->
     mem s' out = Some (pre ++ List.map (fun lw : loc * loc => Vptr (Some (fst lw))) ls') ->
     NoDup (leak_blocks ls') -> (forall l, In l (leak_blocks ls') -> nxt s <= l) ->
     same_memory_except (out :: leak_blocks ls') s s' -> Q true s') ->
  wp (copy_leaks (List.length ls) (List.length pre) (Some out) (Some arr) err) Q s.
Proof.
  induction ls as [|[l w] ls IH]; intros ds pre preS Q s Hwf Ho Ha F Hout Lp D1 D2 HQ; cbn [copy_leaks List.length].
  - apply wp_ret. inversion F; subst. apply (HQ s []); auto.
    + constructor.
    + intros ? [].
    + intros ? ?. reflexivity.
  - inversion F as [|? d ? ds' F1 F2]; subst. cbn [fst snd] in F1.
    change (~ In out (l :: w :: leak_blocks ls)) in D2. apply nin_cons_inv in D2. destruct D2 as [D2a D2]. apply nin_cons_inv in D2. destruct D2 as [D2b D2].
    destruct F1 as [H1 H2]. unfold dbl_array in H2.
    destruct (leak_cells d w) as (c0 & c1 & c2 & c3 & c4 & c5 & c6 & c7 & c8 & E1 & E2). rewrite E1 in H1.
    pose proof (live_lt _ _ _ Hwf H1). pose proof (live_lt _ _ _ Hwf H2). pose proof (live_lt _ _ _ Hwf Ha). pose proof (live_lt _ _ _ Hwf Hout).
    pose proof (Ho 0 ltac:(cbn; lia)) as O0. pose proof (Ho 1 ltac:(cbn; lia)) as O1.
    replace (cnt s + 0) with (cnt s) in O0 by lia. replace (cnt s + 1) with (S (cnt s)) in O1 by lia.
    unfold malloc. wstep. wstep; [|congruence]. wstep. eapply wp_store; [wlook| |].
    { rewrite app_length, repeat_length. cbn. lia. }
    wsimp. cbn [List.length repeat]. rewrite set_nth_app.
    wstep. eapply wp_load_ptr; [wlook| |].
    { rewrite Lp, nth_error_app2 by lia. rewrite Nat.sub_diag. reflexivity. }
    cbn [fst]. wsimp. wstep. eapply wp_memcpy; [wlook|wlook|cbn; lia|cbn; lia|]. wsimp. cbn [firstn skipn repeat app].
    wstep. wstep. wstep. wstep; [|congruence]. wstep. wstep. wstep. wstep. rewrite Nat2Z.id.
    wstep. eapply wp_memcpy; [wlook|wlook|rewrite repeat_length; lia|rewrite map_length; lia|]. wsimp.
    rewrite memcpy_full by (rewrite map_length; reflexivity).
    specialize (IH ds' (pre ++ [Vptr (Some (nxt s))]) (preS ++ [Vptr (Some l)]) Q).
    rewrite !app_length in IH. cbn [List.length] in IH.
    replace (List.length pre + 1) with (S (List.length pre)) in IH by lia.
    pose proof (leaks_lt _ _ _ Hwf F2) as LL.
    apply IH; clear IH.
    + intros x Hx. cbn [mem nxt] in *. upd_simpl. apply Hwf. lia.
    + intros k Hk. cbn [orc cnt]. replace (S (S (cnt s)) + k) with (cnt s + (2 + k)) by lia. apply Ho. cbn. lia.
    + cbn [mem]. upd_simpl. rewrite Ha, <- app_assoc. reflexivity.
    + apply leaks_frame with (s := s); auto. intros x Hx. pose proof (LL x Hx). cbn [mem].
      assert (x <> out) by (intros ->; contradiction). upd_simpl. reflexivity.
    + cbn [mem]. upd_simpl. rewrite <- app_assoc. reflexivity.
    + lia.
    + auto.
    + auto.
    + cbn [nxt]. intros s' ls' W' Nx F' Mo ND' Fr Sx.
      assert (X1 : ~ In (nxt s) (leak_blocks ls')) by (intros K; apply Fr in K; lia).
      assert (X2 : ~ In (S (nxt s)) (leak_blocks ls')) by (intros K; apply Fr in K; lia).
      apply (HQ s' ((nxt s, S (nxt s)) :: ls')); auto; cbn [leak_blocks List.map concat app fst snd]; fold (leak_blocks ls').
      * lia.
      * constructor; [|exact F']. cbn [fst snd]. split.
        -- rewrite Sx by (apply nin_cons; [lia|assumption]). cbn [mem]. upd_simpl. rewrite E2. reflexivity.
        -- unfold dbl_array. rewrite Sx by (apply nin_cons; [lia|assumption]). cbn [mem]. upd_simpl. reflexivity.
      * rewrite Mo, <- app_assoc. reflexivity.
      * constructor; [apply nin_cons; [apply n_Sn|assumption]|]. constructor; assumption.
      * change (forall x, In x (nxt s :: S (nxt s) :: leak_blocks ls') -> nxt s <= x).
        intros x [<-|[<-|Hx]]; [apply Nat.le_refl|apply Nat.le_succ_diag_r|]. apply Fr in Hx. lia.
      * intros x Hx. change (~ In x (out :: nxt s :: S (nxt s) :: leak_blocks ls')) in Hx. nin_split Hx. rewrite Sx by (apply nin_cons; assumption). cbn [mem]. rewrite !upd_other by assumption. reflexivity.
Qed.

(** The whole getter, on a photon whose leaks are [ls]/[ds]. *)
Lemma wp_get_leaks farr fn photon bp arr n ls ds leaksp np v1 v2 err s :
  wf s -> allocs_succeed (1 + 2 * List.length ls) s ->
  mem s photon = Some bp -> nth_error bp farr = Some (Vptr (Some arr)) -> nth_error bp fn = Some (Vint n) ->
  n = Z.of_nat (List.length ls) -> ls <> [] ->
  leak_array s arr ls ds ->
  mem s leaksp = Some [v1] -> mem s np = Some [v2] -> leaksp <> np ->
  photon <> leaksp -> photon <> np -> arr <> leaksp -> arr <> np ->
  (forall l, In l (leak_blocks ls) -> l <> leaksp /\ l <> np) ->
  wp (get_leak_data farr fn (Some photon) (Some leaksp) (Some np) err)
     (fun r s' => r = true /\ exists out ls',
        mem s' np = Some [Vint n] /\ mem s' leaksp = Some [Vptr (Some out)] /\
        leak_array s' out ls' ds /\ NoDup (out :: leak_blocks ls') /\
        all_free s (out :: leak_blocks ls') /\
        same_memory_except (leaksp :: np :: out :: leak_blocks ls') s s') s.
Proof.
  intros Hwf Ho Hp Hf Hn En Hne [Ha F] Hl Hnp D1 D2 D3 D4 D5 D6.
  pose proof (live_lt _ _ _ Hwf Hl). pose proof (live_lt _ _ _ Hwf Hnp). pose proof (live_lt _ _ _ Hwf Hp). pose proof (live_lt _ _ _ Hwf Ha).
  pose proof (leaks_lt _ _ _ Hwf F) as LL.
  pose proof (Ho 0 ltac:(lia)) as O0. replace (cnt s + 0) with (cnt s) in O0 by lia.
  unfold get_leak_data. apply wp_bind. eapply wp_load_int; [exact Hp|exact Hn|].
  apply wp_bind. eapply wp_store; [exact Hnp|cbn; lia|]. cbn [set_nth].
  destruct (Z.eqb_spec n 0) as [E0|_]. { destruct ls; [congruence|cbn in En; lia]. }
  replace (Z.to_nat n) with (List.length ls) by (rewrite En; symmetry; apply Nat2Z.id).
  unfold malloc. wstep. wstep; [|congruence]. wstep. wstep.
  wstep. eapply wp_load_ptr; [wlook|exact Hf|].
  match goal with |- wp _ _ ?x => set (s1 := x) end.
  assert (P1 : forall l, l <> np -> l <> leaksp -> l <> nxt s -> mem s1 l = mem s l).
  { intros l a b c. subst s1. cbn [mem]. rewrite !upd_other by assumption. reflexivity. }
  apply (wp_copy_leaks (nxt s) arr err ls ds [] []); auto.
  - intros l Hx. subst s1. cbn [mem nxt] in *. upd_simpl. apply Hwf. lia.
  - intros k Hk. subst s1. cbn [orc cnt]. replace (S (cnt s) + k) with (cnt s + (1 + k)) by lia. apply Ho. lia.
  - rewrite P1 by (auto; lia). exact Ha.
  - apply leaks_frame with (s := s); auto. intros l Hx. pose proof (LL l Hx). destruct (D6 l Hx). apply P1; auto. lia.
  - subst s1. cbn [mem]. upd_simpl. reflexivity.
  - lia.
  - intros K. apply LL in K. lia.
  - intros s' ls' W' Nx F' Mo ND' Fr Sx. split; [reflexivity|]. exists (nxt s), ls'.
    assert (Nx1 : nxt s1 = S (nxt s)) by reflexivity. rewrite Nx1 in *.
    assert (NI : forall l, l < nxt s -> ~ In l (nxt s :: leak_blocks ls')).
    { intros l Hx [K|K]; [lia|]. apply Fr in K. lia. }
    split; [|split; [|split; [|split; [|split]]]].
    + rewrite Sx by (apply NI; lia). subst s1. cbn [mem]. upd_simpl. reflexivity.
    + rewrite Sx by (apply NI; lia). subst s1. cbn [mem]. upd_simpl. reflexivity.
    + split; [exact Mo|exact F'].
    + constructor; auto. intros K. apply Fr in K. lia.
    + intros l [<-|K]; apply Hwf; [lia|]. apply Fr in K. lia.
    + intros l Hx. nin_split Hx. rewrite Sx by (apply nin_cons; assumption). apply P1; assumption.
Qed.

Lemma wp_get_leaks_none farr fn photon bp leaksp np v1 v2 err s :
  wf s -> legal_err s err -> (err <> None -> orc s (cnt s) = true /\ orc s (S (cnt s)) = true) ->
  mem s photon = Some bp -> nth_error bp fn = Some (Vint 0) ->
  mem s leaksp = Some [v1] -> mem s np = Some [v2] -> leaksp <> np -> err <> Some leaksp -> err <> Some np ->
  wp (get_leak_data farr fn (Some photon) (Some leaksp) (Some np) err)
     (fun r s' => r = false /\ mem s' np = Some [Vint 0] /\ mem s' leaksp = Some [Vptr NULL] /\
        exists m, error_reported err POLYCAP_ERROR_INVALID_ARGUMENT m
          (setmem s (upd (upd (mem s) np (Some [Vint 0])) leaksp (Some [Vptr NULL]))) s') s.
Proof.
  intros Hwf Hle Ho Hp Hn Hl Hnp D1 D2 D3.
  pose proof (live_lt _ _ _ Hwf Hl). pose proof (live_lt _ _ _ Hwf Hnp).
  unfold get_leak_data. apply wp_bind. eapply wp_load_int; [exact Hp|exact Hn|].
  apply wp_bind. eapply wp_store; [exact Hnp|cbn; lia|]. cbn [set_nth Z.eqb].
  apply wp_bind. eapply wp_store; [cbn [mem]; rewrite upd_other by assumption; exact Hl|cbn; lia|]. cbn [set_nth mem nxt orc cnt].
  apply wp_bind.
  match goal with |- wp (invalid _ ?m) _ ?x => set (s1 := x); apply (wp_report true err POLYCAP_ERROR_INVALID_ARGUMENT m) end; auto.
  - intros l Hx. subst s1. cbn [mem nxt] in *. upd_simpl. apply Hwf. lia.
  - destruct err as [e|]; [|exact I]. destruct Hle as [q Hq]. exists q. unfold slot_holds in *. subst s1. cbn [mem].
    rewrite !upd_other by congruence. exact Hq.
  - intros s2 W2 O2 N2 P2 R. apply wp_ret. split; [reflexivity|]. split; [|split].
    + apply P2; auto. subst s1. cbn [mem]. upd_simpl. reflexivity.
    + apply P2; auto. subst s1. cbn [mem]. upd_simpl. reflexivity.
    + eexists. exact R.
Qed.

End Phot.
