(** * polycap_source_new and polycap_source_free *)
From Coq Require Import ZArith List Bool Lia String FunctionalExtensionality.
From Verif Require Import Num Mem SpecHeap ErrorModel ErrorProofs ProfileModel ProfileProofs Geometry ConsModel HeapLib DescProofs DescProofs2 DescOom.
Import ListNotations.

Section Src.
Context {T : Type} {N : Num T}.
Implicit Types s : st T.

Definition en_in_range (x : T) : bool := negb (nltb x (#1)%num || nltb (#100)%num x).

Lemma wp_energy_loop l (all : list T) : forall rest n pre (Q : bool -> st T -> Prop) s,
  n <= List.length rest -> all = pre ++ rest ->
  dbl_array s l all ->
  Q (forallb en_in_range (firstn n rest)) s -> wp (energy_loop n (List.length pre) (Some l)) Q s.
Proof.
  induction rest as [|x rest IH]; intros n pre Q s Hn Ha Hm HQ; destruct n as [|n]; cbn [energy_loop].
  - apply wp_ret. exact HQ.
  - cbn in Hn. lia.
  - apply wp_ret. exact HQ.
  - cbn [List.length] in Hn. apply wp_bind. eapply wp_load_dbl; [exact Hm| |].
    { subst all. rewrite map_app, nth_error_app2 by (rewrite map_length; lia).
      rewrite map_length, Nat.sub_diag. reflexivity. }
    cbn [firstn forallb] in HQ. unfold en_in_range at 1 in HQ.
    destruct (nltb x (#1)%num || nltb (#100)%num x) eqn:E.
    + apply wp_ret. exact HQ.
    + specialize (IH n (pre ++ [x]) Q s). rewrite app_length in IH. cbn in IH.
      replace (List.length pre + 1) with (S (List.length pre)) in IH by lia.
      apply IH; [lia | rewrite <- app_assoc; exact Ha | exact Hm | exact HQ].
Qed.

Definition src_args_ok (d_source src_x src_y hor_pol : T) (ens : list T) : Prop :=
  nleb d_source (#0)%num = false /\ nleb src_x (#0)%num = false /\ nleb src_y (#0)%num = false /\
  nltb (#1)%num (nabs hor_pol) = false /\ 1 <= List.length ens /\ forallb en_in_range ens = true.

(** Any of the argument checks fails. *)
Lemma sn_badarg desc d_source src_x src_y sigx sigy shx shy hp n energies err (ens : list T) s :
  wf s -> legal_err s err -> (err <> None -> orc s (cnt s) = true /\ orc s (S (cnt s)) = true) ->
  (forall l, energies = Some l -> dbl_array s l ens /\ n <= List.length ens) ->
  (desc = None \/ nleb d_source (#0)%num = true \/ nleb src_x (#0)%num = true \/ nleb src_y (#0)%num = true \/
   nltb (#1)%num (nabs hp) = true \/ n < 1 \/ energies = None \/ forallb en_in_range (firstn n ens) = false) ->
  wp (source_new desc d_source src_x src_y sigx sigy shx shy hp n energies err)
     (fun r s' => r = None /\ exists m, error_reported err POLYCAP_ERROR_INVALID_ARGUMENT m s s') s.
Proof.
  intros Hwf Hle Ho Hen Hbad.
  assert (R : forall m, wp (bind (report_fn true err POLYCAP_ERROR_INVALID_ARGUMENT m) (fun _ => ret NULL))
    (fun r s' => r = None /\ exists m, error_reported err POLYCAP_ERROR_INVALID_ARGUMENT m s s') s).
  { intros m. apply wp_bind. apply wp_report; auto. intros. apply wp_ret. eauto. }
  unfold source_new.
  apply wp_reject; [auto|intros B1]. apply wp_reject; [auto|intros B2]. apply wp_reject; [auto|intros B3].
  apply wp_reject; [auto|intros B4]. apply wp_reject; [auto|intros B5]. apply wp_reject; [auto|intros B6].
  apply wp_reject; [auto|intros B7].
  destruct desc as [dl|]; [|discriminate]. destruct energies as [l|]; [|discriminate].
  destruct (Hen l eq_refl) as [A L].
  apply wp_bind. apply (wp_energy_loop l ens ens n []); auto.
  apply wp_reject; [auto|intros B8]. exfalso. apply Nat.leb_gt in B6.
  destruct Hbad as [H|[H|[H|[H|[H|[H|[H|H]]]]]]]; try congruence; try lia.
  rewrite H in B8. discriminate.
Qed.

(** The argument checks pass: execution reaches the validation of the profile. *)
Lemma sn_to_validate d liz lwi lp lz lc le sig n_cap oa izs wis dens nm zs cs es
    d_source src_x src_y sigx sigy shx shy hp n len (ens : list T) v err (Q : ptr -> st T -> Prop) s :
  description_object s d liz lwi lp lz lc le sig n_cap oa izs wis dens nm zs cs es ->
  (0 <= nm)%Z -> List.length zs = Z.to_nat (nm + 1) -> List.length cs = Z.to_nat (nm + 1) -> List.length es = Z.to_nat (nm + 1) ->
  dbl_array s len ens -> n = List.length ens -> src_args_ok d_source src_x src_y hp ens ->
  profile_validate (mkProfile (Z.to_nat nm) zs cs es) n_cap = Some v ->
  (v = 1%Z -> forall k, k = (p <- malloc 12 ;;
  match p with
  | None => mem_error err "polycap_source_new: could not allocate memory for source" ;;; ret NULL
  | Some _ =>
      e <- malloc n ;;
      store p S_EN (Vptr e) ;;;
      match e with
      | None => mem_error err "polycap_source_new: could not allocate memory for source->energies" ;;; ret NULL
      | Some _ =>
          store p 2 (Vdbl d_source) ;;;
          store p 3 (Vdbl src_x) ;;;
          store p 4 (Vdbl src_y) ;;;
          store p 5 (Vdbl sigx) ;;;
          store p 6 (Vdbl sigy) ;;;
          store p 7 (Vdbl shx) ;;;
          store p 8 (Vdbl shy) ;;;
          store p 9 (Vdbl hp) ;;;
          store p S_NEN (Vint (Z.of_nat n)) ;;;
          memcpy e (Some len) n ;;;
          r <- rng_new ;;
          store p S_RNG (Vptr r) ;;;
          sig <- load_dbl (Some d) D_SIG ;;
          nelem <- load_int (Some d) D_NELEM ;;
          iz <- load_ptr (Some d) D_IZ ;; wi <- load_ptr (Some d) D_WI ;; dens <- load_dbl (Some d) D_DENS ;;
          dd <- description_new (Some lp) sig n_cap (Z.to_nat nelem) iz wi dens NULL ;;
          store p S_DESC (Vptr dd) ;;;
          match dd with
          | None =>
              clear_error err ;;;
              invalid err "polycap_source_new: description->profile is faulty. Some capillary coordinates are outside of the external radius." ;;;
              source_free p ;;; ret NULL
          | Some _ => ret p
          end
      end
  end)%mem -> wp k Q s) ->
  (v <> 1%Z -> v <> (-1)%Z -> wp (
    clear_error err ;;;
    invalid err "polycap_source_new: description->profile is faulty. Some capillary coordinates are outside of the external radius." ;;;
    ret NULL)%mem Q s) ->
  (v = (-1)%Z -> wp (
    set_error_literal err POLYCAP_ERROR_INVALID_ARGUMENT
               (Some "polycap_photon_within_pc_boundary: polycap_radius must be greater than 0"%string) ;;;
    clear_error err ;;;
    invalid err "polycap_source_new: description->profile is faulty. Some capillary coordinates are outside of the external radius." ;;;
    ret NULL)%mem Q s) ->
  wp (source_new (Some d) d_source src_x src_y sigx sigy shx shy hp n (Some len) err) Q s.
Proof.
  intros (Hd & Hiz & Hwi & Hp & Hz & Hc & He & ND) Hn Lz Lc Le He' En (B1 & B2 & B3 & B4 & B5 & B6) Hv K1 K2 K3.
  unfold source_new.
  apply wp_reject; [discriminate|intros _]. apply wp_reject; [congruence|intros _]. apply wp_reject; [congruence|intros _].
  apply wp_reject; [congruence|intros _]. apply wp_reject; [congruence|intros _].
  apply wp_reject; [intros K; apply Nat.leb_le in K; lia|intros _]. apply wp_reject; [discriminate|intros _].
  apply wp_bind. apply (wp_energy_loop len ens ens n []); auto; [lia|].
  rewrite En at 1. rewrite firstn_all, B6. apply wp_reject; [discriminate|intros _].
  wstep. wstep. wstep. wstep. apply wp_bind.
  apply (wp_validate_heap lp lz lc le nm zs cs es n_cap v); auto.
  - intros Hv1. destruct (Z.eqb_spec v 1) as [->|Hne]; cbn [negb].
    + apply K1; reflexivity.
    + apply K2; auto.
  - intros ->. specialize (K3 eq_refl). apply wp_bind_inv in K3. apply wp_bind. eapply wp_mono; [exact K3|].
    cbn beta. intros [] s' H. apply wp_ret. cbn [Z.eqb negb]. exact H.
Qed.

Lemma sn_ok d liz lwi lp lz lc le sig n_cap oa izs wis dens nm zs cs es
    d_source src_x src_y sigx sigy shx shy hp n len (ens : list T) err s :
  wf s -> allocs_succeed 11 s ->
  description_object s d liz lwi lp lz lc le sig n_cap oa izs wis dens nm zs cs es ->
  (0 <= nm)%Z -> List.length zs = Z.to_nat (nm + 1) -> List.length cs = Z.to_nat (nm + 1) -> List.length es = Z.to_nat (nm + 1) ->
  List.length wis = List.length izs -> desc_args_ok sig n_cap izs dens -> snd (norm_weights wis) = true ->
  dbl_array s len ens -> n = List.length ens -> src_args_ok d_source src_x src_y hp ens ->
  profile_validate (mkProfile (Z.to_nat nm) zs cs es) n_cap = Some 1%Z ->
  wp (source_new (Some d) d_source src_x src_y sigx sigy shx shy hp n (Some len) err)
    (fun r s' => wf s' /\ exists p len' lr lg d' liz' lwi' lp' lz' lc' le', r = Some p /\
       source_object s' p len' lr lg d' [d_source; src_x; src_y; sigx; sigy; shx; shy; hp] ens /\
       description_object s' d' liz' lwi' lp' lz' lc' le' sig n_cap
         (open_area_num n_cap (nth 0 cs (#0)%num) (nth 0 es (#0)%num)) izs (fst (norm_weights wis)) dens nm zs cs es /\
       NoDup [p; len'; lr; lg; d'; liz'; lwi'; lp'; lz'; lc'; le'] /\
       all_free s [p; len'; lr; lg; d'; liz'; lwi'; lp'; lz'; lc'; le'] /\
       same_memory_except [p; len'; lr; lg; d'; liz'; lwi'; lp'; lz'; lc'; le'] s s') s.
Proof.
  intros Hwf Ho Hobj Hn Lz Lc Le Lw Dok Hnw Aen En Sok Hv.
  eapply sn_to_validate with (v := 1%Z); eauto; try discriminate; [|congruence].
  intros _ k ->.
  destruct Hobj as (Hd & Hiz & Hwi & Hp & Hz & Hc & He & ND). unfold dbl_array, int_array in *.
  pose proof (live_lt _ _ _ Hwf Hd). pose proof (live_lt _ _ _ Hwf Hiz). pose proof (live_lt _ _ _ Hwf Hwi).
  pose proof (live_lt _ _ _ Hwf Hp). pose proof (live_lt _ _ _ Hwf Hz). pose proof (live_lt _ _ _ Hwf Hc).
  pose proof (live_lt _ _ _ Hwf He). pose proof (live_lt _ _ _ Hwf Aen).
  pose proof (Ho 0 ltac:(lia)) as O0. pose proof (Ho 1 ltac:(lia)) as O1. pose proof (Ho 2 ltac:(lia)) as O2. pose proof (Ho 3 ltac:(lia)) as O3.
  replace (cnt s + 0) with (cnt s) in O0 by lia. replace (cnt s + 1) with (S (cnt s)) in O1 by lia.
  replace (cnt s + 2) with (S (S (cnt s))) in O2 by lia. replace (cnt s + 3) with (S (S (S (cnt s)))) in O3 by lia.
  unfold malloc. repeat (wstep; try congruence).
  eapply wp_memcpy; [wlook | wlook | rewrite repeat_length; lia | rewrite map_length; lia |].
  wsimp. rewrite En. rewrite <- (map_length (@Vdbl T) ens) at 3. rewrite firstn_all.
  rewrite <- (repeat_length (@Vundef T) (List.length ens)) at 3. rewrite skipn_all, app_nil_r.
  unfold rng_new. repeat (wstep; try congruence).
  match goal with |- wp _ _ ?st0 => set (s1 := st0) end.
  assert (W1 : wf s1). { intros l Hl. subst s1. cbn [mem nxt] in *. upd_simpl. apply Hwf. lia. }
  assert (PR : forall l, l < nxt s -> mem s1 l = mem s l).
  { intros l Hl. subst s1. cbn [mem]. upd_simpl. reflexivity. }
  assert (N1 : nxt s1 = 4 + nxt s) by reflexivity.
  eapply wp_mono.
  - rewrite Nat2Z.id.
    apply (dn_ok lp lz lc le nm zs cs es sig n_cap (List.length izs) liz lwi izs wis dens NULL s1); auto; unfold dbl_array, int_array; try (rewrite PR by lia; assumption).
    + exact I.
    + intros k Hk. subst s1. cbn [orc cnt]. replace (S (S (S (S (cnt s)))) + k) with (cnt s + (4 + k)) by lia. apply Ho. lia.
  - cbn beta. intros r s2 (W2 & _ & _ & d' & liz' & lwi' & lp' & lz' & lc' & le' & -> & Obj & Fr & Sx).
    assert (NI : forall l, l < nxt s1 -> mem s1 l <> None -> ~ In l [d'; liz'; lwi'; lp'; lz'; lc'; le']).
    { intros l _ Hl Hin. apply Hl. apply Fr. exact Hin. }
    assert (P0 : mem s1 (nxt s) = Some (Vundef :: Vptr (Some (S (S (nxt s)))) :: List.map Vdbl [d_source; src_x; src_y; sigx; sigy; shx; shy; hp] ++
                  [Vint (Z.of_nat (List.length ens)); Vptr (Some (S (nxt s)))])).
    { subst s1. cbn [mem]. upd_simpl. reflexivity. }
    assert (P1 : mem s1 (S (nxt s)) = Some (List.map Vdbl ens)) by (subst s1; cbn [mem]; upd_simpl; reflexivity).
    assert (P2 : mem s1 (S (S (nxt s))) = Some [Vptr (Some (S (S (S (nxt s)))))]) by (subst s1; cbn [mem]; upd_simpl; reflexivity).
    assert (P3 : exists b, mem s1 (S (S (S (nxt s)))) = Some b) by (subst s1; cbn [mem]; upd_simpl; eauto).
    destruct P3 as [b3 P3].
    pose proof (NI (nxt s) ltac:(lia) ltac:(congruence)) as I0. pose proof (NI (S (nxt s)) ltac:(lia) ltac:(congruence)) as I1.
    pose proof (NI (S (S (nxt s))) ltac:(lia) ltac:(congruence)) as I2. pose proof (NI (S (S (S (nxt s)))) ltac:(lia) ltac:(congruence)) as I3.
    apply wp_bind. eapply wp_store; [rewrite Sx by exact I0; exact P0 | cbn; lia | cbn [set_nth]].
    apply wp_ret. set (p0 := nxt s) in *. assert (X0 : 0 < 1) by lia.
    assert (Fd : all_free s [d'; liz'; lwi'; lp'; lz'; lc'; le']).
    { intros l Hl. destruct (Nat.lt_ge_cases l (nxt s)) as [Q|Q]; [rewrite <- PR by exact Q; apply Fr, Hl | apply Hwf; exact Q]. }
    split.
    { intros l Hl. cbn [mem nxt] in *.
      destruct (Nat.eq_dec l p0) as [->|Hne]; [|rewrite upd_other by exact Hne; apply W2, Hl].
      specialize (W2 p0 Hl). rewrite Sx in W2 by exact I0. congruence. }
    exists p0, (S p0), (S (S p0)), (S (S (S p0))), d', liz', lwi', lp', lz', lc', le'.
    split; [reflexivity|].
    destruct Obj as (G1 & G2 & G3 & G4 & G5 & G6 & G7 & G8). unfold dbl_array, int_array in *.
    nin_split I0. nin_split I1. nin_split I2. nin_split I3.
    split; [|split; [|split; [|split]]].
    + split; [cbn [mem]; rewrite upd_same; reflexivity|].
      unfold dbl_array. cbn [mem]. rewrite !(upd_other _ p0) by lia.
      rewrite !Sx by nin. eauto.
    + unfold description_object, dbl_array, int_array; cbn [mem]; rewrite !(upd_other _ p0) by (apply not_eq_sym; assumption).
      repeat (split; [assumption|]). exact G8.
    + repeat (apply NoDup_cons; [first [nin | cbn; lia]|]); auto; fail.
    + intros l [<-|[<-|[<-|[<-|Hl]]]]; [apply Hwf; subst p0; lia ..|apply Fd, Hl].
    + intros l Hl. nin_split Hl. cbn [mem]. rewrite upd_other by assumption.
      rewrite Sx by nin. subst s1. cbn [mem]. rewrite !upd_other by assumption. reflexivity.
Qed.

Lemma source_free_spec p len lr lg d liz lwi lp lz lc le nums ens sig n_cap oa izs wis dens nm zs cs es (Q : unit -> st T -> Prop) s :
  List.length nums = 8 ->
  source_object s p len lr lg d nums ens ->
  description_object s d liz lwi lp lz lc le sig n_cap oa izs wis dens nm zs cs es ->
  NoDup [p; len; lr; lg; d; liz; lwi; lp; lz; lc; le] ->
  (forall s', nxt s' = nxt s -> orc s' = orc s -> cnt s' = cnt s ->
     (forall l, In l [p; len; lr; lg; d; liz; lwi; lp; lz; lc; le] -> mem s' l = None) ->
     same_memory_except [p; len; lr; lg; d; liz; lwi; lp; lz; lc; le] s s' -> Q tt s') ->
  wp (source_free (Some p)) Q s.
Proof.
  intros L8 (S1 & S2 & S3 & (bg & S4)) Obj ND HQ. unfold dbl_array in S2.
  destruct nums as [|n0 [|n1 [|n2 [|n3 [|n4 [|n5 [|n6 [|n7 [|]]]]]]]]]; try discriminate L8. cbn [List.map app] in S1.
  set (DL := [d; liz; lwi; lp; lz; lc; le]) in *.
  assert (I : ~ In p DL /\ ~ In len DL /\ ~ In lr DL /\ ~ In lg DL /\ p <> len /\ p <> lr /\ p <> lg /\ len <> lr /\ len <> lg /\ lr <> lg).
  { inversion ND as [|? ? h1 ND1]; subst. inversion ND1 as [|? ? h2 ND2]; subst.
    inversion ND2 as [|? ? h3 ND3]; subst. inversion ND3 as [|? ? h4 ND4]; subst.
    apply nin_cons_inv in h1. destruct h1 as [? h1]. apply nin_cons_inv in h1. destruct h1 as [? h1]. apply nin_cons_inv in h1. destruct h1 as [? h1].
    apply nin_cons_inv in h2. destruct h2 as [? h2]. apply nin_cons_inv in h2. destruct h2 as [? h2].
    apply nin_cons_inv in h3. destruct h3 as [? h3]. repeat (split; [assumption|]). assumption. }
  destruct I as (I1 & I2 & I3 & I4 & d1 & d2 & d3 & d4 & d5 & d6). clear ND.
  unfold source_free. apply wp_bind. eapply wp_load_ptr; [exact S1|reflexivity|].
  apply wp_bind. eapply description_free_spec; [exact Obj|].
  intros s1 Nx Or Cn F1 F2. fold DL in F1, F2.
  unfold free_if, rng_free.
  apply wp_bind. eapply wp_load_ptr; [rewrite F2 by exact I1; exact S1|reflexivity|].
  apply wp_bind. apply wp_bind. eapply wp_load_ptr; [rewrite F2 by exact I3; exact S3|reflexivity|].
  apply wp_bind. eapply wp_free; [rewrite F2 by exact I4; exact S4|].
  eapply wp_free; [cbn [mem]; rewrite upd_other by auto; rewrite F2 by exact I3; exact S3|].
  apply wp_bind. eapply wp_load_ptr; [cbn [mem]; rewrite !upd_other by auto; rewrite F2 by exact I1; exact S1|reflexivity|].
  apply wp_bind. eapply wp_free; [cbn [mem]; rewrite !upd_other by auto; rewrite F2 by exact I2; exact S2|].
  eapply wp_free; [cbn [mem]; rewrite !upd_other by auto; rewrite F2 by exact I1; exact S1|].
  apply HQ; cbn [mem nxt orc cnt]; auto.
  - intros l Hl. unfold upd.
    destruct (Nat.eqb_spec l p); auto. destruct (Nat.eqb_spec l len); auto. destruct (Nat.eqb_spec l lr); auto.
    destruct (Nat.eqb_spec l lg); auto.
    destruct Hl as [Hl|[Hl|[Hl|[Hl|Hl]]]]; try congruence. apply F1. exact Hl.
  - intros l Hl. cbn [mem]. apply nin_cons_inv in Hl. destruct Hl as [? Hl]. apply nin_cons_inv in Hl. destruct Hl as [? Hl].
    apply nin_cons_inv in Hl. destruct Hl as [? Hl]. apply nin_cons_inv in Hl. destruct Hl as [? Hl].
    rewrite !upd_other by assumption. apply F2. exact Hl.
Qed.

(** The source block itself cannot be obtained: clean failure. *)
Lemma sn_oom_first d liz lwi lp lz lc le sig n_cap oa izs wis dens nm zs cs es
    d_source src_x src_y sigx sigy shx shy hp n len (ens : list T) err s :
  wf s -> legal_err s err -> (err <> None -> isolated_failures s) -> orc s (cnt s) = false ->
  description_object s d liz lwi lp lz lc le sig n_cap oa izs wis dens nm zs cs es ->
  (0 <= nm)%Z -> List.length zs = Z.to_nat (nm + 1) -> List.length cs = Z.to_nat (nm + 1) -> List.length es = Z.to_nat (nm + 1) ->
  dbl_array s len ens -> n = List.length ens -> src_args_ok d_source src_x src_y hp ens ->
  profile_validate (mkProfile (Z.to_nat nm) zs cs es) n_cap = Some 1%Z ->
  wp (source_new (Some d) d_source src_x src_y sigx sigy shx shy hp n (Some len) err)
    (fun r s' => r = None /\ exists m, error_reported err POLYCAP_ERROR_MEMORY m s s') s.
Proof.
  intros Hwf Hle Hiso Ho Hobj Hn Lz Lc Le Aen En Sok Hv.
  eapply sn_to_validate with (v := 1%Z); eauto; try discriminate; [|congruence].
  intros _ k ->. apply wp_bind. apply wp_alloc; [congruence|intros _].
  apply wp_bind. match goal with |- wp (mem_error _ ?m) _ _ => apply (wp_report false err POLYCAP_ERROR_MEMORY m) end; auto.
  { intros K. cbn [orc cnt]. apply Hiso; auto. }
  intros s2 W2 O2 N2 P2 R. apply wp_ret. split; [reflexivity|]. eexists.
  unfold error_reported in *. destruct err as [e|]; [|exact R]. exact R.
Qed.

(** The energies array cannot be obtained: the source block stays behind. *)
Lemma sn_oom_energies d liz lwi lp lz lc le sig n_cap oa izs wis dens nm zs cs es
    d_source src_x src_y sigx sigy shx shy hp n len (ens : list T) s :
  wf s -> orc s (cnt s) = true -> orc s (S (cnt s)) = false ->
  description_object s d liz lwi lp lz lc le sig n_cap oa izs wis dens nm zs cs es ->
  (0 <= nm)%Z -> List.length zs = Z.to_nat (nm + 1) -> List.length cs = Z.to_nat (nm + 1) -> List.length es = Z.to_nat (nm + 1) ->
  dbl_array s len ens -> n = List.length ens -> src_args_ok d_source src_x src_y hp ens ->
  profile_validate (mkProfile (Z.to_nat nm) zs cs es) n_cap = Some 1%Z ->
  wp (source_new (Some d) d_source src_x src_y sigx sigy shx shy hp n (Some len) NULL)
    (fun r s' => r = None /\ exists leaked b, mem s leaked = None /\ mem s' leaked = Some b) s.
Proof.
  intros Hwf O0 O1 Hobj Hn Lz Lc Le Aen En Sok Hv.
  eapply sn_to_validate with (v := 1%Z); eauto; try discriminate; [|congruence].
  intros _ k ->. unfold malloc. repeat (wstep; try congruence).
  split; [reflexivity|]. exists (nxt s). eexists. split; [apply Hwf; lia|]. cbn [mem]. rewrite upd_same. reflexivity.
Qed.

(** Executions ending in undefined behaviour: [ubs m s] is [m s = UB]. *)
Lemma wp_eq {A} (m : M T A) v s1 s : wp m (fun a s' => a = v /\ s' = s1) s -> m s = Ok (v, s1).
Proof. unfold wp. destruct (m s) as [[a s']|]; [intros [-> ->]; reflexivity|intros []]. Qed.
Lemma bind_ub {A B} (m : M T A) (k : A -> M T B) v s1 s : wp m (fun a s' => a = v /\ s' = s1) s -> k v s1 = UB -> bind m k s = UB.
Proof. intros H K. apply wp_eq in H. unfold bind. rewrite H. exact K. Qed.
Lemma bind_ub0 {A B} (m : M T A) (k : A -> M T B) s : m s = UB -> bind m k s = UB.
Proof. intros H. unfold bind. rewrite H. reflexivity. Qed.
Lemma bind_ub_any {A B} (m : M T A) (k : A -> M T B) s : (forall v s1, m s = Ok (v, s1) -> k v s1 = UB) -> bind m k s = UB.
Proof. intros H. unfold bind. destruct (m s) as [[v s1]|]; auto. Qed.
Lemma store_orc p i v u s s1 : store p i v s = Ok (u, s1) -> orc s1 = orc s /\ cnt s1 = cnt s.
Proof.
  unfold store. destruct p; [|discriminate]. destruct (mem s l); [|discriminate].
  destruct (Nat.ltb i (List.length b)); [|discriminate]. intros K. injection K; intros; subst. auto.
Qed.
Lemma memcpy_orc p q n u s s1 : memcpy p q n s = Ok (u, s1) -> orc s1 = orc s /\ cnt s1 = cnt s.
Proof.
  unfold memcpy. destruct p; [|discriminate]. destruct q; [|discriminate].
  destruct (mem s l); [|discriminate]. destruct (mem s l0); [|discriminate].
  destruct (_ && _); [|discriminate]. intros K. injection K; intros; subst. auto.
Qed.
Lemma reject_ub c err msg (k : M T ptr) s : c = false -> k s = UB -> reject_if c err msg k s = UB.
Proof. intros ->. exact (fun H => H). Qed.

(** The random generator cannot be obtained: undefined behaviour. *)
Lemma sn_oom_rng d liz lwi lp lz lc le sig n_cap oa izs wis dens nm zs cs es
    d_source src_x src_y sigx sigy shx shy hp n len (ens : list T) err s :
  wf s -> orc s (cnt s) = true -> orc s (S (cnt s)) = true ->
  orc s (S (S (cnt s))) = false \/ orc s (S (S (S (cnt s)))) = false ->
  description_object s d liz lwi lp lz lc le sig n_cap oa izs wis dens nm zs cs es ->
  (0 <= nm)%Z -> List.length zs = Z.to_nat (nm + 1) -> List.length cs = Z.to_nat (nm + 1) -> List.length es = Z.to_nat (nm + 1) ->
  dbl_array s len ens -> n = List.length ens -> src_args_ok d_source src_x src_y hp ens ->
  profile_validate (mkProfile (Z.to_nat nm) zs cs es) n_cap = Some 1%Z ->
  source_new (Some d) d_source src_x src_y sigx sigy shx shy hp n (Some len) err s = UB.
Proof.
  intros Hwf O0 O1 O2 (Hd & Hiz & Hwi & Hp & Hz & Hc & He & ND) Hn Lz Lc Le Aen En (B1 & B2 & B3 & B4 & B5 & B6) Hv.
  unfold source_new.
  do 5 (apply reject_ub; [first [assumption | reflexivity]|]).
  apply reject_ub; [apply Nat.leb_gt; lia|]. apply reject_ub; [reflexivity|].
  apply bind_ub with (v := true) (s1 := s).
  { apply (wp_energy_loop len ens ens n []); auto; [lia|]. rewrite En, firstn_all, B6. auto. }
  apply reject_ub; [reflexivity|].
  apply bind_ub with (v := Some lp) (s1 := s); [wstep; auto|].
  apply bind_ub with (v := n_cap) (s1 := s); [wstep; auto|].
  apply bind_ub with (v := 1%Z) (s1 := s).
  { apply (wp_validate_heap lp lz lc le nm zs cs es n_cap 1%Z); auto. discriminate. }
  cbn [Z.eqb negb Pos.eqb].
  unfold bind at 1, malloc at 1, alloc at 1. rewrite O0.
  unfold bind at 1, malloc at 1, alloc at 1. cbn [orc cnt]. rewrite O1.
  match goal with |- bind _ _ ?x = UB => set (s0 := x) end.
  assert (C0 : orc s0 = orc s /\ cnt s0 = S (S (cnt s))) by (split; reflexivity). clearbody s0.
  do 10 (apply bind_ub_any; intros ? ? K; apply store_orc in K;
    match type of K with orc ?a = _ /\ _ => assert (C1 : orc a = orc s /\ cnt a = S (S (cnt s))) by (destruct K, C0; split; congruence) end;
    clear K C0; rename C1 into C0).
  apply bind_ub_any; intros ? ? K; apply memcpy_orc in K;
    match type of K with orc ?a = _ /\ _ => assert (C1 : orc a = orc s /\ cnt a = S (S (cnt s))) by (destruct K, C0; split; congruence) end;
    clear K C0; rename C1 into C0.
  apply bind_ub0. unfold rng_new. destruct C0 as [C1 C2].
  unfold bind at 1, alloc at 1. rewrite C1, C2.
  destruct O2 as [O2|O2].
  - rewrite O2. apply bind_ub_any. intros. apply bind_ub0. reflexivity.
  - destruct (orc s (S (S (cnt s)))).
    + unfold bind at 1, malloc at 1, alloc at 1. cbn [orc cnt]. rewrite ?C1, O2.
      apply bind_ub_any. intros. apply bind_ub0. reflexivity.
    + apply bind_ub_any. intros. apply bind_ub0. reflexivity.
Qed.

(** The copy of the description cannot be obtained: everything is released again. *)
Lemma sn_oom_desc d liz lwi lp lz lc le sig n_cap oa izs wis dens nm zs cs es
    d_source src_x src_y sigx sigy shx shy hp n len (ens : list T) s :
  wf s -> allocs_succeed 4 s -> ~ allocs_succeed 11 s ->
  description_object s d liz lwi lp lz lc le sig n_cap oa izs wis dens nm zs cs es ->
  (0 <= nm)%Z -> List.length zs = Z.to_nat (nm + 1) -> List.length cs = Z.to_nat (nm + 1) -> List.length es = Z.to_nat (nm + 1) ->
  List.length wis = List.length izs -> desc_args_ok sig n_cap izs dens -> snd (norm_weights wis) = true ->
  dbl_array s len ens -> n = List.length ens -> src_args_ok d_source src_x src_y hp ens ->
  profile_validate (mkProfile (Z.to_nat nm) zs cs es) n_cap = Some 1%Z ->
  wp (source_new (Some d) d_source src_x src_y sigx sigy shx shy hp n (Some len) NULL)
    (fun r s' => r = None /\ same_memory s s') s.
Proof.
  intros Hwf Ho Hno Hobj Hn Lz Lc Le Lw Dok Hnw Aen En Sok Hv.
  eapply sn_to_validate with (v := 1%Z); eauto; try discriminate; [|congruence].
  intros _ k ->.
  destruct Hobj as (Hd & Hiz & Hwi & Hp & Hz & Hc & He & ND). unfold dbl_array, int_array in *.
  pose proof (live_lt _ _ _ Hwf Hd). pose proof (live_lt _ _ _ Hwf Hiz). pose proof (live_lt _ _ _ Hwf Hwi).
  pose proof (live_lt _ _ _ Hwf Hp). pose proof (live_lt _ _ _ Hwf Hz). pose proof (live_lt _ _ _ Hwf Hc).
  pose proof (live_lt _ _ _ Hwf He). pose proof (live_lt _ _ _ Hwf Aen).
  pose proof (Ho 0 ltac:(lia)) as O0. pose proof (Ho 1 ltac:(lia)) as O1. pose proof (Ho 2 ltac:(lia)) as O2. pose proof (Ho 3 ltac:(lia)) as O3.
  replace (cnt s + 0) with (cnt s) in O0 by lia. replace (cnt s + 1) with (S (cnt s)) in O1 by lia.
  replace (cnt s + 2) with (S (S (cnt s))) in O2 by lia. replace (cnt s + 3) with (S (S (S (cnt s)))) in O3 by lia.
  unfold malloc. repeat (wstep; try congruence).
  eapply wp_memcpy; [wlook | wlook | rewrite repeat_length; lia | rewrite map_length; lia |].
  wsimp. rewrite En. rewrite <- (map_length (@Vdbl T) ens) at 3. rewrite firstn_all.
  rewrite <- (repeat_length (@Vundef T) (List.length ens)) at 3. rewrite skipn_all, app_nil_r.
  unfold rng_new. repeat (wstep; try congruence).
  match goal with |- wp _ _ ?st0 => set (s1 := st0) end.
  assert (W1 : wf s1). { intros l Hl. subst s1. cbn [mem nxt] in *. upd_simpl. apply Hwf. lia. }
  assert (PR : forall l, l < nxt s -> mem s1 l = mem s l).
  { intros l Hl. subst s1. cbn [mem]. upd_simpl. reflexivity. }
  eapply wp_mono.
  - rewrite Nat2Z.id.
    apply (dn_oom lp lz lc le nm sig n_cap (List.length izs) liz lwi izs wis dens NULL s1); auto; unfold dbl_array, int_array; try (rewrite PR by lia; assumption).
    + exact I.
    + congruence.
    + intros K. apply Hno. intros k Hk. destruct (Nat.lt_ge_cases k 4) as [L|L]; [apply Ho, L|].
      specialize (K (k - 4) ltac:(lia)). subst s1. cbn [orc cnt] in K.
      replace (S (S (S (S (cnt s)))) + (k - 4)) with (cnt s + k) in K by lia. exact K.
  - cbn beta. intros r s2 (-> & m & Sm). cbn in Sm.
    assert (P0 : mem s2 (nxt s) = Some (Vundef :: Vptr (Some (S (S (nxt s)))) :: List.map Vdbl [d_source; src_x; src_y; sigx; sigy; shx; shy; hp] ++
                  [Vint (Z.of_nat (List.length ens)); Vptr (Some (S (nxt s)))])).
    { rewrite Sm. subst s1. cbn [mem]. upd_simpl. reflexivity. }
    assert (P1 : mem s2 (S (nxt s)) = Some (List.map Vdbl ens)) by (rewrite Sm; subst s1; cbn [mem]; upd_simpl; reflexivity).
    assert (P2 : mem s2 (S (S (nxt s))) = Some [Vptr (Some (S (S (S (nxt s)))))]) by (rewrite Sm; subst s1; cbn [mem]; upd_simpl; reflexivity).
    assert (P3 : exists b, mem s2 (S (S (S (nxt s)))) = Some b) by (rewrite Sm; subst s1; cbn [mem]; upd_simpl; eauto).
    destruct P3 as [b3 P3].
    assert (P4 : forall l, l <> nxt s -> l <> S (nxt s) -> l <> S (S (nxt s)) -> l <> S (S (S (nxt s))) -> mem s2 l = mem s l).
    { intros. rewrite Sm. subst s1. cbn [mem]. rewrite !upd_other by assumption. reflexivity. }
    clear Sm W1 PR. clearbody s1.
    apply wp_bind. cbn [List.map app] in P0. eapply wp_store; [exact P0 | cbn; lia | cbn [set_nth]].
    unfold source_free, rng_free, free_if, description_free. cbn [clear_error invalid set_error_literal].
    repeat wstep. split; [reflexivity|].
    intros l. cbn [mem]. unfold upd.
    destruct (Nat.eqb_spec l (nxt s)); [subst; symmetry; apply Hwf; lia|].
    destruct (Nat.eqb_spec l (S (nxt s))); [subst; symmetry; apply Hwf; lia|].
    destruct (Nat.eqb_spec l (S (S (nxt s)))); [subst; symmetry; apply Hwf; lia|].
    destruct (Nat.eqb_spec l (S (S (S (nxt s))))); [subst; symmetry; apply Hwf; lia|].
    apply P4; auto.
Qed.

End Src.
