(** * Property theorems: constructors, destructors, copies
    (C15-C17, C19-C22, C28, C39, C50, C53, C54)

    [wp m Q s]: running the API function [m] in memory state [s] ends without
    undefined behaviour, in a result and a state satisfying Q.  Objects in memory
    ([description_object], [source_object], [leak_array], ...) are described in
    SpecHeap.v and SpecPhoton.v.  [allocs_succeed n s]: the next n allocations succeed. *)
From Coq Require Import Floats.
From Coq Require Import ZArith List Bool Lia Reals Lra String.
From Verif Require Import Num Mem SpecHeap SpecPhoton ErrorModel ProfileModel ProfileProofs Geometry ConsModel
  HeapLib DescProofs DescProofs2 DescOom SrcProofs PhotProofs ConsReal ProfileReal ProfileFloat SpecGeom HexProofs RingProofs PackProofs PropGeom.
Import ListNotations.
Local Open Scope R_scope.

(** The caller's memory: a profile object at [p] with arrays of nmax+1 entries, and the
    composition arrays. *)
Definition caller_data (s : st R) (p lz lc le : loc) (n : Z) (zs cs es : list R)
    (liz lwi : loc) (izs : list Z) (wis : list R) : Prop :=
  mem s p = Some [Vint n; Vptr (Some lz); Vptr (Some lc); Vptr (Some le)] /\
  dbl_array s lz zs /\ dbl_array s lc cs /\ dbl_array s le es /\
  (0 <= n)%Z /\ List.length zs = Z.to_nat (n + 1) /\ List.length cs = Z.to_nat (n + 1) /\ List.length es = Z.to_nat (n + 1) /\
  int_array s liz izs /\ dbl_array s lwi wis /\ List.length wis = List.length izs.

(** The documented conditions on the other arguments of polycap_description_new. *)
Definition good_description (sig : R) (n_cap : Z) (izs : list Z) (dens : R) : Prop :=
  0 <= sig /\ (1 < n_cap)%Z /\ (1 <= List.length izs)%nat /\ 0 < dens /\ Forall (fun z => 1 <= z <= 111)%Z izs.
(** The fractions add up to 1, or are non-negative percentages adding up to 100. *)
Definition good_weights (wis : list R) : Prop :=
  Rsum wis = 1 \/ (Rsum wis = 100 /\ Forall (fun w => 0 <= w) wis).
(** The fractions an accepted description holds. *)
Definition as_fractions (wis : list R) : list R :=
  if Rle_dec (Rsum wis) 1 then wis else map (fun w => w / 100) wis.
(** The capillaries fit inside the optic: polycap_profile_validate accepts (C11). *)
Definition profile_accepted (n : Z) (zs cs es : list R) (n_cap : Z) : Prop :=
  profile_validate (mkProfile (Z.to_nat n) zs cs es) n_cap = Some 1%Z.

Lemma good_weights_norm wis : good_weights wis ->
  snd (norm_weights wis) = true /\ fst (norm_weights wis) = as_fractions wis.
Proof.
  intros H. destruct (norm_weights_R wis) as (I1 & I2 & I3). split; [apply I1, H|].
  unfold as_fractions. destruct (Rle_dec (Rsum wis) 1); [apply I2; auto|].
  apply I3; [lra|]. destruct H as [H|[_ H]]; [lra|auto].
Qed.
Lemma bad_weights_norm wis : ~ good_weights wis -> snd (norm_weights wis) = false.
Proof.
  intros H. destruct (norm_weights_R wis) as (I1 & _). destruct (snd (norm_weights wis)); auto.
  exfalso. apply H, I1. reflexivity.
Qed.

(** ** C15 *)

(** Out-of-range arguments: no object, one INVALID_ARGUMENT report, memory otherwise
    unchanged. ([err] may be NULL.) *)
Theorem C15_rejects :
  forall p sig n_cap nelem iz wi dens err (izs : list Z) (s : st R),
    wf s -> legal_err s err -> (err <> None -> allocs_succeed 2 s) ->
    (forall l, iz = Some l -> int_array s l izs /\ (nelem <= List.length izs)%nat) ->
    ~ (0 <= sig /\ (1 < n_cap)%Z /\ (1 <= nelem)%nat /\ iz <> NULL /\ wi <> NULL /\ 0 < dens /\
       Forall (fun z => 1 <= z <= 111)%Z (firstn nelem izs)) ->
    wp (description_new p sig n_cap nelem iz wi dens err)
       (fun r s' => r = NULL /\ exists m, error_reported err POLYCAP_ERROR_INVALID_ARGUMENT m s s') s.
Proof.
  intros p sig n_cap nelem iz wi dens err izs s W L A Hiz Bad.
  apply dn_badarg with (izs := izs); auto.
  { intros K. specialize (A K). split; [rewrite <- (Nat.add_0_r (cnt s)); apply A; lia|].
    replace (S (cnt s)) with (cnt s + 1)%nat by lia. apply A. lia. }
  rnum. destruct (Rlt_dec sig 0); [left; apply Rltb_true; auto|]. right.
  destruct (Z_le_dec n_cap 1); [auto|]. right.
  destruct (lt_dec nelem 1); [auto|]. right.
  destruct iz as [li|]; [|auto]. right. destruct wi as [lw|]; [|auto]. right.
  destruct (Rle_dec dens 0); [left; apply Rleb_true; auto|]. right.
  destruct (forallb iz_in_range (firstn nelem izs)) eqn:E; [|auto].
  exfalso. apply Bad. apply iz_all in E. repeat split; auto; try lra; try lia; try discriminate.
Qed.

(** In-range arguments, a good composition and an accepted profile: a new object with
    exactly these contents, nothing reported (the caller's error variable is among the
    unchanged memory). *)
Theorem C15_accepts :
  forall p lz lc le n zs cs es sig n_cap liz lwi izs wis dens err (s : st R),
    wf s -> legal_err s err -> allocs_succeed 7 s ->
    caller_data s p lz lc le n zs cs es liz lwi izs wis ->
    good_description sig n_cap izs dens -> good_weights wis -> profile_accepted n zs cs es n_cap ->
    wp (description_new (Some p) sig n_cap (List.length izs) (Some liz) (Some lwi) dens err)
      (fun r s' => exists d liz' lwi' lp' lz' lc' le' open, r = Some d /\
         description_object s' d liz' lwi' lp' lz' lc' le' sig n_cap open izs (as_fractions wis) dens n zs cs es /\
         all_free s [d; liz'; lwi'; lp'; lz'; lc'; le'] /\
         same_memory_except [d; liz'; lwi'; lp'; lz'; lc'; le'] s s') s.
Proof.
  intros p lz lc le n zs cs es sig n_cap liz lwi izs wis dens err s W L A
    (P1 & P2 & P3 & P4 & P5 & P6 & P7 & P8 & P9 & P10 & P11) (G1 & G2 & G3 & G4 & G5) GW PA.
  destruct (good_weights_norm _ GW) as [N1 N2].
  eapply wp_mono.
  - apply (dn_ok p lz lc le n zs cs es sig n_cap (List.length izs) liz lwi izs wis dens err s); auto.
    apply desc_args_R; auto.
  - cbn beta. intros r s' (_ & _ & _ & d & x1 & x2 & x3 & x4 & x5 & x6 & -> & O & F & S).
    rewrite N2 in O. exists d, x1, x2, x3, x4, x5, x6. eexists. split; [reflexivity|]. split; [exact O|]. auto.
Qed.

(** ** C18: the open area a new description carries *)
(** The area of the capillaries of the full stacking of [k] shells at the entrance, over the
    area of the hexagon with the entrance's outer radius. *)
Theorem C88_stored_open_area :
  forall p lz lc le n zs cs es sig n_cap liz lwi izs wis dens err (s : st R) k,
    wf s -> legal_err s err -> allocs_succeed 7 s ->
    caller_data s p lz lc le n zs cs es liz lwi izs wis ->
    good_description sig n_cap izs dens -> good_weights wis -> profile_accepted n zs cs es n_cap ->
    n_shells n_cap = IZR k -> 0 < nth 0 es 0 ->
    wp (description_new (Some p) sig n_cap (List.length izs) (Some liz) (Some lwi) dens err)
      (fun r s' => exists d liz' lwi' lp' lz' lc' le', r = Some d /\
         description_object s' d liz' lwi' lp' lz' lc' le' sig n_cap
           (IZR (stack_size k) * (PI * (nth 0 cs 0 * nth 0 cs 0)) / hexagon_area (nth 0 es 0)) izs (as_fractions wis) dens n zs cs es) s.
Proof.
  intros p lz lc le n zs cs es sig n_cap liz lwi izs wis dens err s k W L A
    (P1 & P2 & P3 & P4 & P5 & P6 & P7 & P8 & P9 & P10 & P11) (G1 & G2 & G3 & G4 & G5) GW PA Ek Pe.
  destruct (good_weights_norm _ GW) as [N1 N2].
  eapply wp_mono.
  - apply (dn_ok p lz lc le n zs cs es sig n_cap (List.length izs) liz lwi izs wis dens err s); auto.
    apply desc_args_R; auto.
  - cbn beta. intros r s' (_ & _ & _ & d & x1 & x2 & x3 & x4 & x5 & x6 & -> & O & F & S).
    rewrite N2 in O. change (open_area_num n_cap) with (open_area_of (T := R) n_cap) in O. rewrite (open_area_eq n_cap k) in O; [|lia|exact Ek|exact Pe].
    exists d, x1, x2, x3, x4, x5, x6. split; [reflexivity|exact O].
Qed.

(** ** C16 *)

(** False: with fractions that do not add up (everything else in order) the call both
    reports INVALID_ARGUMENT and hands out an object holding those fractions. *)
Theorem C16_object_and_error_refuted :
  forall p lz lc le n zs cs es sig n_cap liz lwi izs wis dens e (s : st R),
    wf s -> memory_available s -> slot_holds s e NULL ->
    caller_data s p lz lc le n zs cs es liz lwi izs wis ->
    good_description sig n_cap izs dens -> ~ good_weights wis -> profile_accepted n zs cs es n_cap ->
    wp (description_new (Some p) sig n_cap (List.length izs) (Some liz) (Some lwi) dens (Some e))
      (fun r s' => exists d x t m, r = Some d /\ (exists b, mem s' d = Some b) /\
         slot_holds s' e (Some x) /\ error_object s' x t POLYCAP_ERROR_INVALID_ARGUMENT m) s.
Proof.
  intros p lz lc le n zs cs es sig n_cap liz lwi izs wis dens e s W A L
    (P1 & P2 & P3 & P4 & P5 & P6 & P7 & P8 & P9 & P10 & P11) (G1 & G2 & G3 & G4 & G5) GW PA.
  apply bad_weights_norm in GW. eapply wp_mono.
  - apply (dn_bad_weights p lz lc le n zs cs es sig n_cap (List.length izs) liz lwi izs wis dens e s); auto.
    apply desc_args_R; auto.
  - cbn beta. intros r s' (d & x1 & x2 & x3 & x4 & x5 & x6 & x & t & m & -> & (O & _) & S & E).
    exists d, x, t, m. eauto.
Qed.

(** What holds: a refused profile gives NULL and the error (for good fractions). *)
Theorem C86_bad_profile :
  forall p lz lc le n zs cs es sig n_cap liz lwi izs wis dens v e (s : st R),
    wf s -> memory_available s -> slot_holds s e NULL ->
    caller_data s p lz lc le n zs cs es liz lwi izs wis ->
    good_description sig n_cap izs dens -> good_weights wis ->
    profile_validate (mkProfile (Z.to_nat n) zs cs es) n_cap = Some v -> v <> 1%Z ->
    wp (description_new (Some p) sig n_cap (List.length izs) (Some liz) (Some lwi) dens (Some e))
      (fun r s' => r = NULL /\ exists x t m, slot_holds s' e (Some x) /\ error_object s' x t POLYCAP_ERROR_INVALID_ARGUMENT m) s.
Proof.
  intros p lz lc le n zs cs es sig n_cap liz lwi izs wis dens v e s W A L
    (P1 & P2 & P3 & P4 & P5 & P6 & P7 & P8 & P9 & P10 & P11) (G1 & G2 & G3 & G4 & G5) GW PV PN.
  destruct (good_weights_norm _ GW) as [N1 N2].
  eapply wp_mono.
  - apply (dn_bad_profile_err p lz lc le n zs cs es sig n_cap (List.length izs) liz lwi izs wis dens v e None s); auto.
    apply desc_args_R; auto.
  - cbn beta. intros r s' (-> & x & t & m & lk & S & E & _). split; auto. exists x, t, m. auto.
Qed.

(** ** C17: the composition check on an array in memory. *)
Theorem C87_weights :
  forall l e (ws : list R) (s : st R),
    wf s -> memory_available s -> l <> e -> slot_holds s e NULL -> dbl_array s l ws ->
    wp (check_weight (List.length ws) (Some l) (Some e))
       (fun _ s' =>
          (good_weights ws ->
             slot_holds s' e NULL /\ same_memory_except [l] s s' /\
             exists ws', dbl_array s' l ws' /\ Rsum ws' = 1 /\
               (Rsum ws <= 1 -> ws' = ws) /\ (1 < Rsum ws -> ws' = map (fun w => w / 100) ws)) /\
          (~ good_weights ws ->
             exists x t m, slot_holds s' e (Some x) /\
               error_object s' x t POLYCAP_ERROR_INVALID_ARGUMENT m /\
               same_memory_except [l; e; x; t] s s')) s.
Proof.
  intros l e ws s W A D L M.
  apply wp_check_weight; auto.
  - congruence.
  - exists NULL. exact L.
  - intros N1.
    assert (GW : good_weights ws) by (destruct (norm_weights_R ws) as (I1 & _); apply I1, N1).
    split; [intros _|contradiction].
    destruct (good_weights_norm _ GW) as [_ N2].
    split; [|split].
    + unfold slot_holds, put, setmem. cbn [mem]. rewrite upd_other by auto. exact L.
    + intros x Hx. nin_split Hx. unfold put, setmem. cbn [mem]. apply upd_other. auto.
    + exists (fst (norm_weights ws)). split.
      { unfold dbl_array, put, setmem. cbn [mem]. apply upd_same. }
      split; [apply norm_weights_idem; auto|]. destruct (norm_weights_R ws) as (_ & I2 & I3). split; [exact I2|].
      intros K. apply I3; auto. destruct GW as [G|[_ G]]; [lra|auto].
  - intros s' N1 (W' & _ & _ & _ & m & (R1 & _)).
    split. { intros GW. exfalso. destruct (good_weights_norm _ GW). congruence. }
    intros _.
    destruct R1 as (x & t & X1 & X2 & X3 & X4 & X5).
    { unfold slot_holds, put, setmem. cbn [mem]. rewrite upd_other by auto. exact L. }
    exists x, t, m. split; auto. split; auto.
    intros y Hy. nin_split Hy. rewrite X5 by nin. unfold put, setmem. cbn [mem]. apply upd_other. auto.
Qed.

(** Rounding (binary64): ten fractions of 0.1 are refused, although they add up to 1. *)
Theorem C17_rounding_refuted :
  forall lm : libm, let w := PrimFloat.div (F_ofZ 1) (F_ofZ 10) in
    snd (@norm_weights float (FNum lm) (repeat w 10)) = false.
Proof. intros lm. vm_compute. reflexivity. Qed.

(** ** C54 (accepted fractions lie in [0,1]): false — 2 and -1 are accepted. *)
Theorem C54_negative_fraction_refuted :
  forall p lz lc le n zs cs es sig n_cap liz lwi a b dens err (s : st R),
    wf s -> legal_err s err -> allocs_succeed 7 s ->
    caller_data s p lz lc le n zs cs es liz lwi [a; b] [2; -1] ->
    good_description sig n_cap [a; b] dens -> profile_accepted n zs cs es n_cap ->
    wp (description_new (Some p) sig n_cap 2 (Some liz) (Some lwi) dens err)
      (fun r s' => exists d liz' lwi' lp' lz' lc' le' open, r = Some d /\
         description_object s' d liz' lwi' lp' lz' lc' le' sig n_cap open [a; b] [2; -1] dens n zs cs es /\
         (forall e q, err = Some e -> slot_holds s e q -> slot_holds s' e q)) s.
Proof.
  intros p lz lc le n zs cs es sig n_cap liz lwi a b dens err s W L A C G PA.
  assert (GW : good_weights [2; -1]) by (left; cbn; lra).
  eapply wp_mono.
  - apply (C15_accepts p lz lc le n zs cs es sig n_cap liz lwi [a; b] [2; -1] dens err s); auto.
  - cbn beta. intros r s' (d & x1 & x2 & x3 & x4 & x5 & x6 & op & -> & O & F & S).
    exists d, x1, x2, x3, x4, x5, x6, op. split; auto.
    unfold as_fractions in O. destruct (Rle_dec (Rsum [2; -1]) 1) as [_|K]; [|exfalso; apply K; cbn; lra].
    split; auto. intros e q -> Hq. unfold slot_holds in *. rewrite S; auto. intros Hin. apply F in Hin. congruence.
Qed.
(** What holds: percentages are accepted only if none is negative, and fractions that
    are all non-negative lie in [0,1]. *)
Theorem C99_fractions :
  forall ws : list R, good_weights ws -> Forall (fun w => 0 <= w) ws ->
    Forall (fun w => 0 <= w <= 1) (as_fractions ws).
Proof.
  assert (Pos : forall l, Forall (fun w => 0 <= w) l -> 0 <= Rsum l).
  { induction 1; cbn; [lra|]. unfold Rsum in *. lra. }
  assert (B : forall l c, Forall (fun w => 0 <= w) l -> Rsum l <= c -> Forall (fun w => 0 <= w <= c) l).
  { induction l as [|x l IH]; intros c F H; constructor; inversion F; subst; pose proof (Pos l H3); unfold Rsum in H, H0; cbn in H.
    - lra.
    - apply IH; auto. unfold Rsum. lra. }
  intros ws G F. unfold as_fractions. destruct (Rle_dec (Rsum ws) 1); [apply B; auto|].
  destruct G as [G|[G _]]; [lra|]. apply Forall_map. eapply Forall_impl; [|apply (B ws 100 F); lra].
  cbn. intros a K. lra.
Qed.

(** ** C19: deep copies *)

(** Every later change (write, free) confined to memory that existed before the call
    leaves the new description as it was. *)
Theorem C19_description_deep_copy :
  forall p lz lc le n zs cs es sig n_cap liz lwi izs wis dens err (s : st R),
    wf s -> legal_err s err -> allocs_succeed 7 s ->
    caller_data s p lz lc le n zs cs es liz lwi izs wis ->
    good_description sig n_cap izs dens -> good_weights wis -> profile_accepted n zs cs es n_cap ->
    wp (description_new (Some p) sig n_cap (List.length izs) (Some liz) (Some lwi) dens err)
      (fun r s' => exists d liz' lwi' lp' lz' lc' le' open, r = Some d /\
         forall later, (forall l, mem s l = None -> mem later l = mem s' l) ->
           description_object later d liz' lwi' lp' lz' lc' le' sig n_cap open izs (as_fractions wis) dens n zs cs es) s.
Proof.
  intros p lz lc le n zs cs es sig n_cap liz lwi izs wis dens err s W L A C G GW PA.
  eapply wp_mono; [apply (C15_accepts p lz lc le n zs cs es sig n_cap liz lwi izs wis dens err s); auto|].
  cbn beta. intros r s' (d & x1 & x2 & x3 & x4 & x5 & x6 & op & -> & (O1 & O2 & O3 & O4 & O5 & O6 & O7 & O8) & F & _).
  exists d, x1, x2, x3, x4, x5, x6, op. split; auto. intros later H.
  unfold description_object, dbl_array, int_array in *. rewrite !H by (apply F; cbn; tauto). auto 10.
Qed.

Theorem C19_source_deep_copy :
  forall d liz lwi lp lz lc le sig n_cap oa izs wis dens nm zs cs es
         d_source src_x src_y sigx sigy shx shy hp len (ens : list R) err (s : st R),
    wf s -> allocs_succeed 11 s ->
    description_object s d liz lwi lp lz lc le sig n_cap oa izs wis dens nm zs cs es ->
    caller_data s lp lz lc le nm zs cs es liz lwi izs wis ->
    good_description sig n_cap izs dens -> Rsum wis = 1 -> profile_accepted nm zs cs es n_cap ->
    dbl_array s len ens -> 0 < d_source -> 0 < src_x -> 0 < src_y -> -1 <= hp <= 1 ->
    (1 <= List.length ens)%nat -> Forall (fun x => 1 <= x <= 100) ens ->
    wp (source_new (Some d) d_source src_x src_y sigx sigy shx shy hp (List.length ens) (Some len) err)
      (fun r s' => exists p len' lr lg d' liz' lwi' lp' lz' lc' le' open, r = Some p /\
         forall later, (forall l, mem s l = None -> mem later l = mem s' l) ->
           source_object later p len' lr lg d' [d_source; src_x; src_y; sigx; sigy; shx; shy; hp] ens /\
           description_object later d' liz' lwi' lp' lz' lc' le' sig n_cap open izs wis dens nm zs cs es) s.
Proof.
  intros d liz lwi lp lz lc le sig n_cap oa izs wis dens nm zs cs es
         d_source src_x src_y sigx sigy shx shy hp len ens err s W A O
    (P1 & P2 & P3 & P4 & P5 & P6 & P7 & P8 & P9 & P10 & P11) (G1 & G2 & G3 & G4 & G5) GW PA E B1 B2 B3 B4 B5 B6.
  destruct (norm_weights_one _ GW) as [N1 N2].
  eapply wp_mono.
  - eapply (sn_ok d liz lwi lp lz lc le sig n_cap oa izs wis dens nm zs cs es d_source src_x src_y sigx sigy shx shy hp); eauto.
    + apply desc_args_R; auto.
    + apply src_args_R; auto.
  - cbn beta. intros r s' (_ & p & x0 & lr & lg & d' & x1 & x2 & x3 & x4 & x5 & x6 & -> & (S1 & S2 & S3 & S4) & (O1 & O2 & O3 & O4 & O5 & O6 & O7 & O8) & ND & F & _).
    exists p, x0, lr, lg, d', x1, x2, x3, x4, x5, x6. eexists. split; [reflexivity|]. intros later H.
    rewrite N2 in *. unfold source_object, description_object, dbl_array, int_array in *. rewrite !H by (apply F; cbn; tauto).
    split; [exact (conj S1 (conj S2 (conj S3 S4)))|]. exact (conj O1 (conj O2 (conj O3 (conj O4 (conj O5 (conj O6 (conj O7 O8))))))).
Qed.

(** ** C20: construct, then free: the memory is as before. *)
Theorem C20_profile :
  forall fit type len re_up re_down ri_up ri_down fd_up fd_down err (s : st R),
    wf s -> allocs_succeed 4 s -> (type = 0 \/ type = 1 \/ type = 2)%Z ->
    0 < len -> 0 < ri_up < re_up -> 0 < ri_down < re_down -> 0 < fd_up -> 0 < fd_down ->
    wp (bind (profile_new fit type len re_up re_down ri_up ri_down fd_up fd_down err) profile_free)
       (fun _ s' => same_memory s s') s.
Proof.
  intros fit type len re_up re_down ri_up ri_down fd_up fd_down err s W A K H1 H2 H3 H4 H5.
  apply wp_bind. eapply wp_mono.
  - apply profile_new_success; auto. apply arg_error_good. unfold good_args. tauto.
  - intros p s1 (_ & l & lz & lc & le & -> & Ho & M1 & M2 & M3 & M4 & X).
    eapply profile_free_spec; [exact Ho|]. intros s2 _ _ _ F S x.
    destruct (in_dec Nat.eq_dec x [l; lz; lc; le]) as [I|I].
    + rewrite F by exact I. cbn in I. destruct I as [<-|[<-|[<-|[<-|[]]]]]; congruence.
    + rewrite S by exact I. apply X. exact I.
Qed.

Theorem C20_profile_from_arrays :
  forall nid lext lcap lz exts caps zs err (s : st R),
    wf s -> allocs_succeed 4 s -> (1 < nid)%Z ->
    dbl_array s lext exts -> dbl_array s lcap caps -> dbl_array s lz zs ->
    Z.of_nat (List.length exts) = (nid + 1)%Z -> Z.of_nat (List.length caps) = (nid + 1)%Z -> Z.of_nat (List.length zs) = (nid + 1)%Z ->
    wp (bind (profile_new_from_arrays nid (Some lext) (Some lcap) (Some lz) err) profile_free)
       (fun _ s' => same_memory s s') s.
Proof.
  intros nid lext lcap lz exts caps zs err s W A Hn H1 H2 H3 L1 L2 L3.
  apply wp_bind. eapply wp_mono; [apply (from_arrays_ok nid lext lcap lz exts caps zs); auto|].
  intros p s1 (_ & _ & _ & l & z & c & e & -> & Ho & M1 & M2 & M3 & M4 & X).
  eapply profile_free_spec; [exact Ho|]. intros s2 _ _ _ F S x.
  destruct (in_dec Nat.eq_dec x [l; z; c; e]) as [I|I].
  + rewrite F by exact I. cbn in I. destruct I as [<-|[<-|[<-|[<-|[]]]]]; congruence.
  + rewrite S by exact I. apply X. exact I.
Qed.

Theorem C20_description :
  forall p lz lc le n zs cs es sig n_cap liz lwi izs wis dens err (s : st R),
    wf s -> legal_err s err -> allocs_succeed 7 s ->
    caller_data s p lz lc le n zs cs es liz lwi izs wis ->
    good_description sig n_cap izs dens -> good_weights wis -> profile_accepted n zs cs es n_cap ->
    wp (bind (description_new (Some p) sig n_cap (List.length izs) (Some liz) (Some lwi) dens err) description_free)
      (fun _ s' => same_memory s s') s.
Proof.
  intros p lz lc le n zs cs es sig n_cap liz lwi izs wis dens err s W L A C G GW PA.
  apply wp_bind. eapply wp_mono; [apply (C15_accepts p lz lc le n zs cs es sig n_cap liz lwi izs wis dens err s); auto|].
  cbn beta. intros r s' (d & x1 & x2 & x3 & x4 & x5 & x6 & op & -> & O & F & X).
  eapply description_free_spec; [exact O|]. intros s2 _ _ _ F2 S2 x.
  destruct (in_dec Nat.eq_dec x [d; x1; x2; x3; x4; x5; x6]) as [I|I].
  + rewrite F2 by exact I. symmetry. apply F, I.
  + rewrite S2 by exact I. apply X. exact I.
Qed.

Theorem C20_source :
  forall d liz lwi lp lz lc le sig n_cap oa izs wis dens nm zs cs es
         d_source src_x src_y sigx sigy shx shy hp len (ens : list R) err (s : st R),
    wf s -> allocs_succeed 11 s ->
    description_object s d liz lwi lp lz lc le sig n_cap oa izs wis dens nm zs cs es ->
    caller_data s lp lz lc le nm zs cs es liz lwi izs wis ->
    good_description sig n_cap izs dens -> Rsum wis = 1 -> profile_accepted nm zs cs es n_cap ->
    dbl_array s len ens -> 0 < d_source -> 0 < src_x -> 0 < src_y -> -1 <= hp <= 1 ->
    (1 <= List.length ens)%nat -> Forall (fun x => 1 <= x <= 100) ens ->
    wp (bind (source_new (Some d) d_source src_x src_y sigx sigy shx shy hp (List.length ens) (Some len) err) source_free)
      (fun _ s' => same_memory s s') s.
Proof.
  intros d liz lwi lp lz lc le sig n_cap oa izs wis dens nm zs cs es
         d_source src_x src_y sigx sigy shx shy hp len ens err s W A O
    (P1 & P2 & P3 & P4 & P5 & P6 & P7 & P8 & P9 & P10 & P11) (G1 & G2 & G3 & G4 & G5) GW PA E B1 B2 B3 B4 B5 B6.
  destruct (norm_weights_one _ GW) as [N1 N2].
  apply wp_bind. eapply wp_mono.
  - eapply (sn_ok d liz lwi lp lz lc le sig n_cap oa izs wis dens nm zs cs es d_source src_x src_y sigx sigy shx shy hp); eauto.
    + apply desc_args_R; auto.
    + apply src_args_R; auto.
  - cbn beta. intros r s' (_ & p & x0 & lr & lg & d' & x1 & x2 & x3 & x4 & x5 & x6 & -> & SO & DO & ND & F & X).
    eapply source_free_spec; [|exact SO|exact DO|exact ND|]; [reflexivity|]. intros s2 _ _ _ F2 S2 x.
    destruct (in_dec Nat.eq_dec x [p; x0; lr; lg; d'; x1; x2; x3; x4; x5; x6]) as [I|I].
    + rewrite F2 by exact I. symmetry. apply F, I.
    + rewrite S2 by exact I. apply X. exact I.
Qed.

Theorem C20_photon :
  forall d coords dir elecv err (s : st R),
    wf s -> allocs_succeed 1 s -> 0 <= vz coords -> 0 <= vz dir ->
    wp (bind (photon_new (Some d) coords dir elecv err) photon_free) (fun _ s' => same_memory s s') s.
Proof.
  intros d coords dir elecv err s W A H1 H2. apply wp_bind. eapply wp_mono.
  - apply pn_ok; auto; [rewrite <- (Nat.add_0_r (cnt s)); apply A; lia| |]; rnum; apply Rltb_false; lra.
  - cbn beta. intros r s' (_ & p & -> & M & O & X).
    eapply pf_ok with (xl := []) (il := []) (xd := []) (id_ := []); [exact O|exact I|exact I|exact I|exact I| | | |].
    + repeat split.
    + repeat split.
    + constructor; [intros []|constructor].
    + intros s2 _ _ _ F2 S2 x. cbn in F2, S2.
      destruct (Nat.eq_dec x p) as [->|I]; [rewrite F2; auto|]. rewrite S2 by (cbn; intros [K|[]]; congruence). apply X. cbn. intros [K|[]]; congruence.
Qed.

(** A photon that owns result arrays and leak records: freeing it releases exactly the
    photon, those arrays and those records (weights included). *)
Theorem C20_photon_with_results :
  forall p desc x i nx ni start sdir selec exit edir eelec src nen en w a f irefl dt xl xd il id_ (s : st R),
    mem s p = Some (photon_block desc x i nx ni start sdir selec exit edir eelec src nen en w a f irefl dt) ->
    opt_block s en -> opt_block s w -> opt_block s a -> opt_block s f ->
    opt_leaks s x nx xl xd -> opt_leaks s i ni il id_ ->
    let owned := plocs en ++ plocs w ++ plocs a ++ plocs f ++ (plocs x ++ leak_blocks xl) ++ (plocs i ++ leak_blocks il) ++ [p] in
    NoDup owned ->
    wp (photon_free (Some p))
       (fun _ s' => (forall l, In l owned -> mem s' l = None) /\ same_memory_except owned s s') s.
Proof. intros. eapply pf_ok; eauto. Qed.

Theorem C20_leak :
  forall coords dir elecv nrefl lw (ws : list R) err (s : st R),
    wf s -> allocs_succeed 2 s -> dbl_array s lw ws ->
    wp (bind (leak_new coords dir elecv nrefl (List.length ws) (Some lw) err) leak_free) (fun _ s' => same_memory s s') s.
Proof.
  intros coords dir elecv nrefl lw ws err s W A M. apply wp_bind. eapply wp_mono; [apply (ln_ok _ _ _ _ lw ws); auto|].
  cbn beta. intros r s' (_ & l & w & -> & D & O & F & X). eapply lf_ok; eauto. intros x. unfold setmem, upd. cbn [mem].
  destruct (Nat.eqb_spec x l); [subst; symmetry; apply F; cbn; auto|]. destruct (Nat.eqb_spec x w); [subst; symmetry; apply F; cbn; auto|].
  apply X. cbn. intros [K|[K|[]]]; congruence.
Qed.

(** Freeing NULL does nothing. *)
Theorem C20_free_null : forall s : st R,
  profile_free NULL s = Ok (tt, s) /\ description_free NULL s = Ok (tt, s) /\ source_free NULL s = Ok (tt, s) /\
  photon_free NULL s = Ok (tt, s) /\ leak_free NULL s = Ok (tt, s) /\ rng_free NULL s = Ok (tt, s).
Proof. intros s. repeat split. Qed.

(** ** C21: failed constructors *)

(** Running out of memory inside polycap_description_new (any of its allocations):
    NULL, a MEMORY error, nothing left behind — provided the error object itself can
    be built.  Missing: see the two refutations. *)
Theorem C89_description_out_of_memory :
  forall p lz lc le n zs cs es sig n_cap liz lwi izs wis dens err (s : st R),
    wf s -> legal_err s err -> (err <> None -> isolated_failures s) -> ~ allocs_succeed 7 s ->
    caller_data s p lz lc le n zs cs es liz lwi izs wis ->
    good_description sig n_cap izs dens -> good_weights wis ->
    wp (description_new (Some p) sig n_cap (List.length izs) (Some liz) (Some lwi) dens err)
      (fun r s' => r = NULL /\ exists m, error_reported err POLYCAP_ERROR_MEMORY m s s') s.
Proof.
  intros p lz lc le n zs cs es sig n_cap liz lwi izs wis dens err s W L Iso A
    (P1 & P2 & P3 & P4 & P5 & P6 & P7 & P8 & P9 & P10 & P11) (G1 & G2 & G3 & G4 & G5) GW.
  destruct (good_weights_norm _ GW) as [N1 N2].
  apply (dn_oom p lz lc le n sig n_cap (List.length izs) liz lwi izs wis dens err s); auto. apply desc_args_R; auto.
Qed.

(** False: when the profile is refused, the copy of the exterior radii stays allocated. *)
Theorem C21_refused_profile_refuted :
  forall p lz lc le n zs cs es sig n_cap liz lwi izs wis dens v (s : st R),
    wf s -> memory_available s ->
    caller_data s p lz lc le n zs cs es liz lwi izs wis ->
    good_description sig n_cap izs dens ->
    profile_validate (mkProfile (Z.to_nat n) zs cs es) n_cap = Some v -> v <> 1%Z ->
    wp (description_new (Some p) sig n_cap (List.length izs) (Some liz) (Some lwi) dens NULL)
      (fun r s' => r = NULL /\ exists leaked, mem s leaked = None /\ dbl_array s' leaked es /\
         same_memory_except [leaked] s s') s.
Proof.
  intros p lz lc le n zs cs es sig n_cap liz lwi izs wis dens v s W A
    (P1 & P2 & P3 & P4 & P5 & P6 & P7 & P8 & P9 & P10 & P11) (G1 & G2 & G3 & G4 & G5) PV PN.
  apply (dn_bad_profile_leak p lz lc le n zs cs es sig n_cap (List.length izs) liz lwi izs wis dens v s); auto.
  apply desc_args_R; auto.
Qed.

Definition good_source (d_source src_x src_y hp : R) (ens : list R) : Prop :=
  0 < d_source /\ 0 < src_x /\ 0 < src_y /\ -1 <= hp <= 1 /\
  (1 <= List.length ens)%nat /\ Forall (fun x => 1 <= x <= 100) ens.

(** polycap_source_new: failure of the first allocation, or of one of those made for the
    copy of the description, leaves nothing behind. *)
Theorem C89_source_out_of_memory :
  forall d liz lwi lp lz lc le sig n_cap oa izs wis dens nm zs cs es
         d_source src_x src_y sigx sigy shx shy hp len (ens : list R) (s : st R),
    wf s -> (orc s (cnt s) = false \/ (allocs_succeed 4 s /\ ~ allocs_succeed 11 s)) ->
    description_object s d liz lwi lp lz lc le sig n_cap oa izs wis dens nm zs cs es ->
    caller_data s lp lz lc le nm zs cs es liz lwi izs wis ->
    good_description sig n_cap izs dens -> Rsum wis = 1 -> profile_accepted nm zs cs es n_cap ->
    dbl_array s len ens -> good_source d_source src_x src_y hp ens ->
    wp (source_new (Some d) d_source src_x src_y sigx sigy shx shy hp (List.length ens) (Some len) NULL)
      (fun r s' => r = NULL /\ same_memory s s') s.
Proof.
  intros d liz lwi lp lz lc le sig n_cap oa izs wis dens nm zs cs es
         d_source src_x src_y sigx sigy shx shy hp len ens s W A O
    (P1 & P2 & P3 & P4 & P5 & P6 & P7 & P8 & P9 & P10 & P11) (G1 & G2 & G3 & G4 & G5) GW PA E (B1 & B2 & B3 & B4 & B5 & B6).
  destruct (norm_weights_one _ GW) as [N1 N2]. destruct A as [A|[A1 A2]].
  - eapply wp_mono.
    + eapply (sn_oom_first d liz lwi lp lz lc le sig n_cap oa izs wis dens nm zs cs es d_source src_x src_y sigx sigy shx shy hp _ len ens NULL); eauto.
      * exact I.
      * congruence.
      * apply src_args_R; auto.
    + cbn beta. intros r s' (-> & m & S). split; auto.
  - eapply (sn_oom_desc d liz lwi lp lz lc le sig n_cap oa izs wis dens nm zs cs es d_source src_x src_y sigx sigy shx shy hp); eauto.
    + apply desc_args_R; auto.
    + apply src_args_R; auto.
Qed.

(** False: when the energies array cannot be obtained the source block is lost. *)
Theorem C21_source_energies_refuted :
  forall d liz lwi lp lz lc le sig n_cap oa izs wis dens nm zs cs es
         d_source src_x src_y sigx sigy shx shy hp len (ens : list R) (s : st R),
    wf s -> orc s (cnt s) = true -> orc s (S (cnt s)) = false ->
    description_object s d liz lwi lp lz lc le sig n_cap oa izs wis dens nm zs cs es ->
    caller_data s lp lz lc le nm zs cs es liz lwi izs wis ->
    profile_accepted nm zs cs es n_cap ->
    dbl_array s len ens -> good_source d_source src_x src_y hp ens ->
    wp (source_new (Some d) d_source src_x src_y sigx sigy shx shy hp (List.length ens) (Some len) NULL)
      (fun r s' => r = NULL /\ exists leaked b, mem s leaked = None /\ mem s' leaked = Some b) s.
Proof.
  intros d liz lwi lp lz lc le sig n_cap oa izs wis dens nm zs cs es
         d_source src_x src_y sigx sigy shx shy hp len ens s W A1 A2 O
    (P1 & P2 & P3 & P4 & P5 & P6 & P7 & P8 & P9 & P10 & P11) PA E (B1 & B2 & B3 & B4 & B5 & B6).
  eapply (sn_oom_energies d liz lwi lp lz lc le sig n_cap oa izs wis dens nm zs cs es d_source src_x src_y sigx sigy shx shy hp); eauto.
  apply src_args_R; auto.
Qed.

(** False: when the random generator cannot be obtained the call crashes. *)
Theorem C21_source_rng_refuted :
  forall d liz lwi lp lz lc le sig n_cap oa izs wis dens nm zs cs es
         d_source src_x src_y sigx sigy shx shy hp len (ens : list R) err (s : st R),
    wf s -> orc s (cnt s) = true -> orc s (S (cnt s)) = true ->
    orc s (S (S (cnt s))) = false \/ orc s (S (S (S (cnt s)))) = false ->
    description_object s d liz lwi lp lz lc le sig n_cap oa izs wis dens nm zs cs es ->
    caller_data s lp lz lc le nm zs cs es liz lwi izs wis ->
    profile_accepted nm zs cs es n_cap ->
    dbl_array s len ens -> good_source d_source src_x src_y hp ens ->
    source_new (Some d) d_source src_x src_y sigx sigy shx shy hp (List.length ens) (Some len) err s = UB.
Proof.
  intros d liz lwi lp lz lc le sig n_cap oa izs wis dens nm zs cs es
         d_source src_x src_y sigx sigy shx shy hp len ens err s W A1 A2 A3 O
    (P1 & P2 & P3 & P4 & P5 & P6 & P7 & P8 & P9 & P10 & P11) PA E (B1 & B2 & B3 & B4 & B5 & B6).
  eapply (sn_oom_rng d liz lwi lp lz lc le sig n_cap oa izs wis dens nm zs cs es d_source src_x src_y sigx sigy shx shy hp); eauto.
  apply src_args_R; auto.
Qed.

(** ** C22 *)
Theorem C22_rejects :
  forall desc d_source src_x src_y sigx sigy shx shy hp n energies err (ens : list R) (s : st R),
    wf s -> legal_err s err -> (err <> None -> allocs_succeed 2 s) ->
    (forall l, energies = Some l -> dbl_array s l ens /\ (n <= List.length ens)%nat) ->
    ~ (desc <> NULL /\ 0 < d_source /\ 0 < src_x /\ 0 < src_y /\ -1 <= hp <= 1 /\ (1 <= n)%nat /\
       energies <> NULL /\ Forall (fun x => 1 <= x <= 100) (firstn n ens)) ->
    wp (source_new desc d_source src_x src_y sigx sigy shx shy hp n energies err)
       (fun r s' => r = NULL /\ exists m, error_reported err POLYCAP_ERROR_INVALID_ARGUMENT m s s') s.
Proof.
  intros desc d_source src_x src_y sigx sigy shx shy hp n energies err ens s W L A He Bad.
  apply sn_badarg with (ens := ens); auto.
  { intros K. specialize (A K). split; [rewrite <- (Nat.add_0_r (cnt s)); apply A; lia|].
    replace (S (cnt s)) with (cnt s + 1)%nat by lia. apply A. lia. }
  rnum. destruct desc as [dl|]; [right|auto].
  destruct (Rle_dec d_source 0); [left; apply Rleb_true; auto|]. right.
  destruct (Rle_dec src_x 0); [left; apply Rleb_true; auto|]. right.
  destruct (Rle_dec src_y 0); [left; apply Rleb_true; auto|]. right.
  destruct (Rlt_dec 1 (Rabs hp)) as [K|K]; [left; apply Rltb_true; auto|]. right.
  destruct (lt_dec n 1); [auto|]. right. destruct energies as [le|]; [right|auto].
  destruct (forallb en_in_range (firstn n ens)) eqn:E; [|auto].
  exfalso. apply Bad. apply en_all in E. assert (K2 : Rabs hp <= 1) by lra. apply Rabs_le_elim in K2.
  repeat split; auto; try lra; try lia; try discriminate.
Qed.

Theorem C22_accepts :
  forall d liz lwi lp lz lc le sig n_cap oa izs wis dens nm zs cs es
         d_source src_x src_y sigx sigy shx shy hp len (ens : list R) err (s : st R),
    wf s -> allocs_succeed 11 s ->
    description_object s d liz lwi lp lz lc le sig n_cap oa izs wis dens nm zs cs es ->
    caller_data s lp lz lc le nm zs cs es liz lwi izs wis ->
    good_description sig n_cap izs dens -> Rsum wis = 1 -> profile_accepted nm zs cs es n_cap ->
    dbl_array s len ens -> good_source d_source src_x src_y hp ens ->
    wp (source_new (Some d) d_source src_x src_y sigx sigy shx shy hp (List.length ens) (Some len) err)
      (fun r s' => exists p len' lr lg d' liz' lwi' lp' lz' lc' le' open, r = Some p /\
         source_object s' p len' lr lg d' [d_source; src_x; src_y; sigx; sigy; shx; shy; hp] ens /\
         description_object s' d' liz' lwi' lp' lz' lc' le' sig n_cap open izs wis dens nm zs cs es /\
         same_memory_except [p; len'; lr; lg; d'; liz'; lwi'; lp'; lz'; lc'; le'] s s' /\
         all_free s [p; len'; lr; lg; d'; liz'; lwi'; lp'; lz'; lc'; le']) s.
Proof.
  intros d liz lwi lp lz lc le sig n_cap oa izs wis dens nm zs cs es
         d_source src_x src_y sigx sigy shx shy hp len ens err s W A O
    (P1 & P2 & P3 & P4 & P5 & P6 & P7 & P8 & P9 & P10 & P11) (G1 & G2 & G3 & G4 & G5) GW PA E (B1 & B2 & B3 & B4 & B5 & B6).
  destruct (norm_weights_one _ GW) as [N1 N2].
  eapply wp_mono.
  - eapply (sn_ok d liz lwi lp lz lc le sig n_cap oa izs wis dens nm zs cs es d_source src_x src_y sigx sigy shx shy hp); eauto.
    + apply desc_args_R; auto.
    + apply src_args_R; auto.
  - cbn beta. intros r s' (_ & p & x0 & lr & lg & d' & x1 & x2 & x3 & x4 & x5 & x6 & -> & SO & DO & ND & F & X).
    rewrite N2 in DO. exists p, x0, lr, lg, d', x1, x2, x3, x4, x5, x6. eexists. split; [reflexivity|]. split; [exact SO|]. split; [exact DO|]. auto.
Qed.

(** ** C28 *)
Theorem C28_rejects :
  forall desc coords dir elecv err (s : st R),
    wf s -> legal_err s err -> (err <> None -> allocs_succeed 2 s) ->
    ~ (desc <> NULL /\ 0 <= vz coords /\ 0 <= vz dir) ->
    wp (photon_new desc coords dir elecv err)
       (fun r s' => r = NULL /\ exists m, error_reported err POLYCAP_ERROR_INVALID_ARGUMENT m s s') s.
Proof.
  intros desc coords dir elecv err s W L A Bad. apply pn_badarg; auto.
  { intros K. specialize (A K). split; [rewrite <- (Nat.add_0_r (cnt s)); apply A; lia|].
    replace (S (cnt s)) with (cnt s + 1)%nat by lia. apply A. lia. }
  rnum. destruct desc as [dl|]; [right|auto].
  destruct (Rlt_dec (vz coords) 0); [left; apply Rltb_true; auto|]. right.
  destruct (Rlt_dec (vz dir) 0); [apply Rltb_true; auto|].
  exfalso. apply Bad. repeat split; [discriminate|lra|lra].
Qed.

Theorem C28_accepts :
  forall d coords dir elecv err (s : st R),
    wf s -> allocs_succeed 1 s -> 0 <= vz coords -> 0 <= vz dir ->
    wp (photon_new (Some d) coords dir elecv err)
       (fun r s' => exists p, r = Some p /\ mem s p = None /\
          mem s' p = Some (photon_block (Some d) NULL NULL 0 0
                             coords dir elecv  (* start *)
                             coords dir elecv  (* exit *)
                             (mkV 0 0 0) 0 NULL NULL NULL NULL 0 0) /\
          same_memory_except [p] s s') s.
Proof.
  intros d coords dir elecv err s W A H1 H2. eapply wp_mono.
  - apply pn_ok; auto; [rewrite <- (Nat.add_0_r (cnt s)); apply A; lia| |]; rnum; apply Rltb_false; lra.
  - cbn beta. intros r s' (_ & p & -> & M & O & X). exists p. auto.
Qed.

Theorem C28_out_of_memory :
  forall d coords dir elecv err (s : st R),
    wf s -> legal_err s err -> (err <> None -> isolated_failures s) -> orc s (cnt s) = false ->
    0 <= vz coords -> 0 <= vz dir ->
    wp (photon_new (Some d) coords dir elecv err)
       (fun r s' => r = NULL /\ exists m, error_reported err POLYCAP_ERROR_MEMORY m s s') s.
Proof.
  intros d coords dir elecv err s W L Iso A H1 H2. apply pn_oom; auto; rnum; apply Rltb_false; lra.
Qed.

(** ** C39: leak getters; [ext] selects external (true) or internal leaks. *)
Definition get_leaks (ext : bool) : ptr -> ptr -> ptr -> eslot -> M R bool :=
  if ext then get_extleak_data else get_intleak_data.

Theorem C39_copies :
  forall (ext : bool) p desc x i nx ni start sdir selec exit edir eelec src nen en w a f irefl dt arr ls ds
         leaksp np v1 v2 err (s : st R),
    wf s -> allocs_succeed (1 + 2 * List.length ls) s ->
    mem s p = Some (photon_block desc x i nx ni start sdir selec exit edir eelec src nen en w a f irefl dt) ->
    (if ext then x else i) = Some arr -> (if ext then nx else ni) = Z.of_nat (List.length ls) -> ls <> [] ->
    leak_array s arr ls ds ->
    mem s leaksp = Some [v1] -> mem s np = Some [v2] -> leaksp <> np ->
    p <> leaksp -> p <> np -> arr <> leaksp -> arr <> np ->
    (forall l, In l (leak_blocks ls) -> l <> leaksp /\ l <> np) ->
    wp (get_leaks ext (Some p) (Some leaksp) (Some np) err)
       (fun r s' => r = true /\ exists out ls',
          mem s' np = Some [Vint (Z.of_nat (List.length ls))] /\ mem s' leaksp = Some [Vptr (Some out)] /\
          leak_array s' out ls' ds /\ NoDup (out :: leak_blocks ls') /\
          all_free s (out :: leak_blocks ls') /\
          same_memory_except (leaksp :: np :: out :: leak_blocks ls') s s') s.
Proof.
  intros ext p desc x i nx ni start sdir selec exit edir eelec src nen en w a f irefl dt arr ls ds
         leaksp np v1 v2 err s W A Mp Hx Hn Hne La M1 M2 D1 D2 D3 D4 D5 D6.
  destruct ext; subst.
  - eapply wp_get_leaks with (arr := arr) (ls := ls) (ds := ds); eauto; reflexivity.
  - eapply wp_get_leaks with (arr := arr) (ls := ls) (ds := ds); eauto; reflexivity.
Qed.

Theorem C39_none :
  forall (ext : bool) p desc x i nx ni start sdir selec exit edir eelec src nen en w a f irefl dt
         leaksp np v1 v2 err (s : st R),
    wf s -> legal_err s err -> (err <> None -> allocs_succeed 2 s) ->
    mem s p = Some (photon_block desc x i nx ni start sdir selec exit edir eelec src nen en w a f irefl dt) ->
    (if ext then nx else ni) = 0%Z ->
    mem s leaksp = Some [v1] -> mem s np = Some [v2] -> leaksp <> np -> err <> Some leaksp -> err <> Some np ->
    wp (get_leaks ext (Some p) (Some leaksp) (Some np) err)
       (fun r s' => r = false /\ mem s' np = Some [Vint 0] /\ mem s' leaksp = Some [Vptr NULL] /\
          (forall e, err = Some e -> slot_holds s e NULL ->
             exists x t m, slot_holds s' e (Some x) /\ error_object s' x t POLYCAP_ERROR_INVALID_ARGUMENT m)) s.
Proof.
  intros ext p desc x i nx ni start sdir selec exit edir eelec src nen en w a f irefl dt
         leaksp np v1 v2 err s W L A Mp Hn M1 M2 D1 D2 D3.
  assert (A' : err <> None -> orc s (cnt s) = true /\ orc s (S (cnt s)) = true).
  { intros K. specialize (A K). split; [rewrite <- (Nat.add_0_r (cnt s)); apply A; lia|].
    replace (S (cnt s)) with (cnt s + 1)%nat by lia. apply A. lia. }
  assert (Post : forall r (s' : st R), r = false /\ mem s' np = Some [Vint 0] /\ mem s' leaksp = Some [Vptr NULL] /\
        (exists m, error_reported err POLYCAP_ERROR_INVALID_ARGUMENT m
          (setmem s (upd (upd (mem s) np (Some [Vint 0])) leaksp (Some [Vptr NULL]))) s') ->
     r = false /\ mem s' np = Some [Vint 0] /\ mem s' leaksp = Some [Vptr NULL] /\
          (forall e, err = Some e -> slot_holds s e NULL ->
             exists x t m, slot_holds s' e (Some x) /\ error_object s' x t POLYCAP_ERROR_INVALID_ARGUMENT m)).
  { intros r s' (-> & E1 & E2 & m & E3). repeat split; auto. intros e -> Hs. destruct E3 as [E3 _].
    destruct E3 as (y & t & Y1 & Y2 & _).
    { unfold slot_holds, setmem. cbn [mem]. rewrite !upd_other by congruence. exact Hs. }
    exists y, t, m. auto. }
  destruct ext; subst.
  - eapply wp_mono; [eapply (wp_get_leaks_none F_EXTLEAK F_NEXT); eauto; reflexivity|]. exact Post.
  - eapply wp_mono; [eapply (wp_get_leaks_none F_INTLEAK F_NINT); eauto; reflexivity|]. exact Post.
Qed.

(** ** C50: NaN passes the guards (binary64, any libm). *)
Theorem C50_nan_photon_refuted :
  forall (lm : libm) d (coords dir elecv : vec3 float) err (s : st float),
    wf s -> allocs_succeed 1 s ->
    PrimFloat.eqb (vz coords) (vz coords) = false -> PrimFloat.eqb (vz dir) (vz dir) = false ->
    wp (@photon_new float (FNum lm) (Some d) coords dir elecv err) (fun r _ => r <> NULL) s.
Proof.
  intros lm d coords dir elecv err s W A H1 H2. eapply wp_mono.
  - apply (@pn_ok float (FNum lm) d coords dir elecv err s); auto.
    + rewrite <- (Nat.add_0_r (cnt s)); apply A; lia.
    + cbn [nltb FNum]. apply ltb_nan_l. unfold is_nan. now rewrite H1.
    + cbn [nltb FNum]. apply ltb_nan_l. unfold is_nan. now rewrite H2.
  - cbn beta. intros r s' (_ & p & -> & _). discriminate.
Qed.

Theorem C50_nan_source_refuted :
  forall (lm : libm) d liz lwi lp lz lc le sig n_cap oa izs wis dens nm zs cs es
         d_source src_x src_y sigx sigy shx shy hp len (ens : list float) err (s : st float),
    wf s -> allocs_succeed 11 s ->
    description_object s d liz lwi lp lz lc le sig n_cap oa izs wis dens nm zs cs es ->
    (0 <= nm)%Z -> List.length zs = Z.to_nat (nm + 1) -> List.length cs = Z.to_nat (nm + 1) -> List.length es = Z.to_nat (nm + 1) ->
    List.length wis = List.length izs -> @desc_args_ok float (FNum lm) sig n_cap izs dens ->
    snd (@norm_weights float (FNum lm) wis) = true ->
    @profile_validate float (FNum lm) (mkProfile (Z.to_nat nm) zs cs es) n_cap = Some 1%Z ->
    dbl_array s len ens -> (1 <= List.length ens)%nat ->
    (forall x, In x ([d_source; src_x; src_y; hp] ++ ens) -> PrimFloat.eqb x x = false) ->
    wp (@source_new float (FNum lm) (Some d) d_source src_x src_y sigx sigy shx shy hp (List.length ens) (Some len) err)
       (fun r _ => r <> NULL) s.
Proof.
  intros lm d liz lwi lp lz lc le sig n_cap oa izs wis dens nm zs cs es
         d_source src_x src_y sigx sigy shx shy hp len ens err s W A O Hn L1 L2 L3 L4 Da Nw Pv Ae Le Nan.
  eapply wp_mono.
  - eapply (@sn_ok float (FNum lm) d liz lwi lp lz lc le sig n_cap oa izs wis dens nm zs cs es d_source src_x src_y sigx sigy shx shy hp); eauto.
    assert (NN : forall x, In x ([d_source; src_x; src_y; hp] ++ ens) -> is_nan x = true)
      by (intros x Hx; unfold is_nan; now rewrite Nan).
    unfold src_args_ok. cbn [nleb nltb nabs FNum].
    rewrite !leb_nan_l by (apply NN; cbn; tauto).
    split; [reflexivity|]. split; [reflexivity|]. split; [reflexivity|]. split; [|split; [exact Le|]].
    + assert (Ab : is_nan (PrimFloat.abs hp) = true).
      { apply SF_nan_is_nan. rewrite FloatAxioms.abs_spec, (is_nan_SF hp) by (apply NN; cbn; tauto). reflexivity. }
      rewrite FloatAxioms.ltb_spec, (is_nan_SF _ Ab). destruct (Prim2SF (nofZ 1)) as [[]|[]| |[] ? ?]; reflexivity.
    + apply forallb_forall. intros x Hx. unfold en_in_range. cbn [nltb FNum].
      assert (Nx : is_nan x = true) by (apply NN, in_or_app; auto).
      rewrite ltb_nan_l by exact Nx. rewrite FloatAxioms.ltb_spec, (is_nan_SF _ Nx). destruct (Prim2SF (nofZ 100)) as [[]|[]| |[] ? ?]; reflexivity.
  - cbn beta. intros r s' (_ & p & x0 & lr & lg & d' & x1 & x2 & x3 & x4 & x5 & x6 & -> & _). discriminate.
Qed.

(** ** C53: an error already stored is kept — false: an occupied slot is cleared and
    overwritten when polycap_description_new refuses a profile. *)
Theorem C53_stored_error_lost_refuted :
  forall p lz lc le n zs cs es sig n_cap liz lwi izs wis dens v e x0 t0 c0 m0 (s : st R),
    wf s -> memory_available s -> slot_holds s e (Some x0) -> error_object s x0 t0 c0 m0 ->
    caller_data s p lz lc le n zs cs es liz lwi izs wis ->
    good_description sig n_cap izs dens -> good_weights wis ->
    profile_validate (mkProfile (Z.to_nat n) zs cs es) n_cap = Some v -> v <> 1%Z ->
    wp (description_new (Some p) sig n_cap (List.length izs) (Some liz) (Some lwi) dens (Some e))
      (fun r s' => exists x t m, slot_holds s' e (Some x) /\ error_object s' x t POLYCAP_ERROR_INVALID_ARGUMENT m /\
         (x0 <> x -> x0 <> t -> mem s' x0 = None)) s.
Proof.
  intros p lz lc le n zs cs es sig n_cap liz lwi izs wis dens v e x0 t0 c0 m0 s W A L E0
    (P1 & P2 & P3 & P4 & P5 & P6 & P7 & P8 & P9 & P10 & P11) (G1 & G2 & G3 & G4 & G5) GW PV PN.
  destruct (good_weights_norm _ GW) as [N1 N2].
  eapply wp_mono.
  - apply (dn_bad_profile_err p lz lc le n zs cs es sig n_cap (List.length izs) liz lwi izs wis dens v e (Some (x0, t0)) s); auto.
    + split; [exact L|]. eauto.
    + apply desc_args_R; auto.
  - cbn beta. intros r s' (-> & x & t & m & lk & S & E & _ & _ & G & _). exists x, t, m. split; [exact S|]. split; [exact E|].
    intros K1 K2. apply G; auto. left. reflexivity.
Qed.

(** *** The hypotheses are met: the two-shell optic of PropGeom ([fine], 19 capillaries)
    made of quartz glass, in a small heap with a description object built from it. *)
Definition blocks_of (l : list (@block R)) : loc -> option block := fun i => nth_error l i.
Definition demo_heap (wis : list R) : list (@block R) :=
  [ [Vptr NULL];                                                         (* 0: error variable *)
    [Vint 1; Vptr (Some 2%nat); Vptr (Some 3%nat); Vptr (Some 4%nat)];  (* 1: profile *)
    map Vdbl [0; 1]; map Vdbl [0.1; 0.05]; map Vdbl [1; 0.5];           (* 2-4: z, cap, ext *)
    map Vint [14; 8]%Z; map Vdbl wis;                                    (* 5, 6: composition *)
    [Vdbl 5; Vint 19; Vdbl 0; Vint 2; Vptr (Some 8%nat); Vptr (Some 9%nat); Vdbl 2.2; Vptr (Some 10%nat)]; (* 7: description *)
    map Vint [14; 8]%Z; map Vdbl wis;
    [Vint 1; Vptr (Some 11%nat); Vptr (Some 12%nat); Vptr (Some 13%nat)];
    map Vdbl [0; 1]; map Vdbl [0.1; 0.05]; map Vdbl [1; 0.5];
    map Vdbl [10; 20];                                                   (* 14: energies *)
    [Vint 2; Vptr (Some 16%nat)]; [Vstr "io"] ].                         (* 15, 16: an error object *)
Definition demo (wis : list R) : st R := mkSt (blocks_of (demo_heap wis)) 17%nat (fun _ => true) 0%nat.

Example demo_meets : forall wis, List.length wis = 2%nat ->
  wf (demo wis) /\ memory_available (demo wis) /\ allocs_succeed 11 (demo wis) /\
  slot_holds (demo wis) 0%nat NULL /\ legal_err (demo wis) (Some 0%nat) /\
  caller_data (demo wis) 1%nat 2%nat 3%nat 4%nat 1 [0; 1] [0.1; 0.05] [1; 0.5] 5%nat 6%nat [14; 8]%Z wis /\
  description_object (demo wis) 7%nat 8%nat 9%nat 10%nat 11%nat 12%nat 13%nat 5 19 0 [14; 8]%Z wis 2.2 1 [0; 1] [0.1; 0.05] [1; 0.5] /\
  caller_data (demo wis) 10%nat 11%nat 12%nat 13%nat 1 [0; 1] [0.1; 0.05] [1; 0.5] 8%nat 9%nat [14; 8]%Z wis /\
  good_description 5 19 [14; 8]%Z 2.2 /\ profile_accepted 1 [0; 1] [0.1; 0.05] [1; 0.5] 19 /\
  dbl_array (demo wis) 14%nat [10; 20] /\ good_source 100 0.1 0.1 0.5 [10; 20] /\
  error_object (demo wis) 15%nat 16%nat POLYCAP_ERROR_IO "io".
Proof.
  intros wis L.
  assert (V : profile_accepted 1 [0; 1] [0.1; 0.05] [1; 0.5] 19) by apply fine_ok.
  split. { intros l Hl. cbn in *. unfold blocks_of. apply nth_error_None. cbn. lia. }
  split; [intros n; reflexivity|]. split; [intros n _; reflexivity|]. split; [reflexivity|]. split; [exists NULL; reflexivity|].
  assert (ND : NoDup [7; 8; 9; 10; 11; 12; 13]%nat) by (repeat constructor; cbn; lia).
  assert (CD : forall k, (k = 1 \/ k = 10)%nat -> caller_data (demo wis) k (k + 1)%nat (k + 2)%nat (k + 3)%nat 1 [0; 1] [0.1; 0.05] [1; 0.5]
            (if Nat.eqb k 1 then 5 else 8)%nat (if Nat.eqb k 1 then 6 else 9)%nat [14; 8]%Z wis).
  { intros k [-> | ->]; unfold caller_data; (do 4 (split; [reflexivity|])); (split; [lia|]); repeat (split; [reflexivity|]); exact L. }
  split; [apply (CD 1%nat); auto|]. split; [unfold description_object; repeat (split; [reflexivity|]); exact ND|].
  split; [apply (CD 10%nat); auto|].
  split; [unfold good_description; split; [lra|]; split; [lia|]; split; [cbn; lia|]; split; [lra|]; repeat constructor; lia|].
  split; [exact V|]. split; [reflexivity|].
  split; [repeat split; try lra; cbn; auto; repeat constructor; lra|].
  repeat split. discriminate.
Qed.
(** fractions 0.4 and 0.6, percentages 40 and 60, and the bad ones 0.5 and 0.4 *)
Example weights_met : good_weights [0.4; 0.6] /\ good_weights [40; 60] /\ ~ good_weights [0.5; 0.4] /\ Rsum [0.4; 0.6] = 1 /\
  as_fractions [40; 60] = [40 / 100; 60 / 100].
Proof.
  assert (S1 : Rsum [0.4; 0.6] = 1) by (unfold Rsum; cbn; lra).
  assert (S2 : Rsum [40; 60] = 100) by (unfold Rsum; cbn; lra).
  assert (S3 : Rsum [0.5; 0.4] = 0.9) by (unfold Rsum; cbn; lra).
  unfold good_weights. split; [left; exact S1|]. split; [right; split; [exact S2|repeat constructor; lra]|].
  split; [rewrite S3; intros [K|[K _]]; lra|]. split; [exact S1|].
  - unfold as_fractions. destruct (Rle_dec (Rsum [40; 60]) 1) as [K|K]; [unfold Rsum in K; cbn in K; lra|reflexivity].
Qed.
(** a refused profile: one shell, capillaries wider than the optic *)
Example refused_met : exists v, profile_validate (mkProfile (Z.to_nat 1) [0; 1] [3; 3] [2; 2]) 7 = Some v /\ v <> 1%Z.
Proof.
  set (p := mkProfile (Z.to_nat 1) [0; 1] [3; 3] [2; 2]).
  assert (W : profile_wf p) by (repeat split).
  assert (Pos : forall i, (i <= p_nmax p)%nat -> 0 < ext_at p i /\ 0 < cap_at p i) by (intros [|[|i]] Hi; cbn in *; try lra; lia).
  assert (S7 : n_shells 7 = IZR 1) by apply seven.
  pose proof (C11_validate_closed_form p 7 1 W ltac:(lia) ltac:(lia) S7 Pos) as CF.
  destruct (profile_validate p 7) as [v|] eqn:E.
  - exists v. split; auto. intros ->. destruct CF as [CF _]. specialize (CF eq_refl 0%nat ltac:(cbn; lia)).
    cbv [cap_at ext_at p_cap p_ext nth p] in CF. rewrite sq4 in CF. unfold pitch in CF. cbn in CF. lra.
  - exfalso. destruct (C11_validate_range p 7 W) as [K|[K|K]]; rewrite E in K; discriminate.
Qed.
(** an allocation failure that is isolated, at any of the seven allocations *)
Example failure_met : forall k, (k < 7)%nat -> exists s : st R, wf s /\ isolated_failures s /\ ~ allocs_succeed 7 s.
Proof.
  intros k Hk. exists (mkSt (fun _ => None) 0%nat (fun n => negb (Nat.eqb n k)) 0%nat).
  split; [intros l _; reflexivity|]. split.
  - intros n Hn. cbn [orc] in *. apply negb_false_iff, Nat.eqb_eq in Hn. subst n.
    split; apply negb_true_iff, Nat.eqb_neq; lia.
  - intros H. specialize (H k Hk). cbn [orc cnt] in H. rewrite Nat.add_0_l in H. rewrite Nat.eqb_refl in H. discriminate.
Qed.
(** two leaks with weights, in memory *)
Definition leak_heap : list (@block R) :=
  [ [Vptr (Some 1%nat); Vptr (Some 3%nat)];
    vcells (mkV 1 2 3) ++ vcells (mkV 0 0 1) ++ vcells (mkV 0 1 0) ++ [Vint 2; Vptr (Some 2%nat); Vint 4];
    map Vdbl [0.5; 0.25];
    vcells (mkV 4 5 6) ++ vcells (mkV 0 0 1) ++ vcells (mkV 0 1 0) ++ [Vint 2; Vptr (Some 4%nat); Vint 7];
    map Vdbl [0.1; 0.2] ].
Example leaks_met :
  leak_array (mkSt (blocks_of leak_heap) 5%nat (fun _ => true) 0%nat) 0%nat [(1, 2); (3, 4)]%nat
    [mkLeak (mkV 1 2 3) (mkV 0 0 1) (mkV 0 1 0) 4 [0.5; 0.25]; mkLeak (mkV 4 5 6) (mkV 0 0 1) (mkV 0 1 0) 7 [0.1; 0.2]] /\
  NoDup (0%nat :: leak_blocks [(1, 2); (3, 4)]%nat).
Proof. split; [repeat split; repeat constructor|]. repeat constructor; cbn; lia. Qed.

Print Assumptions C15_rejects.
Print Assumptions C15_accepts.
Print Assumptions C16_object_and_error_refuted.
Print Assumptions C86_bad_profile.
Print Assumptions C87_weights.
Print Assumptions C17_rounding_refuted.
Print Assumptions C54_negative_fraction_refuted.
Print Assumptions C99_fractions.
Print Assumptions C19_description_deep_copy.
Print Assumptions C19_source_deep_copy.
Print Assumptions C20_profile.
Print Assumptions C20_profile_from_arrays.
Print Assumptions C20_description.
Print Assumptions C20_source.
Print Assumptions C20_photon.
Print Assumptions C20_photon_with_results.
Print Assumptions C20_leak.
Print Assumptions C20_free_null.
Print Assumptions C89_description_out_of_memory.
Print Assumptions C21_refused_profile_refuted.
Print Assumptions C89_source_out_of_memory.
Print Assumptions C21_source_energies_refuted.
Print Assumptions C21_source_rng_refuted.
Print Assumptions C22_rejects.
Print Assumptions C22_accepts.
Print Assumptions C28_rejects.
Print Assumptions C28_accepts.
Print Assumptions C28_out_of_memory.
Print Assumptions C39_copies.
Print Assumptions C39_none.
Print Assumptions C50_nan_photon_refuted.
Print Assumptions C50_nan_source_refuted.
Print Assumptions C53_stored_error_lost_refuted.
