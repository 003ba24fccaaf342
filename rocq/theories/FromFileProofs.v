(** * Proofs about polycap_source_new_from_file *)
From Coq Require Import ZArith List Bool Lia Reals Lra.
From Verif Require Import Num ErrorModel ProfileModel ProfileProofs Geometry ConsModel DescProofs SrcProofs SourceModel FromFile
  SpecGeom HexProofs RingProofs PackProofs ConsReal ProfileReal.
Import ListNotations.
Local Open Scope R_scope.

Section P.
Variable fit : list (R * R) -> R * R * R.
Variable pff : list (token R) -> option (profile R) * list (token R).
Notation from_file := (source_from_file fit pff).

(** Accepted by the final checks. *)
Lemma finish_accepts e f0 e' f : finish e f0 = FDone e' (Some f) ->
  file_checks f = false /\ profile_validate (fs_prof f) (fs_ncap f) = Some 1%Z /\
  fs_nums f = fs_nums f0 /\ fs_energies f = fs_energies f0 /\ fs_sig f = fs_sig f0 /\ fs_ncap f = fs_ncap f0 /\
  fs_iz f = fs_iz f0 /\ fs_dens f = fs_dens f0 /\ fs_prof f = fs_prof f0 /\
  fs_wi f = fst (norm_weights (fs_wi f0)) /\
  e' = (if snd (norm_weights (fs_wi f0)) then e else report e POLYCAP_ERROR_INVALID_ARGUMENT).
Proof.
  unfold finish. destruct (p_cap (fs_prof f0)) as [|c0 ?]; [discriminate|]. destruct (p_ext (fs_prof f0)) as [|e0 ?]; [discriminate|].
  set (g := mkFS _ _ _ _ _ _ _ _ _). destruct (file_checks g) eqn:E; [discriminate|].
  destruct (profile_validate (fs_prof g) (fs_ncap g)) as [v|] eqn:V; [|discriminate].
  destruct (Z.eqb_spec v 1) as [->|]; [|discriminate]. intros K. inversion K; subst. unfold g in *. cbn in *. repeat split; auto.
Qed.

Lemma read1_done {A} g o e ts (k : option A -> list (token R) -> fres R) e' f :
  read1 g o e ts k = FDone e' (Some f) -> exists a ts', k a ts' = FDone e' (Some f).
Proof. unfold read1. destruct (scan1 g o ts) as [[n a] ts']. destruct (Z.eqb n 0); [discriminate|eauto]. Qed.
Lemma read2_done o1 o2 e ts (k : option R -> option R -> list (token R) -> fres R) e' f :
  read2 o1 o2 e ts k = FDone e' (Some f) -> exists a b ts', k a b ts' = FDone e' (Some f).
Proof. unfold read2. destruct (scan2 as_dbl as_dbl o1 o2 ts) as [[[n a] b] ts']. destruct (Z.eqb n 0); [discriminate|eauto]. Qed.
Lemma need_done {A} (a : option A) (k : A -> fres R) e' f :
  need a k = FDone e' (Some f) -> exists v, a = Some v /\ k v = FDone e' (Some f).
Proof. destruct a; cbn; [eauto|discriminate]. Qed.

Lemma from_file_inv e ts e' f : from_file e ts = FDone e' (Some f) ->
  exists f0 e_start e_final delta n, finish e f0 = FDone e' (Some f) /\
    ntoZ ((e_final - e_start) / delta + 1) = Some n /\ (0 <= n)%Z /\
    fs_energies f0 = file_energies e_start delta (Z.to_nat n).
Proof.
  unfold source_from_file. intros H.
  apply read1_done in H. destruct H as (sig & t1 & H).
  apply read1_done in H. destruct H as (d & t2 & H).
  apply read2_done in H. destruct H as (x & y & t3 & H).
  apply read2_done in H. destruct H as (sx & sy & t4 & H).
  apply read2_done in H. destruct H as (hx & hy & t5 & H).
  apply read1_done in H. destruct H as (pol & t6 & H).
  apply read1_done in H. destruct H as (ne & t7 & H).
  apply need_done in H. destruct H as (nelem & _ & H).
  apply need_done in H. destruct H as ([[zs ws] t8] & _ & H).
  destruct (scan1 as_dbl (Some (#0)%num) t8) as [[x1 dens] t9].
  apply need_done in H. destruct H as ([es t10] & _ & H).
  destruct es as [|e1 [|e2 [|e3 [|]]]]; try discriminate.
  apply need_done in H. destruct H as (n & Hn & H).
  destruct (Z.ltb_spec n 0) as [|Pn]; [discriminate|].
  destruct (scan1 as_int None t10) as [[x2 x3] t11]. destruct (scan1 as_int None t11) as [[x4 ty] t12].
  apply need_done in H. destruct H as (type & _ & H).
  apply need_done in H. destruct H as ([prof t13] & _ & H). destruct prof as [prof|]; [|discriminate].
  destruct (scan1 as_int (Some 0%Z) t13) as [[x5 nc] t14].
  do 11 (apply need_done in H; destruct H as (? & _ & H)).
  eexists _, e1, e2, e3, n. split; [exact H|]. split; [exact Hn|]. split; [exact Pn|]. reflexivity.
Qed.

Lemma file_checks_R (f : file_source R) : file_checks f = false ->
  0 <= so_d (fs_nums f) /\ 0 <= so_x (fs_nums f) /\ 0 <= so_y (fs_nums f) /\
  (1 <= List.length (fs_energies f))%nat /\ Forall (fun x => 1 <= x <= 100) (fs_energies f) /\
  (1 <= fs_ncap f)%Z /\ 0 <= fs_open f <= 1 /\
  (1 <= List.length (fs_iz f))%nat /\ Forall (fun z => 1 <= z <= 94)%Z (fs_iz f) /\ 0 <= fs_dens f.
Proof.
  unfold file_checks. rewrite !orb_false_iff. rnum.
  intros (((((((((H1 & H2) & H3) & H4) & H5) & H6) & (H7 & H7')) & H8) & H9) & H10).
  assert (F : forall a b, Rltb a b = false -> b <= a) by (intros a b K; destruct (Rltb_spec a b); [discriminate|lra]).
  apply F in H1, H2, H3, H7, H7', H10.
  apply Nat.leb_gt in H4. apply Z.ltb_ge in H6. apply Nat.ltb_ge in H8.
  repeat split; auto; try lia.
  - apply Forall_forall. intros x Hx. destruct (Rlt_dec x 1) as [L|L].
    { exfalso. assert (K : existsb (fun x => Rltb x 1 || Rltb 100 x) (fs_energies f) = true)
        by (apply existsb_exists; exists x; split; auto; rewrite Rltb_true; auto). congruence. }
    destruct (Rlt_dec 100 x) as [L2|L2].
    { exfalso. assert (K : existsb (fun x => Rltb x 1 || Rltb 100 x) (fs_energies f) = true)
        by (apply existsb_exists; exists x; split; auto; rewrite (Rltb_true 100); auto; apply orb_true_r). congruence. }
    lra.
  - apply Forall_forall. intros x Hx. destruct (Z_le_dec 1 x), (Z_le_dec x 94); try lia; exfalso;
    (assert (K : existsb (fun z => Z.ltb z 1 || Z.ltb 94 z) (fs_iz f) = true);
     [apply existsb_exists; exists x; split; auto; apply orb_true_iff; rewrite !Z.ltb_lt; lia|congruence]).
Qed.

(** Energies of an accepted file. *)
Lemma file_energies_bounds e_start e_final delta n i x :
  0 < delta -> ntoZ ((e_final - e_start) / delta + 1) = Some n -> (0 <= n)%Z ->
  nth_error (file_energies e_start delta (Z.to_nat n)) i = Some x ->
  x = e_start + IZR (Z.of_nat i) * delta /\ e_start <= x <= e_final.
Proof.
  intros Pd Hn Pn H. unfold file_energies in H. rewrite nth_error_map in H.
  destruct (nth_error (seq 0 (Z.to_nat n)) i) as [k|] eqn:E; [|discriminate].
  assert (Li : (i < Z.to_nat n)%nat) by (rewrite <- (seq_length (Z.to_nat n) 0); apply nth_error_Some; congruence).
  apply nth_error_nth with (d := 0%nat) in E. rewrite seq_nth in E by exact Li. cbn in E. subst k.
  cbn in H. inversion H; subst. clear H. split; [reflexivity|].
  assert (0 <= IZR (Z.of_nat i)) by (apply IZR_le; lia).
  split; [nra|].
  revert Hn. rnum. unfold R_trunc. destruct (Rle_dec 0 ((e_final - e_start) / delta + 1)) as [L|L]; intros K; inversion K as [K']; clear K.
  - pose proof (Int_part_bounds ((e_final - e_start) / delta + 1)) as B. rewrite K' in B.
    assert (IZR (Z.of_nat i) <= IZR n - 1) by (rewrite <- minus_IZR; apply IZR_le; lia).
    assert (Q : IZR (Z.of_nat i) <= (e_final - e_start) / delta) by lra.
    apply Rmult_le_compat_r with (r := delta) in Q; [|lra].
    replace ((e_final - e_start) / delta * delta) with (e_final - e_start) in Q by (field; lra). lra.
  - pose proof (Int_part_bounds (- ((e_final - e_start) / delta + 1))) as B.
    assert (0 < IZR (Int_part (- ((e_final - e_start) / delta + 1))) + 1) by lra.
    replace 1 with (IZR 1) in H0 at 2 by reflexivity. rewrite <- plus_IZR in H0. apply lt_IZR in H0. lia.
Qed.

(** sig_rough and hor_pol are not looked at. *)
Lemma from_file_unchecked e t0 t1 t2 t3 t4 t5 t6 t7 t8 rest e' f sig' pol' t0' t8' :
  from_file e (t0 :: t1 :: t2 :: t3 :: t4 :: t5 :: t6 :: t7 :: t8 :: rest) = FDone e' (Some f) ->
  Forall (fun t => as_dbl t <> None) [t0; t1; t2; t3; t4; t5; t6; t7; t8] ->
  as_dbl t0' = Some sig' -> as_dbl t8' = Some pol' ->
  exists f', from_file e (t0' :: t1 :: t2 :: t3 :: t4 :: t5 :: t6 :: t7 :: t8' :: rest) = FDone e' (Some f') /\
    fs_sig f' = sig' /\ so_pol (fs_nums f') = pol'.
Proof.
  intros H F S' P'.
  assert (G : forall t, In t [t0; t1; t2; t3; t4; t5; t6; t7; t8] -> exists v, as_dbl t = Some v).
  { intros t Ht. rewrite Forall_forall in F. specialize (F t Ht). destruct (as_dbl t); [eauto|congruence]. }
  destruct (G t0) as [v0 E0]; [cbn; tauto|]. destruct (G t1) as [v1 E1]; [cbn; tauto|]. destruct (G t2) as [v2 E2]; [cbn; tauto|].
  destruct (G t3) as [v3 E3]; [cbn; tauto|]. destruct (G t4) as [v4 E4]; [cbn; tauto|]. destruct (G t5) as [v5 E5]; [cbn; tauto|].
  destruct (G t6) as [v6 E6]; [cbn; tauto|]. destruct (G t7) as [v7 E7]; [cbn; tauto|]. destruct (G t8) as [v8 E8]; [cbn; tauto|].
  clear F G. revert H. unfold source_from_file, read1, read2, scan2, scan1.
  repeat (progress (rewrite ?E0, ?E1, ?E2, ?E3, ?E4, ?E5, ?E6, ?E7, ?E8, ?S', ?P'; cbn [Z.eqb Pos.eqb])).
  destruct (match rest with [] => _ | _ => _ end) as [[n a] ts] eqn:ER.
  destruct (Z.eqb n 0); [discriminate|]. clear ER.
  destruct a as [nelem|]; cbn [need]; [|discriminate].
  destruct (read_elems (Z.to_nat nelem) ts) as [[[zs ws] ts']|]; cbn [need]; [|discriminate].
  destruct (match ts' with [] => _ | _ => _ end) as [[x1 dens] ts2].
  destruct (read_dbl_vars 3 ts2) as [[es ts3]|]; cbn [need]; [|discriminate].
  destruct es as [|e1 [|e2 [|e3 [|]]]]; try discriminate.
  destruct (ntoZ _) as [n2|]; cbn [need]; [|discriminate]. destruct (Z.ltb n2 0); [discriminate|].
  destruct (match ts3 with [] => _ | _ => _ end) as [[x2 x3] ts4].
  destruct (match ts4 with [] => _ | _ => _ end) as [[x4 ty] ts5].
  destruct ty as [ty|]; cbn [need]; [|discriminate].
  destruct (read_profile fit pff ty ts5) as [[prof ts6]|]; cbn [need]; [|discriminate].
  destruct prof as [prof|]; [|discriminate].
  destruct (match ts6 with [] => _ | _ => _ end) as [[x5 nc] ts7].
  destruct nc as [nc|]; cbn [need]; [|discriminate]. destruct dens as [dens|]; cbn [need]; [|discriminate].
  unfold finish. cbn [fs_wi fs_prof fs_nums fs_energies fs_sig fs_ncap fs_iz fs_dens].
  destruct (p_cap prof) as [|c0 ?]; [discriminate|]. destruct (p_ext prof) as [|ex0 ?]; [discriminate|].
  unfold file_checks. cbn [fs_wi fs_prof fs_nums fs_energies fs_sig fs_ncap fs_iz fs_dens fs_open so_d so_x so_y].
  match goal with |- context [if ?b then FDone _ None else _] => destruct b; [discriminate|] end.
  destruct (profile_validate prof nc) as [v|]; [|discriminate]. destruct (Z.eqb v 1); [|discriminate].
  intros K. inversion K; subst. eexists. split; [reflexivity|]. cbn. auto.
Qed.

Lemma read1_num o e ts (k : option R -> list (token R) -> fres R) : Forall (fun t => as_dbl t <> None) ts ->
  exists a, read1 as_dbl (Some o) e ts k = k (Some a) (tl ts).
Proof.
  intros F. unfold read1, scan1. destruct ts as [|t ts]; [exists o; reflexivity|].
  apply Forall_inv in F. cbv beta in F. destruct (as_dbl t) as [v|]; [|exfalso; apply F; reflexivity]. exists v. reflexivity.
Qed.
Lemma read2_num o1 o2 e ts (k : option R -> option R -> list (token R) -> fres R) : Forall (fun t => as_dbl t <> None) ts ->
  exists a b, read2 (Some o1) (Some o2) e ts k = k (Some a) (Some b) (tl (tl ts)).
Proof.
  intros F. unfold read2, scan2, scan1. destruct ts as [|t ts]; [exists o1, o2; reflexivity|].
  pose proof (Forall_inv F) as F1. apply Forall_inv_tail in F. cbv beta in F1. destruct (as_dbl t) as [v|]; [|exfalso; apply F1; reflexivity].
  cbn [Z.eqb Pos.eqb]. destruct ts as [|u ts]; [exists v, o2; reflexivity|].
  apply Forall_inv in F. cbv beta in F. destruct (as_dbl u) as [w|]; [|exfalso; apply F; reflexivity]. exists v, w. reflexivity.
Qed.
Lemma Forall_tl {A} (P : A -> Prop) l : Forall P l -> Forall P (tl l).
Proof. intros H. destruct H; cbn; auto. Qed.

(** A file that ends before the number of elements. *)
Lemma from_file_truncated e ts : (List.length ts <= 9)%nat -> Forall (fun t => as_dbl t <> None) ts ->
  from_file e ts = FUB.
Proof.
  intros L F. unfold source_from_file.
  edestruct read1_num as [? ->]; [exact F|]. apply Forall_tl in F.
  edestruct read1_num as [? ->]; [exact F|]. apply Forall_tl in F.
  edestruct read2_num as (? & ? & ->); [exact F|]. apply Forall_tl, Forall_tl in F.
  edestruct read2_num as (? & ? & ->); [exact F|]. apply Forall_tl, Forall_tl in F.
  edestruct read2_num as (? & ? & ->); [exact F|]. apply Forall_tl, Forall_tl in F.
  edestruct read1_num as [? ->]; [exact F|].
  assert (K : tl (tl (tl (tl (tl (tl (tl (tl (tl ts)))))))) = []) by
    (clear -L; do 9 (destruct ts as [|? ts]; [reflexivity|]); destruct ts; [reflexivity|cbn in L; lia]).
  cbv beta. rewrite K. reflexivity.
Qed.

(** Not a number where the roughness should be. *)
Lemma from_file_garbage e t ts : as_dbl t = None -> from_file e (t :: ts) = FDone (report e POLYCAP_ERROR_IO) None.
Proof. intros H. unfold source_from_file, read1, scan1. rewrite H. reflexivity. Qed.

(** *** A concrete file *)
Definition dt (v : R) : token R := mkTok (Some v) None.
Definition it (z : Z) : token R := mkTok (Some (IZR z)) (Some z).

(** A file with one element (fraction [pct] percent), one energy of 10 keV, a straight
    single channel of length 10, exterior radius 1 and capillary radius 1/2. *)
Definition demo_file (sig d x y pol pct dens : R) (iz : Z) : list (token R) :=
  [dt sig; dt d; dt x; dt y; dt (-1); dt (-1); dt 0; dt 0; dt pol; it 1; it iz; dt pct; dt dens;
   dt 10; dt 10; dt 1; it 1; it 0; dt 10; dt 1; dt 1; dt (1/2); dt (1/2); dt 1; dt 1; it 1].

Lemma straight_lin a len z : prof_lin a a len z = a.
Proof. unfold prof_lin. rnum. unfold Rdiv. ring. Qed.

Definition straight : profile R :=
  mkProfile 999 (List.map (pz 10) (seq 0 npts)) (List.map (pc 10 (1/2) (1/2)) (seq 0 npts)) (List.map (pe fit 0 10 1 1 1 1) (seq 0 npts)).

Lemma straight_valid : profile_validate straight 1 = Some 1%Z.
Proof.
  assert (Ln : forall f : nat -> R, List.length (List.map f (seq 0 npts)) = S 999) by (intros f; rewrite map_length, seq_length; reflexivity).
  apply validate_mono.
  - repeat split; cbn [p_z p_cap p_ext p_nmax straight]; apply Ln.
  - change 0 with (IZR 0). apply n_shells_char; lia.
  - intros i Hi. cbn [p_nmax straight] in Hi. unfold cap_at, ext_at, straight. cbn [p_cap p_ext].
    assert (N1 : forall f : nat -> R, nth i (List.map f (seq 0 npts)) 0 = f i).
    { intros f. rewrite (nth_indep _ 0 (f 0%nat)) by (rewrite map_length, seq_length; unfold npts; lia).
      rewrite map_nth, seq_nth by (unfold npts; lia). reflexivity. }
    rewrite !N1. unfold pc, pe. cbn [Z.eqb POLYCAP_PROFILE_CONICAL]. rewrite !straight_lin. lra.
Qed.

Lemma straight_heads : exists cs es, p_cap straight = (1/2) :: cs /\ p_ext straight = 1 :: es.
Proof.
  exists (List.map (pc 10 (1/2) (1/2)) (seq 1 999)), (List.map (pe fit 0 10 1 1 1 1) (seq 1 999)).
  change (p_cap straight) with (List.map (pc 10 (1/2) (1/2)) (0%nat :: seq 1 999)).
  change (p_ext straight) with (List.map (pe fit 0 10 1 1 1 1) (0%nat :: seq 1 999)).
  generalize (seq 1 999). intros l. cbn [List.map].
  split; f_equal; unfold pc, pe; cbn [Z.eqb POLYCAP_PROFILE_CONICAL]; apply straight_lin.
Qed.

Lemma straight_open : 0 <= open_area_num 1 (1/2) 1 <= 1.
Proof.
  change (open_area_num 1 (1/2) 1) with (open_area_of 1 (1/2) 1).
  rewrite (open_area_eq 1 0); [|lia|change 0 with (IZR 0); apply n_shells_char; lia|lra].
  unfold hexagon_area, stack_size. cbn [Z.mul Z.add]. pose proof s3_bounds. pose proof PI_RGT_0. pose proof PI_4.
  assert (P : 0 < 3 * sqrt 3 / 2 * (1 * 1)) by lra.
  split; [apply Rmult_le_pos; [lra|left; apply Rinv_0_lt_compat; exact P]|].
  apply Rmult_le_reg_r with (3 * sqrt 3 / 2 * (1 * 1)); [exact P|].
  unfold Rdiv at 1. rewrite Rmult_assoc, Rinv_l by lra. lra.
Qed.

Lemma trunc_1 : ntoZ ((10 - 10) / 1 + 1) = Some 1%Z.
Proof.
  rnum. unfold R_trunc. replace ((10 - 10) / 1 + 1) with 1 by field. destruct (Rle_dec 0 1); [|lra].
  f_equal. apply Int_part_unique. lra.
Qed.

Lemma demo_file_accepted sig d x y pol pct dens iz :
  0 <= d -> 0 <= x -> 0 <= y -> 0 <= dens -> (1 <= iz <= 94)%Z -> 0 <= pct <= 100 ->
  exists f, from_file None (demo_file sig d x y pol pct dens iz) =
      FDone (if Req_EM_T pct 100 then None else Some POLYCAP_ERROR_INVALID_ARGUMENT) (Some f) /\
    fs_sig f = sig /\ fs_nums f = mkSource d x y (-1) (-1) 0 0 pol /\ fs_energies f = [10] /\
    fs_ncap f = 1%Z /\ fs_dens f = dens /\ fs_iz f = [iz] /\ fs_wi f = [pct / 100].
Proof.
  intros Hd Hx Hy Hdens Hiz Hp. unfold demo_file, source_from_file.
  unfold read1, read2, scan2, scan1. cbn [as_dbl as_int dt it Z.eqb Pos.eqb need].
  change (Z.to_nat 1) with 1%nat. cbn [read_elems]. unfold scan2, scan1. cbn [as_dbl as_int dt it Z.eqb Pos.eqb need].
  cbn [read_dbl_vars scan1 as_dbl dt need].
  change ((10 - 10) / 1 + #1)%num with ((10 - 10) / 1 + 1). rewrite trunc_1. cbn [need Z.ltb Z.compare].
  cbn [as_int it need]. unfold read_profile. cbn [Z.eqb orb read_dbl_vars scan1 as_dbl dt].
  unfold profile_value.
  assert (AE : @arg_error R RNum 10 1 1 (1/2) (1/2) 1 1 = None) by (apply arg_error_good; unfold good_args; lra).
  rewrite AE. fold straight. cbn [need as_int it].
  unfold finish. cbn [fs_wi fs_prof fs_nums fs_energies fs_sig fs_ncap fs_iz fs_dens].
  destruct straight_heads as (cs & es & -> & ->).
  assert (NW : norm_weights [(pct / #100)%num] = ([pct / 100], if Req_EM_T pct 100 then true else false)).
  { unfold norm_weights, sum_of. cbn [fold_left]. rnum. rewrite Rltb_false by lra. f_equal. unfold Reqb.
    destruct (Req_EM_T pct 100), (Req_EM_T (0 + pct / 100) 1); auto; exfalso; lra. }
  rewrite NW. cbn [fst snd].
  match goal with |- context [file_checks ?g] => assert (CK : file_checks g = false) end.
  { unfold file_checks. cbn [fs_wi fs_prof fs_nums fs_energies fs_sig fs_ncap fs_iz fs_dens fs_open so_d so_x so_y].
    change (Z.to_nat 1) with 1%nat. unfold file_energies. cbn [seq List.map List.length existsb]. rnum.
    pose proof straight_open as SO.
    rewrite !Rltb_false by (try apply SO; try lra; change (Z.of_nat 0) with 0%Z; lra).
    cbn [orb Nat.leb Nat.ltb Z.ltb Z.compare Pos.compare].
    destruct (Z.ltb_spec iz 1), (Z.ltb_spec 94 iz); try lia. }
  rewrite CK. cbn [fs_prof fs_ncap]. rewrite straight_valid. cbn [Z.eqb Pos.eqb].
  eexists. split; [destruct (Req_EM_T pct 100); reflexivity|]. cbn. repeat split.
  unfold file_energies. change (Z.to_nat 1) with 1%nat. cbn [seq List.map]. rnum. apply (f_equal (fun v => [v])). change (IZR (Z.of_nat 0)) with 0. ring.
Qed.

(** *** What a complete file means *)
Lemma read_elems_pairs (zs : list Z) : forall (ps : list R) rest, List.length ps = List.length zs ->
  read_elems (List.length zs)
    (List.concat (List.map (fun zp => [mkTok (Some (IZR (fst zp))) (Some (fst zp)); mkTok (Some (snd zp)) None]) (List.combine zs ps)) ++ rest)
  = Some (zs, List.map (fun p => p / 100) ps, rest).
Proof.
  induction zs as [|z zs IH]; intros [|p ps] rest L; try discriminate; [reflexivity|].
  injection L as L. cbn [List.length List.combine List.map List.concat app read_elems].
  unfold scan2, scan1. cbn [as_int as_dbl fst snd Z.eqb Pos.eqb]. rewrite IH by exact L. reflexivity.
Qed.

Lemma file_count e_start e_final delta n : 0 < delta -> e_start <= e_final ->
  ntoZ ((e_final - e_start) / delta + 1) = Some n -> (0 <= n)%Z ->
  IZR n <= (e_final - e_start) / delta + 1 < IZR n + 1.
Proof.
  intros Pd Le Hn Pn. revert Hn. rnum. unfold R_trunc.
  assert (0 <= (e_final - e_start) / delta) by (apply Rmult_le_pos; [lra|left; apply Rinv_0_lt_compat; lra]).
  destruct (Rle_dec 0 ((e_final - e_start) / delta + 1)) as [L|L]; [|lra].
  intros K. inversion K as [K']. pose proof (Int_part_bounds ((e_final - e_start) / delta + 1)). lra.
Qed.

Lemma from_file_contents e sig d x y sx sy hx hy pol zs ps dens e_start e_final delta unused type
         len re_up re_down ri_up ri_down fu fd n_cap rest e' f :
    let num v := mkTok (Some v) None in
    let int z := mkTok (Some (IZR z)) (Some z) in
    (0 < List.length zs)%nat -> List.length ps = List.length zs -> (0 <= type <= 2)%Z ->
    from_file e
      (List.map num [sig; d; x; y; sx; sy; hx; hy; pol] ++ int (Z.of_nat (List.length zs)) ::
       List.concat (List.map (fun zp => [int (fst zp); num (snd zp)]) (List.combine zs ps)) ++
       List.map num [dens; e_start; e_final; delta] ++ [int unused; int type] ++
       List.map num [len; re_up; re_down; ri_up; ri_down; fu; fd] ++ int n_cap :: rest)
      = FDone e' (Some f) ->
    fs_sig f = sig /\ fs_nums f = mkSource d x y sx sy hx hy pol /\ fs_iz f = zs /\
    (let ws := List.map (fun p => p / 100) ps in
     fold_left Rplus ws 0 <= 1 /\ fs_wi f = ws \/
     1 < fold_left Rplus ws 0 /\ (Forall (fun p => 0 <= p) ps -> fs_wi f = List.map (fun w => w / 100) ws)) /\
    fs_dens f = dens /\ fs_ncap f = n_cap /\
    (0 < delta -> e_start <= e_final -> exists n, IZR (Z.of_nat n) <= (e_final - e_start) / delta + 1 < IZR (Z.of_nat n) + 1 /\
       fs_energies f = List.map (fun i => e_start + IZR (Z.of_nat i) * delta) (seq 0 n)) /\
    good_args len re_up re_down ri_up ri_down fu fd /\
    fs_prof f = mkProfile 999 (List.map (fun i => len / 999 * INR i) (seq 0 1000))
                  (List.map (fun i => (ri_down - ri_up) / len * (len / 999 * INR i) + ri_up) (seq 0 1000))
                  (List.map (pe fit type len re_up re_down fu fd) (seq 0 1000)).
Proof.
  intros num int Pz Lp Ht H. unfold source_from_file in H. cbn [List.map app] in H.
  unfold read1, read2, scan2 in H. unfold num, int in H. cbn [scan1 as_dbl as_int Z.eqb Pos.eqb need] in H.
  rewrite Nat2Z.id, read_elems_pairs in H by exact Lp.
  cbn [scan1 as_dbl as_int need read_dbl_vars] in H.
  destruct (ntoZ _) as [n|] eqn:En in H; [|discriminate]. cbn [need] in H.
  destruct (Z.ltb_spec n 0) as [|Pn]; [discriminate|]. cbn [need] in H.
  unfold read_profile in H.
  replace (Z.eqb type 0 || Z.eqb type 1 || Z.eqb type 2)%bool with true in H
    by (destruct (Z.eqb_spec type 0), (Z.eqb_spec type 1), (Z.eqb_spec type 2); auto; lia).
  cbn [scan1 as_dbl as_int need read_dbl_vars] in H. unfold profile_value in H.
  destruct (arg_error _ _ _ _ _ _ _) eqn:AE in H; [discriminate|]. apply arg_error_good in AE.
  cbn [need scan1 as_int] in H. apply finish_accepts in H.
  cbn [fs_wi fs_prof fs_nums fs_energies fs_sig fs_ncap fs_iz fs_dens] in H.
  destruct H as (_ & _ & E1 & E2 & E3 & E4 & E5 & E6 & E7 & E8 & _).
  destruct (norm_weights_R (List.map (fun p => p / 100) ps)) as (_ & I2 & I3).
  repeat (split; [assumption|]).
  split.
  { cbv zeta. rewrite fold_left_Rplus, Rplus_0_l. destruct (Rle_dec (Rsum (List.map (fun p => p / 100) ps)) 1) as [L|L].
    - left. split; [exact L|]. rewrite E8. apply I2, L.
    - right. split; [lra|]. intros F. rewrite E8. apply I3; [lra|]. apply Forall_map. revert F. apply Forall_impl. intros; lra. }
  repeat (split; [assumption|]).
  split.
  { intros Pd Le. exists (Z.to_nat n). rewrite Z2Nat.id by exact Pn. split; [apply file_count; assumption|]. rewrite E2. reflexivity. }
  split; [exact AE|]. rewrite E7.
  assert (Pl : len <> 0) by (unfold good_args in AE; lra).
  assert (EZ : forall i, pz len i = len / 999 * INR i) by (intros i; rewrite INR_IZR_INZ; reflexivity).
  f_equal; apply map_ext; intros i; [apply EZ|]. unfold pc. rewrite EZ. reflexivity.
Qed.

End P.
