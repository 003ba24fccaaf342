(** * Property theorems: profiles (C03 - C09)

    [profile_new fit ...] is polycap_profile_new with [fit] standing for the GSL
    polynomial fit (arbitrary).  [profile_object s p lz lc le n zs caps exts]
    (SpecHeap.v): at p lives a profile with nmax = n and the arrays z, cap, ext in
    three further blocks.  [allocs_succeed n s]: the next n allocations succeed. *)
From Coq Require Import Floats.
From Coq Require Import ZArith List Bool Lia Reals Lra String.
From Verif Require Import Num Mem SpecHeap ErrorModel ProfileModel ProfileProofs ProfileReal ProfileFloat.
Import ListNotations.
Local Open Scope R_scope.

(** C03, acceptance: all conditions hold <-> the constructor delivers a profile and
    reports nothing (the caller's error variable is among the unchanged memory). *)
Theorem C03_accepts :
  forall fit type len re_up re_down ri_up ri_down fd_up fd_down err (s : st R),
    wf s -> allocs_succeed 4 s ->
    (type = 0 \/ type = 1 \/ type = 2)%Z ->
    0 < len -> 0 < ri_up < re_up -> 0 < ri_down < re_down -> 0 < fd_up -> 0 < fd_down ->
    wp (profile_new fit type len re_up re_down ri_up ri_down fd_up fd_down err)
       (fun p s' => exists l lz lc le zs caps exts,
          p = Some l /\ profile_object s' l lz lc le 999 zs caps exts /\
          List.length zs = 1000%nat /\ List.length caps = 1000%nat /\ List.length exts = 1000%nat /\
          mem s l = None /\ mem s lz = None /\ mem s lc = None /\ mem s le = None /\
          same_memory_except [l; lz; lc; le] s s') s.
Proof.
  intros. eapply wp_mono.
  - apply profile_new_success; auto. apply arg_error_good. unfold good_args. tauto.
  - intros p s' (_ & l & lz & lc & le & -> & Ho & H8 & H9 & H10 & H11 & H12).
    exists l, lz, lc, le, (map (pz len) (seq 0 npts)), (map (pc len ri_up ri_down) (seq 0 npts)),
      (map (pe fit type len re_up re_down fd_up fd_down) (seq 0 npts)).
    rewrite !map_length, seq_length, npts_eq. repeat split; auto; apply Ho.
Qed.

(** C03, rejection of numbers: exactly one INVALID_ARGUMENT report, no profile,
    nothing else in memory changes. *)
Theorem C03_rejects_numbers :
  forall fit type len re_up re_down ri_up ri_down fd_up fd_down err (s : st R),
    wf s -> legal_err s err -> (err <> None -> allocs_succeed 2 s) ->
    ~ (0 < len /\ 0 < ri_up < re_up /\ 0 < ri_down < re_down /\ 0 < fd_up /\ 0 < fd_down) ->
    wp (profile_new fit type len re_up re_down ri_up ri_down fd_up fd_down err)
       (fun p s' => p = NULL /\ exists m, error_reported err POLYCAP_ERROR_INVALID_ARGUMENT m s s') s.
Proof.
  intros fit type len re_up re_down ri_up ri_down fd_up fd_down err s W L A N.
  destruct (arg_error len re_up re_down ri_up ri_down fd_up fd_down) as [m|] eqn:E.
  - eapply wp_mono; [eapply profile_new_badarg; eauto|]. cbn. intros p s' [-> H]. eauto.
  - apply arg_error_good in E. contradiction.
Qed.

(** C03, rejection of unknown shapes. *)
Theorem C03_rejects_type :
  forall fit type len re_up re_down ri_up ri_down fd_up fd_down err (s : st R),
    wf s -> legal_err s err -> allocs_succeed 6 s ->
    (type <> 0 /\ type <> 1 /\ type <> 2)%Z ->
    0 < len -> 0 < ri_up < re_up -> 0 < ri_down < re_down -> 0 < fd_up -> 0 < fd_down ->
    wp (profile_new fit type len re_up re_down ri_up ri_down fd_up fd_down err)
       (fun p s' => p = NULL /\ exists m, error_reported err POLYCAP_ERROR_INVALID_ARGUMENT m s s') s.
Proof.
  intros. eapply wp_mono.
  - apply profile_new_badtype; auto.
    + unfold known_type, POLYCAP_PROFILE_CONICAL, POLYCAP_PROFILE_PARABOLOIDAL, POLYCAP_PROFILE_ELLIPSOIDAL. lia.
    + intros k Hk. apply H1. lia.
    + apply arg_error_good. unfold good_args. tauto.
  - cbn. intros p s' [-> Hr]. eauto.
Qed.

(** The contents of an accepted profile, to which C04-C06 refer. *)
Definition delivers (fit : list (R * R) -> R * R * R) type len re_up re_down ri_up ri_down fd_up fd_down
    (P : list R -> list R -> list R -> Prop) : Prop :=
  forall err (s : st R), wf s -> allocs_succeed 4 s ->
    wp (profile_new fit type len re_up re_down ri_up ri_down fd_up fd_down err)
       (fun p s' => exists l lz lc le zs caps exts,
          p = Some l /\ profile_object s' l lz lc le 999 zs caps exts /\ P zs caps exts) s.

Lemma delivers_built fit type len re_up re_down ri_up ri_down fd_up fd_down (P : list R -> list R -> list R -> Prop) :
  (type = 0 \/ type = 1 \/ type = 2)%Z ->
  good_args len re_up re_down ri_up ri_down fd_up fd_down ->
  P (map (pz len) (seq 0 1000)) (map (pc len ri_up ri_down) (seq 0 1000))
    (map (pe fit type len re_up re_down fd_up fd_down) (seq 0 1000)) ->
  delivers fit type len re_up re_down ri_up ri_down fd_up fd_down P.
Proof.
  intros Ht Ga HP err s W A. eapply wp_mono.
  - apply profile_new_success; auto. now apply arg_error_good.
  - intros p s' (_ & l & lz & lc & le & -> & Ho & _). rewrite npts_eq in Ho.
    exists l, lz, lc, le. eexists _, _, _. split; [reflexivity|]. split; [exact Ho | exact HP].
Qed.

Lemma nth_map_seq (f : nat -> R) n i : (i < n)%nat -> nth i (map f (seq 0 n)) 0 = f i.
Proof.
  intros H. rewrite (nth_indep _ 0 (f 0%nat)) by (rewrite map_length, seq_length; auto).
  rewrite map_nth. now rewrite seq_nth.
Qed.

(** C04 *)
Theorem C04_z_axis :
  forall fit type len re_up re_down ri_up ri_down fd_up fd_down,
    (type = 0 \/ type = 1 \/ type = 2)%Z ->
    0 < len -> 0 < ri_up < re_up -> 0 < ri_down < re_down -> 0 < fd_up -> 0 < fd_down ->
    delivers fit type len re_up re_down ri_up ri_down fd_up fd_down (fun zs _ _ =>
      List.length zs = 1000%nat /\ nth 0 zs 0 = 0 /\ nth 999 zs 0 = len /\
      (forall i, (i < 999)%nat -> nth (S i) zs 0 - nth i zs 0 = len / 999) /\
      (forall i j, (i < j <= 999)%nat -> nth i zs 0 < nth j zs 0)).
Proof.
  intros. apply delivers_built; [auto | unfold good_args; tauto |].
  rewrite map_length, seq_length. repeat split.
  - rewrite nth_map_seq by lia. apply pz_0.
  - rewrite nth_map_seq by lia. apply pz_last.
  - intros i Hi. rewrite !nth_map_seq by lia. apply pz_step.
  - intros i j Hij. rewrite !nth_map_seq by lia. apply pz_mono; [auto | lia].
Qed.

(** C05 *)
Theorem C05_capillary_radius :
  forall fit type len re_up re_down ri_up ri_down fd_up fd_down,
    (type = 0 \/ type = 1 \/ type = 2)%Z ->
    0 < len -> 0 < ri_up < re_up -> 0 < ri_down < re_down -> 0 < fd_up -> 0 < fd_down ->
    delivers fit type len re_up re_down ri_up ri_down fd_up fd_down (fun zs caps _ =>
      nth 0 caps 0 = ri_up /\ nth 999 caps 0 = ri_down /\
      (forall i, (i <= 999)%nat ->
         nth i caps 0 = ri_up + nth i zs 0 / len * (ri_down - ri_up) /\
         Rmin ri_up ri_down <= nth i caps 0 <= Rmax ri_up ri_down /\ 0 < nth i caps 0)).
Proof.
  intros. apply delivers_built; [auto | unfold good_args; tauto |].
  split; [|split].
  - rewrite nth_map_seq by lia. unfold pc. rewrite pz_0. now apply prof_lin_0.
  - rewrite nth_map_seq by lia. unfold pc. rewrite pz_last. now apply prof_lin_len.
  - intros i Hi. rewrite !nth_map_seq by lia. unfold pc.
    pose proof (pz_range len i H0 Hi).
    split; [rewrite prof_lin_eq by auto; field; lra|].
    assert (B : Rmin ri_up ri_down <= prof_lin ri_up ri_down len (pz len i) <= Rmax ri_up ri_down).
    { apply prof_lin_between; auto; split; auto using Rmin_l, Rmin_r, Rmax_l, Rmax_r. }
    split; auto. apply Rlt_le_trans with (Rmin ri_up ri_down); [|tauto].
    apply Rmin_glb_lt; lra.
Qed.

Theorem C05_conical_exterior :
  forall fit len re_up re_down ri_up ri_down fd_up fd_down,
    0 < len -> 0 < ri_up < re_up -> 0 < ri_down < re_down -> 0 < fd_up -> 0 < fd_down ->
    delivers fit 0%Z len re_up re_down ri_up ri_down fd_up fd_down (fun zs caps exts =>
      nth 0 exts 0 = re_up /\ nth 999 exts 0 = re_down /\
      (forall i, (i <= 999)%nat ->
         nth i exts 0 = re_up + nth i zs 0 / len * (re_down - re_up) /\
         Rmin re_up re_down <= nth i exts 0 <= Rmax re_up re_down /\
         nth i caps 0 < nth i exts 0)).
Proof.
  intros. apply delivers_built; [auto | unfold good_args; tauto |].
  split; [|split].
  - rewrite nth_map_seq by lia. unfold pe. cbn [Z.eqb POLYCAP_PROFILE_CONICAL]. rewrite pz_0. now apply prof_lin_0.
  - rewrite nth_map_seq by lia. unfold pe. cbn [Z.eqb POLYCAP_PROFILE_CONICAL]. rewrite pz_last. now apply prof_lin_len.
  - intros i Hi. rewrite !nth_map_seq by lia. unfold pe, pc. cbn [Z.eqb POLYCAP_PROFILE_CONICAL].
    pose proof (pz_range len i H Hi).
    split; [rewrite prof_lin_eq by auto; field; lra|]. split.
    + apply prof_lin_between; auto; split; auto using Rmin_l, Rmin_r, Rmax_l, Rmax_r.
    + apply prof_lin_lt; tauto.
Qed.

Lemma four_points (a b y1 y1' x2 x2' y2 y2' c d x1 x1' : R) :
  x1 = x1' -> y1 = y1' -> x2 = x2' -> y2 = y2' ->
  [(a, b); (x1, y1); (x2, y2); (c, d)] = [(a, b); (x1', y1'); (x2', y2'); (c, d)].
Proof. intros -> -> -> ->. reflexivity. Qed.

(** Paraboloidal profiles: the exterior is a parabola c0 + c1 z + c2 z^2 fitted to four
    points: the two ends, and one point close to each end on the straight line from that end's
    edge to the focal point on its side (at a tenth of the smaller of the focal distance and
    the length from the end).  The fit is GSL's and is not modelled. *)
Theorem C05_paraboloid :
  forall fit len re_up re_down ri_up ri_down fd_up fd_down,
    0 < len -> 0 < ri_up < re_up -> 0 < ri_down < re_down -> 0 < fd_up -> 0 < fd_down ->
    let x1 := Rmin fd_up len / 10 in
    let x2 := len - Rmin fd_down len / 10 in
    delivers fit 1%Z len re_up re_down ri_up ri_down fd_up fd_down (fun zs _ exts =>
      exists c0 c1 c2,
        fit [(0, re_up); (x1, re_up * (x1 + fd_up) / fd_up);
             (x2, re_down * (len + fd_down - x2) / fd_down); (len, re_down)] = (c0, c1, c2) /\
        (forall i, (i <= 999)%nat ->
           nth i exts 0 = c0 + c1 * nth i zs 0 + c2 * (nth i zs 0) ^ 2)).
Proof.
  intros fit len re_up re_down ri_up ri_down fd_up fd_down H H0 H1 H2 H3 x1 x2.
  apply delivers_built; [auto | unfold good_args; tauto |].
  assert (P : prof_points len re_up re_down fd_up fd_down =
    [(0, re_up); (x1, re_up * (x1 + fd_up) / fd_up); (x2, re_down * (len + fd_down - x2) / fd_down); (len, re_down)]).
  { unfold prof_points, x1, x2. rnum. unfold Rmin.
    destruct (Rle_dec fd_up len) as [A|A], (Rle_dec fd_down len) as [B|B];
      rewrite ?(Rleb_true fd_up len), ?(Rleb_false fd_up len), ?(Rleb_true fd_down len), ?(Rleb_false fd_down len) by lra;
      (apply four_points; field; lra). }
  rewrite <- P. destruct (fit (prof_points len re_up re_down fd_up fd_down)) as [[c0 c1] c2] eqn:F.
  exists c0, c1, c2. split; [reflexivity|]. intros i Hi. rewrite !nth_map_seq by lia. unfold pe.
  cbn [Z.eqb Pos.eqb POLYCAP_PROFILE_CONICAL POLYCAP_PROFILE_PARABOLOIDAL]. rewrite F. unfold prof_quad. rnum. ring.
Qed.

(** C06, the taper condition [2 (wide - narrow) < narrow / focal * length]: the wide
    end is wide, the narrow end narrow, the radius strictly monotone in between, on an
    ellipse with horizontal tangent at the wide end and tangent pointing at the focus
    of the narrow end.  Missing for the full claim: without the taper condition it is
    false, see C06_ellipse_refuted. *)
Theorem C82_ellipse_focussing :
  forall fit len re_up re_down ri_up ri_down fd_up fd_down,
    0 < len -> 0 < ri_up < re_up -> 0 < ri_down < re_down -> 0 < fd_up -> 0 < fd_down ->
    re_down < re_up ->
    2 * (re_up - re_down) < re_down / fd_down * len ->
    delivers fit 2%Z len re_up re_down ri_up ri_down fd_up fd_down (fun zs _ exts =>
      nth 0 exts 0 = re_up /\ nth 999 exts 0 = re_down /\
      (forall i, (i <= 999)%nat -> re_down <= nth i exts 0 <= re_up) /\
      (forall i j, (i < j <= 999)%nat -> nth j exts 0 < nth i exts 0) /\
      exists (f : R -> R) (a2 b k : R),
        0 < a2 /\ 0 < b /\
        (forall i, (i <= 999)%nat -> nth i exts 0 = f (nth i zs 0)) /\
        (forall z, 0 <= z <= len -> z * z / a2 + (f z - k) * (f z - k) / (b * b) = 1) /\
        derivable_pt_lim f 0 0 /\ derivable_pt_lim f len (- (re_down / fd_down))).
Proof.
  intros. apply delivers_built; [auto | unfold good_args; tauto |].
  set (s := re_down / fd_down) in *.
  assert (Hs : 0 < s) by (apply Rdiv_lt_0_compat; lra).
  set (b := ell_b re_down re_up s len). set (k := ell_k re_up b).
  set (A2 := ell_a2 re_down k b s len).
  assert (E : forall i, pe fit 2 len re_up re_down fd_up fd_down i = ell_ext (sqrt A2) b k (pz len i)).
  { intros i. unfold pe. cbn [Z.eqb POLYCAP_PROFILE_CONICAL POLYCAP_PROFILE_PARABOLOIDAL]. rnum.
    rewrite Rltb_true by auto. reflexivity. }
  pose proof (ell_A2 re_down re_up s len Hs H H4 H5) as (_ & PA & Pb).
  repeat split.
  - rewrite nth_map_seq, E, pz_0 by lia. apply ell_start; auto.
  - rewrite nth_map_seq, E, pz_last by lia. apply ell_end; auto.
  - rewrite nth_map_seq, E by lia. apply ell_between; auto; apply pz_range; auto.
  - rewrite nth_map_seq, E by lia. apply ell_between; auto; apply pz_range; auto.
  - intros i j Hij. rewrite !nth_map_seq, !E by lia.
    apply ell_decreasing; auto; try (apply pz_range; auto; lia). apply pz_mono; [auto|lia].
  - exists (fun t => ell_ext (sqrt A2) b k t), A2, b, k. repeat split; auto.
    + intros i Hi. rewrite !nth_map_seq by lia. apply E.
    + intros z Hz. apply ell_on_ellipse; auto.
    + apply ell_slope_start; auto.
    + apply ell_slope_end; auto.
Qed.

Theorem C82_ellipse_confocal :
  forall fit len re_up re_down ri_up ri_down fd_up fd_down,
    0 < len -> 0 < ri_up < re_up -> 0 < ri_down < re_down -> 0 < fd_up -> 0 < fd_down ->
    re_up < re_down ->
    2 * (re_down - re_up) < re_up / fd_up * len ->
    delivers fit 2%Z len re_up re_down ri_up ri_down fd_up fd_down (fun zs _ exts =>
      nth 0 exts 0 = re_up /\ nth 999 exts 0 = re_down /\
      (forall i, (i <= 999)%nat -> re_up <= nth i exts 0 <= re_down) /\
      (forall i j, (i < j <= 999)%nat -> nth i exts 0 < nth j exts 0) /\
      exists (f : R -> R) (a2 b k : R),
        0 < a2 /\ 0 < b /\
        (forall i, (i <= 999)%nat -> nth i exts 0 = f (len - nth i zs 0)) /\
        (forall z, 0 <= z <= len -> z * z / a2 + (f z - k) * (f z - k) / (b * b) = 1) /\
        derivable_pt_lim f 0 0 /\ derivable_pt_lim f len (- (re_up / fd_up))).
Proof.
  intros. apply delivers_built; [auto | unfold good_args; tauto |].
  set (s := re_up / fd_up) in *.
  assert (Hs : 0 < s) by (apply Rdiv_lt_0_compat; lra).
  set (b := ell_b re_up re_down s len). set (k := ell_k re_down b).
  set (A2 := ell_a2 re_up k b s len).
  pose proof (ell_A2 re_up re_down s len Hs H H4 H5) as (_ & PA & Pb). fold b k A2 in PA, Pb.
  assert (E : forall i, pe fit 2 len re_up re_down fd_up fd_down i = ell_ext (sqrt A2) b k (pz len (999 - i))).
  { intros i. unfold pe. cbn [Z.eqb POLYCAP_PROFILE_CONICAL POLYCAP_PROFILE_PARABOLOIDAL]. rnum.
    rewrite Rltb_false by lra. fold s b k A2. rewrite Rabs_pos_eq by lra. reflexivity. }
  assert (Z : forall i, (i <= 999)%nat -> pz len (999 - i) = len - pz len i).
  { intros i Hi. rewrite !pz_eq, minus_INR, INR_999 by auto. field. }
  repeat split.
  - rewrite nth_map_seq, E by lia. rewrite pz_last. apply ell_end; auto.
  - rewrite nth_map_seq, E by lia. replace (999 - 999)%nat with 0%nat by lia. rewrite pz_0. apply ell_start; auto.
  - rewrite nth_map_seq, E by lia. apply ell_between; auto; apply pz_range; auto; lia.
  - rewrite nth_map_seq, E by lia. apply ell_between; auto; apply pz_range; auto; lia.
  - intros i j Hij. rewrite !nth_map_seq, !E by lia.
    apply ell_decreasing; auto; try (apply pz_range; auto; lia). apply pz_mono; [auto|lia].
  - exists (fun t => ell_ext (sqrt A2) b k t), A2, b, k. repeat split; auto.
    + intros i Hi. rewrite !nth_map_seq by lia. rewrite E, Z by auto. reflexivity.
    + intros z Hz. apply ell_on_ellipse; auto.
    + apply ell_slope_start; auto.
    + apply ell_slope_end; auto.
Qed.

(** C06 without the taper condition is false: admissible arguments for which
    polycap_profile_new (run in binary64) succeeds and every exterior radius is NaN. *)
Theorem C06_ellipse_refuted :
  forall (lm : libm) (fit : list (float * float) -> float * float * float),
  exists len re_up re_down ri_up ri_down fd_up fd_down : float,
    PrimFloat.ltb zero len = true /\ PrimFloat.ltb zero ri_up = true /\ PrimFloat.ltb ri_up re_up = true /\
    PrimFloat.ltb zero ri_down = true /\ PrimFloat.ltb ri_down re_down = true /\
    PrimFloat.ltb zero fd_up = true /\ PrimFloat.ltb zero fd_down = true /\
    forall err (s : st float), wf s -> allocs_succeed 4 s ->
    wp (@profile_new float (FNum lm) fit 2%Z len re_up re_down ri_up ri_down fd_up fd_down err)
       (fun p s' => exists l lz lc le zs caps exts,
          p = Some l /\ profile_object s' l lz lc le 999 zs caps exts /\
          List.length exts = 1000%nat /\
          (forall e, In e exts -> PrimFloat.eqb e e = false)) s.
Proof.
  intros lm fit. exists (fl lm 9 1), (fl lm 3 10), (fl lm 1 10), (fl lm 3 1000), (fl lm 1 1000), (fl lm 100 1), (fl lm 10 1).
  repeat (split; [vm_compute; reflexivity|]). intros err s W A. eapply wp_mono.
  - apply (@profile_new_success float (FNum lm) fit); [exact W | exact A | right; right; reflexivity | apply ellipse_nan_args].
  - intros p s' (_ & l & lz & lc & le & -> & Ho & _). rewrite npts_eq in Ho.
    exists l, lz, lc, le. eexists _, _, _. split; [reflexivity|]. split; [exact Ho|].
    split; [now rewrite map_length, seq_length|].
    intros e He. pose proof (ellipse_nan_values lm fit) as V. rewrite forallb_forall in V.
    specialize (V e He). unfold is_nan in V. now apply negb_true_iff in V.
Qed.

(** C07: build from arrays with nid+1 entries, then ask for any of the three arrays:
    nid and an equal array in fresh memory. *)
Theorem C07_array_round_trip :
  forall nid lext lcap lz exts caps zs err nidp outp v1 v2 get xs (s : st R),
    wf s -> allocs_succeed 5 s -> (1 < nid)%Z ->
    dbl_array s lext exts -> dbl_array s lcap caps -> dbl_array s lz zs ->
    Z.of_nat (List.length exts) = (nid + 1)%Z ->
    Z.of_nat (List.length caps) = (nid + 1)%Z ->
    Z.of_nat (List.length zs) = (nid + 1)%Z ->
    (get = profile_get_z /\ xs = zs \/ get = profile_get_cap /\ xs = caps \/ get = profile_get_ext /\ xs = exts) ->
    mem s nidp = Some [v1] -> mem s outp = Some [v2] -> nidp <> outp ->
    wp (bind (profile_new_from_arrays nid (Some lext) (Some lcap) (Some lz) err)
             (fun p => get p (Some nidp) (Some outp)))
       (fun ok s' => ok = true /\ mem s' nidp = Some [Vint nid] /\
          exists q, mem s' outp = Some [Vptr (Some q)] /\ dbl_array s' q xs /\ mem s q = None /\
            exists l pz pc pe, profile_object s' l pz pc pe nid zs caps exts /\
              mem s l = None /\ mem s pz = None /\ mem s pc = None /\ mem s pe = None /\
              ~ In q [l; pz; pc; pe] /\
              same_memory_except [l; pz; pc; pe; q; nidp; outp] s s') s.
Proof.
  intros nid lext lcap lz exts caps zs err nidp outp v1 v2 get xs s W A Hn He Hc Hz Le Lc Lz Hf M1 M2 Hne.
  assert (Hg : exists fld, get = profile_get fld /\ (fld = 1%nat /\ xs = zs \/ fld = 2%nat /\ xs = caps \/ fld = 3%nat /\ xs = exts)).
  { destruct Hf as [[-> ->]|[[-> ->]|[-> ->]]]; eexists; (split; [reflexivity|auto]). }
  clear Hf. destruct Hg as (fld & -> & Hf).
  apply wp_bind. eapply wp_mono; [apply (from_arrays_ok nid lext lcap lz exts caps zs); auto|].
  { intros k Hk. apply A. lia. }
  cbn. intros p s1 (W1 & O1 & C1 & l & pz & pc & pe & -> & Ho & N1 & N2 & N3 & N4 & X).
  assert (Lv : forall a b, mem s a = Some b -> ~ In a [l; pz; pc; pe]).
  { intros a b Ha Hin. cbn in Hin. intuition congruence. }
  pose proof (Lv nidp _ M1) as NI1. pose proof (Lv outp _ M2) as NI2.
  apply (profile_get_spec fld xs l pz pc pe nid zs caps exts nidp outp v1 v2); auto.
  - rewrite O1, C1. replace (S (S (S (S (cnt s))))) with (cnt s + 4)%nat by lia. apply A. lia.
  - lia.
  - destruct Hf as [[_ ->]|[[_ ->]|[_ ->]]]; auto.
  - rewrite X; auto.
  - rewrite X; auto.
  - destruct Ho as (_ & _ & _ & _ & ND). constructor; [|constructor; auto].
    cbn. cbn in NI1. intros [Eq|Hin]; [congruence | tauto].
  - intros s' q W' _ _ Nq R1 R2 Rq X'.
    split; auto. split; auto. exists q. split; auto. split; auto.
    assert (Q1 : ~ In q [l; pz; pc; pe]).
    { intros Hin. destruct Ho as (B1 & B2 & B3 & B4 & _). unfold dbl_array in *. cbn in Hin.
      destruct Hin as [<- | [<- | [<- | [<- | []]]]]; congruence. }
    assert (Q2 : mem s q = None). { rewrite <- X; auto. }
    split; auto. exists l, pz, pc, pe.
    assert (Keep : forall a, In a [l; pz; pc; pe] -> mem s' a = mem s1 a).
    { intros a Ha. apply X'. cbn. intros [<- | [<- | [<- | []]]]; contradiction. }
    split; [|repeat split; auto].
    + destruct Ho as (B1 & B2 & B3 & B4 & ND). unfold profile_object, dbl_array in *.
      rewrite !Keep by (cbn; auto). auto.
    + intros a Ha. cbn in Ha. rewrite X'; [apply X|]; cbn; tauto.
Qed.

(** C08 is false: arrays of nid elements ("number of elements") are over-read. *)
Theorem C08_documented_length_refuted :
  forall nid lext lcap lz exts caps zs err (s : st R),
    wf s -> allocs_succeed 4 s -> (1 < nid)%Z ->
    dbl_array s lext exts -> dbl_array s lcap caps -> dbl_array s lz zs ->
    Z.of_nat (List.length exts) = nid -> Z.of_nat (List.length caps) = nid -> Z.of_nat (List.length zs) = nid ->
    profile_new_from_arrays nid (Some lext) (Some lcap) (Some lz) err s = UB.
Proof. intros. eapply from_arrays_overread; eauto. Qed.

(** C08, what does hold: one more element than that is enough. *)
Theorem C83_one_more_element :
  forall nid lext lcap lz exts caps zs err (s : st R),
    wf s -> allocs_succeed 4 s -> (1 < nid)%Z ->
    dbl_array s lext exts -> dbl_array s lcap caps -> dbl_array s lz zs ->
    Z.of_nat (List.length exts) = (nid + 1)%Z -> Z.of_nat (List.length caps) = (nid + 1)%Z ->
    Z.of_nat (List.length zs) = (nid + 1)%Z ->
    wp (profile_new_from_arrays nid (Some lext) (Some lcap) (Some lz) err) (fun p _ => p <> NULL) s.
Proof.
  intros. eapply wp_mono; [apply (from_arrays_ok nid lext lcap lz exts caps zs); auto|].
  cbn. intros p s1 (_ & _ & _ & l & pz & pc & pe & -> & _). discriminate.
Qed.

(** C09: the first failing allocation is anywhere among the four; provided memory is
    available for the report itself, the outcome is one MEMORY error and otherwise
    unchanged memory.  Missing: if memory stays exhausted the report is undefined
    behaviour (C09_exhausted_refuted). *)
Theorem C84_alloc_failure :
  forall fit type len re_up re_down ri_up ri_down fd_up fd_down err (s : st R),
    wf s -> legal_err s err ->
    (exists k, (k < 4)%nat /\ orc s (cnt s + k) = false) ->
    (err <> None -> forall n, orc s n = false -> orc s (S n) = true /\ orc s (S (S n)) = true) ->
    0 < len -> 0 < ri_up < re_up -> 0 < ri_down < re_down -> 0 < fd_up -> 0 < fd_down ->
    wp (profile_new fit type len re_up re_down ri_up ri_down fd_up fd_down err)
       (fun p s' => p = NULL /\ exists m, error_reported err POLYCAP_ERROR_MEMORY m s s') s.
Proof.
  intros. apply profile_new_oom; auto.
  - intros A. destruct H1 as (k & Hk & E). rewrite A in E by auto. discriminate.
  - apply arg_error_good. unfold good_args. tauto.
Qed.

Theorem C09_exhausted_refuted :
  forall fit type len re_up re_down ri_up ri_down fd_up fd_down l (s : st R),
    slot_holds s l NULL -> (forall n, orc s n = false) ->
    0 < len -> 0 < ri_up < re_up -> 0 < ri_down < re_down -> 0 < fd_up -> 0 < fd_down ->
    profile_new fit type len re_up re_down ri_up ri_down fd_up fd_down (Some l) s = UB.
Proof.
  intros. apply profile_new_oom_ub; auto. apply arg_error_good. unfold good_args. tauto.
Qed.

(** *** The hypotheses are met *)
Definition s_demo : st R :=
  mkSt (fun l => if Nat.eqb l 0 then Some [Vptr NULL]
                 else if Nat.eqb l 1 then Some (map Vdbl [0; 1; 2; 3]) else None) 2%nat (fun _ => true) 0%nat.
Example s_demo_ok : wf s_demo /\ allocs_succeed 6 s_demo /\ legal_err s_demo (Some 0%nat) /\
  dbl_array s_demo 1%nat [0; 1; 2; 3].
Proof.
  repeat split.
  - unfold wf, s_demo; cbn. intros [|[|l]] H; auto; lia.
  - cbn. eexists. reflexivity.
Qed.
(** a failing second allocation, isolated *)
Example s_demo_fail : exists s : st R, wf s /\ legal_err s (Some 0%nat) /\
  (exists k, (k < 4)%nat /\ orc s (cnt s + k) = false) /\
  (forall n, orc s n = false -> orc s (S n) = true /\ orc s (S (S n)) = true).
Proof.
  exists (mkSt (mem s_demo) 2%nat (fun n => negb (Nat.eqb n 1)) 0%nat). split; [apply s_demo_ok|]. split; [apply s_demo_ok|].
  split; [exists 1%nat; cbn; auto|]. cbn. intros n Hn. destruct n as [|[|n]]; cbn in *; try discriminate. auto.
Qed.
(** an ellipsoidal optic within the taper condition: 9 cm, 0.25 -> 0.2 cm, focus 1 cm *)
Example taper_ok : 2 * (0.25 - 0.2) < 0.2 / 1 * 9.
Proof. lra. Qed.

Print Assumptions C03_accepts.
Print Assumptions C03_rejects_numbers.
Print Assumptions C03_rejects_type.
Print Assumptions C04_z_axis.
Print Assumptions C05_capillary_radius.
Print Assumptions C05_conical_exterior.
Print Assumptions C82_ellipse_focussing.
Print Assumptions C82_ellipse_confocal.
Print Assumptions C06_ellipse_refuted.
Print Assumptions C07_array_round_trip.
Print Assumptions C08_documented_length_refuted.
Print Assumptions C83_one_more_element.
Print Assumptions C84_alloc_failure.
Print Assumptions C09_exhausted_refuted.
Print Assumptions C05_paraboloid.
