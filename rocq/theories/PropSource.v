(** * Property theorems: input files and generated photons (C23-C27, C55) *)
From Coq Require Import ZArith List Bool Lia Reals Lra Psatz String.
From Verif Require Import Num Mem SpecHeap SpecPhoton ErrorModel ProfileModel ProfileProofs Geometry ConsModel HeapLib DescProofs
  SrcProofs PhotProofs ConsReal ProfileReal SpecGeom HexProofs RingProofs PackProofs PropGeom PropCons
  LineModel LineProofs SourceModel SourceReal SrcPhoton FromFile FromFileProofs.
Import ListNotations.
Local Open Scope R_scope.

(** ** C23: polycap_source_new_from_file validates like the API constructors.
    [source_from_file fit pff e ts = FDone e' r]: reading the file whose tokens are [ts],
    with [e] in the caller's error variable, returns [r] and leaves [e'] there.
    [fit]: the polynomial fit of the paraboloid; [pff]: the reader of profiles kept in
    separate files; both arbitrary. *)

(** What is checked: a source read from a file has distances >= 0, at least one energy,
    all between 1 and 100 keV, at least one capillary, at least one element, all atomic
    numbers between 1 and 94, density >= 0, and a profile polycap_profile_validate accepts.
    (The API asks for more: strictly positive distances, sizes and density, more than one
    capillary, a polarisation between -1 and 1, a roughness >= 0, fractions adding up.) *)
Theorem C90_checks :
  forall fit pff e ts e' f,
    source_from_file fit pff e ts = FDone e' (Some f) ->
    0 <= so_d (fs_nums f) /\ 0 <= so_x (fs_nums f) /\ 0 <= so_y (fs_nums f) /\
    (1 <= List.length (fs_energies f))%nat /\ Forall (fun x => 1 <= x <= 100) (fs_energies f) /\
    (1 <= fs_ncap f)%Z /\ 0 <= fs_open f <= 1 /\
    (1 <= List.length (fs_iz f))%nat /\ Forall (fun z => 1 <= z <= 94)%Z (fs_iz f) /\ 0 <= fs_dens f /\
    profile_validate (fs_prof f) (fs_ncap f) = Some 1%Z.
Proof.
  intros fit pff e ts e' f H. apply from_file_inv in H. destruct H as (f0 & es & ef & de & n & H & _).
  apply finish_accepts in H. destruct H as (C & V & _). apply file_checks_R in C.
  destruct C as (C1 & C2 & C3 & C4 & C5 & C6 & C7 & C8 & C9 & C10). repeat (split; [assumption|]). exact V.
Qed.

(** False: roughness and polarisation are never looked at: replacing them (first and ninth
    number of the file) by any other numbers changes nothing but the values handed out. *)
Theorem C23_unchecked_refuted :
  forall fit pff e t0 t1 t2 t3 t4 t5 t6 t7 t8 rest e' f sig' pol' t0' t8',
    source_from_file fit pff e (t0 :: t1 :: t2 :: t3 :: t4 :: t5 :: t6 :: t7 :: t8 :: rest) = FDone e' (Some f) ->
    Forall (fun t => as_dbl t <> None) [t0; t1; t2; t3; t4; t5; t6; t7; t8] ->
    as_dbl t0' = Some sig' -> as_dbl t8' = Some pol' ->
    exists f', source_from_file fit pff e (t0' :: t1 :: t2 :: t3 :: t4 :: t5 :: t6 :: t7 :: t8' :: rest) = FDone e' (Some f') /\
      fs_sig f' = sig' /\ so_pol (fs_nums f') = pol'.
Proof. exact from_file_unchecked. Qed.

(** False: [demo_file] (one energy of 10 keV, one element, a straight single channel) with
    roughness -5, distance and source size 0, polarisation 7, density 0 and a single
    capillary is accepted without any error; the API refuses each of those values. *)
Theorem C23_accepts_out_of_range_refuted :
  forall fit pff, exists f,
    source_from_file fit pff None (demo_file (-5) 0 0 0 7 100 0 14) = FDone None (Some f) /\
    fs_sig f = -5 /\ so_d (fs_nums f) = 0 /\ so_x (fs_nums f) = 0 /\ so_y (fs_nums f) = 0 /\ so_pol (fs_nums f) = 7 /\
    fs_dens f = 0 /\ fs_ncap f = 1%Z /\
    ~ good_description (fs_sig f) (fs_ncap f) (fs_iz f) (fs_dens f) /\
    ~ good_source (so_d (fs_nums f)) (so_x (fs_nums f)) (so_y (fs_nums f)) (so_pol (fs_nums f)) (fs_energies f).
Proof.
  intros fit pff. destruct (demo_file_accepted fit pff (-5) 0 0 0 7 100 0 14) as (f & E & F1 & F2 & F3 & F4 & F5 & F6 & F7); try lra; try lia.
  destruct (Req_EM_T 100 100); [|lra]. exists f. rewrite F1, F2, F5, F4. cbn [so_d so_x so_y so_pol].
  split; [exact E|]. do 7 (split; [reflexivity|]). split.
  - intros (K & _). lra.
  - intros (K & _). lra.
Qed.

(** False: with fractions that do not add up (here 60 percent in all) the file gives both
    an INVALID_ARGUMENT error and a source. *)
Theorem C23_bad_fractions_refuted :
  forall fit pff, exists f,
    source_from_file fit pff None (demo_file 5 100 0.1 0.1 0.5 60 2.2 14) = FDone (Some POLYCAP_ERROR_INVALID_ARGUMENT) (Some f) /\
    fs_wi f = [60 / 100].
Proof.
  intros fit pff. destruct (demo_file_accepted fit pff 5 100 0.1 0.1 0.5 60 2.2 14) as (f & E & F1 & F2 & F3 & F4 & F5 & F6 & F7); try lra; try lia.
  destruct (Req_EM_T 60 100); [lra|]. exists f. auto.
Qed.

(** What the numbers of a file mean.  The file lists, in this order: roughness, source
    distance, source size x and y, divergence x and y, shift x and y, polarisation, number of
    elements, atomic number and percentage of each, density, first and last energy, energy step,
    an unused number, the profile type (0, 1 or 2), length, exterior radii, capillary
    radii and focal distances (upstream, downstream each) and the number of capillaries.
    A source made from it holds these values; the fractions are the percentages divided by
    100 (and by 100 once more if they then still add up to more than 1); the energies run from
    the first in steps, as many as fit; the profile is the one polycap_profile_new makes. *)
Theorem C90_file_contents :
  forall fit pff e sig d x y sx sy hx hy pol zs ps dens e_start e_final delta unused type
         len re_up re_down ri_up ri_down fu fd n_cap rest e' f,
    let num v := mkTok (Some v) None in
    let int z := mkTok (Some (IZR z)) (Some z) in
    (0 < List.length zs)%nat -> List.length ps = List.length zs -> (0 <= type <= 2)%Z ->
    source_from_file fit pff e
      (List.map num [sig; d; x; y; sx; sy; hx; hy; pol] ++ int (Z.of_nat (List.length zs)) ::
       List.concat (List.map (fun zp => [int (fst zp); num (snd zp)]) (List.combine zs ps)) ++
       List.map num [dens; e_start; e_final; delta] ++ [int unused; int type] ++
       List.map num [len; re_up; re_down; ri_up; ri_down; fu; fd] ++ int n_cap :: rest)
      = FDone e' (Some f) ->
    fs_sig f = sig /\ fs_nums f = mkSource d x y sx sy hx hy pol /\ fs_iz f = zs /\
    (let ws := List.map (fun p => p / 100) ps in
     fold_left Rplus ws 0 <= 1 /\ fs_wi f = ws \/
     1 < fold_left Rplus ws 0 /\ (Forall (fun p => 0 <= p) ps -> fs_wi f = List.map (fun w => w / 100) ws)) /\
    fs_dens f = dens /\ fs_ncap f = n_cap /\
    (0 < delta -> e_start <= e_final -> exists n, IZR (Z.of_nat n) <= (e_final - e_start) / delta + 1 < IZR (Z.of_nat n) + 1 /\
       fs_energies f = List.map (fun i => e_start + IZR (Z.of_nat i) * delta) (seq 0 n)) /\
    good_args len re_up re_down ri_up ri_down fu fd /\
    fs_prof f = mkProfile 999 (List.map (fun i => len / 999 * INR i) (seq 0 1000))
                  (List.map (fun i => (ri_down - ri_up) / len * (len / 999 * INR i) + ri_up) (seq 0 1000))
                  (List.map (pe fit type len re_up re_down fu fd) (seq 0 1000)).
Proof. exact from_file_contents. Qed.

(** The energies: from the first one in steps of the given width, never past the last. *)
Theorem C90_energies :
  forall fit pff e ts e' f,
    source_from_file fit pff e ts = FDone e' (Some f) ->
    exists e_start e_final delta, forall i x, nth_error (fs_energies f) i = Some x -> 0 < delta ->
      x = e_start + IZR (Z.of_nat i) * delta /\ e_start <= x <= e_final.
Proof.
  intros fit pff e ts e' f H. apply from_file_inv in H. destruct H as (f0 & es & ef & de & n & H & Hn & Pn & E).
  apply finish_accepts in H. destruct H as (_ & _ & _ & E2 & _).
  exists es, ef, de. intros i x Hx Pd. rewrite E2, E in Hx. eapply file_energies_bounds; eauto.
Qed.

(** ** C55: a file that stops early, or holds something else than numbers, is reported. *)

(** False: a file that ends before the composition (nine numbers or fewer, even empty) makes
    the function use variables nothing was ever read into (only the result 0 of fscanf is
    taken for an error, not EOF). *)
Theorem C55_truncated_refuted :
  forall fit pff e ts, (List.length ts <= 9)%nat -> Forall (fun t => as_dbl t <> None) ts ->
    source_from_file fit pff e ts = FUB.
Proof. exact from_file_truncated. Qed.

(** What holds: something else than a number where the roughness is expected gives no source
    and, in an empty error variable, POLYCAP_ERROR_IO. *)
Theorem C55_not_a_number_partial :
  forall fit pff t ts, as_dbl t = None ->
    source_from_file fit pff None (t :: ts) = FDone (Some POLYCAP_ERROR_IO) None.
Proof. intros. apply from_file_garbage. assumption. Qed.

(** ** C24: reading a line.  The file is a list of character codes; [rest] is what
    the next read will see. *)
Theorem C24_line :
  forall line rest stream err (s : st R),
    wf s -> memory_available s -> ~ In newline line ->
    (stream = line ++ newline :: rest \/ (stream = line /\ rest = [])) ->
    wp (read_input_line (Some stream) err)
       (fun r s' => exists l, r = (Some l, rest) /\ mem s l = None /\
          mem s' l = Some (List.map Vint (line ++ [0%Z])) /\ same_memory_except [l] s s') s.
Proof. exact wp_read_input_line. Qed.

(** False without memory: when the buffer (128 characters) cannot be enlarged the failed
    result is written to. *)
Theorem C24_no_memory_refuted :
  forall stream err (s : st R),
    (128 <= List.length stream)%nat -> ~ In newline (firstn 128 stream) ->
    orc s (cnt s) = true -> orc s (S (cnt s)) = false ->
    read_input_line (Some stream) err s = UB.
Proof. exact read_input_line_grow_fails. Qed.

(** ** C25, C26, C27: polycap_source_get_photon *)

(** A source in memory, with numbers [k] and an optic of [n_cap] capillaries whose radii at the
    entrance are [cap0] (one capillary) and [ext0] (the optic). *)
Definition source_in_memory (s : st R) (p : loc) (k : source_nums R) (n_cap : Z) (cap0 ext0 : R) (d : loc) : Prop :=
  exists len lr lg ens liz lwi lp lz lc le sig open izs wis dens n zs caps exts,
    source_object s p len lr lg d
      [so_d k; so_x k; so_y k; so_sigx k; so_sigy k; so_shx k; so_shy k; so_pol k] ens /\
    description_object s d liz lwi lp lz lc le sig n_cap open izs wis dens n zs (cap0 :: caps) (ext0 :: exts).

Lemma source_in_memory_ready s p k n_cap cap0 ext0 d : source_in_memory s p k n_cap cap0 ext0 d ->
  exists q lc le cs es, source_ready s p d q lc le k n_cap cap0 ext0 cs es.
Proof.
  intros (len & lr & lg & ens & liz & lwi & lp & lz & lc & le & sig & open & izs & wis & dens & n & zs & caps & exts & (S1 & _) &
          D1 & _ & _ & D2 & _ & D3 & D4 & _).
  exists lp, lc, le, caps, exts. unfold source_ready.
  split; [eauto|]. split; [do 6 eexists; exact D1|]. split; [do 2 eexists; exact D2|]. auto.
Qed.

Definition unit_interval (r : R) : Prop := 0 <= r <= 1.
(** A source the API accepts: positive distance and sizes. *)
Definition good_nums (k : source_nums R) : Prop := 0 < so_d k /\ 0 < so_x k /\ 0 < so_y k.

Lemma draw_photon_inv (k : source_nums R) n_cap cap0 ext0 rs dr rs' :
  draw_photon k n_cap cap0 ext0 rs = Some (dr, rs') ->
  exists r1 r2 r3 rs1 start dir r rs2, rs = r1 :: r2 :: r3 :: rs1 /\
    draw_ray k n_cap cap0 ext0 (draw_source_point k r1 r2 r3) rs1 = Some (start, dir, r :: rs2) /\ rs' = rs2 /\
    dr = mkDrawn (draw_source_point k r1 r2 r3) start dir (draw_elecv k r dir).
Proof.
  unfold draw_photon. destruct rs as [|r1 [|r2 [|r3 rs1]]]; try discriminate.
  destruct (draw_ray k n_cap cap0 ext0 (draw_source_point k r1 r2 r3) rs1) as [[[start dir] [|r rs2]]|] eqn:E; try discriminate.
  intros K. inversion K; subst. exists r1, r2, r3, rs1, start, dir, r, rs'. auto.
Qed.

(** The facts about the values drawn: for every run of the generator, the start point is on the
    entrance plane; going back along the direction for the source distance leads to the
    recorded source point, which lies in the ellipse around the shift; the direction is a
    unit vector pointing downstream; the electric vector is a unit vector perpendicular to
    the direction. *)
Definition photon_consistent (k : source_nums R) (src start dir elecv : vec3 R) : Prop :=
  vz start = 0 /\
  vx start - so_d k / vz dir * vx dir = vx src /\ vy start - so_d k / vz dir * vy dir = vy src /\
  ((vx src - so_shx k) / so_x k) ^ 2 + ((vy src - so_shy k) / so_y k) ^ 2 <= 1 /\
  vx dir * vx dir + vy dir * vy dir + vz dir * vz dir = 1 /\ 0 < vz dir /\
  vx elecv * vx elecv + vy elecv * vy elecv + vz elecv * vz elecv = 1 /\
  vx elecv * vx dir + vy elecv * vy dir + vz elecv * vz dir = 0.

Lemma draw_consistent k n_cap cap0 ext0 rs dr rs' :
  good_nums k -> Forall unit_interval rs -> draw_photon k n_cap cap0 ext0 rs = Some (dr, rs') ->
  photon_consistent k (dr_src dr) (dr_start dr) (dr_dir dr) (dr_elecv dr).
Proof.
  intros (G1 & G2 & G3) U H. apply draw_photon_inv in H.
  destruct H as (r1 & r2 & r3 & rs1 & start & dir & r & rs2 & -> & D & -> & ->). cbn [dr_src dr_start dr_dir dr_elecv].
  assert (U3 : unit_interval r3) by (rewrite Forall_forall in U; apply U; cbn; auto). unfold unit_interval in U3.
  destruct (ray_facts _ _ _ _ _ _ _ _ _ G1 D) as (R1 & R2 & R3 & R4 & R5).
  destruct (source_point_ellipse k r1 r2 r3 G2 G3) as [E1 E2]; [lra|].
  destruct (elecv_facts k r dir R2 R3) as (V1 & V2 & _).
  unfold photon_consistent. unfold unit_vec, vdot in *. repeat split; auto; try lra.
Qed.

Theorem C25_generated_photon :
  forall p k n_cap cap0 ext0 d rs err dr rs' (s : st R),
    wf s -> allocs_succeed 1 s -> source_in_memory s p k n_cap cap0 ext0 d -> good_nums k -> Forall unit_interval rs ->
    draw_photon k n_cap cap0 ext0 rs = Some (dr, rs') ->
    wp (source_get_photon (Some p) (Some rs) err)
       (fun r s' => exists ph, r = Some (Some ph, rs') /\ mem s ph = None /\
          mem s' ph = Some (photon_block (Some d) NULL NULL 0 0
                              (dr_start dr) (dr_dir dr) (dr_elecv dr)   (* start *)
                              (dr_start dr) (dr_dir dr) (dr_elecv dr)   (* exit *)
                              (dr_src dr) 0 NULL NULL NULL NULL 0 0) /\
          photon_consistent k (dr_src dr) (dr_start dr) (dr_dir dr) (dr_elecv dr) /\
          same_memory_except [ph] s s') s.
Proof.
  intros p k n_cap cap0 ext0 d rs err dr rs' s W A R G U D.
  destruct (source_in_memory_ready _ _ _ _ _ _ _ R) as (q & lc & le & cs & es & RD).
  pose proof (draw_consistent _ _ _ _ _ _ _ G U D) as C. pose proof C as (C1 & _ & _ & _ & _ & C2 & _).
  eapply wp_mono.
  - assert (A0 : orc s (cnt s) = true) by (rewrite <- (Nat.add_0_r (cnt s)); apply A; lia).
    apply (gp_ok p d q lc le k n_cap cap0 ext0 cs es rs err s dr rs'); auto; rnum; apply Rltb_false; lra.
  - cbn beta. intros r s' (ph & -> & F & M & X). exists ph. auto.
Qed.

(** The recorded source point is the one the random numbers say: at relative squared radius
    r3 in the ellipse (an area-uniform choice when r3 is uniform). *)
Theorem C25_source_point :
  forall k r1 r2 r3, 0 < so_x k -> 0 < so_y k -> unit_interval r3 ->
    let p := draw_source_point k r1 r2 r3 in
    ((vx p - so_shx k) / so_x k) ^ 2 + ((vy p - so_shy k) / so_y k) ^ 2 = r3 /\ vz p = 0.
Proof. intros k r1 r2 r3 H1 H2 [H3 _]. apply source_point_ellipse; auto. Qed.

(** Uniform over the area of the ellipse: r2 selects the quarter (0 to 1/4: x and y
    positive, then counter-clockwise), r1 the angle of the ellipse's parametrisation within the
    quarter and r3 the squared relative radius; the three are independent uniform numbers. *)
Theorem C25_source_area_uniform :
  forall k r1 r2 r3, 0 < so_x k -> 0 < so_y k -> 0 <= r1 < 1 -> unit_interval r3 ->
    let p := draw_source_point k r1 r2 r3 in
    let sx := if Rlt_dec r2 (1/4) then 1 else if Rlt_dec r2 (3/4) then -1 else 1 in
    let sy := if Rlt_dec r2 (1/2) then 1 else -1 in
    vx p = so_shx k + sx * (so_x k * sqrt r3 * cos (PI / 2 * r1)) /\
    vy p = so_shy k + sy * (so_y k * sqrt r3 * sin (PI / 2 * r1)) /\ vz p = 0.
Proof.
  intros k r1 r2 r3 H1 H2 H3 _ p sx sy. destruct (source_point_polar k r1 r2 r3 H1 H2 H3) as (E1 & E2 & E3).
  fold p in E1, E2, E3. unfold quarter in E1, E2.
  replace (fst _) with sx in E1; [replace (snd _) with sy in E2; [auto|]|];
    unfold sx, sy; destruct (Rlt_dec r2 (1/4)), (Rlt_dec r2 (1/2)), (Rlt_dec r2 (3/4)); cbn; auto; lra.
Qed.

(** Divergence: without uniform illumination the slopes stay within the configured half angles. *)
Theorem C25_divergence :
  forall (k : source_nums R) n_cap cap0 ext0 rs dr rs',
    0 <= so_sigx k -> 0 <= so_sigy k -> Forall unit_interval rs ->
    draw_photon k n_cap cap0 ext0 rs = Some (dr, rs') ->
    Rabs (vx (dr_dir dr) / vz (dr_dir dr)) <= so_sigx k /\ Rabs (vy (dr_dir dr) / vz (dr_dir dr)) <= so_sigy k.
Proof.
  intros k n_cap cap0 ext0 rs dr rs' S1 S2 U H. apply draw_photon_inv in H.
  destruct H as (r1 & r2 & r3 & rs1 & start & dir & r & rs2 & -> & D & -> & ->). cbn [dr_dir].
  destruct rs1 as [|a [|b rs1]].
  1,2: exfalso; unfold draw_ray in D; revert D; rnum; rewrite (Rltb_false (so_sigx k)), (Rltb_false (so_sigy k)) by lra; discriminate.
  rewrite Forall_forall in U. assert (Ua : unit_interval a) by (apply U; cbn; auto). assert (Ub : unit_interval b) by (apply U; cbn; auto 6).
  destruct (ray_divergence k n_cap cap0 ext0 _ a b rs1 start dir (r :: rs2) S1 S2 Ua Ub D) as (K1 & K2 & _). auto.
Qed.

(** Missing source, description or generator: NULL and one INVALID_ARGUMENT report. *)
Theorem C25_missing_arguments :
  forall p rng err (s : st R),
    (p = NULL \/ (exists l b, p = Some l /\ mem s l = Some (Vptr NULL :: b)) \/
     (rng = None /\ exists l d b, p = Some l /\ mem s l = Some (Vptr (Some d) :: b))) ->
    wf s -> legal_err s err -> (err <> None -> allocs_succeed 2 s) ->
    wp (source_get_photon p rng err)
       (fun r s' => r = Some (NULL, []) /\ exists m, error_reported err POLYCAP_ERROR_INVALID_ARGUMENT m s s') s.
Proof.
  intros p rng err s H W L A. apply gp_null; auto. intros K. specialize (A K).
  split; [rewrite <- (Nat.add_0_r (cnt s)); apply A; lia|].
  replace (S (cnt s)) with (cnt s + 1)%nat by lia. apply A. lia.
Qed.

(** False without memory: the result of polycap_photon_new is used unchecked. *)
Theorem C25_no_memory_refuted :
  forall p k n_cap cap0 ext0 d rs dr rs' (s : st R),
    orc s (cnt s) = false -> source_in_memory s p k n_cap cap0 ext0 d -> good_nums k -> Forall unit_interval rs ->
    draw_photon k n_cap cap0 ext0 rs = Some (dr, rs') ->
    source_get_photon (Some p) (Some rs) NULL s = UB.
Proof.
  intros p k n_cap cap0 ext0 d rs dr rs' s O R G U D.
  destruct (source_in_memory_ready _ _ _ _ _ _ _ R) as (q & lc & le & cs & es & RD).
  pose proof (draw_consistent _ _ _ _ _ _ _ G U D) as (C1 & _ & _ & _ & _ & C2 & _).
  eapply gp_oom; eauto; rnum; apply Rltb_false; lra.
Qed.

(** C26: besides C25_generated_photon: the electric vector is the polarisation axis (x when
    |r| <= (1+hor_pol)/2, else y; r the last random number) with its component along the
    direction removed, and normalised. *)
Theorem C26_polarisation :
  forall k r dir, vx dir * vx dir + vy dir * vy dir + vz dir * vz dir = 1 -> 0 < vz dir ->
    let e := draw_elecv k r dir in
    let axis := if Rle_dec (Rabs r) ((1 + so_pol k) / 2) then mkV 1 0 0 else mkV 0 1 0 in
    vx e * vx e + vy e * vy e + vz e * vz e = 1 /\
    vx e * vx dir + vy e * vy dir + vz e * vz dir = 0 /\
    exists a b, 0 < a /\ vx e = a * vx axis + b * vx dir /\ vy e = a * vy axis + b * vy dir /\ vz e = a * vz axis + b * vz dir.
Proof. intros k r dir U P. exact (elecv_facts k r dir U P). Qed.

(** C27 *)
Definition uniform_illumination (k : source_nums R) : Prop := so_sigx k < 0 \/ so_sigy k < 0.

Lemma uniform_start k n_cap cap0 ext0 src rs start dir rest : uniform_illumination k ->
  draw_ray k n_cap cap0 ext0 src rs = Some (start, dir, rest) ->
  exists x y, draw_entrance n_cap cap0 ext0 rs = Some (x, y, rest) /\ vx start = x /\ vy start = y.
Proof.
  intros U. unfold draw_ray. rnum.
  assert (E : orb (Rltb (so_sigx k) 0) (Rltb (so_sigy k) 0) = true).
  { destruct U; [rewrite Rltb_true by auto; reflexivity|rewrite (Rltb_true (so_sigy k)) by auto; apply orb_true_r]. }
  rewrite E. destruct (draw_entrance n_cap cap0 ext0 rs) as [[[x y] r]|]; [|discriminate].
  intros K. inversion K; subst. eauto.
Qed.

Theorem C27_hexagon :
  forall k n_cap cap0 ext0 rs dr rs',
    uniform_illumination k -> n_shells n_cap <> 0 -> 0 < ext0 ->
    draw_photon k n_cap cap0 ext0 rs = Some (dr, rs') ->
    in_hexagon ext0 (vx (dr_start dr)) (vy (dr_start dr)).
Proof.
  intros k n_cap cap0 ext0 rs dr rs' U NS P H. apply draw_photon_inv in H.
  destruct H as (r1 & r2 & r3 & rs1 & start & dir & r & rs2 & -> & D & -> & ->). cbn [dr_start].
  destruct (uniform_start _ _ _ _ _ _ _ _ _ U D) as (x & y & E & -> & ->).
  unfold draw_entrance in E. rnum.
  destruct (Reqb_spec (n_shells n_cap) 0) as [K|_]; [contradiction|].
  apply (within_hexagon ext0 (mkV x y 0)); auto. eapply hex_loop_inside; eauto.
Qed.

Theorem C27_square :
  forall k n_cap cap0 ext0 rs dr rs',
    uniform_illumination k -> n_shells n_cap = 0 -> 0 < cap0 -> Forall unit_interval rs ->
    draw_photon k n_cap cap0 ext0 rs = Some (dr, rs') ->
    Rabs (vx (dr_start dr)) <= cap0 /\ Rabs (vy (dr_start dr)) <= cap0.
Proof.
  intros k n_cap cap0 ext0 rs dr rs' U NS P F H. apply draw_photon_inv in H.
  destruct H as (r1 & r2 & r3 & rs1 & start & dir & r & rs2 & -> & D & -> & ->). cbn [dr_start].
  destruct (uniform_start _ _ _ _ _ _ _ _ _ U D) as (x & y & E & -> & ->).
  unfold draw_entrance in E. rnum.
  destruct (Reqb_spec (n_shells n_cap) 0) as [_|K]; [|contradiction].
  destruct rs1 as [|a [|b rs1]]; try discriminate. inversion E; subst.
  rewrite Forall_forall in F. assert (Ua : unit_interval a) by (apply F; cbn; auto 6). assert (Ub : unit_interval b) by (apply F; cbn; auto 6).
  unfold unit_interval in *. split; apply Rabs_le; nra.
Qed.

(** Nothing of the entrance is left out: every point of the hexagon (of the square) is drawn for
    some pair of random numbers, after any number of rejected pairs. *)
Definition rejected_pairs (ext0 : R) (pre : list R) : Prop := forall post, hex_loop ext0 (pre ++ post) = hex_loop ext0 post.

Theorem C27_covers :
  forall n_cap cap0 ext0 x y pre post,
    0 < ext0 -> n_shells n_cap <> 0 -> in_hexagon ext0 x y -> rejected_pairs ext0 pre ->
    exists r1 r2, unit_interval r1 /\ unit_interval r2 /\
      draw_entrance n_cap cap0 ext0 (pre ++ r1 :: r2 :: post) = Some (x, y, post).
Proof.
  intros n_cap cap0 ext0 x y pre post P NS H Rj.
  pose proof H as HS. apply strips_hexagon in HS; auto. destruct HS as (S1 & S2 & S3).
  pose proof s3_pos as P3. pose proof s3_sq as Q3. pose proof s3_bounds as B3.
  assert (Bnd : - ext0 <= x <= ext0 /\ - ext0 <= y <= ext0).
  { unfold Rabs in S1, S2, S3. repeat destruct (Rcase_abs _) in *; split; split; nra. }
  exists ((x / ext0 + 1) / 2), ((y / ext0 + 1) / 2).
  assert (I : forall z, - ext0 <= z <= ext0 -> unit_interval ((z / ext0 + 1) / 2)).
  { intros z Hz. unfold unit_interval. assert (-1 <= z / ext0 <= 1); [|lra].
    split; [apply Rmult_le_reg_r with ext0; auto; unfold Rdiv; rewrite Rmult_assoc, Rinv_l; lra|].
    apply Rmult_le_reg_r with ext0; auto; unfold Rdiv; rewrite Rmult_assoc, Rinv_l; lra. }
  split; [apply I; tauto|]. split; [apply I; tauto|].
  unfold draw_entrance. rnum. destruct (Reqb_spec (n_shells n_cap) 0) as [K|_]; [contradiction|].
  rewrite Rj. cbn [hex_loop]. rnum.
  replace ((2 * ((x / ext0 + 1) / 2) - 1) * ext0) with x by (field; lra).
  replace ((2 * ((y / ext0 + 1) / 2) - 1) * ext0) with y by (field; lra).
  apply (within_hexagon ext0 (mkV x y 0)) in H; auto. rewrite H. reflexivity.
Qed.

Theorem C27_covers_square :
  forall n_cap cap0 ext0 x y post,
    0 < cap0 -> n_shells n_cap = 0 -> Rabs x <= cap0 -> Rabs y <= cap0 ->
    exists r1 r2, unit_interval r1 /\ unit_interval r2 /\
      draw_entrance n_cap cap0 ext0 (r1 :: r2 :: post) = Some (x, y, post).
Proof.
  intros n_cap cap0 ext0 x y post P NS Hx Hy. apply Rabs_le_elim in Hx, Hy.
  exists ((x / cap0 + 1) / 2), ((y / cap0 + 1) / 2).
  assert (I : forall z, - cap0 <= z <= cap0 -> unit_interval ((z / cap0 + 1) / 2)).
  { intros z Hz. unfold unit_interval. assert (-1 <= z / cap0 <= 1); [|lra].
    split; apply Rmult_le_reg_r with cap0; auto; unfold Rdiv; rewrite Rmult_assoc, Rinv_l; lra. }
  split; [apply I; tauto|]. split; [apply I; tauto|].
  unfold draw_entrance. rnum. rewrite Reqb_true by auto.
  do 2 f_equal. f_equal; field; lra.
Qed.

(** The rejection loop ends as soon as a pair of numbers falls inside. *)
Theorem C27_terminates :
  forall ext0 pre r1 r2 post, 0 < ext0 -> (exists k, List.length pre = 2 * k)%nat ->
    in_hexagon ext0 ((2 * r1 - 1) * ext0) ((2 * r2 - 1) * ext0) ->
    exists x y rest, hex_loop ext0 (pre ++ r1 :: r2 :: post) = Some (x, y, rest).
Proof.
  intros ext0 pre r1 r2 post P K H. apply hex_loop_returns; auto.
  apply (within_hexagon ext0 (mkV ((2 * r1 - 1) * ext0) ((2 * r2 - 1) * ext0) 0)) in H; auto. rewrite H. discriminate.
Qed.

(** *** The hypotheses are met *)
Definition demo_nums : source_nums R := mkSource 100 0.1 0.2 (-1) (-1) 0.01 0 0.5.
Definition demo_src_heap : list (@block R) :=
  demo_heap [0.4; 0.6] ++
  [ Vptr (Some 7%nat) :: Vptr (Some 18%nat) :: List.map Vdbl [100; 0.1; 0.2; -1; -1; 0.01; 0; 0.5] ++ [Vint 2; Vptr (Some 20%nat)];
    [Vptr (Some 19%nat)]; []; List.map Vdbl [10; 20] ].
Example source_met : source_in_memory (mkSt (blocks_of demo_src_heap) 21%nat (fun _ => true) 0%nat) 17%nat demo_nums 19 0.1 1 7%nat.
Proof.
  exists 20%nat, 18%nat, 19%nat, [10; 20], 8%nat, 9%nat, 10%nat, 11%nat, 12%nat, 13%nat, 5, 0, [14; 8]%Z, [0.4; 0.6], 2.2, 1%Z, [0; 1], [0.05], [0.5].
  split.
  - split; [reflexivity|]. split; [reflexivity|]. split; [reflexivity|]. eexists. reflexivity.
  - unfold description_object. repeat (split; [reflexivity|]). repeat constructor; cbn; lia.
Qed.
Lemma reject_corner pre : rejected_pairs 1 pre -> rejected_pairs 1 (1 :: 1 :: pre).
Proof.
  intros H post. cbn [app hex_loop]. rnum. rewrite <- (H post).
  destruct (Z.eqb_spec (within_pc_boundary 1 (mkV ((2 * 1 - 1) * 1) ((2 * 1 - 1) * 1) 0)) 0) as [_|K]; [reflexivity|].
  exfalso. apply K. destruct (within_strips 1 (mkV ((2 * 1 - 1) * 1) ((2 * 1 - 1) * 1) 0)) as [[_ (S & _)]|[E _]]; [lra| |exact E].
  exfalso. cbn [vx vy] in S. pose proof s3_bounds. revert S. replace ((2 * 1 - 1) * 1) with 1 by ring. rewrite Rabs_R1. lra.
Qed.
(** a rejected corner, then the centre *)
Example draw_met : exists dr, draw_photon demo_nums 19 0.1 1 [0.3; 0.6; 0.7; 1; 1; 0.5; 0.5; 0.2] = Some (dr, []) /\
  good_nums demo_nums /\ Forall unit_interval [0.3; 0.6; 0.7; 1; 1; 0.5; 0.5; 0.2] /\ uniform_illumination demo_nums /\
  n_shells 19 <> 0 /\ vx (dr_start dr) = 0 /\ vy (dr_start dr) = 0.
Proof.
  assert (N19 : n_shells 19 = IZR 2) by (apply n_shells_char; lia).
  assert (H : hex_loop 1 [1; 1; 0.5; 0.5; 0.2] = Some ((2 * 0.5 - 1) * 1, (2 * 0.5 - 1) * 1, [0.2])).
  { change [1; 1; 0.5; 0.5; 0.2] with ([1; 1] ++ [0.5; 0.5; 0.2]).
    rewrite (reject_corner []) by (intros post; reflexivity). cbn [hex_loop]. rnum.
    assert (E : within_pc_boundary 1 (mkV ((2 * 0.5 - 1) * 1) ((2 * 0.5 - 1) * 1) 0) = 1%Z).
    { apply within_hexagon; [lra|]. apply strips_hexagon; [lra|]. unfold strips. cbn [vx vy].
      pose proof s3_bounds. replace ((2 * 0.5 - 1) * 1) with 0 by lra. rewrite !Rmult_0_r, Rplus_0_r, Rminus_0_r, !Rabs_R0. lra. }
    rewrite E. reflexivity. }
  eexists. split.
  - unfold draw_photon, draw_ray, draw_entrance. rnum. cbn [so_sigx so_sigy demo_nums]. rewrite (Rltb_true (-1)) by lra. cbn [orb].
    rewrite N19. destruct (Reqb_spec (IZR 2) 0) as [K|_]; [lra|]. rewrite H. reflexivity.
  - cbn [dr_start vx vy]. split; [unfold good_nums; cbn; lra|].
    split; [repeat constructor; unfold unit_interval; lra|]. split; [left; cbn; lra|]. split; [rewrite N19; lra|]. split; lra.
Qed.
Example line_met : ~ In newline [82; 58; 32; 53]%Z /\ exists stream, (128 <= List.length stream)%nat /\ ~ In newline (firstn 128 stream).
Proof.
  split; [cbn; unfold newline; lia|]. exists (repeat 65%Z 128). split; [rewrite repeat_length; lia|].
  rewrite firstn_all2 by (rewrite repeat_length; lia). intros K. apply repeat_spec in K. discriminate.
Qed.
Example truncated_met : (List.length [dt 5; dt 100] <= 9)%nat /\ Forall (fun t => as_dbl t <> None) [dt 5; dt 100].
Proof. split; [cbn; lia|]. repeat constructor; discriminate. Qed.

Print Assumptions C90_checks.
Print Assumptions C23_unchecked_refuted.
Print Assumptions C23_accepts_out_of_range_refuted.
Print Assumptions C23_bad_fractions_refuted.
Print Assumptions C90_energies.
Print Assumptions C55_truncated_refuted.
Print Assumptions C55_not_a_number_partial.
Print Assumptions C24_line.
Print Assumptions C24_no_memory_refuted.
Print Assumptions C25_generated_photon.
Print Assumptions C25_source_point.
Print Assumptions C25_divergence.
Print Assumptions C25_missing_arguments.
Print Assumptions C25_no_memory_refuted.
Print Assumptions C26_polarisation.
Print Assumptions C27_hexagon.
Print Assumptions C27_square.
Print Assumptions C27_covers.
Print Assumptions C27_terminates.
Print Assumptions C25_source_area_uniform.
Print Assumptions C27_covers_square.
Print Assumptions C90_file_contents.
