(** * Property theorems: which random numbers decide what of a photon (C144) *)
From Coq Require Import ZArith List Bool Lia Reals Lra.
From Verif Require Import Num Geometry SpecPhoton SpecGeom HexProofs CapilReal SourceModel SourceReal PropSource.
Import ListNotations.
Open Scope R_scope.

Section Any.
Context {T : Type} {N : Num T}.

Lemma hex_inv ext0 k : forall rs : list T, (length rs <= k)%nat -> forall x y rs', hex_loop ext0 rs = Some (x, y, rs') ->
  exists mid, rs = mid ++ rs' /\ forall rest, hex_loop ext0 (mid ++ rest) = Some (x, y, rest).
Proof.
  induction k as [|k IH]; intros rs L x y rs' E; (destruct rs as [|r1 [|r2 rs]]; [discriminate|discriminate|]); [cbn in L; lia|]. cbn [hex_loop] in E. cbn [length] in L.
  destruct (Z.eqb _ 0) eqn:Ez.
  - destruct (IH rs ltac:(lia) _ _ _ E) as (u & -> & G). exists (r1 :: r2 :: u). split; [reflexivity|]. intros rest. cbn [app hex_loop]. rewrite Ez. apply G.
  - injection E as <- <- <-. exists [r1; r2]. split; [reflexivity|]. intros rest. cbn [app hex_loop]. rewrite Ez. reflexivity.
Qed.

Lemma entrance_inv n_cap cap0 ext0 (rs : list T) x y rs' : draw_entrance n_cap cap0 ext0 rs = Some (x, y, rs') ->
  exists mid, rs = mid ++ rs' /\ forall rest, draw_entrance n_cap cap0 ext0 (mid ++ rest) = Some (x, y, rest).
Proof.
  unfold draw_entrance. destruct (neqb _ _).
  - destruct rs as [|a [|b rs]]; try discriminate. intros E. injection E as <- <- <-. exists [a; b]. split; reflexivity.
  - intros E. exact (hex_inv ext0 (length rs) rs (Nat.le_refl _) _ _ _ E).
Qed.

(** How a uniform source was meant; what is left is a source with divergences. *)
Definition uniform_mode (k : source_nums T) : bool := (nltb (so_sigx k) (nofZ 0) || nltb (so_sigy k) (nofZ 0))%bool.

Lemma ray_inv (k : source_nums T) n_cap cap0 ext0 src rs start dir rest : draw_ray k n_cap cap0 ext0 src rs = Some (start, dir, rest) ->
  exists mid, rs = mid ++ rest /\ (forall rest', draw_ray k n_cap cap0 ext0 src (mid ++ rest') = Some (start, dir, rest')) /\
    forall src' rest', exists start' dir', draw_ray k n_cap cap0 ext0 src' (mid ++ rest') = Some (start', dir', rest') /\
      if uniform_mode k then start' = start else dir' = dir.
Proof.
  unfold draw_ray, uniform_mode. destruct (orb _ _).
  - destruct (draw_entrance n_cap cap0 ext0 rs) as [[[x y] rs1]|] eqn:E; [|discriminate]. intros K. injection K as <- <- <-.
    destruct (entrance_inv _ _ _ _ _ _ _ E) as (mid & -> & G). exists mid. split; [reflexivity|]. split; [intros; rewrite G; reflexivity|].
    intros src' rest'. rewrite G. eexists. eexists. split; reflexivity.
  - destruct rs as [|a [|b rs]]; try discriminate. intros K. injection K as <- <- <-. exists [a; b]. split; [reflexivity|]. split; [reflexivity|].
    intros src' rest'. eexists. eexists. split; reflexivity.
Qed.
End Any.

(** The numbers a photon is drawn from fall into three parts: three for the point of the source, [mid]
    for the starting point (uniform illumination) or the direction (divergence), the last one, [r], for
    the polarisation.  Other numbers in one part leave what the other parts decide as it was;
    numbers that follow have no influence. *)
Theorem C144_own_numbers :
  forall (k : source_nums R) n_cap cap0 ext0 rs dr rs',
    draw_photon k n_cap cap0 ext0 rs = Some (dr, rs') ->
    exists a b c mid r, rs = [a; b; c] ++ mid ++ [r] ++ rs' /\
      (* the last number and those that follow *)
      (forall r' more, exists e, draw_photon k n_cap cap0 ext0 ([a; b; c] ++ mid ++ [r'] ++ more) = Some (mkDrawn (dr_src dr) (dr_start dr) (dr_dir dr) e, more)) /\
      (* the first three *)
      (forall a' b' c' more, exists dr', draw_photon k n_cap cap0 ext0 ([a'; b'; c'] ++ mid ++ [r] ++ more) = Some (dr', more) /\
         if uniform_mode k then dr_start dr' = dr_start dr else dr_dir dr' = dr_dir dr) /\
      (* those in between *)
      (forall mid' dr' more, draw_photon k n_cap cap0 ext0 ([a; b; c] ++ mid') = Some (dr', more) -> dr_src dr' = dr_src dr).
Proof.
  intros k n_cap cap0 ext0 rs dr rs' D. apply draw_photon_inv in D. destruct D as (a & b & c & rs1 & start & dir & r & rs2 & -> & D & -> & ->).
  destruct (ray_inv _ _ _ _ _ _ _ _ _ D) as (mid & -> & G & G'). exists a, b, c, mid, r. split; [reflexivity|]. split; [|split].
  - intros r' more. eexists. cbn [app]. unfold draw_photon. rewrite G. reflexivity.
  - intros a' b' c' more. destruct (G' (draw_source_point k a' b' c') (r :: more)) as (start' & dir' & E & H). eexists. split.
    + cbn [app]. unfold draw_photon. rewrite E. reflexivity.
    + destruct (uniform_mode k); exact H.
  - intros mid' dr' more E. apply draw_photon_inv in E. destruct E as (a' & b' & c' & q & s' & d' & r' & q' & E & _ & _ & ->). injection E as <- <- <- _. reflexivity.
Qed.

(** The last number selects the axis of polarisation: the x axis for a share (1 + hor_pol)/2 of the
    numbers between 0 and 1; the electric vector is that axis without its component along the direction,
    normalised. *)
Theorem C144_polarisation_number :
  forall (k : source_nums R) n_cap cap0 ext0 rs r dr rs',
    good_nums k -> Forall unit_interval (rs ++ [r]) ->
    draw_photon k n_cap cap0 ext0 (rs ++ r :: rs') = Some (dr, rs') ->
    exists axis p q, axis = (if Rle_dec r ((1 + so_pol k) / 2) then mkV 1 0 0 else mkV 0 1 0) /\ 0 < p /\
      vx (dr_elecv dr) = p * vx axis + q * vx (dr_dir dr) /\ vy (dr_elecv dr) = p * vy axis + q * vy (dr_dir dr) /\ vz (dr_elecv dr) = p * vz axis + q * vz (dr_dir dr).
Proof.
  intros k n_cap cap0 ext0 rs r dr rs' G F D.
  assert (F' : forall more, Forall unit_interval more -> Forall unit_interval (rs ++ r :: more)).
  { intros more M. apply Forall_app in F. destruct F as [F1 F2]. apply Forall_app. split; [exact F1|]. inversion F2; subst. constructor; assumption. }
  pose proof D as D0. apply draw_photon_inv in D. destruct D as (a & b & c & rs1 & start & dir & r0 & rs2 & E & D & -> & ->).
  destruct (ray_inv _ _ _ _ _ _ _ _ _ D) as (mid & -> & K & _).
  assert (Er : r = r0 /\ rs = a :: b :: c :: mid).
  { change (a :: b :: c :: mid ++ r0 :: rs2) with ((a :: b :: c :: mid) ++ [r0] ++ rs2) in E. change (rs ++ r :: rs2) with (rs ++ [r] ++ rs2) in E.
    rewrite !app_assoc in E. apply app_inv_tail in E. apply app_inj_tail in E. destruct E. auto. }
  destruct Er as [<- ->]. clear E.
  assert (D1 : draw_photon k n_cap cap0 ext0 ((a :: b :: c :: mid) ++ r :: []) = Some (mkDrawn (draw_source_point k a b c) start dir (draw_elecv k r dir), [])).
  { cbn [app]. unfold draw_photon. rewrite K. reflexivity. }
  destruct (draw_consistent _ _ _ _ _ _ _ G (F' [] (Forall_nil _)) D1) as (_ & _ & _ & _ & U & Z & _). cbn [dr_dir dr_elecv] in *.
  destruct (C26_polarisation k r dir U Z) as (_ & _ & p & q & H1 & H2 & H3 & H4).
  exists (if Rle_dec r ((1 + so_pol k) / 2) then mkV 1 0 0 else mkV 0 1 0), p, q. split; [reflexivity|].
  apply Forall_app in F. destruct F as [_ F2]. inversion F2 as [|? ? [U1 _] _]; subst. rewrite (Rabs_pos_eq r) in * by exact U1. auto.
Qed.

(** Uniform illumination of a poly-capillary: the starting point is that of the first pair of numbers whose
    point of the square around the entrance lies in its hexagon. *)
Inductive all_outside (ext0 : R) : list R -> Prop :=
| outside_nil : all_outside ext0 []
| outside_pair : forall a b pre, ~ in_hexagon ext0 ((2 * a - 1) * ext0) ((2 * b - 1) * ext0) -> all_outside ext0 pre -> all_outside ext0 (a :: b :: pre).

Lemma hex_first ext0 (P : 0 < ext0) k : forall rs, (length rs <= k)%nat -> forall x y rs', hex_loop ext0 rs = Some (x, y, rs') ->
  exists pre a b, rs = pre ++ a :: b :: rs' /\ all_outside ext0 pre /\ in_hexagon ext0 x y /\ x = (2 * a - 1) * ext0 /\ y = (2 * b - 1) * ext0.
Proof.
  induction k as [|k IH]; intros rs L x y rs' E; (destruct rs as [|a [|b rs]]; [discriminate|discriminate|]); [cbn in L; lia|]. cbn [hex_loop] in E. cbn [length] in L.
  destruct (within_strips ext0 (mkV ((2 * a - 1) * ext0) ((2 * b - 1) * ext0) 0) P) as [[W H]|[W H]]; rnum; rewrite W in E; cbn [Z.eqb] in E.
  - injection E as <- <- <-. exists [], a, b. split; [reflexivity|]. split; [constructor|]. split; [|auto].
    apply (within_hexagon ext0 (mkV ((2 * a - 1) * ext0) ((2 * b - 1) * ext0) 0) P). exact W.
  - destruct (IH rs ltac:(lia) _ _ _ E) as (pre & a' & b' & -> & O & I). exists (a :: b :: pre), a', b'. split; [reflexivity|]. split; [|exact I].
    constructor; [|exact O]. intros K. apply (within_hexagon ext0 (mkV ((2 * a - 1) * ext0) ((2 * b - 1) * ext0) 0) P) in K. rewrite W in K. discriminate.
Qed.

Theorem C144_first_inside :
  forall (k : source_nums R) n_cap cap0 ext0 rs dr rs',
    uniform_illumination k -> n_shells n_cap <> 0 -> 0 < ext0 ->
    draw_photon k n_cap cap0 ext0 rs = Some (dr, rs') ->
    exists first pre a b r, rs = first ++ pre ++ [a; b; r] ++ rs' /\ length first = 3%nat /\ all_outside ext0 pre /\
      in_hexagon ext0 ((2 * a - 1) * ext0) ((2 * b - 1) * ext0) /\ dr_start dr = mkV ((2 * a - 1) * ext0) ((2 * b - 1) * ext0) 0.
Proof.
  intros k n_cap cap0 ext0 rs dr rs' U NS P D. apply draw_photon_inv in D. destruct D as (r1 & r2 & r3 & rs1 & start & dir & r & rs2 & -> & D & -> & ->).
  unfold draw_ray in D. rnum.
  assert (E : orb (Rltb (so_sigx k) 0) (Rltb (so_sigy k) 0) = true).
  { destruct U; [rewrite Rltb_true by auto; reflexivity|rewrite (Rltb_true (so_sigy k)) by auto; apply orb_true_r]. }
  rewrite E in D. destruct (draw_entrance n_cap cap0 ext0 rs1) as [[[x y] q]|] eqn:Ed; [|discriminate]. injection D as <- _ ->.
  unfold draw_entrance in Ed. rnum. destruct (Reqb_spec (n_shells n_cap) 0) as [K|_]; [contradiction|].
  destruct (hex_first ext0 P (length rs1) rs1 (Nat.le_refl _) _ _ _ Ed) as (pre & a & b & -> & O & I & -> & ->).
  exists [r1; r2; r3], pre, a, b, r. cbn [dr_start]. split; [reflexivity|]. auto.
Qed.

(** ... and of a mono-capillary: a point of the square around the opening, one number for each coordinate.
    With divergences: one number for each of the two tangents, which takes every value between the
    divergence and its opposite once. *)
Theorem C144_square :
  forall (k : source_nums R) n_cap cap0 ext0 rs dr rs',
    uniform_illumination k -> n_shells n_cap = 0 ->
    draw_photon k n_cap cap0 ext0 rs = Some (dr, rs') ->
    exists first a b r, rs = first ++ [a; b; r] ++ rs' /\ length first = 3%nat /\ dr_start dr = mkV ((2 * a - 1) * cap0) ((2 * b - 1) * cap0) 0.
Proof.
  intros k n_cap cap0 ext0 rs dr rs' U NS D. apply draw_photon_inv in D. destruct D as (r1 & r2 & r3 & rs1 & start & dir & r & rs2 & -> & D & -> & ->).
  unfold draw_ray in D. rnum.
  assert (E : orb (Rltb (so_sigx k) 0) (Rltb (so_sigy k) 0) = true).
  { destruct U; [rewrite Rltb_true by auto; reflexivity|rewrite (Rltb_true (so_sigy k)) by auto; apply orb_true_r]. }
  rewrite E in D. unfold draw_entrance in D. rnum. rewrite Reqb_true in D by exact NS. destruct rs1 as [|a [|b q]]; try discriminate.
  injection D as <- _ ->. exists [r1; r2; r3], a, b, r. auto.
Qed.

Theorem C144_tangents :
  forall (k : source_nums R) n_cap cap0 ext0 rs dr rs',
    0 <= so_sigx k -> 0 <= so_sigy k -> Forall unit_interval rs ->
    draw_photon k n_cap cap0 ext0 rs = Some (dr, rs') ->
    exists first a b r, rs = first ++ [a; b; r] ++ rs' /\ length first = 3%nat /\ 0 < vz (dr_dir dr) /\
      vx (dr_dir dr) = so_sigx k * (1 - 2 * a) * vz (dr_dir dr) /\ vy (dr_dir dr) = so_sigy k * (1 - 2 * b) * vz (dr_dir dr).
Proof.
  intros k n_cap cap0 ext0 rs dr rs' Hx Hy F D. apply draw_photon_inv in D. destruct D as (r1 & r2 & r3 & rs1 & start & dir & r & rs2 & -> & D & -> & ->).
  unfold draw_ray in D. rnum. rewrite !Rltb_false in D by lra. cbn [orb] in D. destruct rs1 as [|a [|b q]]; try discriminate. injection D as _ Ed ->.
  exists [r1; r2; r3], a, b, r. split; [reflexivity|]. split; [reflexivity|]. cbn [dr_dir].
  rewrite Forall_forall in F. assert (Ua : unit_interval a) by (apply F; cbn; auto 9). assert (Ub : unit_interval b) by (apply F; cbn; auto 9).
  unfold unit_interval in *. rewrite !Rabs_pos_eq in Ed by lra. 
  pose proof (norm_z_pos (mkV (so_sigx k * (1 - 2 * a)) (so_sigy k * (1 - 2 * b)) 1) ltac:(cbn; lra)) as Z.
  pose proof (norm_slopes (mkV (so_sigx k * (1 - 2 * a)) (so_sigy k * (1 - 2 * b)) 1) ltac:(cbn; lra)) as [S1 S2].
  rewrite Ed in Z, S1, S2. cbn [vx vy vz] in S1, S2. split; [exact Z|]. split.
  - replace (so_sigx k * (1 - 2 * a)) with (vx dir / vz dir) by (rewrite S1; field). field. lra.
  - replace (so_sigy k * (1 - 2 * b)) with (vy dir / vz dir) by (rewrite S2; field). field. lra.
Qed.

(** The hypotheses can be met: draw_met (PropSource.v) for uniform illumination of a poly-capillary, and *)
Definition narrow_nums : source_nums R := mkSource 100 0.1 0.2 0.01 0.02 0 0 0.5.
Example C144_met :
  draw_photon demo_nums 19 0.1 1 ([0.3; 0.6; 0.7; 1; 1; 0.5; 0.5] ++ [0.2]) <> None /\
  draw_photon demo_nums 1 0.1 1 [0.3; 0.6; 0.7; 0.4; 0.5; 0.2] <> None /\
  draw_photon narrow_nums 1 0.1 1 [0.3; 0.6; 0.7; 0.4; 0.5; 0.2] <> None /\
  uniform_illumination demo_nums /\ n_shells 19 <> 0 /\ n_shells 1 = 0 /\ good_nums narrow_nums /\ 0 <= so_sigx narrow_nums /\ 0 <= so_sigy narrow_nums /\
  Forall unit_interval [0.3; 0.6; 0.7; 0.4; 0.5; 0.2].
Proof.
  assert (N1 : n_shells 1 = IZR 0) by (apply n_shells_char; lia).
  destruct draw_met as (dr & D & _ & _ & U & NS & _). split; [|split; [|split]].
  - cbn [app]. rewrite D. discriminate.
  - unfold draw_photon, draw_ray, draw_entrance. rnum. cbn [so_sigx so_sigy demo_nums]. rewrite (Rltb_true (-1)) by lra. cbn [orb].
    rewrite N1, Reqb_true by reflexivity. discriminate.
  - unfold draw_photon, draw_ray. rnum. cbn [so_sigx so_sigy narrow_nums]. rewrite !Rltb_false by lra. discriminate.
  - split; [exact U|]. split; [exact NS|]. split; [exact N1|]. unfold good_nums. cbn. repeat split; try lra. repeat constructor; unfold unit_interval; lra.
Qed.

Print Assumptions C144_own_numbers.
Print Assumptions C144_polarisation_number.
Print Assumptions C144_first_inside.
Print Assumptions C144_square.
Print Assumptions C144_tangents.
