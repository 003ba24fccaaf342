(** * What the threads do in memory is what RunModel.v says *)
From Coq Require Import ZArith List Bool Lia String.
From Verif Require Import Num Mem SpecHeap ErrorModel ErrorProofs ProfileModel ProfileProofs Geometry SpecPhoton ConsModel HeapLib ResultModel
  H5Model H5Table CapilModel RunModel SimModel SimHeap.
Import ListNotations.

Section Step.
Context {T : Type} {N : Num T}.
Implicit Types (s : st T) (sh : shared T) (L : nat -> loc).
Variables (s0 : st T) (src : loc) (sb : list (val T)) (n ne mt : nat).
Hypothesis Hsrc : mem s0 src = Some sb.
Hypothesis Hne : nth_error sb S_NEN = Some (Vint (Z.of_nat ne)).
Hypothesis Hne1 : 1 <= ne.
Hypothesis Hmem : forall k, orc s0 k = true.

(** Names of the blocks: 2-19 the arrays of transmitted photons, 21-27 and 29-37 the leak
    arrays (as the cells of the images struct that point to them), 40 sum_weights, 41-43 the
    counters, 44 the result, 45, 46 its energies and efficiencies, 47 the images struct. *)
Definition base_ids : list nat := seq 2 18 ++ seq 40 8.
Definition leak_ids : list nat := seq 21 7 ++ seq 29 9.

Definition row_field (k : nat) : field :=
  match k with
  | 2 => FSrcX | 3 => FSrcY | 4 => FStartX | 5 => FStartY | 6 => FSdirX | 7 => FSdirY | 8 => FSelecX | 9 => FSelecY
  | 10 => FExitX | 11 => FExitY | 12 => FExitZ | 13 => FEdirX | 14 => FEdirY | 15 => FEelecX | 16 => FEelecY
  | 17 => FNrefl | _ => FDtravel
  end.
Definition leak_cell (k : nat) (d : leak_data T) : val T :=
  match k with
  | 21 | 29 => Vdbl (vx (lk_coords d)) | 22 | 30 => Vdbl (vy (lk_coords d)) | 23 | 31 => Vdbl (vz (lk_coords d))
  | 24 | 32 => Vdbl (vx (lk_dir d)) | 25 | 33 => Vdbl (vy (lk_dir d))
  | 34 => Vdbl (vx (lk_elecv d)) | 35 => Vdbl (vy (lk_elecv d))
  | _ => Vint (lk_nrefl d)
  end.
Definition img_cell (o : option (entry T)) : val T := match o with Some e => entry_cell e | None => Vundef end.
Definition lk_at (k : nat) (l : list (option (leak_data T))) (i : nat) : val T :=
  match nth_error l i with Some (Some d) => leak_cell k d | _ => Vundef end.
Definition lk_w (l : list (option (leak_data T))) (i : nat) : val T :=
  match nth_error l (i / ne) with Some (Some d) => nth (i mod ne) (List.map Vdbl (lk_weights d)) Vundef | _ => Vundef end.
Definition im_cell (G : list nat) L sh (i : nat) : val T :=
  if Nat.eqb i 20 then Vint (sh_iext sh) else if Nat.eqb i 28 then Vint (sh_iint sh) else
  if Nat.ltb i 2 then Vint 0 else if Nat.ltb i 20 then Vptr (Some (L i)) else
  if existsb (Nat.eqb i) G then Vptr (Some (L i)) else Vptr NULL.

Definition len sh (k : nat) : nat :=
  if Nat.eqb k 19 then n * ne else if Nat.ltb k 20 then n else
  if Nat.eqb k 26 then List.length (sh_ext sh) * ne else if Nat.ltb k 28 then List.length (sh_ext sh) else
  if Nat.eqb k 36 then List.length (sh_int sh) * ne else if Nat.ltb k 38 then List.length (sh_int sh) else
  if Nat.eqb k 40 then ne else if Nat.ltb k 44 then mt else if Nat.eqb k 44 then 5 else if Nat.ltb k 47 then ne else 38.
Definition cell (G : list nat) L sh (k i : nat) : val T :=
  if Nat.eqb k 19 then img_cell (sh_img sh (FWeight (i mod ne)) (i / ne)) else
  if Nat.ltb k 20 then img_cell (sh_img sh (row_field k) i) else
  if Nat.eqb k 26 then lk_w (sh_ext sh) i else if Nat.ltb k 28 then lk_at k (sh_ext sh) i else
  if Nat.eqb k 36 then lk_w (sh_int sh) i else if Nat.ltb k 38 then lk_at k (sh_int sh) i else
  if Nat.eqb k 40 then nth i (List.map Vdbl (sh_sumw sh)) Vundef else
  if Nat.eqb k 41 then Vint (sh_cnt sh CExit i) else if Nat.eqb k 42 then Vint (sh_cnt sh CNotEntered i) else
  if Nat.eqb k 43 then Vint (sh_cnt sh CNotTransmitted i) else
  if Nat.eqb k 44 then nth i [Vint 0; Vptr (Some (L 45)); Vptr (Some (L 46)); Vptr (Some (L 47)); Vptr (Some src)] Vundef else
  if Nat.ltb k 47 then Vundef else im_cell G L sh i.

(** Memory [s] and the function's variables [fr] are in the state [sh]. *)
Definition in_memory (G : list nat) L sh s : Prop := hp s0 (G ++ base_ids) L (arr (len sh) (cell G L sh)) s.
Definition grown sh : list nat := if sh_single sh then leak_ids else [].
Definition frame_of sh (fr : frame) : Prop :=
  f_irefl fr = sh_irefl sh /\ f_single fr = sh_single sh /\
  f_next fr = (if sh_single sh then Some (sh_next sh) else None) /\
  f_nint fr = (if sh_single sh then Some (sh_nint sh) else None) /\
  (sh_single sh = false -> sh_ext sh = [] /\ sh_int sh = [] /\ sh_next sh = 0 /\ sh_nint sh = 0) /\
  List.length (sh_sumw sh) = ne.
Definition the_vars L (v : sim_vars) : Prop :=
  v_source v = Some src /\ v_threads v = mt /\ v_sum v = Some (L 40) /\ v_exit v = Some (L 41) /\
  v_nent v = Some (L 42) /\ v_ntrans v = Some (L 43) /\ v_eff v = Some (L 44).

(** An action that stays within the arrays. *)
Definition legal (a : action T) : Prop :=
  match a with
  | AIncr _ t => t < mt
  | AStore f j _ => j < n /\ match f with FWeight k => k < ne | _ => True end
  | ARefl _ => True
  | ASum w _ => List.length w = ne
  | ASingle => True
  | ACopy e i => Forall (fun d => List.length (lk_weights d) = ne) e /\ Forall (fun d => List.length (lk_weights d) = ne) i
  end.

Lemma in_base k : (2 <= k < 20 \/ 40 <= k < 48) -> forall G, In k (G ++ base_ids).
Proof. intros H G. apply in_or_app. right. apply in_or_app. destruct H; [left|right]; apply in_seq; lia. Qed.

(** Reading n_energies. *)
Lemma rd_ne G L C s (Q : Z -> st T -> Prop) : hp s0 G L C s -> Q (Z.of_nat ne) s -> wp (load_int (Some src) S_NEN) Q s.
Proof. intros H HQ. eapply wp_load_int; [eapply hp_old; eauto|exact Hne|exact HQ]. Qed.

(** A pointer of the images struct, and an array it points to. *)
Lemma rd_im G L len' cell' s (Q : ptr -> st T -> Prop) : hp s0 (G ++ base_ids) L (arr len' cell') s ->
  len' 44 = 5 -> cell' 44 3 = Vptr (Some (L 47)) -> Q (Some (L 47)) s -> wp (load_ptr (Some (L 44)) E_IMG) Q s.
Proof. intros H E1 E2 HQ. eapply ha_load_ptr; [exact H|apply in_base; lia|lia|exact E2|exact HQ]. Qed.

Lemma put_image_ok G L len' cell' s k i x (Q : unit -> st T -> Prop) : hp s0 (G ++ base_ids) L (arr len' cell') s ->
  len' 44 = 5 -> cell' 44 3 = Vptr (Some (L 47)) -> len' 47 = 38 -> k < 38 -> cell' 47 k = Vptr (Some (L k)) ->
  In k (G ++ base_ids) -> i < len' k ->
  (forall s', hp s0 (G ++ base_ids) L (arr len' (putc cell' k i x)) s' -> Q tt s') ->
  wp (put_image (Some (L 44)) k i x) Q s.
Proof.
  intros H E1 E2 E3 E4 E5 Hk Hi HQ. unfold put_image. apply wp_bind. eapply rd_im; eauto.
  apply wp_bind. eapply ha_load_ptr; [exact H|apply in_base; lia|lia|exact E5|].
  eapply ha_store; eauto.
Qed.

Lemma in_base_iff k : In k base_ids <-> (2 <= k < 20 \/ 40 <= k < 48).
Proof. unfold base_ids. rewrite in_app_iff, !in_seq. lia. Qed.
Lemma in_leak_iff k : In k leak_ids <-> (21 <= k < 28 \/ 29 <= k < 38).
Proof. unfold leak_ids. rewrite in_app_iff, !in_seq. lia. Qed.


(** Case analysis on the name of a block. *)
Ltac onk k := unfold cell, len; repeat match goal with
  | |- context [Nat.eqb k ?c] => destruct (Nat.eqb_spec k c); [subst k|]
  | |- context [Nat.ltb k ?c] => destruct (Nat.ltb_spec k c)
  end.

Lemma act_incr L v sh fr s c t sh' (Q : frame -> st T -> Prop) :
  in_memory (grown sh) L sh s -> frame_of sh fr -> the_vars L v -> legal (AIncr c t) -> act (AIncr c t) sh = Some sh' ->
  (forall fr' s', in_memory (grown sh') L sh' s' -> frame_of sh' fr' -> Q fr' s') -> wp (hact v (AIncr c t) fr) Q s.
Proof.
  intros H F (V1 & V2 & V3 & V4 & V5 & V6 & V7) Lt A HQ. cbn [legal] in Lt. cbn [act] in A. injection A as <-. unfold in_memory in *. cbn [hact].
  set (k := match c with CExit => 41 | CNotEntered => 42 | CNotTransmitted => 43 end).
  assert (Ep : match c with CExit => v_exit v | CNotEntered => v_nent v | CNotTransmitted => v_ntrans v end = Some (L k)) by (destruct c; auto).
  rewrite Ep. apply wp_bind. eapply ha_load_int with (k := k) (p := sh_cnt sh c t); [exact H|apply in_base; destruct c; cbn; lia|destruct c; cbn; lia|destruct c; reflexivity|].
  apply wp_bind. eapply ha_store; [exact H|apply in_base; destruct c; cbn; lia|destruct c; cbn; lia|]. intros s' H'.
  apply wp_ret. apply HQ; [|exact F].
  eapply ha_ext; [| |exact H']; [reflexivity|]. intros j i _ Hi. unfold putc, k. clear Hi H'.
  destruct c; cbn [counter_eqb andb]; onk j; cbn [sh_cnt sh_img sh_sumw sh_ext sh_int]; try reflexivity;
    cbn [Nat.eqb andb counter_eqb]; destruct (Nat.eqb_spec i t); subst; auto.
Qed.

Lemma act_refl L v sh fr s m sh' (Q : frame -> st T -> Prop) :
  in_memory (grown sh) L sh s -> frame_of sh fr -> the_vars L v -> legal (ARefl m) -> act (ARefl m) sh = Some sh' ->
  (forall fr' s', in_memory (grown sh') L sh' s' -> frame_of sh' fr' -> Q fr' s') -> wp (hact v (ARefl m) fr) Q s.
Proof.
  intros H (F1 & F2 & F3 & F4 & F5 & F6) V Lt A HQ. cbn [act] in A. injection A as <-. cbn [hact]. apply wp_ret.
  apply HQ; [exact H|]. repeat split; cbn; auto; try (apply F5; auto). congruence.
Qed.

Lemma cell47 G L sh k : (2 <= k < 20 \/ (In k G /\ 21 <= k /\ k <> 28)) -> cell G L sh 47 k = Vptr (Some (L k)).
Proof.
  intros H. unfold cell, im_cell. change (Nat.eqb 47 19) with false. cbn [Nat.eqb Nat.ltb Nat.leb].
  destruct (Nat.eqb_spec k 20); [lia|]. destruct (Nat.eqb_spec k 28); [lia|].
  change (match k with 0 => true | S m' => Nat.leb m' 0 end) with (Nat.leb k 1).
  change (Nat.leb k 1) with (Nat.ltb k 2). change (Nat.leb k 19) with (Nat.ltb k 20).
  destruct (Nat.ltb_spec k 2); [lia|]. destruct (Nat.ltb_spec k 20); [reflexivity|].
  destruct H as [H|(H & _)]; [lia|]. replace (existsb (Nat.eqb k) G) with true; [reflexivity|].
  symmetry. apply existsb_exists. exists k. split; [auto|apply Nat.eqb_refl].
Qed.

Lemma same_cell f j k i : 2 <= k < 20 -> j < n -> match f with FWeight q => q < ne | _ => True end ->
  (field_eqb (if Nat.eqb k 19 then FWeight (i mod ne) else row_field k) f && Nat.eqb (if Nat.eqb k 19 then i / ne else i) j)%bool
  = (Nat.eqb k (field_cell f) && Nat.eqb i (field_index f j ne))%bool.
Proof.
  intros Hk Hj Hf. do 20 (destruct k as [|k]; [try lia; destruct f; try reflexivity|]); try lia.
  cbn [Nat.eqb field_eqb field_cell field_index andb].
  destruct (Nat.eqb_spec i (k + j * ne)) as [->|Ne].
  - rewrite Nat.mod_add, Nat.mod_small, Nat.div_add, Nat.div_small, !Nat.eqb_refl by lia. reflexivity.
  - destruct (Nat.eqb_spec (i mod ne) k) as [E1|]; [|reflexivity]. destruct (Nat.eqb_spec (i / ne) j) as [E2|]; [|reflexivity].
    exfalso. apply Ne. rewrite <- E1, <- E2. rewrite (Nat.div_mod i ne) at 1 by lia. lia.
Qed.

Lemma act_store L v sh fr s f j e sh' (Q : frame -> st T -> Prop) :
  in_memory (grown sh) L sh s -> frame_of sh fr -> the_vars L v -> legal (AStore f j e) -> act (AStore f j e) sh = Some sh' ->
  (forall fr' s', in_memory (grown sh') L sh' s' -> frame_of sh' fr' -> Q fr' s') -> wp (hact v (AStore f j e) fr) Q s.
Proof.
  intros H F (V1 & V2 & V3 & V4 & V5 & V6 & V7) [Lj Lf] A HQ. cbn [act] in A. injection A as <-. unfold in_memory in *. cbn [hact].
  rewrite V1, V7. apply wp_bind. eapply rd_ne; [exact H|]. rewrite Nat2Z.id. apply wp_bind.
  assert (Bf : 2 <= field_cell f < 20) by (destruct f; cbn; lia).
  eapply put_image_ok; [exact H|reflexivity|reflexivity|reflexivity|lia|apply cell47; lia|apply in_base; lia| |].
  { destruct f as [ | | | | | | | | | | | | | | | | |k]; try exact Lj. cbn. assert (j * ne + ne <= n * ne) by nia. lia. }
  intros s' H'. apply wp_ret. apply HQ; [|exact F].
  eapply ha_ext; [| |exact H']; [reflexivity|]. intros k i Hk Hi. unfold putc.
  assert (Rg : In k (grown sh) \/ In k base_ids) by (apply in_app_or; exact Hk).
  assert (2 <= k) by (destruct Rg as [Hg|Hg]; [unfold grown in Hg; destruct (sh_single sh); [apply in_leak_iff in Hg; lia|destruct Hg]|apply in_base_iff in Hg; lia]).
  destruct (Nat.lt_ge_cases k 20) as [Lk|Gk].
  - rewrite <- (same_cell f j k i) by (auto; lia). unfold cell.
    destruct (Nat.eqb_spec k 19) as [->|N19].
    + cbn [sh_img]. destruct (field_eqb _ _ && _)%bool; reflexivity.
    + replace (Nat.ltb k 20) with true by (symmetry; apply Nat.ltb_lt; auto). cbn [sh_img]. destruct (field_eqb _ _ && _)%bool; reflexivity.
  - replace (Nat.eqb k (field_cell f)) with false by (symmetry; apply Nat.eqb_neq; lia). cbn [andb].
    unfold cell. replace (Nat.eqb k 19) with false by (symmetry; apply Nat.eqb_neq; lia).
    replace (Nat.ltb k 20) with false by (symmetry; apply Nat.ltb_ge; auto). reflexivity.
Qed.

Lemma nth_dbl (l : list T) i x : nth_error l i = Some x -> nth i (List.map Vdbl l) Vundef = Vdbl x.
Proof. intros E. apply nth_error_nth. rewrite nth_error_map, E. reflexivity. Qed.

Lemma vec_add_length (a b : list T) : List.length (vec_add a b) = List.length a.
Proof. revert b. induction a as [|x a IH]; intros [|y b]; cbn; auto. Qed.
Lemma vec_add_nth (a b : list T) : forall i x y, nth_error a i = Some x -> nth_error b i = Some y -> nth_error (vec_add a b) i = Some (x + y)%num.
Proof. revert b. induction a as [|p a IH]; intros [|q b] [|i] x y; cbn; try discriminate; [congruence|apply IH]. Qed.

(** Cells of sum_weights after [m] additions. *)
Definition summed (a b : list T) (m i : nat) : val T :=
  if Nat.ltb i m then nth i (List.map Vdbl (vec_add a b)) Vundef else nth i (List.map Vdbl a) Vundef.

Lemma act_sum L v sh fr s w leaks sh' (Q : frame -> st T -> Prop) :
  in_memory (grown sh) L sh s -> frame_of sh fr -> the_vars L v -> legal (ASum w leaks) -> act (ASum w leaks) sh = Some sh' ->
  (forall fr' s', in_memory (grown sh') L sh' s' -> frame_of sh' fr' -> Q fr' s') -> wp (hact v (ASum w leaks) fr) Q s.
Proof.
  intros H (F1 & F2 & F3 & F4 & F5 & F6) (V1 & V2 & V3 & V4 & V5 & V6 & V7) Lw A HQ. cbn [legal] in Lw. cbn [act] in A. cbn [hact].
  unfold in_memory in *. rewrite V1, V3, V7. apply wp_bind. eapply rd_ne; [exact H|]. rewrite Nat2Z.id.
  apply wp_bind. unfold add_weights.
  set (cl := fun m k i => if Nat.eqb k 40 then summed (sh_sumw sh) w m i else cell (grown sh) L sh k i).
  apply wp_for_n with (I := fun m s1 => hp s0 (grown sh ++ base_ids) L (arr (len sh) (cl m)) s1).
  { eapply ha_ext; [| |exact H]; [reflexivity|]. intros k i _ _. unfold cl. destruct (Nat.eqb_spec k 40) as [->|]; reflexivity. }
  { intros m s1 [_ Hm] H1. cbn [plus] in *.
    destruct (nth_error_Some_ex (sh_sumw sh) m) as [x Ex]; [lia|]. destruct (nth_error_Some_ex w m) as [y Ey]; [lia|].
    apply wp_bind. eapply ha_load_dbl with (k := 40) (p := x); [exact H1|apply in_base; lia|cbn; lia| |].
    { unfold cl, summed. cbn [Nat.eqb]. rewrite Nat.ltb_irrefl. apply nth_dbl; auto. }
    apply wp_bind. unfold own. rewrite Ey. apply wp_ret.
    eapply ha_store; [exact H1|apply in_base; lia|cbn; lia|]. intros s2 H2.
    eapply ha_ext; [| |exact H2]; [reflexivity|]. intros k i _ _. unfold putc, cl.
    destruct (Nat.eqb_spec k 40) as [->|]; [|reflexivity]. cbn [andb]. unfold summed.
    destruct (Nat.eqb_spec i m) as [->|Nm].
    - replace (Nat.ltb m (S m)) with true by (symmetry; apply Nat.ltb_lt; lia). apply nth_dbl, vec_add_nth; auto.
    - destruct (Nat.ltb_spec i m), (Nat.ltb_spec i (S m)); auto; lia. }
  cbn [plus]. intros s1 H1.
  assert (Ext : forall ie ii s2, hp s0 (grown sh ++ base_ids) L
    (arr (len sh) (fun k i => if (Nat.eqb k 47 && Nat.eqb i 20)%bool then Vint (sh_iext sh + ie) else
                              if (Nat.eqb k 47 && Nat.eqb i 28)%bool then Vint (sh_iint sh + ii) else cl ne k i)) s2 ->
    hp s0 (grown sh ++ base_ids) L (arr (len sh) (cell (grown sh) L
      (mkShared (sh_cnt sh) (sh_img sh) (sh_irefl sh) (vec_add (sh_sumw sh) w)
              (sh_iext sh + ie)%Z (sh_iint sh + ii)%Z (sh_single sh) (sh_ext sh) (sh_next sh) (sh_int sh) (sh_nint sh)))) s2).
  { intros ie ii s2 H2. eapply ha_ext; [| |exact H2]; [reflexivity|]. intros k i Hk Hi.
    assert (Hi' : k = 40 -> i < ne) by (intros ->; exact Hi). clear Hi.
    unfold cl. destruct (Nat.eqb_spec k 47) as [->|N47]; cbn [andb].
    - unfold cell, im_cell. cbn [Nat.eqb Nat.ltb Nat.leb]. destruct (Nat.eqb_spec i 20); [reflexivity|]. destruct (Nat.eqb_spec i 28); reflexivity.
    - unfold cell. cbn [sh_cnt sh_img sh_sumw sh_ext sh_int].
      destruct (Nat.eqb_spec k 40) as [->|N40].
      + cbn [Nat.eqb Nat.ltb Nat.leb]. unfold summed. replace (Nat.ltb i ne) with true by (symmetry; apply Nat.ltb_lt; auto). reflexivity.
      + onk k; try reflexivity. apply in_app_or in Hk. destruct Hk as [Hk|Hk]; [|apply in_base_iff in Hk; lia].
        unfold grown in Hk. destruct (sh_single sh); [apply in_leak_iff in Hk; lia|destruct Hk]. }
  assert (Fr : forall ie ii fr', f_irefl fr' = f_irefl fr -> f_single fr' = f_single fr -> f_next fr' = f_next fr -> f_nint fr' = f_nint fr ->
     frame_of (mkShared (sh_cnt sh) (sh_img sh) (sh_irefl sh) (vec_add (sh_sumw sh) w) ie ii (sh_single sh) (sh_ext sh) (sh_next sh) (sh_int sh) (sh_nint sh)) fr').
  { intros ie ii fr' E1 E2 E3 E4. unfold frame_of. cbn. rewrite vec_add_length. repeat split; try congruence; apply F5; auto. }
  destruct leaks as [[e m]|]; injection A as <-.
  - apply wp_bind. unfold add_field at 1. apply wp_bind. eapply rd_im; [exact H1|reflexivity|reflexivity|].
    apply wp_bind. eapply ha_load_int with (k := 47) (p := sh_iext sh); [exact H1|apply in_base; lia|cbn; lia|reflexivity|].
    eapply ha_store; [exact H1|apply in_base; lia|cbn; lia|]. intros s2 H2. clear H1.
    apply wp_bind. unfold add_field at 1. apply wp_bind. eapply rd_im; [exact H2|reflexivity|reflexivity|].
    apply wp_bind. eapply ha_load_int with (k := 47) (p := sh_iint sh); [exact H2|apply in_base; lia|cbn; lia|reflexivity|].
    eapply ha_store; [exact H2|apply in_base; lia|cbn; lia|]. intros s3 H3. clear H2.
    apply wp_ret. apply HQ; [|apply Fr; auto]. apply Ext.
    eapply ha_ext; [| |exact H3]; [reflexivity|]. intros k i _ _. unfold putc.
    destruct (Nat.eqb_spec k 47) as [->|]; cbn [andb]; [|reflexivity].
    destruct (Nat.eqb_spec i 20) as [->|]; [reflexivity|]. destruct (Nat.eqb_spec i 28); reflexivity.
  - apply wp_ret. apply HQ; [|apply Fr; auto]. apply Ext.
    eapply ha_ext; [| |exact H1]; [reflexivity|]. intros k i _ _. rewrite !Z.add_0_r.
    destruct (Nat.eqb_spec k 47) as [->|]; cbn [andb]; [|reflexivity].
    destruct (Nat.eqb_spec i 20) as [->|]; [reflexivity|]. destruct (Nat.eqb_spec i 28) as [->|]; reflexivity.
Qed.

(** ** The single block *)
Definition is_leak k := 21 <= k < 28 \/ 29 <= k < 38.

(** Growing one array, when those of [G] are there. *)
Lemma grow_ok G L sh s k m (Q : unit -> st T -> Prop) :
  in_memory G L sh s -> is_leak k -> ~ In k G -> (forall j, In j G -> is_leak j) -> m = len sh k ->
  (forall i, i < len sh k -> cell (k :: G) L sh k i = Vundef) ->
  (forall L' s', (forall j, In j base_ids -> L' j = L j) -> in_memory (k :: G) L' sh s' -> Q tt s') ->
  wp (grow_field (Some (L 47)) k m) Q s.
Proof.
  intros H Hk NG HG -> Hu HQ. unfold grow_field, in_memory in *.
  apply wp_bind. eapply ha_load_ptr with (k := 47) (p := NULL); [exact H|apply in_base; lia|destruct Hk; cbn; lia| |].
  { unfold cell, im_cell. onk k; cbn [Nat.eqb Nat.ltb Nat.leb]; auto; unfold is_leak in Hk; try lia.
    destruct (existsb (Nat.eqb k) G) eqn:E; auto;
      apply existsb_exists in E; destruct E as (x & Ix & Ex); apply Nat.eqb_eq in Ex; subst; contradiction. }
  apply wp_bind. unfold realloc. 
  assert (Nk : ~ In k (G ++ base_ids)).
  { intros I. apply in_app_or in I. destruct I as [I|I]; [contradiction|]. apply in_base_iff in I. unfold is_leak in Hk. lia. }
  change (wp (alloc (repeat Vundef (len sh k))) (fun q s1 => wp (store (Some (L 47)) k (Vptr q)) Q s1) s).
  eapply hp_alloc; [exact H|exact Nk| |rewrite Hmem; discriminate].
  intros _ l s' _ H'.
  assert (H2 : hp s0 ((k :: G) ++ base_ids) (ov L k l)
     (arr (len sh) (fun k' i => if Nat.eqb k' k then Vundef else cell G L sh k' i)) s').
  { eapply hp_ext; [|exact H']. intros j Hj. unfold ov, arr. destruct (Nat.eqb_spec j k) as [->|Ne]; [|apply map_ext; intros i; cbv beta; apply Nat.eqb_neq in Ne; try rewrite Ne; reflexivity].
    cbv beta iota.
    clear. generalize 0. induction (len sh k) as [|q IH]; intros f; cbn; [reflexivity|f_equal; apply IH]. }
  clear H'.
  assert (E47 : ov L k l 47 = L 47) by (apply ov_other; unfold is_leak in Hk; lia).
  rewrite <- E47. eapply ha_store; [exact H2|apply in_base; lia|unfold len; destruct Hk; cbn; lia|]. intros s2 H3. clear H2.
  apply (HQ (ov L k l) s2).
  { intros j Hj. apply ov_other. intros ->. apply Nk. apply in_or_app. auto. }
  eapply ha_ext; [| |exact H3]; [reflexivity|]. intros j i Hj Hi. unfold putc.
  assert (NkL : forall q, 40 <= q -> ov L k l q = L q) by (intros q Hq; apply ov_other; unfold is_leak in Hk; lia).
  destruct (Nat.eqb_spec j 47) as [->|N47].
  - cbn [andb]. replace (Nat.eqb 47 k) with false by (symmetry; apply Nat.eqb_neq; unfold is_leak in Hk; lia).
    unfold cell, im_cell. cbn [Nat.eqb Nat.ltb Nat.leb existsb].
    destruct (Nat.eqb_spec i k) as [->|Nik].
    + rewrite ov_same. unfold is_leak in Hk. do 38 (destruct k as [|k]; [reflexivity || lia|]). lia.
    + cbn [orb]. rewrite ov_other by auto. reflexivity.
  - cbn [andb]. destruct (Nat.eqb_spec j k) as [->|Njk]; [rewrite <- (Hu i Hi)|].
    + unfold cell. onk k; try reflexivity; unfold is_leak in Hk; lia.
    + unfold cell. rewrite !NkL by lia. onk j; try reflexivity. 
      exfalso. destruct Hj as [Hj|Hj]; [congruence|]. apply in_app_or in Hj. destruct Hj as [Hj|Hj]; [apply HG in Hj; unfold is_leak in Hj; lia|apply in_base_iff in Hj; lia].
Qed.

Lemma grow_list_ok sh m fs : forall G L s (Q : unit -> st T -> Prop),
  in_memory G L sh s -> NoDup fs -> (forall k, In k fs -> is_leak k /\ ~ In k G /\ m = len sh k /\ forall G' L' i, i < len sh k -> cell G' L' sh k i = Vundef) ->
  (forall j, In j G -> is_leak j) ->
  (forall L' s', (forall j, In j base_ids -> L' j = L j) -> in_memory (rev fs ++ G) L' sh s' -> Q tt s') ->
  wp (grow_fields (Some (L 47)) fs m) Q s.
Proof.
  induction fs as [|k fs IH]; intros G L s Q H ND Hf HG HQ; cbn [grow_fields].
  - apply wp_ret. apply (HQ L s); auto.
  - inversion ND as [|? ? Nk ND']; subst. destruct (Hf k) as (A1 & A2 & A3 & A4); [cbn; auto|].
    apply wp_bind. eapply grow_ok; [exact H|exact A1|exact A2|exact HG|exact A3|intros; apply A4; auto|].
    intros L1 s1 EL H1. replace (L 47) with (L1 47) by (apply EL, in_base_iff; lia).
    eapply (IH (k :: G)); [exact H1|exact ND'| | |].
    + intros j Hj. destruct (Hf j) as (B1 & B2 & B3 & B4); [cbn; auto|]. repeat split; auto. intros [->|I]; contradiction.
    + intros j [<-|Hj]; auto.
    + intros L2 s2 EL2 H2. apply (HQ L2 s2); [intros j Hj; rewrite EL2, EL; auto|]. cbn [rev]. rewrite <- app_assoc. exact H2.
Qed.

Lemma hp_ids ids ids' L C s : (forall k, In k ids <-> In k ids') -> hp s0 ids L C s -> hp s0 ids' L C s.
Proof.
  intros E (W & O & M & I & F & K & X). repeat split; auto.
  - intros k Hk. apply M, E, Hk.
  - intros k k' Hk Hk'. apply I; apply E; auto.
  - intros k Hk. apply F, E, Hk.
  - intros l b H1 H2. destruct (X l b H1 H2) as (k & Hk & ->). exists k. split; [apply E|]; auto.
Qed.

Lemma in_memory_ids G G' L sh s : (forall k, In k G <-> In k G') -> in_memory G L sh s -> in_memory G' L sh s.
Proof.
  intros E H. unfold in_memory in *. eapply hp_ids with (ids := G ++ base_ids).
  { intros k. rewrite !in_app_iff, E. tauto. }
  eapply ha_ext; [| |exact H]; [reflexivity|]. intros k i _ _. unfold cell, im_cell.
  replace (existsb (Nat.eqb i) G') with (existsb (Nat.eqb i) G); [reflexivity|].
  apply eq_true_iff_eq. rewrite !existsb_exists. split; intros (q & Hq & Eq); exists q; split; auto; apply E; auto.
Qed.

Lemma nth_repeat_none (m i : nat) : match nth_error (repeat (@None (leak_data T)) m) i with Some (Some d) => Some d | _ => None end = None.
Proof. revert i. induction m as [|m IH]; intros [|i]; cbn; auto. Qed.
Lemma lk_at_none k m i : lk_at k (repeat None m) i = Vundef.
Proof. unfold lk_at. pose proof (nth_repeat_none m i) as E. destruct (nth_error _ i) as [[d|]|]; auto. discriminate. Qed.
Lemma lk_w_none m i : lk_w (repeat None m) i = Vundef.
Proof. unfold lk_w. pose proof (nth_repeat_none m (i / ne)) as E. destruct (nth_error (repeat None m) (i / ne)) as [[d|]|]; auto. discriminate. Qed.

Lemma act_single L v sh fr s sh' (Q : frame -> st T -> Prop) :
  in_memory (grown sh) L sh s -> frame_of sh fr -> the_vars L v -> act ASingle sh = Some sh' ->
  (forall L' fr' s', (forall j, In j base_ids -> L' j = L j) -> in_memory (grown sh') L' sh' s' -> frame_of sh' fr' -> Q fr' s') -> wp (hact v ASingle fr) Q s.
Proof.
  intros H F (V1 & V2 & V3 & V4 & V5 & V6 & V7) A HQ. pose proof F as (F1 & F2 & F3 & F4 & F5 & F6). cbn [act] in A. cbn [hact].
  rewrite F2. destruct (sh_single sh) eqn:Es.
  { injection A as <-. apply wp_ret. apply (HQ L fr s); auto. }
  injection A as <-. set (sh' := mkShared _ _ _ _ _ _ true _ _ _ _) in *. rewrite V1, V7.
  assert (H1 : in_memory [] L sh' s).
  { unfold grown in H. rewrite Es in H. unfold in_memory in *.
    assert (R : forall k, In k ([] ++ base_ids) -> 2 <= k < 20 \/ 40 <= k < 48) by (intros k; apply in_base_iff).
    eapply ha_ext; [| |exact H].
    - intros k Hk. apply R in Hk. unfold sh'. onk k; cbn [sh_ext sh_int]; try lia; reflexivity.
    - intros k i Hk _. apply R in Hk. unfold sh'. onk k; cbn [sh_ext sh_int]; try lia; reflexivity. }
  clear H. apply wp_bind. eapply rd_im; [exact H1|reflexivity|reflexivity|].
  apply wp_bind. eapply rd_ne; [exact H1|]. rewrite Nat2Z.id.
  apply wp_bind. eapply ha_load_int with (k := 47) (p := sh_iext sh); [exact H1|apply in_base; lia|cbn; lia|reflexivity|].
  assert (LE : List.length (sh_ext sh') = Z.to_nat (sh_iext sh)) by (unfold sh'; cbn; apply repeat_length).
  assert (LI : List.length (sh_int sh') = Z.to_nat (sh_iint sh)) by (unfold sh'; cbn; apply repeat_length).
  assert (U : forall k G' L' i, is_leak k -> cell G' L' sh' k i = Vundef).
  { intros k G' L' i Hk. unfold is_leak in Hk. unfold sh'. onk k; cbn [sh_ext sh_int]; try lia; cbn [Nat.eqb Nat.ltb Nat.leb]; auto using lk_at_none, lk_w_none. }
  apply wp_bind. eapply grow_list_ok; [exact H1| | | |].
  { repeat constructor; cbn; lia. }
  { intros k Hk. assert (is_leak k /\ k < 28 /\ k <> 26) by (unfold is_leak; cbn in Hk; lia). split; [tauto|]. split; [tauto|]. split; [|intros; apply U; tauto].
    rewrite <- LE. unfold is_leak in *. onk k; try lia; reflexivity. }
  { intros j []. }
  intros L1 s1 EL1 H2. clear H1. cbn [rev app] in H2.
  replace (L 47) with (L1 47) by (apply EL1, in_base_iff; lia).
  apply wp_bind. eapply grow_ok; [exact H2|unfold is_leak; lia|cbn; lia|unfold is_leak; intros j Hj; cbn in Hj; lia| |intros; apply U; unfold is_leak; lia|].
  { rewrite <- LE. cbn [len Nat.eqb Nat.ltb Nat.leb]. unfold len. cbn [Nat.eqb Nat.ltb Nat.leb]. lia. }
  intros L2 s2 EL2 H3. clear H2.
  replace (L1 47) with (L2 47) by (apply EL2, in_base_iff; lia).
  apply wp_bind. eapply ha_load_int with (k := 47) (p := sh_iint sh); [exact H3|apply in_base; lia|cbn; lia|reflexivity|].
  apply wp_bind. eapply grow_list_ok; [exact H3| | | |].
  { repeat constructor; cbn; lia. }
  { intros k Hk. assert (is_leak k /\ 29 <= k /\ k <> 36) by (unfold is_leak; cbn in Hk; lia). split; [tauto|]. split; [cbn; lia|]. split; [|intros; apply U; tauto].
    rewrite <- LI. unfold is_leak in *. onk k; try lia; reflexivity. }
  { unfold is_leak; intros j Hj; cbn in Hj; lia. }
  intros L3 s3 EL3 H4. clear H3. cbn [rev app] in H4.
  replace (L2 47) with (L3 47) by (apply EL3, in_base_iff; lia).
  apply wp_bind. eapply grow_ok; [exact H4|unfold is_leak; lia|cbn; lia|unfold is_leak; intros j Hj; cbn in Hj; lia| |intros; apply U; unfold is_leak; lia|].
  { rewrite <- LI. unfold len. cbn [Nat.eqb Nat.ltb Nat.leb]. lia. }
  intros L4 s4 EL4 H5. clear H4. apply wp_ret.
  apply (HQ L4 _ s4).
  - intros j Hj. rewrite EL4, EL3, EL2, EL1; auto.
  - unfold grown, sh' at 1. cbn [sh_single]. eapply in_memory_ids; [|exact H5]. intros k. rewrite in_leak_iff. cbn. lia.
  - unfold frame_of, sh'. cbn. repeat split; auto; discriminate.
Qed.

(** ** Copying leaks *)
Lemma put_spec {A} (a : A) : forall l c l', put l c a = Some l' ->
  c < List.length l /\ List.length l' = List.length l /\ forall i, nth_error l' i = if Nat.eqb i c then Some a else nth_error l i.
Proof.
  induction l as [|b l IH]; intros [|c] l' E; cbn in E; try discriminate.
  - injection E as <-. cbn. split; [lia|]. split; [auto|]. intros [|i]; reflexivity.
  - destruct (put l c a) as [l1|] eqn:E1; [|discriminate]. injection E as <-. destruct (IH _ _ E1) as (A1 & A2 & A3). cbn.
    split; [lia|]. split; [lia|]. intros [|i]; cbn; auto.
Qed.

Definition with_ext sh e m := mkShared (sh_cnt sh) (sh_img sh) (sh_irefl sh) (sh_sumw sh) (sh_iext sh) (sh_iint sh) (sh_single sh) e m (sh_int sh) (sh_nint sh).
Definition with_int sh e m := mkShared (sh_cnt sh) (sh_img sh) (sh_irefl sh) (sh_sumw sh) (sh_iext sh) (sh_iint sh) (sh_single sh) (sh_ext sh) (sh_next sh) e m.

Lemma lk_at_put k l c d l' i : put l c (Some d) = Some l' -> lk_at k l' i = if Nat.eqb i c then leak_cell k d else lk_at k l i.
Proof. intros E. apply put_spec in E. destruct E as (_ & _ & E). unfold lk_at. rewrite E. destruct (Nat.eqb i c); reflexivity. Qed.
Lemma lk_w_put l c d l' i : put l c (Some d) = Some l' -> List.length (lk_weights d) = ne ->
  lk_w l' i = if (Nat.leb (c * ne) i && Nat.ltb i (c * ne + ne))%bool then nth (i - c * ne) (List.map Vdbl (lk_weights d)) Vundef else lk_w l i.
Proof.
  intros E Lw. apply put_spec in E. destruct E as (_ & _ & E). unfold lk_w. rewrite E.
  destruct (Nat.eqb_spec (i / ne) c) as [Ec|Nc].
  - pose proof (Nat.div_mod i ne ltac:(lia)) as D. pose proof (Nat.mod_upper_bound i ne ltac:(lia)) as B. rewrite Ec in D.
    replace (Nat.leb (c * ne) i) with true by (symmetry; apply Nat.leb_le; nia).
    replace (Nat.ltb i (c * ne + ne)) with true by (symmetry; apply Nat.ltb_lt; nia). cbn [andb].
    f_equal. nia.
  - destruct (Nat.leb_spec (c * ne) i), (Nat.ltb_spec i (c * ne + ne)); cbn [andb]; auto.
    exfalso. apply Nc. symmetry. apply (Nat.div_unique i ne c (i - c * ne)); nia.
Qed.

Ltac img := eapply put_image_ok;
  [eassumption|reflexivity|reflexivity|reflexivity|lia|reflexivity|apply in_or_app; left; apply in_leak_iff; lia|cbn [len Nat.eqb Nat.ltb Nat.leb]; unfold len; cbn [Nat.eqb Nat.ltb Nat.leb]; first [assumption|nia]|].

(** The loop over the weights of one leak. *)
Lemma copy_weights_ok G L len' cl s c k (w : list T) (Q : unit -> st T -> Prop) :
  hp s0 (G ++ base_ids) L (arr len' cl) s -> len' 44 = 5 -> cl 44 3 = Vptr (Some (L 47)) -> len' 47 = 38 -> k < 38 -> cl 47 k = Vptr (Some (L k)) ->
  In k (G ++ base_ids) -> c * ne + ne <= len' k -> List.length w = ne ->
  (forall s', hp s0 (G ++ base_ids) L (arr len' (fun k' i =>
     if (Nat.eqb k' k && (Nat.leb (c * ne) i && Nat.ltb i (c * ne + ne)))%bool then nth (i - c * ne) (List.map Vdbl w) Vundef else cl k' i)) s' -> Q tt s') ->
  wp (for_n ne 0 (fun l => bind (own w l) (fun x => put_image (Some (L 44)) k (c * ne + l) (Vdbl x)))) Q s.
Proof.
  intros H E1 E2 E3 E4 E5 Hk Hl Lw HQ.
  apply wp_for_n with (I := fun m s1 => hp s0 (G ++ base_ids) L (arr len' (fun k' i =>
     if (Nat.eqb k' k && (Nat.leb (c * ne) i && Nat.ltb i (c * ne + m)))%bool then nth (i - c * ne) (List.map Vdbl w) Vundef else cl k' i)) s1).
  - eapply ha_ext; [| |exact H]; [reflexivity|]. intros k' i _ _.
    destruct (Nat.leb_spec (c * ne) i), (Nat.ltb_spec i (c * ne + 0)); cbn [andb]; rewrite ?andb_false_r; auto; lia.
  - intros m s1 [_ Hm] H1. cbn [plus] in Hm. destruct (nth_error_Some_ex w m) as [x Ex]; [lia|].
    apply wp_bind. unfold own. rewrite Ex. apply wp_ret.
    assert (k <> 44 /\ k <> 47) as (K1 & K2) by lia.
    eapply put_image_ok; [exact H1|exact E1| |exact E3|exact E4| |exact Hk|lia|].
    + cbv beta. replace (Nat.eqb 44 k) with false by (symmetry; apply Nat.eqb_neq; lia). exact E2.
    + cbv beta. replace (Nat.eqb 47 k) with false by (symmetry; apply Nat.eqb_neq; lia). exact E5.
    + intros s2 H2. eapply ha_ext; [| |exact H2]; [reflexivity|]. intros k' i _ _. unfold putc.
      destruct (Nat.eqb_spec k' k) as [->|]; cbn [andb]; [|reflexivity].
      destruct (Nat.eqb_spec i (c * ne + m)) as [->|Ni].
      * replace (Nat.leb (c * ne) (c * ne + m)) with true by (symmetry; apply Nat.leb_le; lia).
        replace (Nat.ltb (c * ne + m) (c * ne + S m)) with true by (symmetry; apply Nat.ltb_lt; lia). cbn [andb].
        replace (c * ne + m - c * ne) with m by lia. apply nth_dbl; auto.
      * destruct (Nat.leb_spec (c * ne) i), (Nat.ltb_spec i (c * ne + m)), (Nat.ltb_spec i (c * ne + S m)); cbn [andb]; auto; lia.
  - cbn [plus]. exact HQ.
Qed.

Lemma copy_ext_ok L sh s c d l' (Q : unit -> st T -> Prop) : in_memory leak_ids L sh s ->
  put (sh_ext sh) c (Some d) = Some l' -> List.length (lk_weights d) = ne ->
  (forall s', in_memory leak_ids L (with_ext sh l' (S c)) s' -> Q tt s') ->
  wp (copy_ext (Some src) (Some (L 44)) c d) Q s.
Proof.
  intros H P Lw HQ. unfold in_memory in *. pose proof (put_spec _ _ _ _ P) as (Lc & Ll & _). unfold copy_ext.
  apply wp_bind. img. clear s H. intros s H.
  apply wp_bind. img. clear s H. intros s H.
  apply wp_bind. img. clear s H. intros s H.
  apply wp_bind. img. clear s H. intros s H.
  apply wp_bind. img. clear s H. intros s H.
  apply wp_bind. img. clear s H. intros s H.
  apply wp_bind. eapply rd_ne; [exact H|]. rewrite Nat2Z.id.
  eapply copy_weights_ok; [exact H|reflexivity|reflexivity|reflexivity|lia|reflexivity|apply in_or_app; left; apply in_leak_iff; lia| |exact Lw|].
  { unfold len. cbn [Nat.eqb Nat.ltb Nat.leb]. nia. }
  clear s H. intros s H. apply HQ.
  eapply ha_ext; [| |exact H].
  - intros k _. unfold with_ext, len. cbn [sh_ext sh_int]. rewrite Ll. reflexivity.
  - intros k i Hk Hi. clear H HQ. unfold putc.
    destruct (Nat.eqb_spec k 26) as [->|N26]; cbn [andb].
    + unfold cell, with_ext. cbn [Nat.eqb Nat.ltb Nat.leb sh_ext andb]. apply lk_w_put; auto.
    + destruct (Nat.lt_ge_cases k 28) as [L28|G28]; [destruct (Nat.lt_ge_cases k 20) as [L20|G20]|].
      * repeat match goal with |- context [Nat.eqb k ?q] => replace (Nat.eqb k q) with false by (symmetry; apply Nat.eqb_neq; lia) end; cbn [andb].
        unfold cell, with_ext. cbn [sh_img]. apply Nat.ltb_lt in L20. rewrite L20. destruct (Nat.eqb k 19); reflexivity.
      * unfold cell, with_ext. cbn [sh_ext]. replace (Nat.eqb k 19) with false by (symmetry; apply Nat.eqb_neq; lia).
        replace (Nat.ltb k 20) with false by (symmetry; apply Nat.ltb_ge; lia). replace (Nat.eqb k 26) with false by (symmetry; apply Nat.eqb_neq; lia).
        replace (Nat.ltb k 28) with true by (symmetry; apply Nat.ltb_lt; lia). rewrite (lk_at_put _ _ _ _ _ _ P).
        assert (K : In k [20; 21; 22; 23; 24; 25; 27]) by (cbn; lia). 
        assert (K20 : k <> 20). { intros ->. apply in_app_or in Hk. rewrite in_leak_iff, in_base_iff in Hk. lia. }
        destruct K as [<-|[<-|[<-|[<-|[<-|[<-|[<-|[]]]]]]]]; [congruence|..]; cbn [Nat.eqb andb leak_cell]; destruct (Nat.eqb i c); reflexivity.
      * repeat match goal with |- context [Nat.eqb k ?q] => replace (Nat.eqb k q) with false by (symmetry; apply Nat.eqb_neq; lia) end; cbn [andb].
        unfold cell, with_ext. replace (Nat.eqb k 19) with false by (symmetry; apply Nat.eqb_neq; lia).
        replace (Nat.ltb k 20) with false by (symmetry; apply Nat.ltb_ge; lia). replace (Nat.eqb k 26) with false by (symmetry; apply Nat.eqb_neq; lia).
        replace (Nat.ltb k 28) with false by (symmetry; apply Nat.ltb_ge; lia). reflexivity.
Qed.

Lemma copy_int_ok L sh s c d l' (Q : unit -> st T -> Prop) : in_memory leak_ids L sh s ->
  put (sh_int sh) c (Some d) = Some l' -> List.length (lk_weights d) = ne ->
  (forall s', in_memory leak_ids L (with_int sh l' (S c)) s' -> Q tt s') ->
  wp (copy_int (Some src) (Some (L 44)) c d) Q s.
Proof.
  intros H P Lw HQ. unfold in_memory in *. pose proof (put_spec _ _ _ _ P) as (Lc & Ll & _). unfold copy_int.
  apply wp_bind. img. clear s H. intros s H.
  apply wp_bind. img. clear s H. intros s H.
  apply wp_bind. img. clear s H. intros s H.
  apply wp_bind. img. clear s H. intros s H.
  apply wp_bind. img. clear s H. intros s H.
  apply wp_bind. img. clear s H. intros s H.
  apply wp_bind. img. clear s H. intros s H.
  apply wp_bind. img. clear s H. intros s H.
  apply wp_bind. eapply rd_ne; [exact H|]. rewrite Nat2Z.id.
  eapply copy_weights_ok; [exact H|reflexivity|reflexivity|reflexivity|lia|reflexivity|apply in_or_app; left; apply in_leak_iff; lia| |exact Lw|].
  { unfold len. cbn [Nat.eqb Nat.ltb Nat.leb]. nia. }
  clear s H. intros s H. apply HQ.
  eapply ha_ext; [| |exact H].
  - intros k _. unfold with_int, len. cbn [sh_ext sh_int]. rewrite Ll. reflexivity.
  - intros k i Hk Hi. clear H HQ. unfold putc.
    destruct (Nat.eqb_spec k 36) as [->|N36]; cbn [andb].
    + unfold cell, with_int. cbn [Nat.eqb Nat.ltb Nat.leb sh_int andb]. apply lk_w_put; auto.
    + destruct (Nat.lt_ge_cases k 38) as [L38|G38]; [destruct (Nat.lt_ge_cases k 28) as [L28|G28]|].
      * repeat match goal with |- context [Nat.eqb k ?q] => replace (Nat.eqb k q) with false by (symmetry; apply Nat.eqb_neq; lia) end; cbn [andb].
        unfold cell, with_int. cbn [sh_img sh_ext]. apply Nat.ltb_lt in L28. rewrite L28. reflexivity.
      * unfold cell, with_int. cbn [sh_int]. replace (Nat.eqb k 19) with false by (symmetry; apply Nat.eqb_neq; lia).
        replace (Nat.ltb k 20) with false by (symmetry; apply Nat.ltb_ge; lia). replace (Nat.eqb k 26) with false by (symmetry; apply Nat.eqb_neq; lia).
        replace (Nat.ltb k 28) with false by (symmetry; apply Nat.ltb_ge; lia). replace (Nat.eqb k 36) with false by (symmetry; apply Nat.eqb_neq; lia).
        replace (Nat.ltb k 38) with true by (symmetry; apply Nat.ltb_lt; lia). rewrite (lk_at_put _ _ _ _ _ _ P).
        assert (K : In k [28; 29; 30; 31; 32; 33; 34; 35; 37]) by (cbn; lia). 
        assert (K20 : k <> 28). { intros ->. apply in_app_or in Hk. rewrite in_leak_iff, in_base_iff in Hk. lia. }
        destruct K as [<-|[<-|[<-|[<-|[<-|[<-|[<-|[<-|[<-|[]]]]]]]]]]; [congruence|..]; cbn [Nat.eqb andb leak_cell]; destruct (Nat.eqb i c); reflexivity.
      * repeat match goal with |- context [Nat.eqb k ?q] => replace (Nat.eqb k q) with false by (symmetry; apply Nat.eqb_neq; lia) end; cbn [andb].
        unfold cell, with_int. replace (Nat.eqb k 19) with false by (symmetry; apply Nat.eqb_neq; lia).
        replace (Nat.ltb k 20) with false by (symmetry; apply Nat.ltb_ge; lia). replace (Nat.eqb k 26) with false by (symmetry; apply Nat.eqb_neq; lia).
        replace (Nat.ltb k 28) with false by (symmetry; apply Nat.ltb_ge; lia). replace (Nat.eqb k 36) with false by (symmetry; apply Nat.eqb_neq; lia).
        replace (Nat.ltb k 38) with false by (symmetry; apply Nat.ltb_ge; lia). reflexivity.
Qed.

Lemma copy_exts_ok L l : forall sh s c e' (Q : option nat -> st T -> Prop), in_memory leak_ids L sh s ->
  put_all (sh_ext sh) c l = Some e' -> Forall (fun d => List.length (lk_weights d) = ne) l ->
  (forall s', in_memory leak_ids L (with_ext sh e' (c + List.length l)) s' -> Q (Some (c + List.length l)) s') ->
  wp (copy_leaks (copy_ext (Some src) (Some (L 44))) (Some c) l) Q s.
Proof.
  induction l as [|d l IH]; intros sh s c e' Q H P Fl HQ; cbn [copy_leaks put_all] in *.
  - apply wp_ret. injection P as <-. cbn in HQ. rewrite Nat.add_0_r in HQ. apply HQ. exact H.
  - destruct (put (sh_ext sh) c (Some d)) as [l1|] eqn:P1; [|discriminate]. inversion Fl as [|? ? Fd Fl']; subst.
    apply wp_bind. eapply copy_ext_ok; [exact H|exact P1|exact Fd|]. intros s1 H1.
    eapply (IH (with_ext sh l1 (S c)) s1 (S c) e'); [exact H1|exact P|exact Fl'|]. intros s2 H2.
    cbn [List.length] in HQ. replace (S c + List.length l) with (c + S (List.length l)) in * by lia. apply HQ. exact H2.
Qed.
Lemma copy_ints_ok L l : forall sh s c e' (Q : option nat -> st T -> Prop), in_memory leak_ids L sh s ->
  put_all (sh_int sh) c l = Some e' -> Forall (fun d => List.length (lk_weights d) = ne) l ->
  (forall s', in_memory leak_ids L (with_int sh e' (c + List.length l)) s' -> Q (Some (c + List.length l)) s') ->
  wp (copy_leaks (copy_int (Some src) (Some (L 44))) (Some c) l) Q s.
Proof.
  induction l as [|d l IH]; intros sh s c e' Q H P Fl HQ; cbn [copy_leaks put_all] in *.
  - apply wp_ret. injection P as <-. cbn in HQ. rewrite Nat.add_0_r in HQ. apply HQ. exact H.
  - destruct (put (sh_int sh) c (Some d)) as [l1|] eqn:P1; [|discriminate]. inversion Fl as [|? ? Fd Fl']; subst.
    apply wp_bind. eapply copy_int_ok; [exact H|exact P1|exact Fd|]. intros s1 H1.
    eapply (IH (with_int sh l1 (S c)) s1 (S c) e'); [exact H1|exact P|exact Fl'|]. intros s2 H2.
    cbn [List.length] in HQ. replace (S c + List.length l) with (c + S (List.length l)) in * by lia. apply HQ. exact H2.
Qed.

Lemma act_copy L v sh fr s e i sh' (Q : frame -> st T -> Prop) :
  in_memory (grown sh) L sh s -> frame_of sh fr -> the_vars L v -> legal (ACopy e i) -> act (ACopy e i) sh = Some sh' ->
  (forall fr' s', in_memory (grown sh') L sh' s' -> frame_of sh' fr' -> Q fr' s') -> wp (hact v (ACopy e i) fr) Q s.
Proof.
  intros H F (V1 & V2 & V3 & V4 & V5 & V6 & V7) [Fe Fi] A HQ. pose proof F as (F1 & F2 & F3 & F4 & F5 & F6). cbn [act] in A. cbn [hact].
  destruct (put_all (sh_ext sh) (sh_next sh) e) as [e'|] eqn:Pe; [|discriminate].
  destruct (put_all (sh_int sh) (sh_nint sh) i) as [i'|] eqn:Pi; [|discriminate]. injection A as <-.
  rewrite F3, F4, V1, V7. destruct (sh_single sh) eqn:Es.
  - unfold grown in H. rewrite Es in H. apply wp_bind. eapply copy_exts_ok; [exact H|exact Pe|exact Fe|]. intros s1 H1.
    apply wp_bind. eapply (copy_ints_ok L i (with_ext sh e' (sh_next sh + List.length e))); [exact H1|exact Pi|exact Fi|]. intros s2 H2. apply wp_ret.
    apply HQ; [unfold grown; cbn [sh_single]; exact H2|].
    unfold frame_of. cbn. repeat split; auto; discriminate.
  - destruct (F5 eq_refl) as (G1 & G2 & G3 & G4). rewrite G1 in Pe. rewrite G2 in Pi.
    destruct e as [|d e]; [|discriminate]. destruct i as [|d i]; [|discriminate]. cbn in Pe, Pi. injection Pe as <-. injection Pi as <-.
    cbn [copy_leaks]. apply wp_bind, wp_ret. apply wp_bind, wp_ret. apply wp_ret.
    apply HQ.
    + unfold grown in *. cbn [sh_single]. rewrite Es in H. unfold in_memory in *. eapply ha_ext; [| |exact H].
      * intros k _. unfold len. cbn [sh_ext sh_int]. rewrite G1, G2. reflexivity.
      * intros k q _ _. unfold cell. cbn [sh_ext sh_int]. rewrite G1, G2. reflexivity.
    + unfold frame_of. cbn. repeat split; auto; lia.
Qed.

(** ** One action, and all of them *)
Lemma act_sim L v sh fr s a sh' (Q : frame -> st T -> Prop) :
  in_memory (grown sh) L sh s -> frame_of sh fr -> the_vars L v -> legal a -> act a sh = Some sh' ->
  (forall L' fr' s', (forall j, In j base_ids -> L' j = L j) -> in_memory (grown sh') L' sh' s' -> frame_of sh' fr' -> Q fr' s') -> wp (hact v a fr) Q s.
Proof.
  intros H F V La A HQ. destruct a.
  - eapply act_incr; eauto.
  - eapply act_store; eauto.
  - eapply act_refl; eauto.
  - eapply act_sum; eauto.
  - eapply act_single; eauto.
  - eapply act_copy; eauto.
Qed.

Lemma the_vars_base L L' v : (forall j, In j base_ids -> L' j = L j) -> the_vars L v -> the_vars L' v.
Proof. intros E. unfold the_vars. rewrite !E by (apply in_base_iff; lia). auto. Qed.

Definition legal_prog (p : list (instr T)) : Prop := Forall (fun i => match i with Act a => legal a | Barrier => True end) p.

Lemma Forall_set_nth {A} (P : A -> Prop) t x l : Forall P l -> P x -> Forall P (RunModel.set_nth t x l).
Proof. intros F Hx. revert t. induction F as [|y l Hy F IH]; intros [|t]; cbn; auto. Qed.

(** Every run in memory is a run of RunModel.v with the same programs; if no such run is
    undefined, it never is. *)
Lemma hsteps_sim v c c' : hsteps v c c' -> forall ths fr s L sh, c = (ths, Some (fr, s)) ->
  (forall ths' x, steps (ths, Some sh) (ths', x) -> x <> None) ->
  Forall legal_prog ths -> in_memory (grown sh) L sh s -> frame_of sh fr -> the_vars L v ->
  exists L' sh' fr' s', snd c' = Some (fr', s') /\ steps (ths, Some sh) (fst c', Some sh') /\
    in_memory (grown sh') L' sh' s' /\ frame_of sh' fr' /\ the_vars L' v.
Proof.
  induction 1 as [c|c c1 c2 St _ IH]; intros ths fr s L sh -> Ok Fl H F V.
  - exists L, sh, fr, s. cbn. split; [auto|]. split; [constructor|auto].
  - inversion St as [t a rest ths' fr' s' E1 E2 E3|rests fs Ne E2 E3]; subst.
    + destruct (act a sh) as [sh1|] eqn:A.
      2:{ exfalso. eapply (Ok (RunModel.set_nth t rest ths) None); [|reflexivity]. rewrite <- A. eapply steps_cons; [eapply step_act; exact E1|constructor]. }
      assert (Fp : legal_prog (Act a :: rest)).
      { rewrite Forall_forall in Fl. apply Fl. eapply nth_error_In; eauto. }
      inversion Fp as [|? ? La Fr]; subst.
      assert (W : wp (hact v a fr) (fun fr1 s1 => exists L1, the_vars L1 v /\ in_memory (grown sh1) L1 sh1 s1 /\ frame_of sh1 fr1) s).
      { eapply act_sim; [exact H|exact F|exact V|exact La|exact A|]. intros L1 fr1 s1 EL H1 F1. exists L1. split; [eapply the_vars_base; eauto|auto]. }
      unfold wp in W. unfold hrun in IH. destruct (hact v a fr s) as [[fr1 s1]|]; [|contradiction]. destruct W as (L1 & V1 & H1 & F1).
      destruct (IH _ fr1 s1 L1 sh1 eq_refl) as (L2 & sh2 & fr2 & s2 & R1 & R2 & R3); auto.
      { intros ths2 x S2. apply (Ok ths2 x). eapply steps_cons; [eapply step_act; exact E1|]. rewrite A. exact S2. }
      { apply Forall_set_nth; auto. }
      exists L2, sh2, fr2, s2. split; [exact R1|]. split; [|exact R3].
      eapply steps_cons; [eapply step_act; exact E1|]. rewrite A. exact R2.
    + destruct (IH rests fr s L sh eq_refl) as (L2 & sh2 & fr2 & s2 & R1 & R2 & R3); auto.
      { intros ths2 x S2. apply (Ok ths2 x). eapply steps_cons; [apply step_barrier; exact Ne|exact S2]. }
      { clear -Fl. rewrite Forall_map in Fl. eapply Forall_impl; [|exact Fl]. intros p Hp. inversion Hp; auto. }
      exists L2, sh2, fr2, s2. split; [exact R1|]. split; [|exact R3]. eapply steps_cons; [apply step_barrier; exact Ne|exact R2].
Qed.

End Step.
