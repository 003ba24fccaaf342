(** * Proofs about the HDF5 writer, part 2: writing one dataset *)
From Coq Require Import ZArith List Bool Lia String FunctionalExtensionality.
From Verif Require Import Num Mem SpecHeap ErrorModel ErrorProofs ProfileModel ProfileProofs Geometry ConsModel HeapLib
  DescProofs SpecPhoton PhotProofs ResultModel SpecResult ResultProofs H5Lib H5Model SpecH5 H5Proofs.
Import ListNotations.

Lemma Some_inj {A} (a b : A) : Some a = Some b -> a = b.
Proof. congruence. Qed.

Section P.
Context {T : Type} {N : Num T}.
Implicit Types (s : st T) (w : hw T).

(** Where an error code may come from: no memory, the (outermost) class of a failing library
    call, or a library that cannot say. *)
Definition cause (v : h5version) (w0 : hw T) (c : Z) : Prop :=
  c = POLYCAP_ERROR_MEMORY \/ c = POLYCAP_ERROR_RUNTIME \/
  exists n e, outermost (h_errs w0 n) = Some e /\ c = code_of v e.

Definition ready (v : h5version) (tabs : loc) (err : ptr) (s : st T) : Prop :=
  wf s /\ legal_err s err /\ tables_ready v tabs s.
Definition reportable (w0 : hw T) (err : ptr) (s : st T) : Prop :=
  err = None \/ memory_available s \/ (h5_works w0 /\ reports_fit err s).

(** The function gave up. *)
Definition gave_up (v : h5version) (w0 : hw T) (err : ptr) (s s' : st T) : Prop :=
  ~ (h5_works w0 /\ memory_available s) /\ wf s' /\ orc s' = orc s /\
  (exists c, cause v w0 c /\ failed err c [] s s').

(** ** Files and handles: the file [f] is open and not complete; the other files are as in [w0]. *)
Record At (w0 : hw T) (f : string) (nx : Z) (O : list (Z * hobj)) (C : content T) (w : hw T) : Prop := mkAt {
  at_orc : h_orc w = h_orc w0; at_errs : h_errs w = h_errs w0; at_next : h_next w = nx; at_open : h_open w = O;
  at_lib : h_lib w f = C; at_ids : Forall (fun x => (0 <= fst x < nx)%Z) O; at_nn : (0 <= nx)%Z;
  at_disk : h_disk w f = None; at_file : exists i, In (i, HFile f) O;
  at_others : forall g, g <> f -> h_lib w g = h_lib w0 g /\ h_disk w g = h_disk w0 g }.

Definition Left (w0 : hw T) (f : string) (w : hw T) : Prop := exists nx O C, At w0 f nx O C w.

Definition tick (w : hw T) : hw T :=
  mkHw (h_orc w) (h_errs w) (S (h_cnt w)) (h_next w) (h_open w) (h_lib w) (h_disk w) (h_errs w (h_cnt w)).
Definition clear (w : hw T) : hw T :=
  mkHw (h_orc w) (h_errs w) (h_cnt w) (h_next w) (h_open w) (h_lib w) (h_disk w) [].

Lemma At_tick w0 f nx O C w : At w0 f nx O C w -> At w0 f nx O C (tick w).
Proof. intros []. constructor; assumption. Qed.
Lemma At_clear w0 f nx O C w : At w0 f nx O C w -> At w0 f nx O C (clear w).
Proof. intros []. constructor; assumption. Qed.
Lemma At_open w0 f nx O C w o : At w0 f nx O C w -> At w0 f (nx + 1) ((nx, o) :: O) C (snd (open_id w o)).
Proof.
  intros []. constructor; cbn; auto; try congruence; try lia.
  - constructor; [cbn; lia|]. eapply Forall_impl; [|eassumption]. cbn. intros a. lia.
  - destruct at_file0 as [i Hi]. exists i. now right.
Qed.
Lemma At_same_lib w0 f nx O C w w' : At w0 f nx O C w -> same_lib w w' -> At w0 f nx O C w'.
Proof.
  intros [] (E1 & E2 & E3 & E4 & E5 & E6). constructor; auto; try congruence. intros g Hg. rewrite E5, E6. auto.
Qed.
Lemma At_set_lib w0 f nx O C w C' : At w0 f nx O C w -> At w0 f nx O C' (set_lib w f C').
Proof.
  intros []. constructor; cbn; auto; [now rewrite String.eqb_refl|].
  intros g Hg. destruct (String.eqb_spec g f); [congruence|]. auto.
Qed.
Lemma At_set_open w0 f nx O C w O' : At w0 f nx O C w -> (forall x, In x O' -> In x O) -> (exists i, In (i, HFile f) O') -> At w0 f nx O' C (set_open w O').
Proof.
  intros [] H HF. constructor; cbn; auto. rewrite Forall_forall in *. auto.
Qed.
Lemma In_without (O : list (Z * hobj)) i x : In x (without O i) -> In x O.
Proof. unfold without. rewrite filter_In. tauto. Qed.
Lemma without_old (O : list (Z * hobj)) nx i : Forall (fun x => (0 <= fst x < nx)%Z) O -> (nx <= i)%Z -> without O i = O.
Proof.
  intros F H. unfold without. induction F as [|x O Hx F IH]; cbn [List.filter]; [reflexivity|].
  replace (Z.eqb (fst x) i) with false by (symmetry; apply Z.eqb_neq; lia). cbn [negb]. now rewrite IH.
Qed.
Lemma assoc_In i (O : list (Z * hobj)) o : assoc i O = Some o -> In (i, o) O.
Proof.
  induction O as [|[j x] O IH]; cbn; [discriminate|]. destruct (Z.eqb_spec j i) as [->|]; [intros [= ->]; now left|]. auto.
Qed.
Lemma assoc_range w0 f nx O C w i o : At w0 f nx O C w -> assoc i O = Some o -> (0 <= i < nx)%Z.
Proof. intros [] H. apply assoc_In in H. rewrite Forall_forall in at_ids0. apply at_ids0 in H. exact H. Qed.
Lemma assoc_neg w0 f nx O C w : At w0 f nx O C w -> assoc (-1) O = None.
Proof.
  intros A. destruct (assoc (-1) O) eqn:E; [|reflexivity]. pose proof (assoc_range _ _ _ _ _ _ _ _ A E). lia.
Qed.
Lemma At_lookup w0 f nx O C w i : At w0 f nx O C w -> lookup w i = assoc i O.
Proof. intros []. unfold lookup. now rewrite at_open0. Qed.

(** ** Rules for calls *)
Lemma h5call_cases (g : hw T -> option (Z * hw T)) (Q : Z -> hw T -> st T -> Prop) w s :
  (forall x w2, h_orc w (h_cnt w) = true -> g (tick w) = Some (x, w2) -> Q x (clear w2) s) ->
  (h_orc w (h_cnt w) = false \/ g (tick w) = None -> Q (-1)%Z (tick w) s) ->
  wpW (h5call g) Q w s.
Proof.
  intros H1 H2. unfold wpW, h5call. fold (tick w).
  destruct (h_orc w (h_cnt w)) eqn:Ow.
  - destruct (g (tick w)) as [[x w2]|] eqn:G; apply wp_ret; cbn [fst snd]; [apply H1; auto|apply H2; auto].
  - apply wp_ret. cbn [fst snd]. apply H2. auto.
Qed.

Section Fix.
Variables (v : h5version) (w0 : hw T) (tabs : loc) (err : ptr).
Hypothesis (EX : h5_explains w0).

Lemma wp_give_up f nx O C w s (Q : bool -> hw T -> st T -> Prop) n :
  At w0 f nx O C w -> ready v tabs err s -> reportable w0 err s -> ~ h5_works w0 -> h_stack w = h_errs w0 n ->
  (forall w' s', gave_up v w0 err s s' -> Left w0 f w' -> Q false w' s') ->
  wpW (bindW (set_exception (Some tabs) err) (fun _ => retW false)) Q w s.
Proof.
  intros A (Wf & Le & Tr) Rp Nw Hs HQ. apply wpW_bind. eapply wp_set_exception; eauto.
  - intros Hne. destruct Rp as [|[|[]]]; tauto.
  - rewrite Hs. apply EX.
  - intros w' s' SL W' O' N' K (c & e & Fl & He & Hc) _. apply wpW_ret. apply HQ; [|exists nx, O, C; eapply At_same_lib; eauto].
    split; [tauto|]. split; [exact W'|]. split; [exact O'|]. exists c. split; [|exact Fl].
    destruct Hc as [->| ->]; [right; right|right; left; reflexivity]. exists n, e. split; [congruence|reflexivity].
Qed.

Lemma wp_checked (g : hw T -> option (Z * hw T)) k (Q : bool -> hw T -> st T -> Prop) f nx O C w s :
  At w0 f nx O C w -> ready v tabs err s -> reportable w0 err s ->
  (forall x w2, g (tick w) = Some (x, w2) -> (0 <= x)%Z /\ wpW (k x) Q (clear w2) s) ->
  (g (tick w) = None -> ~ h5_works w0) ->
  (forall w' s', gave_up v w0 err s s' -> Left w0 f w' -> Q false w' s') ->
  wpW (checked (Some tabs) err (h5call g) k) Q w s.
Proof.
  intros A Rd Rp H1 H2 HQ. unfold checked. apply wpW_bind. apply h5call_cases.
  - intros x w2 _ G. destruct (H1 x w2 G) as [Hx Hk]. replace (Z.ltb x 0) with false by (symmetry; apply Z.ltb_ge; lia). exact Hk.
  - intros H. cbn [Z.ltb Z.compare]. eapply wp_give_up with (n := h_cnt w); [apply At_tick; exact A| | | | |]; auto.
    + destruct H as [H|H]; [|auto]. intros X. destruct A. rewrite at_orc0 in H. rewrite X in H. discriminate.
    + destruct A. cbn. congruence.
Qed.

(** Calls that open something / that return a status. *)
Lemma open_result f nx O C w o y : At w0 f nx O C w -> y = open_id w o -> fst y = nx /\ At w0 f (nx + 1) ((nx, o) :: O) C (clear (snd y)).
Proof. intros A ->. split; [apply (at_next _ _ _ _ _ _ A)|]. apply At_clear. now apply At_open. Qed.

Lemma wp_checked_open (g : hw T -> option (Z * hw T)) k (Q : bool -> hw T -> st T -> Prop) f nx O C w s o C' :
  At w0 f nx O C w -> ready v tabs err s -> reportable w0 err s ->
  (forall y, g (tick w) = Some y -> exists w', y = open_id w' o /\ At w0 f nx O C' w') ->
  (g (tick w) = None -> ~ h5_works w0) ->
  (forall y w2, g (tick w) = Some y -> At w0 f (nx + 1) ((nx, o) :: O) C' w2 -> wpW (k nx) Q w2 s) ->
  (forall w' s', gave_up v w0 err s s' -> Left w0 f w' -> Q false w' s') ->
  wpW (checked (Some tabs) err (h5call g) k) Q w s.
Proof.
  intros A Rd Rp H1 H2 H3 HF. eapply wp_checked; eauto. intros x w2 G.
  destruct (H1 _ G) as (w' & E & A'). destruct (open_result _ _ _ _ _ _ _ A' E) as [E1 E2]. cbn in E1, E2. subst x.
  split; [apply (at_nn _ _ _ _ _ _ A)|]. eapply H3; eauto.
Qed.
Lemma wp_checked_stat (g : hw T -> option (Z * hw T)) k (Q : bool -> hw T -> st T -> Prop) f nx O C w s O' C' :
  At w0 f nx O C w -> ready v tabs err s -> reportable w0 err s ->
  (forall y, g (tick w) = Some y -> fst y = 0%Z /\ At w0 f nx O' C' (snd y)) ->
  (g (tick w) = None -> ~ h5_works w0) ->
  (forall w2, At w0 f nx O' C' w2 -> wpW (k 0%Z) Q w2 s) ->
  (forall w' s', gave_up v w0 err s s' -> Left w0 f w' -> Q false w' s') ->
  wpW (checked (Some tabs) err (h5call g) k) Q w s.
Proof.
  intros A Rd Rp H1 H2 H3 HF. eapply wp_checked; eauto. intros x w2 G.
  destruct (H1 _ G) as (E & A'). cbn in E, A'. subst x. split; [lia|]. apply H3. now apply At_clear.
Qed.
(** A call that cannot succeed. *)
Lemma wp_checked_dead (g : hw T -> option (Z * hw T)) k (Q : bool -> hw T -> st T -> Prop) f nx O C w s :
  At w0 f nx O C w -> ready v tabs err s -> reportable w0 err s -> g (tick w) = None -> ~ h5_works w0 ->
  (forall w' s', gave_up v w0 err s s' -> Left w0 f w' -> Q false w' s') ->
  wpW (checked (Some tabs) err (h5call g) k) Q w s.
Proof. intros A Rd Rp H1 H2 HF. eapply wp_checked; eauto. intros x w2 G. congruence. Qed.
(** An opening call whose result is not checked. *)
Lemma wp_unchecked_open {B} (g : hw T -> option (Z * hw T)) (k : Z -> W T B) (Q : B -> hw T -> st T -> Prop) f nx O C w s o C' :
  At w0 f nx O C w ->
  (forall y, g (tick w) = Some y -> exists w', y = open_id w' o /\ At w0 f nx O C' w') ->
  (g (tick w) = None -> ~ h5_works w0) ->
  (forall w2, At w0 f (nx + 1) ((nx, o) :: O) C' w2 -> wpW (k nx) Q w2 s) ->
  (forall w2, ~ h5_works w0 -> At w0 f nx O C w2 -> wpW (k (-1)%Z) Q w2 s) ->
  wpW (bindW (h5call g) k) Q w s.
Proof.
  intros A H1 H2 H3 H4. apply wpW_bind. apply h5call_cases.
  - intros x w2 _ G. destruct (H1 _ G) as (w' & E & A'). destruct (open_result _ _ _ _ _ _ _ A' E) as [E1 E2]. cbn in E1, E2. subst x. auto.
  - intros H. apply H4; [|now apply At_tick]. destruct H as [H|H]; [|auto].
    intros X. rewrite (at_orc _ _ _ _ _ _ A) in H. rewrite X in H. discriminate.
Qed.

(** ** The content of the file *)
Lemma path_eqb_refl p : path_eqb p p = true.
Proof. unfold path_eqb. destruct (list_eq_dec String.string_dec p p); congruence. Qed.

Lemma on_dset_last G (L : list (dataset T)) d p g : List.existsb (fun d => path_eqb p (ds_path d)) L = false -> ds_path d = p ->
  on_dset (mkContent G (L ++ [d])) p g = mkContent G (L ++ [g d]).
Proof.
  intros H <-. unfold on_dset. cbn. f_equal. rewrite map_app. cbn. rewrite path_eqb_refl. f_equal.
  induction L as [|x L IH]; [reflexivity|]. cbn in *. apply orb_false_iff in H. destruct H as [-> H]. now rewrite IH.
Qed.
Lemma dset_dims_last G (L : list (dataset T)) d p : List.existsb (fun d => path_eqb p (ds_path d)) L = false -> ds_path d = p ->
  dset_dims (mkContent G (L ++ [d])) p = dims_size (ds_dims d).
Proof.
  intros H <-. unfold dset_dims. cbn. induction L as [|x L IH]; cbn in *.
  - now rewrite path_eqb_refl.
  - apply orb_false_iff in H. destruct H as [-> H]. apply IH. exact H.
Qed.

(** [p] from cell [off] on holds [data]. *)
Definition buffer (s : st T) (p : ptr) (off : nat) (data : list T) : Prop :=
  match p with
  | Some l => exists b pre more, mem s l = Some b /\ b = pre ++ List.map Vdbl data ++ more /\ List.length pre = off
  | None => data = []
  end.

Lemma wp_read_buf p off data (Q : list T -> st T -> Prop) s :
  buffer s p off data -> Q data s -> wp (read_buf (List.length data) p off) Q s.
Proof.
  revert off Q. induction data as [|x data IH]; intros off Q B HQ; cbn [List.length read_buf].
  - apply wp_ret. exact HQ.
  - destruct p as [l|]; [|discriminate]. destruct B as (b & pre & more & Hb & E & Lp).
    apply wp_bind. eapply wp_load_dbl; [exact Hb|rewrite E, <- Lp, nth_error_app2, Nat.sub_diag by lia; reflexivity|].
    apply wp_bind. apply IH.
    + exists b, (pre ++ [Vdbl x]), more. split; [exact Hb|]. split.
      * rewrite E, <- app_assoc. reflexivity.
      * rewrite app_length. cbn. lia.
    + apply wp_ret. exact HQ.
Qed.

Ltac ids := repeat (cbn [assoc without List.filter fst negb]; first [rewrite Z.eqb_refl | rewrite (proj2 (Z.eqb_neq _ _)) by lia]); cbn [assoc without List.filter fst negb].

Definition add_ds (C : content T) (d : dataset T) : content T := mkContent (c_groups C) (c_dsets C ++ [d]).

(** polycap_h5_write_dataset *)
Lemma wp_write_dataset f nx O C w s file dims name p off unit data (Q : bool -> hw T -> st T -> Prop) :
  At w0 f nx O C w -> ready v tabs err s -> reportable w0 err s ->
  assoc file O = Some (HFile f) -> buffer s p off data -> List.length data = dims_size dims ->
  (String.length unit <> 0) -> (can_create C name = true \/ ~ h5_works w0) ->
  (forall nx' w', can_create C name = true -> (nx <= nx')%Z -> At w0 f nx' O (add_ds C (ds name dims data unit)) w' -> Q true w' s) ->
  (forall w' s', gave_up v w0 err s s' -> Left w0 f w' -> Q false w' s') ->
  wpW (write_dataset (Some tabs) file dims name p off unit err) Q w s.
Proof.
  intros A Rd Rp Hf Hb Hl Hu Hc HT HF. pose proof (at_ids _ _ _ _ _ _ A) as Ids. pose proof (at_nn _ _ _ _ _ _ A) as Nn.
  pose proof (assoc_range _ _ _ _ _ _ _ _ A Hf) as Rf.
  pose proof (assoc_In _ _ _ Hf) as If.
  unfold write_dataset.
  eapply (wp_checked_open _ _ _ f nx O C w s (HSpace dims) C);
    [exact A|exact Rd|exact Rp| |intros X; discriminate X| |exact HF].
  { intros y E; apply Some_inj in E; subst y. eexists. split; [reflexivity|]. now apply At_tick. }
  intros _ w1 _ A1.
  (* H5Dcreate *)
  assert (Ff : assoc file ((nx, HSpace dims) :: O) = Some (HFile f)) by (ids; exact Hf).
  assert (Fs : assoc nx ((nx, HSpace dims) :: O) = Some (HSpace dims)) by (ids; reflexivity).
  set (d0 := mkDS name dims (@None (list T)) None).
  unfold H5Dcreate.
  eapply (wp_checked_open _ _ _ f _ _ C w1 s (HDset f name) (mkContent (c_groups C) (c_dsets C ++ [d0])));
    [exact A1|exact Rd|exact Rp| | | |exact HF];
    rewrite !(At_lookup _ _ _ _ _ _ _ (At_tick _ _ _ _ _ _ A1)), Ff, Fs, (at_lib _ _ _ _ _ _ (At_tick _ _ _ _ _ _ A1));
    destruct (can_create C name) eqn:Cc; try discriminate.
  { intros y E; apply Some_inj in E; subst y. eexists. split; [reflexivity|]. eapply At_set_lib. apply At_tick. exact A1. }
  { intros _. destruct Hc as [Hc|Hc]; [congruence|exact Hc]. }
  intros _ w2 _ A2.
  assert (Fresh : List.existsb (fun d => path_eqb name (ds_path d)) (c_dsets C) = false).
  { unfold can_create, has_name in Cc. apply andb_true_iff in Cc. destruct Cc as [_ Cc]. apply negb_true_iff in Cc.
    apply orb_false_iff in Cc. tauto. }
  (* H5Dwrite *)
  set (d1 := mkDS name dims (Some data) None).
  match goal with |- wpW (checked _ _ (H5Dwrite ?I _ _) ?K) _ _ _ => set (k3 := K) end.
  assert (Go : wpW (checked (Some tabs) err (h5call (fun w => Some (0%Z, set_lib w f (on_dset (h_lib w f) name
      (fun d => mkDS (ds_path d) (ds_dims d) (Some data) (ds_unit d)))))) k3) Q w2 s).
  { eapply (wp_checked_stat _ _ _ f _ _ _ w2 s _ (mkContent (c_groups C) (c_dsets C ++ [d1])));
      [exact A2|exact Rd|exact Rp| |discriminate| |exact HF].
    { intros y E; apply Some_inj in E; subst y. split; [reflexivity|]. cbn [snd].
      rewrite (at_lib _ _ _ _ _ _ (At_tick _ _ _ _ _ _ A2)), (on_dset_last _ _ d0) by auto.
      eapply At_set_lib. apply At_tick. exact A2. }
    clear w2 A2. intros w3 A3. unfold k3. clear k3.
    (* H5Screate(H5S_SCALAR) *)
    eapply (wp_unchecked_open _ _ _ f _ _ _ w3 s HScalar); [exact A3| |discriminate| |].
    { intros y E; apply Some_inj in E; subst y. eexists. split; [reflexivity|]. apply At_tick. exact A3. }
    2:{ intros w4 Nw A4. eapply (wp_unchecked_open _ _ _ f _ _ _ w4 s HType); [exact A4| |discriminate| |].
        { intros y E; apply Some_inj in E; subst y. eexists. split; [reflexivity|]. apply At_tick. exact A4. }
        - intros w5 A5. eapply wp_checked_stat; [exact A5|exact Rd|exact Rp| |intros _; exact Nw| |exact HF].
          + intros y. rewrite (At_lookup _ _ _ _ _ _ _ (At_tick _ _ _ _ _ _ A5)). ids.
            destruct (Nat.eqb (String.length unit) 0); [discriminate|]. intros [= <-]. split; [reflexivity|].
            apply At_tick. exact A5.
          + intros w6 A6. eapply wp_checked_dead; [exact A6|exact Rd|exact Rp| |exact Nw|exact HF].
            rewrite !(At_lookup _ _ _ _ _ _ _ (At_tick _ _ _ _ _ _ A6)), (assoc_neg _ _ _ _ _ _ A6).
            repeat match goal with |- context [match assoc ?i ?l with _ => _ end] => destruct (assoc i l) as [[]|] end; reflexivity.
        - intros w5 _ A5. eapply wp_checked_dead; [exact A5|exact Rd|exact Rp| |exact Nw|exact HF].
          now rewrite (At_lookup _ _ _ _ _ _ _ (At_tick _ _ _ _ _ _ A5)), (assoc_neg _ _ _ _ _ _ A5). }
    intros w4 A4.
    (* H5Tcopy *)
    eapply (wp_unchecked_open _ _ _ f _ _ _ w4 s HType); [exact A4| |discriminate| |].
    { intros y E; apply Some_inj in E; subst y. eexists. split; [reflexivity|]. apply At_tick. exact A4. }
    2:{ intros w5 Nw A5. eapply wp_checked_dead; [exact A5|exact Rd|exact Rp| |exact Nw|exact HF].
        now rewrite (At_lookup _ _ _ _ _ _ _ (At_tick _ _ _ _ _ _ A5)), (assoc_neg _ _ _ _ _ _ A5). }
    intros w5 A5.
    set (O5 := ((nx + 1 + 1 + 1)%Z, HType) :: ((nx + 1 + 1)%Z, HScalar) :: ((nx + 1)%Z, HDset f name) :: (nx, HSpace dims) :: O) in *.
    assert (L1 : assoc (nx + 1 + 1 + 1)%Z O5 = Some HType) by (unfold O5; ids; reflexivity).
    assert (L2 : assoc (nx + 1 + 1)%Z O5 = Some HScalar) by (unfold O5; ids; reflexivity).
    assert (L3 : assoc (nx + 1)%Z O5 = Some (HDset f name)) by (unfold O5; ids; reflexivity).
    (* H5Tset_size *)
    eapply wp_checked_stat; [exact A5|exact Rd|exact Rp| | | |exact HF];
      rewrite ?(At_lookup _ _ _ _ _ _ _ (At_tick _ _ _ _ _ _ A5)), ?L1; destruct (Nat.eqb_spec (String.length unit) 0); try contradiction; try discriminate.
    { intros y E; apply Some_inj in E; subst y. split; [reflexivity|]. apply At_tick. exact A5. }
    intros w6 A6.
    (* H5Acreate *)
    eapply (wp_checked_open _ _ _ f _ _ _ w6 s (HAttr f name)); [exact A6|exact Rd|exact Rp| | | |exact HF];
      rewrite ?(At_lookup _ _ _ _ _ _ _ (At_tick _ _ _ _ _ _ A6)), ?L1, ?L2, ?L3; try discriminate.
    { intros y E; apply Some_inj in E; subst y. eexists. split; [reflexivity|]. apply At_tick. exact A6. }
    intros _ w7 _ A7.
    set (ia := (nx + 1 + 1 + 1 + 1)%Z) in *.
    assert (K1 : assoc (nx + 1 + 1 + 1)%Z ((ia, HAttr f name) :: O5) = Some HType) by (unfold O5, ia; ids; reflexivity).
    assert (K2 : assoc ia ((ia, HAttr f name) :: O5) = Some (HAttr f name)) by (ids; reflexivity).
    (* H5Awrite *)
    set (C' := add_ds C (ds name dims data unit)).
    eapply (wp_checked_stat _ _ _ f _ _ _ w7 s _ C'); [exact A7|exact Rd|exact Rp| | | |exact HF];
      rewrite ?(At_lookup _ _ _ _ _ _ _ (At_tick _ _ _ _ _ _ A7)), ?K1, ?K2; try discriminate.
    { intros y E; apply Some_inj in E; subst y. split; [reflexivity|]. cbn [snd].
      rewrite (at_lib _ _ _ _ _ _ (At_tick _ _ _ _ _ _ A7)), (on_dset_last _ _ d1) by auto.
      eapply At_set_lib. apply At_tick. exact A7. }
    intros w8 A8.
    (* the five closes *)
    assert (Close : forall nx1 O1 O2 ok i o k w1, At w0 f nx1 O1 C' w1 -> assoc i O1 = Some o -> ok o = true -> without O1 i = O2 -> (exists i, In (i, HFile f) O2) ->
       (forall w2, At w0 f nx1 O2 C' w2 -> wpW (k 0%Z) Q w2 s) ->
       wpW (checked (Some tabs) err (h5close ok i) k) Q w1 s).
    { intros nx1 O1 O2 ok i o k w1' B Ha Hok Ho Hi Hk. eapply (wp_checked_stat _ _ _ f _ _ _ w1' s O2 C'); [exact B|exact Rd|exact Rp| | |exact Hk|exact HF];
        rewrite (At_lookup _ _ _ _ _ _ _ (At_tick _ _ _ _ _ _ B)), Ha, Hok; try discriminate.
      intros y E; apply Some_inj in E; subst y. split; [reflexivity|]. cbn [snd].
      rewrite (at_open _ _ _ _ _ _ (At_tick _ _ _ _ _ _ B)), Ho. eapply At_set_open; [apply At_tick; exact B| |exact Hi].
      rewrite <- Ho. apply In_without. }
    assert (Wo : forall i, (nx <= i)%Z -> List.filter (fun x => negb (Z.eqb (fst x) i)) O = O) by (intros; eapply without_old; eauto).
    unfold O5, ia in *.
    unfold H5Sclose, H5Tclose, H5Aclose, H5Dclose.
    eapply Close; [exact A8|ids; reflexivity|reflexivity|ids; rewrite Wo by lia; reflexivity|exists file; cbn [In]; tauto|]. intros w9 A9.
    eapply Close; [exact A9|ids; reflexivity|reflexivity|ids; rewrite Wo by lia; reflexivity|exists file; cbn [In]; tauto|]. intros w10 A10.
    eapply Close; [exact A10|ids; reflexivity|reflexivity|ids; rewrite Wo by lia; reflexivity|exists file; cbn [In]; tauto|]. intros w11 A11.
    eapply Close; [exact A11|ids; reflexivity|reflexivity|ids; rewrite Wo by lia; reflexivity|exists file; cbn [In]; tauto|]. intros w12 A12.
    eapply Close; [exact A12|ids; reflexivity|reflexivity|ids; rewrite Wo by lia; reflexivity|exists file; cbn [In]; tauto|]. intros w13 A13.
    apply wpW_ret. eapply HT; [reflexivity| |exact A13]. lia. }
  unfold checked at 1. apply wpW_bind. unfold wpW at 1. unfold H5Dwrite.
  rewrite (At_lookup _ _ _ _ _ _ _ A2). cbn [assoc]. rewrite Z.eqb_refl.
  rewrite (at_lib _ _ _ _ _ _ A2), (dset_dims_last _ _ d0) by (auto). cbn [ds_dims d0]. rewrite <- Hl.
  apply wp_bind. eapply wp_read_buf; [exact Hb|].
  unfold checked in Go. unfold wpW in Go at 1. unfold bindW in Go. apply wp_bind_inv in Go. exact Go.
Qed.
End Fix.
End P.
