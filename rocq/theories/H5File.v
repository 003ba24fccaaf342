(** * Proofs about the HDF5 writer, part 5: the input group, closing, the whole function *)
From Coq Require Import ZArith List Bool Lia String FunctionalExtensionality.
From Verif Require Import Num Mem SpecHeap ErrorModel ErrorProofs ProfileModel ProfileProofs Geometry ConsModel HeapLib
  DescProofs SpecPhoton PhotProofs ResultModel SpecResult ResultProofs H5Lib H5Model SpecH5 H5Proofs H5Write H5Table H5Main.
Import ListNotations.

Section P.
Context {T : Type} {N : Num T}.
Implicit Types (s : st T) (w : hw T).

Section Fix.
Variables (v : h5version) (w0 : hw T) (tabs : loc) (err : ptr) (f : string) (s0 : st T).
Hypothesis (EX : h5_explains w0) (R0 : ready v tabs err s0) (Rp0 : reportable w0 err s0).
Local Notation Run := (Run v w0 err s0).
Local Notation keep := (keep err s0).

Section Steps.
Variables (Q : bool -> hw T -> st T -> Prop).
Hypothesis (HF : forall w' s', gave_up v w0 err s0 s' -> Left w0 f w' -> Q false w' s').

Lemma two_rows (a b : list T) n (val : nat -> nat -> T) : n <= List.length a -> n <= List.length b ->
  (forall j, val 0 j = nth j a (#0)%num) -> (forall j, val 1 j = nth j b (#0)%num) -> table_data 2 n val = firstn n a ++ firstn n b.
Proof.
  intros Ha Hb H0 H1. unfold table_data. cbn [seq List.map List.concat]. rewrite app_nil_r.
  rewrite <- (map_nth_firstn a (#0)%num n Ha), <- (map_nth_firstn b (#0)%num n Hb). f_equal; apply map_ext; assumption.
Qed.

Lemma wp_write_input P nx O C D w s file src i :
  At w0 f nx O D w -> Run P s -> assoc file O = Some (HFile f) -> clear_of "Input" C ->
  (D = in_group C "Input" [] \/ (D = C /\ ~ h5_works w0)) ->
  source_input s0 src i ->
  (forall nx' w' s', D = in_group C "Input" [] -> (nx <= nx')%Z -> At w0 f nx' O (in_group C "Input" (input_sets i)) w' -> Run P s' -> Q true w' s') ->
  wpW (write_input (Some tabs) file (Some src) err) Q w s.
Proof.
  intros A R Hf Cl HD (d & lr & lg & len & liz & lwi & lp & lz & lc & le & rest & ens & (Bs & _) & (Bd & Biz & Bwi & Bp & Bz & Bc & Be & _) & Lw & Nz & Nc & Ne) HT.
  assert (Ks : forall s1, keep s1 -> mem s1 src = mem s0 src).
  { intros s1 K. rewrite Bs. eapply keep_block; eauto. intros p; discriminate. }
  assert (Kd : forall s1, keep s1 -> mem s1 d = mem s0 d).
  { intros s1 K. rewrite Bd. eapply keep_block; eauto. intros p; discriminate. }
  assert (Kp : forall s1, keep s1 -> mem s1 lp = mem s0 lp).
  { intros s1 K. rewrite Bp. eapply keep_block; eauto. intros p; discriminate. }
  assert (Rd : forall s1 l xs j (Q' : T -> st T -> Prop), keep s1 -> dbl_array s0 l xs -> j < List.length xs -> Q' (nth j xs (#0)%num) s1 ->
     wp (load_dbl (Some l) j) Q' s1).
  { intros s1 l xs j Q' K B Hj HQ'. eapply read_dbl; [exact R0|exact K| |rewrite nth_error_map, (nth_error_nth' xs (#0)%num) by exact Hj; reflexivity|exact HQ'].
    exists []. rewrite app_nil_r. exact B. }
  assert (Ri : forall s1 l xs j (Q' : Z -> st T -> Prop), keep s1 -> int_array s0 l xs -> j < List.length xs -> Q' (nth j xs 0%Z) s1 ->
     wp (load_int (Some l) j) Q' s1).
  { intros s1 l xs j Q' K B Hj HQ'. eapply read_int; [exact R0|exact K| |rewrite nth_error_map, (nth_error_nth' xs 0%Z) by exact Hj; reflexivity|exact HQ'].
    exists []. rewrite app_nil_r. exact B. }
  assert (Cc : forall x B, ~ In ["Input"; x]%string (List.map ds_path B) -> can_create (in_group C "Input" B) ["Input"; x]%string = true \/ ~ h5_works w0).
  { intros x B H. left. now apply in_group_can. }
  unfold write_input. apply wpW_bind. apply wpW_lift.
  pose proof (Run_keep _ _ _ _ _ _ R) as K.
  apply wp_bind. eapply wp_load_ptr; [rewrite (Ks s K); exact Bs|reflexivity|].
  apply wp_bind. eapply wp_load_ptr; [rewrite (Kd s K); exact Bd|reflexivity|].
  apply wp_bind. eapply wp_load_int; [rewrite (Kp s K); exact Bp|reflexivity|]. apply wp_ret. rewrite Nat2Z.id. clear K.
  (* PC_Shape *)
  assert (Rz : forall s1 a l xs j (Q' : T -> st T -> Prop), keep s1 -> nth_error [@Vint T (Z.of_nat (in_nmax i)); Vptr (Some lz); Vptr (Some lc); Vptr (Some le)] a = Some (Vptr (Some l)) ->
     dbl_array s0 l xs -> in_nmax i <= List.length xs -> j < in_nmax i -> Q' (nth j xs (#0)%num) s1 ->
     wp (bind (load_ptr (Some lp) a) (fun q => load_dbl q j)) Q' s1).
  { intros s1 a l xs j Q' K Ha Bl Hl Hj HQ'. apply wp_bind. eapply wp_load_ptr; [rewrite (Kp s1 K); exact Bp|exact Ha|].
    eapply Rd; eauto. lia. }
  eapply step_table with (val := fun c j => match c with 0 => nth j (in_z i) (#0)%num | _ => nth j (in_ext i) (#0)%num end);
    [exact EX|exact R0|exact Rp0|exact HF|exact A|exact R|exact Hf|cbn; lia|discriminate| | |apply (two_rows (in_z i) (in_ext i)); [assumption|assumption|reflexivity|reflexivity]|].
  { destruct HD as [->|[-> Nw]]; [apply Cc; cbn; tauto|right; exact Nw]. }
  { intros s1 c j K Hc Hj Q' HQ'. destruct c as [|[|c]]; [| |lia]; cbn beta iota; (eapply Rz; [exact K|reflexivity|eassumption|assumption|exact Hj|exact HQ']). }
  intros nx1 w1 s1 Cc1 Hn1 A1 R1.
  destruct HD as [->|[-> _]]; [|rewrite (clear_cannot _ _ _ Cl) in Cc1; discriminate].
  clear w s A R Cc1. rewrite add_in_group in A1. cbn [app] in A1.
  (* Cap_Shape *)
  eapply step_table with (val := fun c j => match c with 0 => nth j (in_z i) (#0)%num | _ => nth j (in_cap i) (#0)%num end);
    [exact EX|exact R0|exact Rp0|exact HF|exact A1|exact R1|exact Hf|cbn; lia|discriminate|apply Cc; cbn; intuition discriminate| |apply (two_rows (in_z i) (in_cap i)); [assumption|assumption|reflexivity|reflexivity]|].
  { intros s2 c j K Hc Hj Q' HQ'. destruct c as [|[|c]]; [| |lia]; cbn beta iota; (eapply Rz; [exact K|reflexivity|eassumption|assumption|exact Hj|exact HQ']). }
  clear w1 s1 A1 R1. intros nx2 w2 s2 _ Hn2 A2 R2. rewrite add_in_group in A2. cbn [app] in A2.
  (* N_Capillaries *)
  eapply step_table with (val := fun _ _ => nofZ (in_ncap i)) (data := [nofZ (in_ncap i)]);
    [exact EX|exact R0|exact Rp0|exact HF|exact A2|exact R2|exact Hf|cbn; lia|discriminate|apply Cc; cbn; intuition discriminate| |reflexivity|].
  { intros s3 c j K Hc Hj Q' HQ'. apply wp_bind. eapply wp_load_int; [rewrite (Kd s3 K); exact Bd|reflexivity|]. apply wp_ret. exact HQ'. }
  clear w2 s2 A2 R2. intros nx3 w3 s3 _ Hn3 A3 R3. rewrite add_in_group in A3. cbn [app] in A3.
  (* Surface_Roughness *)
  eapply step_dataset with (data := [in_sig i]);
    [exact EX|exact R0|exact Rp0|exact HF|exact A3|exact R3|exact Hf| |reflexivity|discriminate|apply Cc; cbn; intuition discriminate|].
  { eapply (run_cells _ _ _ _ _ R0 _ _ _ _ []); [exact R3|exact Bd|reflexivity]. }
  clear w3 s3 A3 R3. intros nx4 w4 s4 _ Hn4 A4 R4. rewrite add_in_group in A4. cbn [app] in A4.
  (* Open_Area *)
  eapply step_dataset with (data := [in_open i]);
    [exact EX|exact R0|exact Rp0|exact HF|exact A4|exact R4|exact Hf| |reflexivity|discriminate|apply Cc; cbn; intuition discriminate|].
  { eapply (run_cells _ _ _ _ _ R0 _ _ _ _ [_; _]); [exact R4|exact Bd|reflexivity]. }
  clear w4 s4 A4 R4. intros nx5 w5 s5 _ Hn5 A5 R5. rewrite add_in_group in A5. cbn [app] in A5.
  (* PC_Composition *)
  apply wpW_bind. apply wpW_lift. pose proof (Run_keep _ _ _ _ _ _ R5) as K5.
  apply wp_bind. eapply wp_load_int; [rewrite (Kd s5 K5); exact Bd|reflexivity|]. apply wp_ret. rewrite Nat2Z.id. clear K5.
  eapply step_table with (val := fun c j => match c with 0 => nofZ (nth j (in_iz i) 0%Z) | _ => nth j (in_wi i) (#0)%num end) (data := List.map nofZ (in_iz i) ++ in_wi i);
    [exact EX|exact R0|exact Rp0|exact HF|exact A5|exact R5|exact Hf|cbn; lia|discriminate|apply Cc; cbn; intuition discriminate| | |].
  { intros s6 c j K Hc Hj Q' HQ'. destruct c as [|[|c]]; [| |lia]; cbn beta iota.
    - apply wp_bind. eapply wp_load_ptr; [rewrite (Kd s6 K); exact Bd|reflexivity|]. apply wp_bind. eapply Ri; [exact K|exact Biz|exact Hj|].
      apply wp_ret. exact HQ'.
    - apply wp_bind. eapply wp_load_ptr; [rewrite (Kd s6 K); exact Bd|reflexivity|]. eapply Rd; [exact K|exact Bwi|lia|exact HQ']. }
  { unfold table_data. cbn [seq List.map List.concat]. rewrite app_nil_r. f_equal.
    - rewrite <- (map_map (fun j => nth j (in_iz i) 0%Z) nofZ). f_equal. rewrite map_nth_firstn by lia. apply firstn_all.
    - rewrite <- Lw. rewrite map_nth_firstn by lia. apply firstn_all. }
  clear w5 s5 A5 R5. intros nx6 w6 s6 _ Hn6 A6 R6. rewrite add_in_group in A6. cbn [app] in A6.
  (* PC_Density *)
  eapply step_dataset with (data := [in_dens i]);
    [exact EX|exact R0|exact Rp0|exact HF|exact A6|exact R6|exact Hf| |reflexivity|discriminate|apply Cc; cbn; intuition discriminate|].
  { eapply (run_cells _ _ _ _ _ R0 _ _ _ _ [_; _; _; _; _; _]); [exact R6|exact Bd|reflexivity]. }
  clear w6 s6 A6 R6. intros nx7 w7 s7 _ Hn7 A7 R7. rewrite add_in_group in A7. cbn [app] in A7.
  (* Src_PC_Dist *)
  eapply wp_write_dataset with (data := [in_dist i]); [exact EX|exact A7|eapply Run_ready; eauto|eapply Run_reportable; eauto|exact Hf| |reflexivity|discriminate|apply Cc; cbn; intuition discriminate| |].
  { eapply (run_cells _ _ _ _ _ R0 _ _ _ _ [_; _]); [exact R7|exact Bs|reflexivity]. }
  - intros nx8 w8 _ Hn8 A8. rewrite add_in_group in A8. eapply HT; [reflexivity| |exact A8|exact R7]. lia.
  - intros w8 s8 G L. apply HF; [eapply Run_gave_up; eauto|exact L].
Qed.

(** ** Closing *)
(** A handle that stays open keeps the file open. *)
Definition stuck (R : list Z) (w : hw T) : Prop := exists i o, In (i, o) (h_open w) /\ keeps f o = true /\ ~ In i R.
Record End (C : content T) (w : hw T) : Prop := mkEnd {
  en_orc : h_orc w = h_orc w0; en_errs : h_errs w = h_errs w0; en_lib : h_lib w f = C;
  en_others : forall g, g <> f -> h_lib w g = h_lib w0 g /\ h_disk w g = h_disk w0 g }.
(** [L]: what is open; [R]: the handles still to be closed. *)
Definition Closing (C : content T) (file : Z) (L : list (Z * hobj)) (R : list Z) (w : hw T) (s : st T) : Prop :=
  End C w /\ (h_disk w f = None /\ assoc file (h_open w) = Some (HFile f)) /\
  ((quiet s0 s /\ h_open w = L) \/ (~ h5_works w0 /\ gave_up v w0 err s0 s /\ stuck R w)).

Lemma End_tick C w : End C w -> End C (tick w).
Proof. intros []. constructor; assumption. Qed.

Lemma wp_exception (P : Prop) (K : W T bool) w s : Run P s -> ~ h5_works w0 -> h_errs w = h_errs w0 ->
  (forall w' s', same_lib (tick w) w' -> gave_up v w0 err s0 s' -> wpW K Q w' s') ->
  wpW (bindW (set_exception (Some tabs) err) (fun _ => K)) Q (tick w) s.
Proof.
  intros R Nw Er HK. assert (Rd : ready v tabs err s) by (eapply Run_ready; eauto). assert (Rp : reportable w0 err s) by (eapply Run_reportable; eauto).
  apply wpW_bind. eapply wp_set_exception; [apply Rd|apply Rd|apply Rd| | |].
  - intros Hne. destruct Rp as [|[|[]]]; [contradiction|assumption|contradiction].
  - cbn. rewrite Er. apply EX.
  - intros w' s' SL W' O' N' _ (c & e & Fl & He & Hc) _. apply HK; [exact SL|].
    eapply Run_gave_up; [exact R0|exact R|]. split; [tauto|]. split; [exact W'|]. split; [exact O'|]. exists c. split; [|exact Fl].
    destruct Hc as [->| ->]; [right; right|right; left; reflexivity]. exists (h_cnt w), e. split; [|reflexivity].
    cbn in He. now rewrite <- Er.
Qed.

Lemma Closing_run C file L R w s : Closing C file L R w s -> exists P, Run P s.
Proof. intros (_ & _ & [[H _]|(H1 & H2 & _)]); [exists False; left; tauto|exists True; right; auto]. Qed.

Lemma assoc_without L i j : j <> i -> assoc j (without L i) = assoc j L.
Proof.
  intros H. induction L as [|[k o] L IH]; [reflexivity|]. unfold without in *. cbn [List.filter fst].
  destruct (Z.eqb_spec k i) as [->|Hk]; cbn [negb assoc].
  - rewrite (proj2 (Z.eqb_neq i j)) by congruence. exact IH.
  - now rewrite IH.
Qed.

Lemma step_close C file L R w s ok i o K :
  Closing C file L (i :: R) w s -> assoc i L = Some o -> ok o = true -> keeps f o = true -> ~ In i R -> i <> file ->
  (forall w' s', Closing C file (without L i) R w' s' -> wpW K Q w' s') ->
  wpW (close_end (Some tabs) err (h5close ok i) K) Q w s.
Proof.
  intros Cl Hi Ho Hk Hn Hif HK. pose proof Cl as (E & (D & Lf) & H). unfold close_end. apply wpW_bind. unfold h5close. apply h5call_cases.
  - intros x w2 _ G. assert (Hx : x = 0%Z /\ w2 = set_open (tick w) (without (h_open w) i)).
    { destruct (lookup (tick w) i) as [o'|]; [|discriminate]. destruct (ok o'); [|discriminate].
      apply Some_inj in G. apply pair_equal_spec in G. destruct G as [<- <-]. auto. }
    destruct Hx as [-> ->]. cbn [Z.ltb Z.compare]. apply HK. split; [destruct E; constructor; assumption|]. split; [split; [exact D|cbn; rewrite assoc_without by auto; exact Lf]|].
    destruct H as [[H1 H2]|(H1 & H2 & (j & o' & Hj & Ko & Nj))]; [left; split; [exact H1|cbn; now rewrite H2]|right].
    split; [exact H1|]. split; [exact H2|]. exists j, o'. split; [|split; [exact Ko|]].
    + cbn. unfold without. apply filter_In. split; [exact Hj|]. cbn. apply negb_true_iff. apply Z.eqb_neq. intros ->. apply Nj. now left.
    + intros X. apply Nj. now right.
  - intros F. cbn [Z.ltb Z.compare].
    assert (Nw : ~ h5_works w0).
    { destruct H as [[_ H2]|(H1 & _)]; [|exact H1]. destruct F as [F|F].
      - intros X. rewrite (en_orc _ _ E) in F. rewrite X in F. discriminate.
      - unfold lookup in F. cbn in F. rewrite H2, Hi, Ho in F. discriminate. }
    destruct (Closing_run _ _ _ _ _ _ Cl) as [P RP]. eapply wp_exception; [exact RP|exact Nw|apply E|].
    intros w' s' SL G. apply HK. destruct SL as (S1 & S2 & S3 & S4 & S5 & S6). cbn in S1, S2, S3, S4, S5, S6.
    split; [destruct E; constructor; try congruence; intros g Hg; rewrite S5, S6; auto|]. split; [split; [now rewrite S6|now rewrite S4]|].
    right. split; [exact Nw|]. split; [exact G|].
    destruct H as [[_ H2]|(_ & _ & (j & o' & Hj & Ko & Nj))].
    + exists i, o. rewrite S4, H2. split; [now apply assoc_In|]. split; [exact Hk|exact Hn].
    + exists j, o'. rewrite S4. split; [exact Hj|]. split; [exact Ko|]. intros X. apply Nj. now right.
Qed.

(** What is true once H5Fclose has been called: the file is complete on disk and nothing is left
    open and the memory is as before; or an error has been reported and the file is not complete. *)
Definition Closed (C : content T) (w : hw T) (s : st T) : Prop :=
  End C w /\
  ((quiet s0 s /\ h_open w = h_open w0 /\ h_disk w f = Some C) \/
   (~ h5_works w0 /\ gave_up v w0 err s0 s /\ h_disk w f = None /\ file_open w f = true)).

Lemma stuck_open R w : stuck R w -> file_open w f = true.
Proof. intros (i & o & Hi & Ho & _). unfold file_open. apply existsb_exists. exists (i, o). auto. Qed.

Lemma step_fclose C L w s i :
  Closing C i L [i] w s -> without L i = h_open w0 -> file_open w0 f = false ->
  (forall w' s', Closed C w' s' -> Q true w' s') ->
  wpW (close_end (Some tabs) err (H5Fclose i) (retW true)) Q w s.
Proof.
  intros Cl HL Hop HK. pose proof Cl as (E & (D & Lf) & H). unfold close_end. apply wpW_bind. unfold H5Fclose. apply h5call_cases.
  - intros x w2 _ G. cbn [Z.ltb Z.compare].
    destruct H as [[H1 H2]|(H1 & H2 & St)].
    + assert (Lk : lookup (tick w) i = Some (HFile f)) by exact Lf.
      rewrite Lk in G. apply Some_inj in G. apply pair_equal_spec in G. destruct G as [<- <-].
      cbn [Z.ltb Z.compare]. apply wpW_ret. apply HK.
      assert (Fo : file_open (set_open (tick w) (without (h_open (tick w)) i)) f = false).
      { unfold file_open, set_open. cbn [h_open tick]. rewrite H2, HL. exact Hop. }
      rewrite Fo. split.
      * destruct E. constructor; cbn; auto. intros g Hg. destruct (String.eqb_spec g f); [congruence|]. auto.
      * left. split; [exact H1|]. split; [cbn [h_open set_disk set_open tick clear]; rewrite H2; exact HL|].
        unfold set_disk, clear. cbn [h_disk]. rewrite String.eqb_refl. f_equal. apply E.
    + assert (Lk : lookup (tick w) i = Some (HFile f)) by exact Lf.
      rewrite Lk in G. apply Some_inj in G. apply pair_equal_spec in G. destruct G as [<- <-]. cbn [Z.ltb Z.compare]. apply wpW_ret. apply HK.
      assert (St' : stuck [] (set_open (tick w) (without (h_open (tick w)) i))).
      { destruct St as (j & o' & Hj & Ko & Nj). exists j, o'. split; [|split; [exact Ko|tauto]]. cbn. unfold without. apply filter_In.
        split; [exact Hj|]. cbn. apply negb_true_iff. apply Z.eqb_neq. intros ->. apply Nj. now left. }
      pose proof (stuck_open _ _ St') as Fo. rewrite Fo. split; [destruct E; constructor; assumption|].
      right. split; [exact H1|]. split; [exact H2|]. split; [exact D|exact Fo].
  - intros F. cbn [Z.ltb Z.compare].
    assert (Nw : ~ h5_works w0).
    { destruct H as [[_ H2]|(H1 & _)]; [|exact H1]. destruct F as [F|F].
      - intros X. rewrite (en_orc _ _ E) in F. rewrite X in F. discriminate.
      - unfold lookup in F. cbn in F. rewrite Lf in F. discriminate. }
    destruct (Closing_run _ _ _ _ _ _ Cl) as [P RP]. eapply wp_exception; [exact RP|exact Nw|apply E|].
    intros w' s' SL G. apply wpW_ret. apply HK. destruct SL as (S1 & S2 & S3 & S4 & S5 & S6). cbn in S1, S2, S3, S4, S5, S6.
    split; [destruct E; constructor; try congruence; intros g Hg; rewrite S5, S6; auto|].
    right. split; [exact Nw|]. split; [exact G|]. split; [now rewrite S6|].
    destruct H as [[_ H2]|(_ & _ & St)].
    + unfold file_open. rewrite S4, H2. apply existsb_exists. exists (i, HFile f). split; [rewrite <- H2; now apply assoc_In|]. apply String.eqb_refl.
    + apply stuck_open in St. unfold file_open in *. now rewrite S4.
Qed.
End Steps.
End Fix.
End P.
