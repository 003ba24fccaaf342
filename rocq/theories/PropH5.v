(** * Property theorems: the HDF5 writer (C46, C47, C67)

    [wpW m Q w s]: the call [m], run with the HDF5 library in state [w] and memory [s], ends
    without undefined behaviour with a result [b] and states [w'], [s'] such that [Q b w' s'].
    [result_file r i]: what the file must contain (SpecH5.v).  [h5_works w]: no library call
    fails; [h5_explains w]: a failing call leaves a non-empty error stack; [file_open w f]:
    something of the file [f] is open; [h_disk w f]: the complete file on disk. *)
From Coq Require Import ZArith List Bool Lia String.
From Verif Require Import Num Mem SpecHeap ErrorModel ErrorProofs ProfileModel ProfileProofs Geometry ConsModel HeapLib
  DescProofs SpecPhoton PhotProofs ResultModel SpecResult ResultProofs H5Lib H5Model SpecH5 H5Proofs H5Write H5Table H5Main H5File H5All.
Import ListNotations.

Section Generic.
Context {T : Type} {N : Num T}.
Implicit Types (s : st T) (w : hw T).

(** Where a reported code may come from: memory, the class of the outermost entry of the error
    stack of a failing library call, or a library that does not say what went wrong. *)
Definition code_explained (v : h5version) w (c : Z) : Prop :=
  c = POLYCAP_ERROR_MEMORY \/ c = POLYCAP_ERROR_RUNTIME \/
  exists n e, outermost (h_errs w n) = Some e /\ c = h5_code (ge_1_12_0 v) (le_1_13_0 v) (he_maj e) (he_min e).

(** The same handles, the same contents, the same files. *)
Definition same_library w w' : Prop := h_open w' = h_open w /\ h_lib w' = h_lib w /\ h_disk w' = h_disk w.

(** ** C46 *)

(** Whatever goes wrong in the library or (as long as there are no leaks to write) in malloc:
    either the call returns true, the file is complete and nothing else has changed, or
    something did go wrong, that was reported, and the file is not complete and still open
    (or could not be created).  Other files are never touched. *)
Theorem C96_write_hdf5 :
  forall (v : h5version) w s (tabs eff im src : loc) err (f : string) pen peff p1 p2 p3 r i,
    wf s -> legal_err s err -> tables_ready v tabs s -> h5_explains w -> h5_ids w -> file_open w f = false ->
    (err = NULL \/ memory_available s \/ (h5_works w /\ reports_fit err s)) ->
    (memory_available s \/ (q_ext r = [] /\ q_int r = [])) ->
    result_object s eff im pen peff (Some src) p1 p2 p3 r -> source_input s src i ->
    wpW (write_hdf5 v (Some tabs) (Some eff) (Some f) err)
        (fun ok w' s' =>
           (forall g, g <> f -> h_lib w' g = h_lib w g /\ h_disk w' g = h_disk w g) /\
           ( (ok = true /\ same_memory s s' /\ h_open w' = h_open w /\ h_disk w' f = Some (result_file r i))
             \/
             (~ (h5_works w /\ memory_available s) /\
              (exists c, code_explained v w c /\ failed err c [] s s') /\
              ((h_disk w' f = None /\ file_open w' f = true) \/ (ok = false /\ same_library w w'))))) w s.
Proof.
  intros v w s tabs eff im src err f pen peff p1 p2 p3 r i Wf Le Tr EX Ids Hop Rp MA RO SI.
  eapply wp_write_hdf5; [exact EX|split; [exact Wf|split; [exact Le|exact Tr]]|exact Rp|exact Ids|exact RO|exact SI|exact MA| | |exact Hop].
  - intros w' s' (E & H). split; [apply (en_others _ _ _ _ E)|].
    destruct H as [((Sm & _) & Ho & Hd)|(Nw & G & Hd & Fo)]; [left; auto|right].
    destruct G as (G1 & _ & _ & G2). split; [exact G1|]. split; [exact G2|]. left. auto.
  - intros w' s' (G1 & _ & _ & G2) [L|U].
    + destruct L as (nx & O & C & A). split; [apply (at_others _ _ _ _ _ _ A)|]. right. split; [exact G1|]. split; [exact G2|]. left.
      split; [apply A|]. destruct (at_file _ _ _ _ _ _ A) as [j Hj]. unfold file_open. rewrite (at_open _ _ _ _ _ _ A).
      apply existsb_exists. exists (j, HFile f). split; [exact Hj|apply String.eqb_refl].
    + destruct U as (U1 & U2 & U3). split; [intros g _; rewrite U2, U3; auto|]. right. split; [exact G1|]. split; [exact G2|]. right.
      split; [reflexivity|]. split; [|split]; assumption.
Qed.

(** When nothing goes wrong the file is complete, whatever the sizes; nothing is reported,
    nothing stays open, nothing is left in memory. *)
Theorem C96_complete_file :
  forall (v : h5version) w s (tabs eff im src : loc) err (f : string) pen peff p1 p2 p3 r i,
    wf s -> legal_err s err -> tables_ready v tabs s -> h5_works w -> h5_explains w -> h5_ids w -> file_open w f = false ->
    memory_available s -> result_object s eff im pen peff (Some src) p1 p2 p3 r -> source_input s src i ->
    wpW (write_hdf5 v (Some tabs) (Some eff) (Some f) err)
        (fun ok w' s' => ok = true /\ h_disk w' f = Some (result_file r i) /\ same_memory s s' /\ h_open w' = h_open w /\
           (forall g, g <> f -> h_disk w' g = h_disk w g)) w s.
Proof.
  intros. eapply wpW_mono; [eapply C96_write_hdf5; eauto|].
  cbn. intros ok w' s' (O & [(-> & Sm & Ho & Hd)|(Nw & _)]); [|tauto].
  split; [reflexivity|]. split; [exact Hd|]. split; [exact Sm|]. split; [exact Ho|]. intros g Hg. apply O. exact Hg.
Qed.

(** How to read a table: element (c, j) of a table with one row per component is component c of
    the j-th photon, element (j, e) of the weights is weight e of the j-th photon. *)
Theorem C96_table_elements : forall A (fs : list (A -> T)) (l : list A),
  List.length (by_component fs l) = List.length fs * List.length l /\
  forall c j g a, nth_error fs c = Some g -> nth_error l j = Some a -> nth_error (by_component fs l) (c * List.length l + j) = Some (g a).
Proof.
  intros A fs l. unfold by_component. split.
  - induction fs as [|f fs IH]; [reflexivity|]. cbn. rewrite app_length, map_length, IH. lia.
  - intros c j g a Hc Hj. assert (Lj : j < List.length l) by (apply nth_error_Some; congruence).
    revert c Hc. induction fs as [|f fs IH]; intros [|c] Hc; try discriminate.
    + injection Hc as ->. cbn. rewrite nth_error_app1 by (now rewrite map_length). now rewrite nth_error_map, Hj.
    + cbn. rewrite nth_error_app2 by (rewrite map_length; lia). rewrite map_length.
      replace (List.length l + c * List.length l + j - List.length l) with (c * List.length l + j) by lia. apply IH. exact Hc.
Qed.

Theorem C96_weight_elements : forall A (ws : A -> list T) ne (l : list A),
  Forall (fun a => List.length (ws a) = ne) l ->
  List.length (List.concat (List.map ws l)) = List.length l * ne /\
  forall j e a x, nth_error l j = Some a -> nth_error (ws a) e = Some x ->
    nth_error (List.concat (List.map ws l)) (j * ne + e) = Some x.
Proof.
  intros A ws ne l F. induction F as [|a l Ha F IH]; cbn; [split; [reflexivity|intros [|]; discriminate]|].
  destruct IH as [IH1 IH2]. split; [rewrite app_length, IH1; lia|].
  intros [|j] e b x Hj He; cbn in *.
  - injection Hj as ->. rewrite nth_error_app1; [exact He|]. rewrite Ha. rewrite <- Ha. apply nth_error_Some. congruence.
  - rewrite nth_error_app2 by lia. rewrite Ha. replace (ne + j * ne + e - ne) with (j * ne + e) by lia. eapply IH2; eauto.
Qed.

(** The last point of the profile, the exit of the optic, is never in the file. *)
Theorem C46_last_point_missing_refuted :
  forall (i : input T), List.length (in_z i) = S (in_nmax i) -> List.length (in_cap i) = S (in_nmax i) -> List.length (in_ext i) = S (in_nmax i) ->
  forall r d, In d (c_dsets (result_file r i)) -> ds_path d = ["Input"; "PC_Shape"]%string \/ ds_path d = ["Input"; "Cap_Shape"]%string ->
    exists ys, ds_dims d = [2; in_nmax i] /\ ds_data d = Some (removelast (in_z i) ++ ys) /\ List.length ys = in_nmax i.
Proof.
  intros i L1 L2 L3 r d Hd Hp. cbn [c_dsets result_file] in Hd. rewrite !in_app_iff in Hd.
  assert (RL : forall l : list T, List.length l = S (in_nmax i) -> firstn (in_nmax i) l = removelast l).
  { intros l Hl. rewrite removelast_firstn_len. rewrite Hl. reflexivity. }
  assert (FL : forall l : list T, List.length l = S (in_nmax i) -> List.length (firstn (in_nmax i) l) = in_nmax i).
  { intros l Hl. rewrite firstn_length. lia. }
  destruct Hd as [Hd|[Hd|[Hd|Hd]]].
  - unfold exit_sets in Hd. cbn [In] in Hd. exfalso. repeat (destruct Hd as [<-|Hd]; [cbn in Hp; destruct Hp as [Hp|Hp]; discriminate Hp|]). destruct Hd.
  - apply In_some_of in Hd. unfold leak_sets in Hd. cbn [In app] in Hd. exfalso.
    repeat (destruct Hd as [<-|Hd]; [cbn in Hp; destruct Hp as [Hp|Hp]; discriminate Hp|]). destruct Hd.
  - apply In_some_of in Hd. unfold leak_sets in Hd. cbn [In app] in Hd. exfalso.
    repeat (destruct Hd as [<-|Hd]; [cbn in Hp; destruct Hp as [Hp|Hp]; discriminate Hp|]). destruct Hd.
  - unfold input_sets in Hd. cbn [In] in Hd.
    destruct Hd as [<-|[<-|Hd]].
    + eexists. split; [reflexivity|]. split; [cbn; rewrite (RL _ L1); reflexivity|apply FL; exact L3].
    + eexists. split; [reflexivity|]. split; [cbn; rewrite (RL _ L1); reflexivity|apply FL; exact L2].
    + exfalso. repeat (destruct Hd as [<-|Hd]; [cbn in Hp; destruct Hp as [Hp|Hp]; discriminate Hp|]). destruct Hd.
Qed.

(** While anything of the file is open (by this process), writing it is refused and reported,
    and changes nothing: also not what made it fail.  A failed call leaves the file open, the
    caller has no handle to close: so every further attempt to write that file fails. *)
Theorem C96_refused_while_open :
  forall (v : h5version) w s (tabs eff : loc) err (f : string),
    wf s -> legal_err s err -> tables_ready v tabs s -> h5_explains w -> file_open w f = true ->
    (err = NULL \/ memory_available s) ->
    wpW (write_hdf5 v (Some tabs) (Some eff) (Some f) err)
        (fun ok w' s' => ok = false /\ same_library w w' /\ file_open w' f = true /\ h5_explains w' /\
           wf s' /\ tables_ready v tabs s' /\ (exists c, code_explained v w c /\ failed err c [] s s')) w s.
Proof.
  intros v w s tabs eff err f Wf Le Tr EX Hop MA.
  unfold write_hdf5. apply wpW_bind. apply wpW_lift. apply wp_tables_ready; [exact Tr|]. cbn [is_null].
  unfold checked at 1. apply wpW_bind. unfold H5Fcreate. apply h5call_cases.
  { intros x w2 _. change (file_open (tick w) f) with (file_open w f). rewrite Hop. discriminate. }
  intros _. cbn [Z.ltb Z.compare]. apply wpW_bind. eapply wp_set_exception; [exact Wf|exact Le|exact Tr| |apply EX|].
  { intros Hne. destruct MA as [->|MA]; [congruence|exact MA]. }
  intros w' s' (S1 & S2 & S3 & S4 & S5 & S6) Wf' _ _ K (c & e & Fl & He & Hc) _. cbn in S1, S2, S3, S4, S5, S6. apply wpW_ret.
  split; [reflexivity|]. split; [split; [|split]; assumption|]. split; [unfold file_open; rewrite S4; exact Hop|].
  split; [intros n; rewrite S2; apply EX|]. split; [exact Wf'|]. split; [eapply tables_ready_frame; eauto|]. exists c. split; [|exact Fl].
  destruct Hc as [->| ->]; [right; right|right; left; reflexivity]. exists (h_cnt w), e. split; [exact He|reflexivity].
Qed.

(** NULL arguments are refused before the library is asked. *)
Theorem C96_null_arguments :
  forall (v : h5version) w s (tabs : loc) eff (fname : option string) err,
    wf s -> legal_err s err -> tables_ready v tabs s -> report_fits err s -> eff = NULL \/ fname = None ->
    wpW (write_hdf5 v (Some tabs) eff fname err)
        (fun ok w' s' => ok = false /\ w' = w /\
           error_reported err POLYCAP_ERROR_INVALID_ARGUMENT
             (match fname with None => "polycap_transmission_efficiencies_write_hdf5: filename cannot be NULL"
                             | Some _ => "polycap_transmission_efficiencies_write_hdf5: efficiencies cannot be NULL" end)%string s s') w s.
Proof.
  intros v w s tabs eff fname err Wf Le Tr Rf Hn.
  unfold write_hdf5. apply wpW_bind. apply wpW_lift. apply wp_tables_ready; [exact Tr|].
  destruct fname as [f|].
  - destruct Hn as [->|Hn]; [|discriminate]. cbn [is_null]. apply wpW_lift. apply wp_bind.
    eapply (wp_report true); [exact Wf|exact Le|exact Rf|]. intros s' _ _ _ _ E. apply wp_ret. auto.
  - apply wpW_lift. apply wp_bind.
    eapply (wp_report true); [exact Wf|exact Le|exact Rf|]. intros s' _ _ _ _ E. apply wp_ret. auto.
Qed.

(** ** C47 *)

(** The tables are made by the first call and left alone by all later ones. *)
Theorem C97_tables_made_once :
  forall (v : h5version) s (tabs : loc), tables_ready v tabs s -> tables_init v (Some tabs) s = Ok (tt, s).
Proof.
  intros v s tabs H. pose proof (wp_tables_ready v tabs (fun _ s' => s' = s) s H eq_refl) as X.
  unfold wp in X. destruct (tables_init v (Some tabs) s) as [[[] s']|]; [now subst|destruct X].
Qed.

(** So the very first call behaves as a call with the tables in place: only the static
    variables and two new blocks differ. *)
Theorem C97_first_call :
  forall (v : h5version) s (tabs : loc), wf s -> memory_available s -> tables_fresh tabs s ->
  exists s1 pm pe, wf s1 /\ tables_ready v tabs s1 /\ same_memory_except [tabs; pm; pe] s s1 /\ mem s pm = None /\ mem s pe = None /\ memory_available s1 /\
    forall eff fname err w, write_hdf5 v (Some tabs) eff fname err w s = write_hdf5 v (Some tabs) eff fname err w s1.
Proof.
  intros v s tabs Wf MA Fr.
  pose proof (wp_tables_init v tabs (fun _ s' => tables_init v (Some tabs) s = Ok (tt, s') -> exists pm pe, wf s' /\ tables_ready v tabs s' /\
     same_memory_except [tabs; pm; pe] s s' /\ mem s pm = None /\ mem s pe = None /\ memory_available s') s MA Wf Fr) as X.
  assert (Y : wp (tables_init v (Some tabs)) (fun _ s' => tables_init v (Some tabs) s = Ok (tt, s') -> exists pm pe, wf s' /\ tables_ready v tabs s' /\
     same_memory_except [tabs; pm; pe] s s' /\ mem s pm = None /\ mem s pe = None /\ memory_available s') s).
  { apply X. intros pm pe s' W' O' _ H1 H2 R' Sm _. exists pm, pe. split; [exact W'|]. split; [exact R'|]. split; [exact Sm|].
    split; [apply Wf; exact H1|]. split; [apply Wf; exact H2|]. intros n. rewrite O'. apply MA. }
  unfold wp in Y. destruct (tables_init v (Some tabs) s) as [[[] s1]|] eqn:E; [|destruct Y].
  destruct (Y eq_refl) as (pm & pe & W1 & R1 & Sm & P1 & P2 & M1). exists s1, pm, pe. repeat (split; [assumption|]).
  intros eff fname err w. unfold write_hdf5, bindW, lift, bind. rewrite E, (C97_tables_made_once v s1 tabs R1). reflexivity.
Qed.

(** Writing does not damage them, whatever happens. *)
Theorem C97_tables_kept :
  forall (v : h5version) w s (tabs eff im src : loc) err (f : string) pen peff p1 p2 p3 r i,
    wf s -> legal_err s err -> tables_ready v tabs s -> h5_explains w -> h5_ids w -> file_open w f = false ->
    (err = NULL \/ memory_available s \/ (h5_works w /\ reports_fit err s)) ->
    (memory_available s \/ (q_ext r = [] /\ q_int r = [])) ->
    result_object s eff im pen peff (Some src) p1 p2 p3 r -> source_input s src i ->
    wpW (write_hdf5 v (Some tabs) (Some eff) (Some f) err) (fun _ _ s' => tables_ready v tabs s') w s.
Proof.
  intros. eapply wpW_mono; [eapply C96_write_hdf5; eauto|]. cbn.
  intros ok w' s' (_ & [(_ & Sm & _)|(_ & (c & _ & Fl & _) & _)]); eapply tables_ready_frame; eauto.
  intros l b Hl _. now rewrite Sm.
Qed.

(** A file that cannot be created: exactly one error, its code given by the class of the
    outermost entry of the library's error stack, its text by the descriptions of the
    outermost and the innermost entry. *)
Theorem C97_open_failure :
  forall (v : h5version) w s (tabs eff : loc) err (f : string) e b d t,
    wf s -> legal_err s err -> tables_ready v tabs s -> (err = NULL \/ memory_available s) ->
    h_orc w (h_cnt w) = false ->
    h_orc w (h_cnt w + 1) = true -> h_orc w (h_cnt w + 2) = true ->
    outermost (h_errs w (h_cnt w)) = Some e -> innermost (h_errs w (h_cnt w)) = Some b ->
    he_desc e = Some d -> he_desc b = Some t ->
    wpW (write_hdf5 v (Some tabs) (Some eff) (Some f) err)
        (fun ok w' s' => ok = false /\ same_library w w' /\
           error_reported err (h5_code (ge_1_12_0 v) (le_1_13_0 v) (he_maj e) (he_min e)) (d ++ " (" ++ t ++ ")")%string s s') w s.
Proof.
  intros v w s tabs eff err f e b d t Wf Le Tr MA Hf W1 W2 He Hb Hd Ht.
  unfold write_hdf5. apply wpW_bind. apply wpW_lift. apply wp_tables_ready; [exact Tr|]. cbn [is_null].
  unfold checked at 1. apply wpW_bind. unfold H5Fcreate. apply h5call_cases.
  { intros x w2 X. congruence. }
  intros _. cbn [Z.ltb Z.compare]. apply wpW_bind. eapply wp_set_exception; [exact Wf|exact Le|exact Tr| | |].
  { intros Hne. destruct MA as [->|MA]; [congruence|exact MA]. }
  { cbn. intros X. rewrite X in He. discriminate. }
  intros w' s' (S1 & S2 & S3 & S4 & S5 & S6) _ _ _ _ _ Ex. cbn in S1, S2, S3, S4, S5, S6. apply wpW_ret.
  split; [reflexivity|]. split; [split; [|split]; assumption|].
  eapply Ex; try eassumption.
  - cbn. now rewrite Nat.add_1_r in W1.
  - cbn. replace (S (S (h_cnt w))) with (h_cnt w + 2) by lia. exact W2.
Qed.

(** ** A concrete memory: any result and any source can be laid out *)
Definition h5_layout (v : h5version) (r : result T) (i : input T) (rest : list T) : list (list (val T)) :=
  [[Vptr NULL];
   [Vptr (Some 2); Vint (Z.of_nat (List.length (all_minor v))); Vint 64; Vptr (Some 3); Vint (Z.of_nat (List.length (all_exact v))); Vint 16];
   List.map Vint (List.concat (all_minor v)) ++ repeat Vundef (2 * (64 - List.length (all_minor v)));
   List.map Vint (List.concat (all_exact v)) ++ repeat Vundef (3 * (16 - List.length (all_exact v)));
   Vptr (Some 8) :: Vptr (Some 5) :: List.map Vdbl (in_dist i :: rest) ++ [Vint (Z.of_nat (List.length (q_energies r))); Vptr (Some 7)];
   [Vptr (Some 6)]; [Vundef]; List.map Vdbl (q_energies r);
   [Vdbl (in_sig i); Vint (in_ncap i); Vdbl (in_open i); Vint (Z.of_nat (List.length (in_iz i))); Vptr (Some 9); Vptr (Some 10); Vdbl (in_dens i); Vptr (Some 11)];
   List.map Vint (in_iz i); List.map Vdbl (in_wi i);
   [Vint (Z.of_nat (in_nmax i)); Vptr (Some 50); Vptr (Some 51); Vptr (Some 52)];
   [Vint (Z.of_nat (List.length (q_energies r))); Vptr (Some 14); Vptr (Some 15); Vptr (Some 13); Vptr (Some 4)];
   Vint (q_started r) :: Vint (Z.of_nat (List.length (q_rows r))) :: List.map (fun l => Vptr (Some l)) (seq 16 18) ++
     Vint (Z.of_nat (List.length (q_ext r))) :: List.map (fun l => Vptr (Some l)) (seq 34 7) ++
     Vint (Z.of_nat (List.length (q_int r))) :: List.map (fun l => Vptr (Some l)) (seq 41 9);
   List.map Vdbl (q_energies r); List.map Vdbl (q_effs r)] ++
  row_columns (q_rows r) ++ ext_columns (q_ext r) ++ int_columns (q_int r) ++
  [List.map Vdbl (in_z i); List.map Vdbl (in_cap i); List.map Vdbl (in_ext i)].
Definition h5_memory (v : h5version) (r : result T) (i : input T) (rest : list T) (oracle : nat -> bool) : st T :=
  mkSt (fun l => nth_error (h5_layout v r i rest) l) 53 oracle 0.

Lemma h5_memory_ok v r i rest oracle :
  regular r -> List.length (in_wi i) = List.length (in_iz i) ->
  in_nmax i <= List.length (in_z i) -> in_nmax i <= List.length (in_cap i) -> in_nmax i <= List.length (in_ext i) ->
  let s := h5_memory v r i rest oracle in
  wf s /\ legal_err s (Some 0) /\ tables_ready v 1 s /\ source_input s 4 i /\
  result_object s 12 13 (Some 14) (Some 15) (Some 4) (List.map Some (seq 16 18)) (List.map Some (seq 34 7)) (List.map Some (seq 41 9)) r.
Proof.
  intros Rg L1 L2 L3 L4 s. split; [|split; [|split; [|split]]].
  - intros l Hl. cbn [mem nxt s h5_memory] in *. apply nth_error_None. exact Hl.
  - exists NULL. reflexivity.
  - exists 2, 64, 3, 16. split; [repeat constructor; cbn; lia|]. split; [reflexivity|].
    split; (split; [|split]).
    + unfold all_minor. apply Forall_app. split; [apply minor_sizes|]. constructor; [|constructor]. unfold minor_late. destruct (le_1_13_0 v); reflexivity.
    + unfold all_minor. rewrite app_length. cbn. lia.
    + eexists. split; [reflexivity|]. rewrite repeat_length. reflexivity.
    + unfold all_exact. apply Forall_app. split; [apply exact_sizes|]. apply Forall_app. split.
      * unfold exact_by_version. destruct (ge_1_12_0 v); repeat constructor.
      * constructor; [|constructor]. unfold exact_late. destruct (le_1_13_0 v); reflexivity.
    + unfold all_exact, exact_by_version. rewrite !app_length. cbn. destruct (ge_1_12_0 v); cbn; lia.
    + eexists. split; [reflexivity|]. rewrite repeat_length. reflexivity.
  - exists 8, 5, 6, 7, 9, 10, 11, 50, 51, 52, rest, (q_energies r). split; [|split; [|auto]].
    + split; [reflexivity|]. split; [reflexivity|]. split; [reflexivity|]. eexists. reflexivity.
    + repeat (split; [reflexivity|]). repeat constructor; cbn; lia.
  - split; [exact Rg|]. split; [reflexivity|]. split; [reflexivity|].
    split; [exists []; rewrite app_nil_r; reflexivity|]. split; [exists []; rewrite app_nil_r; reflexivity|].
    split; [|split]; repeat (constructor; [exists []; rewrite app_nil_r; reflexivity|]); constructor.
Qed.

(** One photon transmitted, one leak of either kind, two energies; three profile points. *)
Definition h5_result : result T :=
  mkResult 3 [mkRow (#0, #1)%num (#1, #0)%num (#0, #0)%num (#1, #0)%num (mkV #1 #1 #2)%num (#0, #0)%num (#0, #1)%num 4 (#5)%num [#1; #2]%num]
    [mkLeakRow (mkV #1 #2 #3)%num (#0, #0)%num (#1, #0)%num 1 [#1; #0]%num] [mkLeakRow (mkV #3 #2 #1)%num (#0, #0)%num (#0, #1)%num 2 [#0; #1]%num]
    [#10; #20]%num [#1; #0]%num.
Definition h5_input : input T :=
  mkInput 2 [#0; #1; #2]%num [#1; #1; #1]%num [#5; #6; #7]%num (#5)%num 1000 (#1)%num [8; 14]%Z [#53; #47]%num (#2)%num (#20)%num.
(** The library: [ok n] says whether the n-th call succeeds; every failing call says "a", "b". *)
Definition h5_library (ok : nat -> bool) : hw T :=
  mkHw ok (fun _ => [mkH5err H5E_ARGS H5E_BADVALUE (Some "b"%string); mkH5err H5E_RESOURCE H5E_CANTOPENFILE (Some "a"%string)]) 0 1 []
    (fun _ => mkContent [] []) (fun _ => None) [].
Definition v_old : h5version := mkVer false true.
Definition h5_run (mem_ok lib_ok : nat -> bool) :=
  write_hdf5 v_old (Some 1) (Some 12) (Some "out.h5"%string) (Some 0) (h5_library lib_ok) (h5_memory v_old h5_result h5_input (repeat (#0)%num 7) mem_ok).

(** The hypotheses of C96_write_hdf5 and C96_complete_file are met. *)
Theorem C96_example :
  let s := h5_memory v_old h5_result h5_input (repeat (#0)%num 7) (fun _ => true) in let w := h5_library (fun _ => true) in
  wf s /\ legal_err s (Some 0) /\ tables_ready v_old 1 s /\ h5_works w /\ h5_explains w /\ h5_ids w /\ file_open w "out.h5" = false /\ memory_available s /\
  result_object s 12 13 (Some 14) (Some 15) (Some 4) (List.map Some (seq 16 18)) (List.map Some (seq 34 7)) (List.map Some (seq 41 9)) h5_result /\
  source_input s 4 h5_input /\ List.length (c_dsets (result_file h5_result h5_input)) = 31.
Proof.
  intros s w. destruct (h5_memory_ok v_old h5_result h5_input (repeat (#0)%num 7) (fun _ => true)) as (A & B & C & D & E);
    [repeat split; cbn; auto|reflexivity|cbn; lia|cbn; lia|cbn; lia|].
  repeat (split; [assumption || (intros n; (reflexivity || discriminate))|]).
  split; [split; [constructor|cbn; lia]|]. repeat (split; [assumption || reflexivity || (intros n; reflexivity)|]). reflexivity.
Qed.

(** ** What goes wrong *)

(** One library call fails, the [k]-th: the function returns false, except for the calls that
    close a group or the file.  Then it returns true although an error is reported and the file
    is not complete: "true or false with error set" is all a caller may rely on. *)
Theorem C46_true_though_incomplete_refuted :
  forall k, (k < 415)%nat ->
  exists ok w' s', h5_run (fun _ => true) (fun n => negb (Nat.eqb n k)) = Ok (ok, w', s') /\
    h_disk w' "out.h5"%string = None /\ mem s' 0 <> Some [Vptr NULL] /\
    (ok = true <-> In k [225; 305; 411; 412; 413; 414]).
Proof.
  set (bad := [225; 305; 411; 412; 413; 414]).
  assert (H : List.forallb (fun k => match h5_run (fun _ => true) (fun n => negb (Nat.eqb n k)) with
     | Ok (ok, w', s') => match h_disk w' "out.h5"%string with None => true | _ => false end &&
          match mem s' 0 with Some [Vptr (Some _)] => true | _ => false end && Bool.eqb ok (List.existsb (Nat.eqb k) bad)
     | UB => false end) (seq 0 415) = true) by (vm_compute; reflexivity).
  rewrite forallb_forall in H. intros k Hk. specialize (H k ltac:(apply in_seq; lia)). clear Hk. cbn beta in H.
  destruct (h5_run (fun _ => true) (fun n => negb (Nat.eqb n k))) as [[[ok w'] s']|]; [|discriminate].
  exists ok, w', s'. split; [reflexivity|]. apply andb_prop in H. destruct H as [H H3]. apply andb_prop in H. destruct H as [H1 H2].
  split; [destruct (h_disk w' "out.h5"%string); [discriminate|reflexivity]|].
  split; [intros X; rewrite X in H2; discriminate|].
  apply Bool.eqb_prop in H3. rewrite H3. rewrite existsb_exists. split.
  - intros (x & Hx & E). apply Nat.eqb_eq in E. now subst.
  - intros Hx. exists k. split; [exact Hx|apply Nat.eqb_refl].
Qed.

(** The malloc of Weight_Total (one for each kind of leak) is not checked: undefined behaviour. *)
Theorem C46_leaks_out_of_memory_refuted :
  h5_run (fun n => negb (Nat.eqb n 10)) (fun _ => true) = UB /\ h5_run (fun n => negb (Nat.eqb n 15)) (fun _ => true) = UB.
Proof.
  assert (H : forall k, match h5_run (fun n => negb (Nat.eqb n k)) (fun _ => true) with UB => true | _ => false end = true ->
     h5_run (fun n => negb (Nat.eqb n k)) (fun _ => true) = UB).
  { intros k. destruct (h5_run _ _); [discriminate|reflexivity]. }
  split; apply H; vm_compute; reflexivity.
Qed.

(** A failing call forgets the buffer of the table it was writing (call 28 is the first
    one for PC_Start/Coordinates) and keeps the file open: block 53 stays allocated. *)
Theorem C46_buffer_lost_refuted :
  exists w' s', h5_run (fun _ => true) (fun n => negb (Nat.eqb n 28)) = Ok (false, w', s') /\
    mem (h5_memory v_old h5_result h5_input (repeat (#0)%num 7) (fun _ => true)) 53 = None /\ mem s' 53 <> None /\
    file_open w' "out.h5" = true.
Proof.
  assert (H : match h5_run (fun _ => true) (fun n => negb (Nat.eqb n 28)) with
     | Ok (ok, w', s') => negb ok && match mem s' 53 with Some _ => true | _ => false end && file_open w' "out.h5"
     | UB => false end = true) by (vm_compute; reflexivity).
  destruct (h5_run (fun _ => true) (fun n => negb (Nat.eqb n 28))) as [[[[|] w'] s']|]; try discriminate.
  exists w', s'. split; [reflexivity|]. split; [reflexivity|]. apply andb_prop in H. destruct H as [H1 H2].
  split; [|exact H2]. destruct (mem s' 53); [discriminate|discriminate H1].
Qed.

(** No memory for the tables: undefined behaviour. *)
Theorem C47_tables_out_of_memory_refuted :
  forall (v : h5version) s (tabs : loc), tables_fresh tabs s -> orc s (cnt s) = false -> tables_init v (Some tabs) s = UB.
Proof.
  intros v s tabs H O. unfold tables_fresh in H.
  assert (BO : forall A B (m : M T A) (k : A -> M T B) st a st', m st = Ok (a, st') -> bind m k st = k a st') by (intros A B m k st a st' E; unfold bind; now rewrite E).
  assert (BU : forall A B (m : M T A) (k : A -> M T B) st, m st = UB -> bind m k st = UB) by (intros A B m k st E; unfold bind; now rewrite E).
  unfold tables_init.
  erewrite BO by (unfold load_int, load, bind; rewrite H; reflexivity). cbn [Z.eqb]. apply BU.
  erewrite BO by (unfold store; rewrite H; reflexivity). cbn [plus set_nth].
  erewrite BO by (unfold store; cbn [mem]; rewrite upd_same; reflexivity). cbn [plus set_nth].
  erewrite BO by (unfold malloc, alloc; cbn [orc cnt]; rewrite O; reflexivity).
  erewrite BO by (unfold store; cbn [mem]; rewrite upd_same; reflexivity). cbn [plus set_nth].
  unfold minor_entries. cbn [append_all]. apply BU. unfold append_entry.
  erewrite BO by (unfold load_int, load, bind; cbn [mem]; rewrite upd_same; reflexivity).
  erewrite BO by (unfold load_int, load, bind; cbn [mem]; rewrite upd_same; reflexivity). cbn [Z.eqb].
  erewrite BO by reflexivity.
  erewrite BO by (unfold load_ptr, load, bind; cbn [mem]; rewrite upd_same; reflexivity).
  apply BU. reflexivity.
Qed.

(** A library that fails without saying why: undefined behaviour (an uninitialised struct is read). *)
Theorem C47_silent_library_refuted :
  forall (v : h5version) w s (tabs eff slot : loc) (f : string),
    tables_ready v tabs s -> h_orc w (h_cnt w) = false -> h_errs w (h_cnt w) = [] -> h_orc w (S (h_cnt w)) = true ->
    write_hdf5 v (Some tabs) (Some eff) (Some f) (Some slot) w s = UB.
Proof.
  intros v w s tabs eff slot f Tr O E O2. unfold write_hdf5, bindW, lift, bind. rewrite (C97_tables_made_once v s tabs Tr). cbn [ret fst snd is_null].
  unfold checked, bindW, H5Fcreate, h5call, bind. rewrite O. cbn [ret fst snd Z.ltb Z.compare].
  unfold set_exception, bindW, H5Ewalk, bind. cbn [h_cnt h_orc h_stack]. rewrite O2, E. reflexivity.
Qed.

(** If the second walk over the error stack fails the copy of the description is forgotten: after
    a refused call (first library call fails, third one too) block 53 stays allocated although
    only the two blocks of the error object, 54 and 55, belong to anybody. *)
Theorem C47_description_lost_refuted :
  exists w' s', h5_run (fun _ => true) (fun n => negb (Nat.eqb n 0) && negb (Nat.eqb n 2)) = Ok (false, w', s') /\
    mem s' 53 = Some [Vstr "a"%string] /\ slot_holds s' 0 (Some 54) /\ error_object s' 54 55 POLYCAP_ERROR_RUNTIME "Failed to walk HDF5 error stack".
Proof.
  assert (H : match h5_run (fun _ => true) (fun n => negb (Nat.eqb n 0) && negb (Nat.eqb n 2)) with
     | Ok (ok, _, s') => Some (ok, mem s' 53, mem s' 0, mem s' 54, mem s' 55) | UB => None end
     = Some (false, Some [Vstr "a"%string], Some [Vptr (Some 54)], Some [Vint POLYCAP_ERROR_RUNTIME; Vptr (Some 55)], Some [Vstr "Failed to walk HDF5 error stack"%string]))
     by (vm_compute; reflexivity).
  destruct (h5_run (fun _ => true) (fun n => negb (Nat.eqb n 0) && negb (Nat.eqb n 2))) as [[[ok w'] s']|]; [|discriminate].
  apply Some_inj in H. repeat (apply pair_equal_spec in H; destruct H as [H ?]). subst ok. exists w', s'.
  split; [reflexivity|]. split; [assumption|]. split; [assumption|]. split; [assumption|]. split; [assumption|discriminate].
Qed.

(** ** C67: the writer reads the source the result was made for *)

(** If that source has been released the behaviour is undefined; the result object does not keep
    it alive (and the Python class keeps no reference to the Source either: polycap.pyx 367-387). *)
Theorem C67_released_source_refuted :
  let s := h5_memory v_old h5_result h5_input (repeat (#0)%num 7) (fun _ => true) in
  (exists s', source_free (Some 4) s = Ok (tt, s') /\
     write_hdf5 v_old (Some 1) (Some 12) (Some "out.h5"%string) (Some 0) (h5_library (fun _ => true)) s' = UB) /\
  exists w' s', write_hdf5 v_old (Some 1) (Some 12) (Some "out.h5"%string) (Some 0) (h5_library (fun _ => true)) s = Ok (true, w', s').
Proof.
  intros s. split.
  - assert (H : match source_free (Some 4) s with Ok (_, s') =>
        match write_hdf5 v_old (Some 1) (Some 12) (Some "out.h5"%string) (Some 0) (h5_library (fun _ => true)) s' with UB => true | _ => false end | UB => false end = true)
      by (vm_compute; reflexivity).
    destruct (source_free (Some 4) s) as [[[] s']|]; [|discriminate]. exists s'. split; [reflexivity|].
    destruct (write_hdf5 _ _ _ _ _ _ s'); [discriminate|reflexivity].
  - assert (H : match write_hdf5 v_old (Some 1) (Some 12) (Some "out.h5"%string) (Some 0) (h5_library (fun _ => true)) s with Ok (b, _, _) => b | UB => false end = true)
      by (vm_compute; reflexivity).
    destruct (write_hdf5 v_old (Some 1) (Some 12) (Some "out.h5"%string) (Some 0) (h5_library (fun _ => true)) s) as [[[[|] w'] s']|]; try discriminate. eauto.
Qed.

End Generic.

Print Assumptions C96_write_hdf5.
Print Assumptions C96_complete_file.
Print Assumptions C46_true_though_incomplete_refuted.
Print Assumptions C97_open_failure.
Print Assumptions C67_released_source_refuted.
