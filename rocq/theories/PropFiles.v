(** * Property theorems: profiles from data files (C123 - C126)

    [profile_new_from_file f1 f2 f3 err] is polycap_profile_new_from_file; a file argument is
    [None] for a NULL name, [Some None] for a file that cannot be opened, [Some (Some ts)] for a
    file with the tokens [ts].  The result is the pointer returned and the number of files
    opened and not closed.  Vocabulary: SpecFiles.v, SpecHeap.v. *)
From Coq Require Import ZArith List Bool Lia String.
From Verif Require Import Num Mem SpecHeap ErrorModel ProfileModel ProfileProofs FromFile SpecFiles ProfFile ProfFileProofs.
Import ListNotations.

Lemma entries_2 {T} (rows : list (T * T)) : forall i,
  nth_error (flat_map (fun r => [fst r; snd r]) rows) (i * 2 + 0) = option_map fst (nth_error rows i) /\
  nth_error (flat_map (fun r => [fst r; snd r]) rows) (i * 2 + 1) = option_map snd (nth_error rows i).
Proof.
  induction rows as [|[a b] r IH]; intros [|i]; cbn; auto.
Qed.
Lemma map_first {T} (n : nat) (f : nat -> val T) (l : list T) : List.length l = n ->
  (forall i v, nth_error l i = Some v -> f i = Vdbl v) -> List.map f (seq 0 n) = List.map Vdbl l.
Proof.
  intros <-. revert f. induction l as [|x l IH]; intros f H; cbn; [reflexivity|].
  rewrite (H 0 x eq_refl). f_equal. rewrite <- seq_shift, map_map. apply IH. intros i v E. apply (H (S i)). exact E.
Qed.

(** C123: three complete, consistent files give a profile with exactly their numbers: the
    capillary radii of the first, the positions and outer radii of the third.  It consists of
    four new blocks, nothing else in memory changes, every file is closed. *)
Theorem C123_complete_files :
  forall T n t1 t2 t3 rows1 rows2 rows3 err (s : st T),
    wf s -> allocs_succeed 4 s -> (100 < n < 2147483647)%Z ->
    lists2 n t1 rows1 -> lists3 n t2 rows2 -> lists2 n t3 rows3 ->
    wp (profile_new_from_file (Some (Some t1)) (Some (Some t2)) (Some (Some t3)) err)
       (fun r s' => exists l lz lc le, r = (Some l, 0) /\
          profile_object s' l lz lc le n (List.map fst rows3) (List.map snd rows1) (List.map snd rows3) /\
          all_free s [l; lz; lc; le] /\ same_memory_except [l; lz; lc; le] s s') s.
Proof.
  intros T n t1 t2 t3 rows1 rows2 rows3 err s W A Hn (A1 & L1 & N1) (A2 & L2 & N2) (A3 & L3 & N3).
  eapply wp_mono.
  - apply (from_file_reads n t1 t2 t3 err s W A A1 Hn).
    + intros (m & Am & D). apply D. eapply announces_fun; eauto.
    + intros (m & Am & D). apply D. eapply announces_fun; eauto.
  - intros r s' (_ & _ & _ & l & lz & lc & le & -> & ND & Ml & Mz & Mc & Me & Fr & Sx).
    exists l, lz, lc, le. split; [reflexivity|]. split; [|auto].
    split; [exact Ml|]. split; [|split; [|split; [|exact ND]]]; unfold dbl_array.
    + rewrite Mz. f_equal. apply map_first; [now rewrite map_length|]. intros i v E. unfold zcell, entry. rewrite N3.
      destruct (entries_2 rows3 i) as [-> _]. rewrite nth_error_map in E. rewrite E. reflexivity.
    + rewrite Mc. f_equal. apply map_first; [now rewrite map_length|]. intros i v E. unfold entry. rewrite N1.
      destruct (entries_2 rows1 i) as [_ ->]. rewrite nth_error_map in E. rewrite E. reflexivity.
    + rewrite Me. f_equal. apply map_first; [now rewrite map_length|]. intros i v E. unfold entry. rewrite N3.
      destruct (entries_2 rows3 i) as [_ ->]. rewrite nth_error_map in E. rewrite E. reflexivity.
Qed.

(** C124: every refusal hands out NULL, reports exactly one error of the right kind and leaves
    memory as it was otherwise: a NULL name, *)
Theorem C124_null_name :
  forall T f1 f2 f3 err (s : st T),
    wf s -> legal_err s err -> (err <> None -> allocs_succeed 2 s) ->
    f1 = None \/ f2 = None \/ f3 = None ->
    wp (profile_new_from_file f1 f2 f3 err)
       (fun r s' => fst r = NULL /\ exists m, error_reported err POLYCAP_ERROR_INVALID_ARGUMENT m s s') s.
Proof. intros. eapply wp_mono; [apply from_file_null; auto|]. cbn. intros r s' [-> E]. auto. Qed.
(** a first file that cannot be opened, *)
Theorem C124_first_file_missing :
  forall T f2 f3 err (s : st T),
    wf s -> legal_err s err -> (err <> None -> allocs_succeed 2 s) ->
    wp (profile_new_from_file (Some None) (Some f2) (Some f3) err)
       (fun r s' => fst r = NULL /\ exists m, error_reported err POLYCAP_ERROR_IO m s s') s.
Proof. intros. eapply wp_mono; [apply from_file_unopened; auto|]. cbn. intros r s' [-> E]. auto. Qed.
(** at most 100 intervals announced, *)
Theorem C124_too_few_intervals :
  forall T n t1 f2 f3 err (s : st T),
    wf s -> legal_err s err -> (err <> None -> allocs_succeed 2 s) ->
    announces n t1 -> (n <= 100)%Z ->
    wp (profile_new_from_file (Some (Some t1)) (Some f2) (Some f3) err)
       (fun r s' => fst r = NULL /\ exists m, error_reported err POLYCAP_ERROR_INVALID_ARGUMENT m s s') s.
Proof. intros. eapply wp_mono; [eapply from_file_short; eauto|]. cbn. intros r s' [-> E]. auto. Qed.
(** a second or third file that cannot be opened or announces another number of intervals, *)
Theorem C124_inconsistent_files :
  forall T n t1 f2 f3 err (s : st T),
    wf s -> legal_err s err -> allocs_succeed 4 s -> (err <> None -> allocs_succeed 6 s) ->
    announces n t1 -> (100 < n < 2147483647)%Z ->
    (f2 = None \/ (exists t2, f2 = Some t2 /\ disagrees n t2)) \/ (f3 = None \/ (exists t3, f3 = Some t3 /\ disagrees n t3)) ->
    wp (profile_new_from_file (Some (Some t1)) (Some f2) (Some f3) err)
       (fun r s' => fst r = NULL /\ exists m, error_reported err POLYCAP_ERROR_IO m s s') s.
Proof.
  intros T n t1 f2 f3 err s W L A4 A6 A1 Hn B. eapply wp_mono; [apply (from_file_bad n t1 f2 f3 err s); auto|].
  - destruct B as [[->|(t2 & -> & D)]|[->|(t3 & -> & D)]]; cbn; auto.
  - cbn. intros r s' (H1 & _ & H2). auto.
Qed.
(** any of the four allocations failing. *)
Theorem C124_out_of_memory :
  forall T n t1 f2 f3 err (s : st T),
    wf s -> legal_err s err -> ~ allocs_succeed 4 s -> (err <> None -> isolated_failures s) ->
    announces n t1 -> (100 < n < 2147483647)%Z ->
    wp (profile_new_from_file (Some (Some t1)) (Some f2) (Some f3) err)
       (fun r s' => fst r = NULL /\ exists m, error_reported err POLYCAP_ERROR_MEMORY m s s') s.
Proof. intros. eapply wp_mono; [eapply from_file_oom; eauto|]. cbn. intros r s' [-> E]. auto. Qed.

(** C125: every file opened is closed again.  True whenever a profile is handed out... *)
Theorem C125_closed_on_success_partial :
  forall T n t1 t2 t3 err (s : st T),
    wf s -> allocs_succeed 4 s -> announces n t1 -> (100 < n < 2147483647)%Z -> ~ disagrees n t2 -> ~ disagrees n t3 ->
    wp (profile_new_from_file (Some (Some t1)) (Some (Some t2)) (Some (Some t3)) err)
       (fun r s' => fst r <> NULL /\ snd r = 0) s.
Proof.
  intros T n t1 t2 t3 err s W A A1 Hn D2 D3. eapply wp_mono; [apply (from_file_reads n t1 t2 t3 err s); auto|].
  intros r s' (_ & _ & _ & l & lz & lc & le & -> & _). cbn. split; [discriminate|reflexivity].
Qed.
(** ... but false on refusals: too few intervals, inconsistent numbers, failing allocations each
    leave one file open, whatever the memory and the other files. *)
Theorem C125_left_open_refuted :
  forall T err (s : st T), wf s -> legal_err s err ->
    (forall n t1 f2 f3, (err <> None -> allocs_succeed 2 s) -> announces n t1 -> (n <= 100)%Z ->
       wp (profile_new_from_file (Some (Some t1)) (Some f2) (Some f3) err) (fun r _ => r = (NULL, 1)) s) /\
    (forall n t1 t2 f3, allocs_succeed 6 s -> announces n t1 -> (100 < n < 2147483647)%Z -> disagrees n t2 ->
       wp (profile_new_from_file (Some (Some t1)) (Some (Some t2)) (Some f3) err) (fun r _ => r = (NULL, 1)) s) /\
    (forall n t1 f2 f3, ~ allocs_succeed 4 s -> (err <> None -> isolated_failures s) -> announces n t1 -> (100 < n < 2147483647)%Z ->
       wp (profile_new_from_file (Some (Some t1)) (Some f2) (Some f3) err) (fun r _ => r = (NULL, 1)) s).
Proof.
  intros T err s W L. split; [|split].
  - intros n t1 f2 f3 A A1 Hn. eapply wp_mono; [apply (from_file_short n t1 f2 f3 err s); auto|]. cbn. tauto.
  - intros n t1 t2 f3 A A1 Hn D. eapply wp_mono; [apply (from_file_second n t1 t2 f3 err s); auto|]. cbn. tauto.
  - intros n t1 f2 f3 A Iso A1 Hn. eapply wp_mono; [apply (from_file_oom n t1 f2 f3 err s); auto|]. cbn. tauto.
Qed.

(** C126: a profile only holds numbers found in the files.  What an accepted set of files leads
    to: the position of each point is taken from the last file that has one, and a number that
    no file has is left indeterminate... *)
Theorem C126_contents_partial :
  forall T n t1 t2 t3 err (s : st T),
    wf s -> allocs_succeed 4 s -> announces n t1 -> (100 < n < 2147483647)%Z -> ~ disagrees n t2 -> ~ disagrees n t3 ->
    wp (profile_new_from_file (Some (Some t1)) (Some (Some t2)) (Some (Some t3)) err)
       (fun r s' => exists l lz lc le, r = (Some l, 0) /\
          mem s' l = Some [Vint n; Vptr (Some lz); Vptr (Some lc); Vptr (Some le)] /\
          mem s' lz = Some (List.map (fun i => first_of [entry 2 0 (table t3) i; entry 3 0 (table t2) i; entry 2 0 (table t1) i])
                              (seq 0 (Z.to_nat (n + 1)))) /\
          mem s' lc = Some (List.map (fun i => first_of [entry 2 1 (table t1) i]) (seq 0 (Z.to_nat (n + 1)))) /\
          mem s' le = Some (List.map (fun i => first_of [entry 2 1 (table t3) i]) (seq 0 (Z.to_nat (n + 1)))) /\
          all_free s [l; lz; lc; le] /\ same_memory_except [l; lz; lc; le] s s') s.
Proof.
  intros T n t1 t2 t3 err s W A A1 Hn D2 D3. eapply wp_mono; [apply (from_file_reads n t1 t2 t3 err s); auto|].
  intros r s' (_ & _ & _ & l & lz & lc & le & -> & ND & H). exists l, lz, lc, le. split; [reflexivity|exact H].
Qed.
(** ... so three files with nothing but one announcement are accepted, without an error, with
    every element indeterminate, *)
Theorem C126_truncated_files_refuted :
  forall T n t1 err (s : st T),
    wf s -> allocs_succeed 4 s -> (100 < n < 2147483647)%Z -> as_int t1 = Some n ->
    wp (profile_new_from_file (Some (Some [t1])) (Some (Some [])) (Some (Some [])) err)
       (fun r s' => exists l lz lc le, r = (Some l, 0) /\
          mem s' l = Some [Vint n; Vptr (Some lz); Vptr (Some lc); Vptr (Some le)] /\
          mem s' lz = Some (repeat Vundef (Z.to_nat (n + 1))) /\ mem s' lc = Some (repeat Vundef (Z.to_nat (n + 1))) /\
          mem s' le = Some (repeat Vundef (Z.to_nat (n + 1))) /\ same_memory_except [l; lz; lc; le] s s') s.
Proof.
  intros T n t1 err s W A Hn E.
  assert (A1 : announces n [t1]) by (exists t1, []; auto).
  assert (Dn : ~ disagrees n (@nil (token T))) by (intros (m & (t & r & X & _) & _); discriminate).
  eapply wp_mono; [apply (C126_contents_partial T n [t1] [] [] err s W A A1 Hn Dn Dn)|].
  assert (U : forall f : nat -> val T, (forall i, f i = Vundef) -> List.map f (seq 0 (Z.to_nat (n + 1))) = repeat Vundef (Z.to_nat (n + 1))).
  { intros f Hf. rewrite arr_undef. apply map_ext. exact Hf. }
  intros r s' (l & lz & lc & le & -> & Ml & Mz & Mc & Me & _ & Sx). exists l, lz, lc, le.
  split; [reflexivity|]. split; [exact Ml|].
  split; [|split; [|split; [|exact Sx]]].
  - rewrite Mz. f_equal. apply U. intros i. unfold entry. cbn. rewrite E. destruct (i * 2 + 0), (i * 3 + 0); reflexivity.
  - rewrite Mc. f_equal. apply U. intros i. unfold entry. cbn. rewrite E. destruct (i * 2 + 1); reflexivity.
  - rewrite Me. f_equal. apply U. intros i. unfold entry. cbn. destruct (i * 2 + 1); reflexivity.
Qed.
(** and a first file that does not start with a whole number makes the program branch on an
    uninitialised variable. *)
Theorem C126_no_number_refuted :
  forall T t1 f2 f3 err (s : st T), (forall n, ~ announces n t1) ->
    profile_new_from_file (Some (Some t1)) (Some f2) (Some f3) err s = UB.
Proof.
  intros T t1 f2 f3 err s H. unfold profile_new_from_file, scan_count, scan1. destruct t1 as [|t r]; [reflexivity|].
  destruct (as_int t) as [n|] eqn:E; [|reflexivity]. exfalso. apply (H n). exists t, r. auto.
Qed.

(** ** The hypotheses are met *)
Definition num (z : Z) : token Z := mkTok (Some z) (Some z).
Definition word : token Z := mkTok None None.
Definition rows_a : list (Z * Z) := List.map (fun i => (Z.of_nat i, 7%Z)) (seq 0 121).
Definition rows_b : list (Z * Z * Z) := List.map (fun i => (Z.of_nat i, 0%Z, 0%Z)) (seq 0 121).
Definition rows_c : list (Z * Z) := List.map (fun i => (2 * Z.of_nat i, 1000 - Z.of_nat i)%Z) (seq 0 121).
Definition file_a := num 120 :: List.map num (flat_map (fun r => [fst r; snd r]) rows_a).
Definition file_b := num 120 :: List.map num (flat_map (fun r => [fst (fst r); snd (fst r); snd r]) rows_b).
Definition file_c := num 120 :: List.map num (flat_map (fun r => [fst r; snd r]) rows_c).
Definition state_f : st Z := mkSt (fun l => if Nat.eqb l 0 then Some [Vptr NULL] else None) 1 (fun _ => true) 0.

Lemma wf_state_f : wf state_f.
Proof. intros l Hl; cbn in *; destruct l; [lia|reflexivity]. Qed.
Lemma lists_a : lists2 120 file_a rows_a.
Proof. split; [exists (num 120); eexists; split; reflexivity|split; vm_compute; reflexivity]. Qed.
Lemma lists_b : lists3 120 file_b rows_b.
Proof. split; [exists (num 120); eexists; split; reflexivity|split; vm_compute; reflexivity]. Qed.
Lemma lists_c : lists2 120 file_c rows_c.
Proof. split; [exists (num 120); eexists; split; reflexivity|split; vm_compute; reflexivity]. Qed.
Example C123_met : wp (profile_new_from_file (Some (Some file_a)) (Some (Some file_b)) (Some (Some file_c)) (Some 0))
  (fun r s' => exists l lz lc le, r = (Some l, 0) /\
     profile_object s' l lz lc le 120 (List.map fst rows_c) (List.map snd rows_a) (List.map snd rows_c) /\
     all_free state_f [l; lz; lc; le] /\ same_memory_except [l; lz; lc; le] state_f s') state_f.
Proof.
  apply (C123_complete_files Z 120 file_a file_b file_c rows_a rows_b rows_c (Some 0) state_f wf_state_f).
  - intros k Hk; reflexivity.
  - lia.
  - exact lists_a.
  - exact lists_b.
  - exact lists_c.
Qed.
Example C124_C125_C126_met :
  wf state_f /\ legal_err state_f (Some 0) /\ allocs_succeed 6 state_f /\
  announces 120 file_a /\ disagrees 120 [num 100] /\ ~ disagrees 120 [word] /\ announces 100 [num 100] /\
  (forall n, ~ announces n [word]) /\ (exists s : st Z, wf s /\ legal_err s (Some 0) /\ ~ allocs_succeed 4 s /\ isolated_failures s).
Proof.
  assert (W : wf state_f) by (intros l Hl; cbn in *; destruct l; [lia|reflexivity]).
  split; [exact W|]. split; [exists NULL; reflexivity|]. split; [intros k Hk; reflexivity|].
  split; [exists (num 120); eexists; split; reflexivity|].
  split; [exists 100%Z; split; [exists (num 100), []; split; reflexivity|lia]|].
  split; [intros (m & (t & r & E & F) & _); injection E as <- <-; discriminate|].
  split; [exists (num 100), []; split; reflexivity|].
  split; [intros n (t & r & E & F); injection E as <- <-; discriminate|].
  exists (mkSt (mem state_f) 1 (fun k => negb (Nat.eqb k 2)) 0). split; [exact W|]. split; [exists NULL; reflexivity|].
  split; [intros H; specialize (H 2 ltac:(lia)); discriminate|].
  intros k Hk. cbn [orc] in *. destruct (Nat.eqb_spec k 2) as [E|E]; [rewrite E; split; reflexivity|discriminate].
Qed.

Print Assumptions C123_complete_files.
Print Assumptions C124_null_name.
Print Assumptions C124_first_file_missing.
Print Assumptions C124_too_few_intervals.
Print Assumptions C124_inconsistent_files.
Print Assumptions C124_out_of_memory.
Print Assumptions C125_closed_on_success_partial.
Print Assumptions C125_left_open_refuted.
Print Assumptions C126_contents_partial.
Print Assumptions C126_truncated_files_refuted.
Print Assumptions C126_no_number_refuted.
