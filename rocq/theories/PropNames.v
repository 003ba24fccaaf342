(** * Property theorems: input files that name the files of their profile (C136, C137)

    As in PropFileSrc.v; [names_at] reads the three names, [disk] gives the contents of a file.
    Vocabulary: SpecNames.v, SpecFiles.v, SpecInput.v, SpecHeap.v. *)
From Coq Require Import ZArith List Bool Lia Reals Lra String Permutation.
From Verif Require Import Num Mem SpecHeap HeapLib ErrorModel ProfileModel ProfileProofs Geometry ConsModel CapilModel DescProofs SrcProofs ConsReal ProfileReal SepLib
  FlightRep FlightHeap FlightLaunch2 FlightProp PyModel PyResProofs PyResInv SpecPyObj PyObjHeap PyObjCons PyObjProofs SourceModel FromFile FromFileProofs LineModel
  SpecFiles ProfFile ProfFileProofs SpecInput SpecNames FileSrc FileSrcProofs FileSrcRead FileNames PropFileSrc.
Import ListNotations.
Local Notation ret := Mem.ret.
Local Notation bind := Mem.bind.

Section Any.
Context {T : Type} {N : Num T}.
Local Notation blocks := (list (loc * @block T)).
Variable fit : list (T * T) -> T * T * T.
Variable names_at : list (token T) -> list Z * list Z * list Z * list (token T).
Variable disk : list Z -> option (list (token T)).
Implicit Types (s : st T).

Ltac tok H := let t := fresh "t" in let ts1 := fresh "ts" in let E := fresh "E" in apply lists_cons in H; destruct H as (t & ts1 & -> & E & H); cbn [says] in E.
Ltac go := repeat match goal with E : as_dbl ?t = Some _ |- context [as_dbl ?t] => rewrite E; cbn [Z.eqb Pos.eqb need] | E : as_int ?t = Some _ |- context [as_int ?t] => rewrite E; cbn [Z.eqb Pos.eqb need] end.
Lemma read_named res (c : input T) l1 l2 l3 ts n :
  complete_with_names names_at c l1 l2 l3 ts -> ntoZ ((i_last c - i_first c) / i_step c + #1)%num = Some n -> (0 <= n)%Z ->
  source_from_file fit (named names_at l1 l2 l3 res) None ts =
    match res with
    | None => FDone (Some POLYCAP_ERROR_INVALID_ARGUMENT) None
    | Some a => finish None (read_source c n a)
    end.
Proof.
  intros (Ht & at_names & after & rest & H & EN & H2) En Hn. unfold first_part in H. cbn [app] in H.
  do 10 tok H. apply read_elems_lists in H. destruct H as (ts' & E9' & H). do 6 tok H. apply lists_nil in H. subst.
  apply lists_cons in H2. destruct H2 as (tn & tr & -> & En2 & _). cbn [says] in En2.
  unfold source_from_file, read1, read2, scan2, scan1.
  go. rewrite Nat2Z.id, E9'. cbn [need].
  cbn [read_dbl_vars]. unfold scan1. go. rewrite En. cbn [need].
  destruct (Z.ltb_spec n 0); [lia|]. go. unfold read_profile.
  replace (Z.eqb (i_type c) 0 || Z.eqb (i_type c) 1 || Z.eqb (i_type c) 2)%bool with false
    by (destruct (Z.eqb_spec (i_type c) 0), (Z.eqb_spec (i_type c) 1), (Z.eqb_spec (i_type c) 2); auto; exfalso; lia).
  rewrite (named_at names_at l1 l2 l3 res _ _ EN). cbn [need]. destruct res as [a|]; [|reflexivity]. go. reflexivity.
Qed.

(** C137: profile files that are refused (the same conditions as C124). *)
Definition refused_files (l1 l2 l3 : list Z) : Prop :=
  disk l1 = None \/
  exists t1 n, disk l1 = Some t1 /\ announces n t1 /\
    ((n <= 100)%Z \/ (100 < n < 2147483647)%Z /\
       ((disk l2 = None \/ exists t2, disk l2 = Some t2 /\ disagrees n t2) \/ (disk l3 = None \/ exists t3, disk l3 = Some t3 /\ disagrees n t3))).
Lemma refused_files_ok l1 l2 l3 : refused_files l1 l2 l3 -> files_refused disk l1 l2 l3.
Proof.
  intros H err s W A L. assert (A2 : err <> None -> allocs_succeed 2 s) by (intros _; apply avail_n; exact A).
  destruct H as [->|(t1 & n & -> & An & [Hn|(Hn & B)])].
  - eapply wp_mono; [apply from_file_unopened; auto|]. cbn. intros r s' [-> E]. split; [reflexivity|]. destruct E as [m E]. exists POLYCAP_ERROR_IO, m. auto.
  - eapply wp_mono; [eapply from_file_short; eauto|]. cbn. intros r s' [-> E]. split; [reflexivity|]. destruct E as [m E]. exists POLYCAP_ERROR_INVALID_ARGUMENT, m. auto.
  - eapply wp_mono; [apply (from_file_bad n t1 (disk l2) (disk l3) err s); auto using avail_n|].
    + destruct B as [[->|(t2 & -> & D)]|[->|(t3 & -> & D)]]; cbn; auto.
    + cbn. intros r s' (H1 & _ & m & H2). split; [exact H1|]. exists POLYCAP_ERROR_IO, m. auto.
Qed.

Lemma read_refused pff (c : input T) l1 l2 l3 ts n :
  complete_with_names names_at c l1 l2 l3 ts -> ntoZ ((i_last c - i_first c) / i_step c + #1)%num = Some n -> (0 <= n)%Z ->
  reading pff fit (refused_tail names_at l1 l2 l3) ts = FDone None None.
Proof.
  intros (Ht & at_names & after & rest & H & EN & _) En Hn. unfold first_part in H. cbn [app] in H.
  do 10 tok H. apply read_elems_lists in H. destruct H as (ts' & E9' & H). do 6 tok H. apply lists_nil in H. subst.
  unfold reading, read1, read2, scan2, scan1.
  go. unfold tables_of. rewrite Nat2Z.id, E9'. cbn [need].
  cbn [read_dbl_vars]. unfold scan1. go. rewrite En. cbn [need].
  destruct (Z.ltb_spec n 0); [lia|]. go. unfold is012.
  replace (Z.eqb (i_type c) 0 || Z.eqb (i_type c) 1 || Z.eqb (i_type c) 2)%bool with false
    by (destruct (Z.eqb_spec (i_type c) 0), (Z.eqb_spec (i_type c) 1), (Z.eqb_spec (i_type c) 2); auto; exfalso; lia).
  unfold refused_tail. rewrite EN. destruct (list_eq_dec Z.eq_dec l1 l1); [|congruence]. destruct (list_eq_dec Z.eq_dec l2 l2); [|congruence].
  destruct (list_eq_dec Z.eq_dec l3 l3); [reflexivity|congruence].
Qed.

Definition holds_name s p (l : list Z) : Prop := mem s p = Some (List.map Vint (l ++ [0%Z])).
Lemma refused_run c l1 l2 l3 ts n s le : wf s -> memory_available s -> slot_holds s le NULL ->
    complete_with_names names_at c l1 l2 l3 ts -> ntoZ ((i_last c - i_first c) / i_step c + #1)%num = Some n -> (0 <= n)%Z ->
    file_name l1 -> file_name l2 -> file_name l3 -> refused_files l1 l2 l3 ->
    wp (source_new_from_file fit names_at disk (Some (Some ts)) (Some le))
       (fun r s' => fst r = NULL /\ 1 <= snd r /\ exists o t code m p1 p2 p3,
          slot_holds s' le (Some o) /\ error_object s' o t code m /\ (code = POLYCAP_ERROR_IO \/ code = POLYCAP_ERROR_INVALID_ARGUMENT) /\
          NoDup [o; t; p1; p2; p3] /\ all_free s [o; t; p1; p2; p3] /\ holds_name s' p1 l1 /\ holds_name s' p2 l2 /\ holds_name s' p3 l3 /\
          same_memory_except [le; o; t; p1; p2; p3] s s') s.
Proof.
  intros W A Sl Cf En Hn C1 C2 C3 RF.
  pose proof (source_file_ok (names_left l1 l2 l3) true (fun _ => (Some (mkProfile 0 [] [] []), [])) fit names_at disk (refused_tail names_at l1 l2 l3)
    (names_refused fit names_at disk l1 l2 l3 C1 C2 C3 (refused_files_ok l1 l2 l3 RF)) (without [le] s) le [] ts s (slot_hs s le W A Sl)) as H.
  rewrite (read_refused _ c l1 l2 l3 ts n Cf En Hn) in H. eapply wp_mono; [exact (H eq_refl)|]. clear H. intros r s' (E1 & E2 & o & t & m & code & p1 & p2 & p3 & Hc & H).
  split; [exact E1|]. split; [exact E2|]. cbn [app] in H. exists o, t, code, m, p1, p2, p3.
  assert (ND := hs_distinct _ _ _ H). cbn [map fst] in ND. apply NoDup_cons_iff in ND. destruct ND as [N1 ND].
  assert (G : forall l b, In (l, b) [(le, [Vptr (Some o)]); (o, [Vint code; Vptr (Some t)]); (t, [Vstr m]); (p1, List.map Vint (l1 ++ [0%Z])); (p2, List.map Vint (l2 ++ [0%Z])); (p3, List.map Vint (l3 ++ [0%Z]))] -> mem s' l = Some b)
    by (intros l b I; eapply hs_in; [exact H|exact I]).
  split; [apply G; cbn; auto|]. split; [|split; [exact Hc|]].
  { split; [apply G; cbn; auto|]. split; [apply G; cbn; auto|]. intros ->. apply NoDup_cons_iff in ND. apply ND. left. reflexivity. }
  split; [exact ND|]. split.
  { intros l I. change [o; t; p1; p2; p3] with (map fst [(o, [Vint code; Vptr (Some t)]); (t, [Vstr m]); (p1, List.map Vint (l1 ++ [0%Z])); (p2, List.map Vint (l2 ++ [0%Z])); (p3, List.map (@Vint T) (l3 ++ [0%Z]))]) in I.
    destruct (in_map_fst_ex _ _ I) as [x Ix]. eapply hs_new; [exact H|right; exact Ix|]. intros ->. apply N1. exact I. }
  split; [apply G; cbn; auto 8|]. split; [apply G; cbn; auto 8|]. split; [apply G; cbn; auto 8|].
  apply (hs_rest s le _ s' H). left. reflexivity.
Qed.

(** C137: profile files that are refused.  NULL, one error of the right kind, and apart from that
    error object nothing that was in memory changes ... *)
Theorem C137_refused_files_partial :
  forall c l1 l2 l3 ts n s le, wf s -> memory_available s -> slot_holds s le NULL ->
    complete_with_names names_at c l1 l2 l3 ts -> ntoZ ((i_last c - i_first c) / i_step c + #1)%num = Some n -> (0 <= n)%Z ->
    file_name l1 -> file_name l2 -> file_name l3 -> refused_files l1 l2 l3 ->
    wp (source_new_from_file fit names_at disk (Some (Some ts)) (Some le))
       (fun r s' => fst r = NULL /\ exists o t code m,
          slot_holds s' le (Some o) /\ error_object s' o t code m /\ (code = POLYCAP_ERROR_IO \/ code = POLYCAP_ERROR_INVALID_ARGUMENT) /\
          forall l, mem s l <> None -> l <> le -> mem s' l = mem s l) s.
Proof.
  intros c l1 l2 l3 ts n s le W A Sl Cf En Hn C1 C2 C3 RF. eapply wp_mono; [apply (refused_run c l1 l2 l3 ts n s le); assumption|].
  intros r s' (E1 & E2 & o & t & code & m & p1 & p2 & p3 & X1 & X2 & X3 & X4 & X5 & X6 & X7 & X8 & X9).
  split; [exact E1|]. exists o, t, code, m. split; [exact X1|]. split; [exact X2|]. split; [exact X3|].
  intros l Hl Nl. apply X9. intros I. cbn [In] in I. destruct I as [<-|I]; [congruence|]. apply Hl. apply X5. exact I.
Qed.
(** ... but the three names stay allocated, although no pointer to them is handed out, and the
    input file stays open. *)
Theorem C137_names_lost_refuted :
  forall c l1 l2 l3 ts n s le, wf s -> memory_available s -> slot_holds s le NULL ->
    complete_with_names names_at c l1 l2 l3 ts -> ntoZ ((i_last c - i_first c) / i_step c + #1)%num = Some n -> (0 <= n)%Z ->
    file_name l1 -> file_name l2 -> file_name l3 -> refused_files l1 l2 l3 ->
    wp (source_new_from_file fit names_at disk (Some (Some ts)) (Some le))
       (fun r s' => 1 <= snd r /\ exists o t p1 p2 p3, NoDup [o; t; p1; p2; p3] /\ all_free s [o; t; p1; p2; p3] /\
          slot_holds s' le (Some o) /\ (exists code m, error_object s' o t code m) /\
          holds_name s' p1 l1 /\ holds_name s' p2 l2 /\ holds_name s' p3 l3 /\ same_memory_except [le; o; t; p1; p2; p3] s s') s.
Proof.
  intros c l1 l2 l3 ts n s le W A Sl Cf En Hn C1 C2 C3 RF. eapply wp_mono; [apply (refused_run c l1 l2 l3 ts n s le); assumption|].
  intros r s' (E1 & E2 & o & t & code & m & p1 & p2 & p3 & X1 & X2 & X3 & X4 & X5 & X6 & X7 & X8 & X9).
  split; [exact E2|]. exists o, t, p1, p2, p3. eauto 12.
Qed.

(** Complete files whose profile files are complete: what reading gives is what is made. *)
Lemma named_run n3 t1 t2 t3 rows1 rows2 rows3 l1 l2 l3 ts e r s le : wf s -> memory_available s -> slot_holds s le NULL ->
  (100 < n3 < 2147483647)%Z -> disk l1 = Some t1 -> disk l2 = Some t2 -> disk l3 = Some t3 ->
  lists2 n3 t1 rows1 -> lists3 n3 t2 rows2 -> lists2 n3 t3 rows3 -> file_name l1 -> file_name l2 -> file_name l3 ->
  source_from_file fit (named names_at l1 l2 l3 (Some (listed_profile n3 rows1 rows3))) None ts = FDone e r ->
  wp (source_new_from_file fit names_at disk (Some (Some ts)) (Some le)) (outcome (fun _ _ _ _ _ => False) (without [le] s) le [] e r) s.
Proof.
  intros W A Sl Hn D1 D2 D3 T1 T2 T3 C1 C2 C3 E.
  pose proof (source_file_ok (fun _ _ _ _ _ => False) true (named names_at l1 l2 l3 (Some (listed_profile n3 rows1 rows3))) fit names_at disk
    (tail_of (named names_at l1 l2 l3 (Some (listed_profile n3 rows1 rows3))) fit)
    (names_complete fit names_at disk l1 l2 l3 C1 C2 C3 n3 t1 t2 t3 rows1 rows2 rows3 _ Hn D1 D2 D3 T1 T2 T3) (without [le] s) le [] ts s (slot_hs s le W A Sl)) as H.
  rewrite reading_source in H by reflexivity. rewrite E in H. exact (H eq_refl).
Qed.
End Any.

Local Open Scope R_scope.

(** What polycap_source_new_from_file asks for, the profile being given. *)
Definition acceptable_with (c : input R) (a : profile R) (n : nat) : Prop :=
  0 <= i_d c /\ 0 <= i_x c /\ 0 <= i_y c /\ Forall (fun x => 1 <= x <= 100) (energies c n) /\
  (1 <= i_ncap c)%Z /\ (1 <= List.length (i_elems c))%nat /\ Forall (fun e => 1 <= fst e <= 94)%Z (i_elems c) /\ 0 <= i_dens c /\
  0 <= open_area_num (i_ncap c) (hd 0 (p_cap a)) (hd 0 (p_ext a)) <= 1 /\ profile_validate a (i_ncap c) = Some 1%Z.
Definition source_with (c : input R) (a : profile R) (n : nat) (ws : list R) : file_source R :=
  mkFS (mkSource (i_d c) (i_x c) (i_y c) (i_sx c) (i_sy c) (i_hx c) (i_hy c) (i_pol c)) (energies c n)
    (i_sig c) (i_ncap c) (open_area_num (i_ncap c) (hd 0 (p_cap a)) (hd 0 (p_ext a))) (List.map fst (i_elems c)) ws (i_dens c) a.
Lemma finish_acceptable c a n : (1 <= n)%nat -> p_cap a <> [] -> p_ext a <> [] -> acceptable_with c a n ->
  finish None (read_source c (Z.of_nat n) a) =
    FDone (if snd (norm_weights (fractions c)) then None else Some POLYCAP_ERROR_INVALID_ARGUMENT) (Some (source_with c a n (fst (norm_weights (fractions c))))).
Proof.
  intros Pn N1 N2 (A1 & A2 & A3 & A4 & A5 & A6 & A7 & A8 & A10 & A11).
  rewrite finish_hd by assumption. unfold read_source. rewrite Nat2Z.id, energies_file. cbn [fs_wi fs_prof fs_nums fs_energies fs_sig fs_ncap fs_iz fs_dens].
  change (List.map (fun e : Z * R => (snd e / #100)%num) (i_elems c)) with (fractions c). cbv zeta.
  change (mkFS _ _ _ _ _ _ _ _ _) with (source_with c a n (fst (norm_weights (fractions c)))).
  rewrite file_checks_ok, A11; [reflexivity|..]; cbn [source_with fs_nums fs_energies fs_ncap fs_open fs_iz fs_dens so_d so_x so_y]; auto.
  - unfold energies. rewrite map_length, seq_length. exact Pn.
  - rewrite map_length. exact A6.
  - apply Forall_map. exact A7.
Qed.
Lemma finish_unacceptable c a n : p_cap a <> [] -> p_ext a <> [] -> well_sized a -> ~ acceptable_with c a n ->
  finish None (read_source c (Z.of_nat n) a) = FDone (Some POLYCAP_ERROR_INVALID_ARGUMENT) None.
Proof.
  intros N1 N2 WS NA.
  rewrite finish_hd by assumption. unfold read_source. rewrite Nat2Z.id, energies_file. cbn [fs_wi fs_prof fs_nums fs_energies fs_sig fs_ncap fs_iz fs_dens].
  change (List.map (fun e : Z * R => (snd e / #100)%num) (i_elems c)) with (fractions c). cbv zeta.
  change (mkFS _ _ _ _ _ _ _ _ _) with (source_with c a n (fst (norm_weights (fractions c)))).
  destruct (file_checks _) eqn:FC; [reflexivity|]. destruct (validate_some a (i_ncap c) WS) as [v Ev].
  rewrite Ev. destruct (Z.eqb_spec v 1) as [->|]; [|reflexivity]. exfalso. apply NA.
  apply file_checks_R in FC. cbn [source_with fs_nums fs_energies fs_ncap fs_open fs_iz fs_dens so_d so_x so_y] in FC.
  destruct FC as (B1 & B2 & B3 & B4 & B5 & B6 & B7 & B8 & B9 & B10). rewrite map_length in B8. apply Forall_map in B9.
  unfold acceptable_with. tauto.
Qed.
Lemma listed_ne n t1 t3 rows1 rows3 : (100 < n < 2147483647)%Z -> lists2 n t1 rows1 -> lists2 n t3 rows3 ->
  p_cap (listed_profile (T := R) n rows1 rows3) <> [] /\ p_ext (listed_profile (T := R) n rows1 rows3) <> [].
Proof.
  intros Hn (_ & L1 & _) (_ & L3 & _). unfold listed_profile. cbn [p_cap p_ext].
  assert (Z.to_nat (n + 1) <> 0%nat) by lia.
  split; intros E; apply map_eq_nil in E; subst; cbn in *; lia.
Qed.

(** C136: an input file that names the three files of its profile.  If they are complete, agree
    on their number of intervals (more than 100), percentages add up to 100 and everything is
    acceptable, the source is made of the input file's numbers and the profile of the named
    files: axial positions and outer radii from the third, capillary radii from the first.
    Nothing else changes in memory, in particular the names are given back; all files are closed. *)
Theorem C136_named_profile :
  forall fit names_at disk c l1 l2 l3 t1 t2 t3 n3 rows1 rows2 rows3 ts n s le,
    wf s -> memory_available s -> slot_holds s le NULL ->
    complete_with_names names_at c l1 l2 l3 ts -> 0 < i_step c -> i_first c <= i_last c -> energy_count c n ->
    file_name l1 -> file_name l2 -> file_name l3 -> disk l1 = Some t1 -> disk l2 = Some t2 -> disk l3 = Some t3 ->
    (100 < n3 < 2147483647)%Z -> lists2 n3 t1 rows1 -> lists3 n3 t2 rows2 -> lists2 n3 t3 rows3 ->
    acceptable_with c (listed_profile n3 rows1 rows3) n -> Rsum (List.map snd (i_elems c)) = 100 ->
    wp (source_new_from_file fit names_at disk (Some (Some ts)) (Some le))
       (fun r s' => exists src len lr lg d liz lwi lp lz lc lx, r = (Some src, 0%nat) /\
          source_object s' src len lr lg d [i_d c; i_x c; i_y c; i_sx c; i_sy c; i_hx c; i_hy c; i_pol c] (energies c n) /\
          description_object s' d liz lwi lp lz lc lx (i_sig c) (i_ncap c) (open_area_num (i_ncap c) (hd 0 (List.map snd rows1)) (hd 0 (List.map snd rows3)))
             (List.map fst (i_elems c)) (fractions c) (i_dens c) n3 (List.map fst rows3) (List.map snd rows1) (List.map snd rows3) /\
          NoDup [src; len; lr; lg; d; liz; lwi; lp; lz; lc; lx] /\ all_free s [src; len; lr; lg; d; liz; lwi; lp; lz; lc; lx] /\
          same_memory_except [src; len; lr; lg; d; liz; lwi; lp; lz; lc; lx] s s') s.
Proof.
  intros fit names_at disk c l1 l2 l3 t1 t2 t3 n3 rows1 rows2 rows3 ts n s le W A Sl Cf Ps Le Ec C1 C2 C3 D1 D2 D3 Hn T1 T2 T3 Ac Sm.
  assert (S1 : Rsum (fractions c) = 1).
  { unfold fractions. rewrite <- (map_map snd (fun w => w / 100)), Rsum_div, Sm. field. }
  destruct (norm_weights_one _ S1) as [N1 N2]. destruct (count_Z c n Ps Le Ec) as [En Pn]. destruct (listed_ne n3 t1 t3 rows1 rows3 Hn T1 T3) as [M1 M2].
  eapply wp_mono; [apply (named_run fit names_at disk n3 t1 t2 t3 rows1 rows2 rows3 l1 l2 l3 ts None (Some (source_with c (listed_profile n3 rows1 rows3) n (fractions c))) s le); try assumption|].
  - rewrite (read_named fit names_at _ c l1 l2 l3 ts (Z.of_nat n) Cf En ltac:(lia)), (finish_acceptable c _ n Pn M1 M2 Ac), N1, N2. reflexivity.
  - intros r s' (src & len & lr & lg & bg & d & liz & lwi & lp & lz & lc & lx & b & EB & E1 & E2 & SE & H).
    exists src, len, lr, lg, d, liz, lwi, lp, lz, lc, lx. split; [exact E1|].
    destruct (made_object _ _ _ _ (source_with c (listed_profile n3 rows1 rows3) n (fractions c)) _ _ _ _ _ _ _ _ _ _ _ _ _ Sl SE H) as [(F1 & F2 & F3 & F4) X].
    split; [exact F1|]. split.
    { cbn [source_with fs_sig fs_ncap fs_open fs_iz fs_wi fs_dens fs_prof listed_profile p_nmax p_z p_cap p_ext] in F2. rewrite Z2Nat.id in F2 by lia. exact F2. }
    split; [exact F3|]. split; [exact F4|]. destruct b; [discriminate E2|]. inversion SE; subst. cbn [map fst app] in X.
    intros l I. destruct (Nat.eq_dec l le) as [->|Nl]; [|apply X; cbn [In] in *; intuition congruence].
    rewrite Sl. eapply hs_in; [exact H|left; reflexivity].
Qed.

(** If something is not acceptable: NULL and exactly one error. *)
Theorem C136_unacceptable_value :
  forall fit names_at disk c l1 l2 l3 t1 t2 t3 n3 rows1 rows2 rows3 ts n s le,
    wf s -> memory_available s -> slot_holds s le NULL ->
    complete_with_names names_at c l1 l2 l3 ts -> 0 < i_step c -> i_first c <= i_last c -> energy_count c n ->
    file_name l1 -> file_name l2 -> file_name l3 -> disk l1 = Some t1 -> disk l2 = Some t2 -> disk l3 = Some t3 ->
    (100 < n3 < 2147483647)%Z -> lists2 n3 t1 rows1 -> lists3 n3 t2 rows2 -> lists2 n3 t3 rows3 ->
    ~ acceptable_with c (listed_profile n3 rows1 rows3) n ->
    wp (source_new_from_file fit names_at disk (Some (Some ts)) (Some le))
       (fun r s' => fst r = NULL /\ exists m, error_reported (Some le) POLYCAP_ERROR_INVALID_ARGUMENT m s s') s.
Proof.
  intros fit names_at disk c l1 l2 l3 t1 t2 t3 n3 rows1 rows2 rows3 ts n s le W A Sl Cf Ps Le Ec C1 C2 C3 D1 D2 D3 Hn T1 T2 T3 NA.
  destruct (count_Z c n Ps Le Ec) as [En Pn]. destruct (listed_ne n3 t1 t3 rows1 rows3 Hn T1 T3) as [M1 M2].
  eapply wp_mono; [apply (named_run fit names_at disk n3 t1 t2 t3 rows1 rows2 rows3 l1 l2 l3 ts (Some POLYCAP_ERROR_INVALID_ARGUMENT) None s le); try assumption|].
  - rewrite (read_named fit names_at _ c l1 l2 l3 ts (Z.of_nat n) Cf En ltac:(lia)). apply finish_unacceptable; auto. eapply listed_sized; eauto.
  - intros r s' R. apply (refused_reported s le POLYCAP_ERROR_INVALID_ARGUMENT r s' Sl) in R. destruct R as (E1 & _ & E2). split; assumption.
Qed.

(** ** The hypotheses are met *)
(** Three names (one token each here), each one letter; the profile files of a straight optic. *)
Definition demo_named (dens pct : R) (iz : Z) : list (token R) :=
  [dt (1/2); dt 10; dt 1; dt 1; dt (-1); dt (-1); dt 0; dt 0; dt 0; it 1; it iz; dt pct; dt dens;
   dt 10; dt 10; dt 1; it 1; it 7; wordtok; wordtok; wordtok; it 1].
Definition demo_names_at (ts : list (token R)) : list Z * list Z * list Z * list (token R) := ([97%Z], [98%Z], [99%Z], skipn 3 ts).
Definition named_input (dens pct : R) (iz : Z) : input R := mkInput (1/2) 10 1 1 (-1) (-1) 0 0 0 [(iz, pct)] dens 10 10 1 1 7 1.
Example named_file dens pct iz : complete_with_names demo_names_at (named_input dens pct iz) [97%Z] [98%Z] [99%Z] (demo_named dens pct iz).
Proof.
  split; [cbn; lia|]. exists [wordtok; wordtok; wordtok; it 1], [it 1], []. unfold lists. split; [|split].
  - exists [dt (1/2); dt 10; dt 1; dt 1; dt (-1); dt (-1); dt 0; dt 0; dt 0; it 1; it iz; dt pct; dt dens; dt 10; dt 10; dt 1; it 1; it 7].
    split; [reflexivity|]. cbn. repeat constructor.
  - reflexivity.
  - exists [it 1]. split; [reflexivity|]. repeat constructor.
Qed.
Example named_names : file_name [97%Z] /\ file_name [98%Z] /\ file_name [99%Z].
Proof. repeat split; repeat constructor; lia. Qed.
Definition pairs_file (rows : list (R * R)) : list (token R) := it (Z.of_nat (List.length rows) - 1) :: flat_map (fun r => [dt (fst r); dt (snd r)]) rows.
Definition triples_file (rows : list (R * R * R)) : list (token R) := it (Z.of_nat (List.length rows) - 1) :: flat_map (fun r => [dt (fst (fst r)); dt (snd (fst r)); dt (snd r)]) rows.
Lemma pairs_lists rows : rows <> [] -> lists2 (Z.of_nat (List.length rows) - 1) (pairs_file rows) rows.
Proof.
  intros NE. split; [|split].
  - eexists. eexists. split; [reflexivity|]. reflexivity.
  - destruct rows; [congruence|]. cbn [List.length]. lia.
  - unfold pairs_file, table. cbn [as_int it]. induction rows as [|r l IH]; [congruence|]. cbn. f_equal. f_equal. destruct l as [|r2 l]; [reflexivity|]. apply IH. discriminate.
Qed.
Lemma triples_lists rows : rows <> [] -> lists3 (Z.of_nat (List.length rows) - 1) (triples_file rows) rows.
Proof.
  intros NE. split; [|split].
  - eexists. eexists. split; [reflexivity|]. reflexivity.
  - destruct rows; [congruence|]. cbn [List.length]. lia.
  - unfold triples_file, table. cbn [as_int it]. induction rows as [|r l IH]; [congruence|]. cbn. do 3 f_equal. destruct l as [|r2 l]; [reflexivity|]. apply IH. discriminate.
Qed.
Definition rows1 : list (R * R) := List.map (fun i => (pz 10 i, pc 10 (1/2) (1/2) i)) (seq 0 npts).
Definition rows2 : list (R * R * R) := List.map (fun i => (pz 10 i, 0, 0)) (seq 0 npts).
Definition rows3 fit : list (R * R) := List.map (fun i => (pz 10 i, pe fit 0 10 1 1 1 1 i)) (seq 0 npts).
Definition demo_disk fit (name : list Z) : option (list (token R)) :=
  match name with [97%Z] => Some (pairs_file rows1) | [98%Z] => Some (triples_file rows2) | [99%Z] => Some (pairs_file (rows3 fit)) | _ => None end.
Lemma seq_npts_ne {A} (g : nat -> A) : List.map g (seq 0 npts) <> [].
Proof. apply seq_ne. Qed.
Lemma rows_len {A} (g : nat -> A) : (Z.of_nat (List.length (List.map g (seq 0 npts))) - 1 = 999)%Z.
Proof. rewrite map_length, seq_length. reflexivity. Qed.
Lemma demo_disk_ok fit : demo_disk fit [97%Z] = Some (pairs_file rows1) /\ demo_disk fit [98%Z] = Some (triples_file rows2) /\ demo_disk fit [99%Z] = Some (pairs_file (rows3 fit)).
Proof. unfold demo_disk. auto. Qed.
Lemma demo_files fit : lists2 999 (pairs_file rows1) rows1 /\ lists3 999 (triples_file rows2) rows2 /\ lists2 999 (pairs_file (rows3 fit)) (rows3 fit).
Proof.
  pose proof (pairs_lists rows1 (seq_npts_ne _)) as A. pose proof (triples_lists rows2 (seq_npts_ne _)) as B. pose proof (pairs_lists (rows3 fit) (seq_npts_ne _)) as C.
  unfold rows1 at 1 in A. unfold rows2 at 1 in B. unfold rows3 at 1 in C. rewrite rows_len in A. rewrite rows_len in B. rewrite rows_len in C. auto.
Qed.
Lemma demo_listed fit : listed_profile 999 rows1 (rows3 fit) = straight fit.
Proof. unfold listed_profile, rows1, rows3, straight. rewrite !map_map. generalize (seq 0 npts). intros l. reflexivity. Qed.
Example named_count dens pct iz : energy_count (named_input dens pct iz) 1.
Proof. unfold energy_count. cbn [i_last i_first i_step named_input INR]. lra. Qed.
Example named_acceptable fit pct : acceptable_with (named_input 2 pct 8) (listed_profile 999 rows1 (rows3 fit)) 1.
Proof.
  rewrite demo_listed. unfold acceptable_with. cbn [i_d i_x i_y i_ncap i_elems i_dens named_input List.length fst].
  destruct (straight_heads fit) as (cs & es & E1 & E2). rewrite E1, E2, (straight_valid fit). cbn [hd].
  repeat match goal with |- _ /\ _ => split end; try lra; try lia; try apply straight_open; auto.
  - unfold energies. cbn. constructor; [lra|constructor].
  - repeat constructor; cbn; lia.
Qed.
Example named_sum : Rsum (List.map snd (i_elems (named_input 2 100 8))) = 100.
Proof. cbn. lra. Qed.
Example named_unacceptable fit : ~ acceptable_with (named_input 2 100 95) (listed_profile 999 rows1 (rows3 fit)) 1.
Proof. intros (_ & _ & _ & _ & _ & _ & H & _). apply Forall_inv in H. cbn in H. lia. Qed.
Example C136_met : forall fit, exists src s',
  source_new_from_file fit demo_names_at (demo_disk fit) (Some (Some (demo_named 2 100 8))) (Some 0%nat) slot_only = Ok ((Some src, 0%nat), s').
Proof.
  intros fit. destruct slot_only_ok as (W & A & Sl). destruct (demo_disk_ok fit) as (D1 & D2 & D3). destruct (demo_files fit) as (T1 & T2 & T3). destruct named_names as (C1 & C2 & C3).
  pose proof (C136_named_profile fit demo_names_at (demo_disk fit) (named_input 2 100 8) _ _ _ _ _ _ 999 rows1 rows2 (rows3 fit) (demo_named 2 100 8) 1 slot_only 0%nat W A Sl (named_file 2 100 8)
    ltac:(cbn; lra) ltac:(cbn; lra) (named_count 2 100 8) C1 C2 C3 D1 D2 D3 ltac:(lia) T1 T2 T3 (named_acceptable fit 100) named_sum) as H.
  unfold wp in H. destruct (source_new_from_file _ _ _ _ _ _) as [[r s']|]; [|contradiction]. destruct H as (src & len & lr & lg & d & liz & lwi & lp & lz & lc & lx & -> & _). eauto.
Qed.
(** Refused: none of the three files exists; or the first has two intervals only. *)
Example C137_met : refused_files (fun _ : list Z => @None (list (token R))) [97%Z] [98%Z] [99%Z] /\
  refused_files (fun _ : list Z => Some [it 2]) [97%Z] [98%Z] [99%Z] /\
  ntoZ (((i_last (named_input 2 100 8)) - (i_first (named_input 2 100 8))) / (i_step (named_input 2 100 8)) + #1)%num = Some 1%Z.
Proof.
  split; [left; reflexivity|]. split; [|exact trunc_1]. right. exists [it 2], 2%Z. split; [reflexivity|]. split; [exists (it 2), []; auto|]. left. lia.
Qed.
Print Assumptions C136_named_profile.
Print Assumptions C136_unacceptable_value.
Print Assumptions C137_refused_files_partial.
Print Assumptions C137_names_lost_refuted.
