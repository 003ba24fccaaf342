(** * Property theorems: the Python bindings (C48, C68, C69)

    [Value a]: the method returned [a]; [Raised c m]: it raised an exception of class [c] with
    text [m].  The addresses [ln], [lo], [le] hold the C variables of the method. *)
From Coq Require Import ZArith List Bool Lia String.
From Verif Require Import Num Mem SpecHeap ErrorModel ErrorProofs ProfileModel ProfileProofs PyModel.
Import ListNotations.

Section Generic.
Context {T : Type} {N : Num T}.
Implicit Types s : st T.

(** ** C48: Profile.get_ext, get_cap, get_z *)

(** The returned array has one element per profile point, the elements are those of the
    profile, except the last one: it is not initialised.  Nothing else stays allocated. *)
Theorem C48_profile_arrays_partial :
  forall get xs s p lz lc lx n zs caps exts ln lo le v1 v2 v3,
    (get = py_get_z /\ xs = zs \/ get = py_get_cap /\ xs = caps \/ get = py_get_ext /\ xs = exts) ->
    wf s -> orc s (cnt s) = true -> orc s (S (cnt s)) = true -> (0 <= n)%Z ->
    profile_object s p lz lc lx n zs caps exts -> Z.of_nat (List.length xs) = (n + 1)%Z ->
    mem s ln = Some [v1] -> mem s lo = Some [v2] -> mem s le = Some [v3] -> NoDup [ln; lo; le; p; lz; lc; lx] ->
    wp (get (Some p) (Some ln) (Some lo) (Some le))
       (fun x s' => exists a, x = Value (Some a) /\ mem s a = None /\
          mem s' a = Some (List.map Vdbl (removelast xs) ++ [Vundef]) /\ same_memory_except [ln; lo; le; a] s s') s.
Proof.
  intros get xs s p lz lc lx n zs caps exts ln lo le v1 v2 v3 Hg W O0 O1 Hn PO Lx H1 H2 H3 ND.
  assert (Hfld : exists fld, get = py_profile_get fld /\ (fld = 1 /\ xs = zs \/ fld = 2 /\ xs = caps \/ fld = 3 /\ xs = exts)).
  { destruct Hg as [[-> ->]|[[-> ->]|[-> ->]]]; eexists; (split; [reflexivity|auto]). }
  destruct Hfld as (fld & -> & Hf). clear Hg. unfold py_profile_get.
  pose proof (live_lt _ _ _ W H1) as L1. pose proof (live_lt _ _ _ W H2) as L2. pose proof (live_lt _ _ _ W H3) as L3.
  assert (D12 : ln <> lo) by (intros ->; inversion ND as [|? ? X _]; apply X; cbn; auto).
  assert (D13 : ln <> le) by (intros ->; inversion ND as [|? ? X _]; apply X; cbn; auto).
  assert (D23 : lo <> le) by (intros ->; inversion ND as [|? ? _ X]; inversion X as [|? ? Y _]; apply Y; cbn; auto).
  assert (NP : forall l, In l [p; lz; lc; lx] -> l <> ln /\ l <> lo /\ l <> le).
  { intros l Hl. repeat split; intros ->; revert ND; clear -Hl; intros ND;
    repeat (inversion ND as [|? ? X ND']; subst; cbn in X, Hl; try tauto; clear ND; rename ND' into ND; clear X). }
  apply wp_bind. eapply wp_store; [exact H1|cbn; lia|]. cbn [set_nth].
  apply wp_bind. eapply wp_store; [cbn [mem]; rewrite upd_other by auto; exact H2|cbn; lia|]. cbn [set_nth mem nxt orc cnt].
  apply wp_bind. eapply wp_store; [cbn [mem]; rewrite !upd_other by auto; exact H3|cbn; lia|]. cbn [set_nth mem nxt orc cnt].
  match goal with |- wp _ _ ?S => set (s1 := S) end.
  assert (K1 : forall l, l <> ln -> l <> lo -> l <> le -> mem s1 l = mem s l).
  { intros l A B C. unfold s1. cbn [mem]. now rewrite !upd_other by auto. }
  apply wp_bind. eapply (profile_get_spec fld xs p lz lc lx n zs caps exts ln lo).
  - intros l Hl. change (nxt s1) with (nxt s) in Hl. rewrite K1 by lia. apply W. exact Hl.
  - exact O0.
  - exact Hn.
  - destruct PO as (B1 & B2 & B3 & B4 & B5). unfold profile_object, dbl_array in *.
    rewrite !K1 by (apply NP; cbn; auto). auto.
  - exact Lx.
  - exact Hf.
  - unfold s1. cbn [mem]. rewrite !upd_other by auto. apply upd_same.
  - unfold s1. cbn [mem]. rewrite upd_other by auto. apply upd_same.
  - inversion ND as [|? ? X1 N1]; subst. inversion N1 as [|? ? X2 N2]; subst. inversion N2 as [|? ? X3 N3]; subst.
    constructor; [intros Y; apply X1; cbn in *; tauto|]. constructor; [intros Y; apply X2; cbn in *; tauto|]. exact N3.
  - intros s2 q W2 Or2 C2 Nq M1 M2 Aq X2.
    assert (Hq : q <> ln /\ q <> lo /\ q <> le).
    { repeat split; intros ->; unfold s1 in Nq; cbn [mem] in Nq; revert Nq; unfold upd; rewrite ?Nat.eqb_refl;
      repeat match goal with |- context [Nat.eqb ?a ?b] => destruct (Nat.eqb_spec a b); [try congruence|] end; discriminate. }
    destruct Hq as (Q1 & Q2 & Q3).
    assert (Ns : mem s q = None) by (rewrite <- K1 by auto; exact Nq).
    apply wp_bind. eapply wp_load_ptr; [rewrite X2 by (cbn; intuition congruence); unfold s1; cbn [mem]; apply upd_same|reflexivity|].
    cbn [set_exception]. apply wp_bind. eapply wp_load_int; [exact M1|reflexivity|].
    apply wp_bind. unfold malloc. apply wp_alloc; intros Oa.
    2:{ rewrite Or2, C2 in Oa. change (orc s1) with (orc s) in Oa. change (cnt s1) with (cnt s) in Oa. congruence. }
    assert (Lq : q < nxt s2) by (unfold dbl_array in Aq; eapply live_lt; eauto).
    assert (Llo : lo < nxt s2) by (eapply live_lt; eauto).
    assert (Lln : ln < nxt s2) by (eapply live_lt; eauto).
    assert (Lle : le < nxt s2).
    { eapply live_lt; [exact W2|]. rewrite X2 by (cbn; intuition congruence). unfold s1. cbn [mem]. apply upd_same. }
    apply wp_bind. eapply wp_load_ptr; [cbn [mem]; rewrite upd_other by lia; exact M2|reflexivity|].
    unfold memcpy_bytes.
    replace ((8 * Z.to_nat n + 1) / 8) with (Z.to_nat n) by (symmetry; replace (8 * Z.to_nat n + 1) with (1 + Z.to_nat n * 8) by lia; rewrite Nat.div_add by lia; reflexivity).
    replace ((8 * Z.to_nat n + 1) mod 8) with 1 by (symmetry; replace (8 * Z.to_nat n + 1) with (1 + Z.to_nat n * 8) by lia; rewrite Nat.mod_add by lia; reflexivity).
    cbn [Nat.eqb].
    apply wp_bind. apply wp_bind. eapply wp_memcpy; [cbn [mem]; apply upd_same|cbn [mem]; rewrite upd_other by lia; exact Aq|rewrite repeat_length; lia|rewrite map_length; lia|].
    cbn [mem nxt orc cnt].
    assert (Ex : exists y, nth_error (List.map (@Vdbl T) xs) (Z.to_nat n) = Some y).
    { destruct (nth_error (List.map (@Vdbl T) xs) (Z.to_nat n)) eqn:E; [eauto|]. apply nth_error_None in E. rewrite map_length in E. lia. }
    destruct Ex as [y Hy].
    apply wp_bind. eapply wp_load; [cbn [mem]; rewrite !upd_other by lia; exact Aq|exact Hy|].
    eapply wp_store; [cbn [mem]; apply upd_same|rewrite app_length, firstn_length, skipn_length, map_length, repeat_length; lia|]. cbn [mem nxt orc cnt].
    apply wp_bind. eapply wp_free; [cbn [mem]; rewrite !upd_other by lia; exact Aq|]. apply wp_ret. cbn [mem].
    exists (nxt s2). split; [reflexivity|]. split.
    { rewrite <- K1 by lia. rewrite <- X2 by (cbn; lia). apply W2. lia. }
    split.
    + rewrite upd_other by lia. rewrite upd_same. f_equal.
      assert (G : forall (l : list (val T)) m, List.length l = S m -> set_nth (firstn m l ++ skipn m (repeat Vundef (S m))) m Vundef = removelast l ++ [Vundef]).
      { intros l m Hl. rewrite removelast_firstn_len, Hl. cbn [pred].
        replace (skipn m (repeat (@Vundef T) (S m))) with [@Vundef T] by (clear; induction m; [reflexivity|exact IHm]).
        assert (Hf' : List.length (firstn m l) = m) by (rewrite firstn_length; lia). revert Hf'. generalize (firstn m l). clear. intros l.
        revert l. induction m as [|m IH]; intros [|a l] H; try discriminate; [reflexivity|]. cbn. f_equal. apply IH. now injection H. }
      replace (Z.to_nat (n + 1)) with (S (Z.to_nat n)) by lia. rewrite G by (rewrite map_length; lia).
      f_equal. clear. induction xs as [|a [|b xs] IH]; [reflexivity|reflexivity|]. cbn in *. now rewrite IH.
    + intros l Hl. cbn in Hl. assert (l <> nxt s2) by (intros ->; tauto). destruct (Nat.eq_dec l q) as [->|Nlq].
      { cbn [mem]. unfold upd at 1. rewrite Nat.eqb_refl. symmetry. exact Ns. }
      cbn [mem].
      rewrite !upd_other by auto. rewrite X2 by (cbn; intuition congruence). apply K1; intuition congruence.
Qed.

(** So the last element cannot be relied on: for every profile. *)
Theorem C48_last_element_refuted :
  forall get xs s p lz lc lx n zs caps exts ln lo le v1 v2 v3,
    (get = py_get_z /\ xs = zs \/ get = py_get_cap /\ xs = caps \/ get = py_get_ext /\ xs = exts) ->
    wf s -> orc s (cnt s) = true -> orc s (S (cnt s)) = true -> (0 <= n)%Z ->
    profile_object s p lz lc lx n zs caps exts -> Z.of_nat (List.length xs) = (n + 1)%Z ->
    mem s ln = Some [v1] -> mem s lo = Some [v2] -> mem s le = Some [v3] -> NoDup [ln; lo; le; p; lz; lc; lx] ->
    wp (get (Some p) (Some ln) (Some lo) (Some le)) (fun x s' => exists a, x = Value (Some a) /\ load_dbl (Some a) (Z.to_nat n) s' = UB) s.
Proof.
  intros get xs s p lz lc lx n zs caps exts ln lo le v1 v2 v3 Hg W O0 O1 Hn PO Lx H1 H2 H3 ND.
  eapply wp_mono; [eapply C48_profile_arrays_partial; eauto|]. cbn. intros x s' (a & -> & _ & Ha & _). exists a. split; [reflexivity|].
  unfold load_dbl, load, bind. rewrite Ha.
  rewrite nth_error_app2 by (rewrite map_length, removelast_firstn_len, firstn_length; lia).
  replace (Z.to_nat n - List.length (List.map Vdbl (removelast xs))) with 0 by (rewrite map_length, removelast_firstn_len, firstn_length; lia). reflexivity.
Qed.

(** Profile(..., ignore=True) is a Profile without a profile; asking it for an array is undefined. *)
Theorem C48_empty_profile_refuted :
  forall get s ln lo le v1 v2 v3, In get [py_get_ext; py_get_cap; py_get_z] ->
    wf s -> mem s ln = Some [v1] -> mem s lo = Some [v2] -> mem s le = Some [v3] -> NoDup [ln; lo; le] -> orc s (cnt s) = true ->
    get NULL (Some ln) (Some lo) (Some le) s = UB.
Proof.
  intros get s ln lo le v1 v2 v3 Hg W H1 H2 H3 ND Or.
  assert (exists fld, get = py_profile_get fld) as [fld ->] by (cbn in Hg; destruct Hg as [<-|[<-|[<-|[]]]]; eexists; reflexivity).
  assert (D12 : ln <> lo) by (intros ->; inversion ND as [|? ? X _]; apply X; cbn; auto).
  assert (D13 : ln <> le) by (intros ->; inversion ND as [|? ? X _]; apply X; cbn; auto).
  assert (D23 : lo <> le) by (intros ->; inversion ND as [|? ? _ X]; inversion X as [|? ? Y _]; apply Y; cbn; auto).
  assert (BO : forall A B (m : M T A) (k : A -> M T B) st a st', m st = Ok (a, st') -> bind m k st = k a st') by (intros A B m k st a st' E; unfold bind; now rewrite E).
  pose proof (live_lt _ _ _ W H2) as L2.
  unfold py_profile_get.
  erewrite BO by (unfold store; rewrite H1; reflexivity). cbn [set_nth].
  erewrite BO by (unfold store; cbn [mem]; rewrite upd_other by auto; rewrite H2; reflexivity). cbn [set_nth mem nxt orc cnt].
  erewrite BO by (unfold store; cbn [mem]; rewrite !upd_other by auto; rewrite H3; reflexivity). cbn [set_nth mem nxt orc cnt].
  erewrite BO by reflexivity.
  erewrite BO by (unfold load_ptr, load, bind; cbn [mem]; rewrite upd_same; reflexivity). cbn [set_exception].
  erewrite BO by (unfold load_int, load, bind; cbn [mem]; rewrite !upd_other by auto; rewrite upd_same; reflexivity).
  erewrite BO by (unfold malloc, alloc; cbn [orc cnt]; rewrite Or; reflexivity).
  cbn beta iota.
  erewrite BO by (unfold load_ptr, load, bind; cbn [mem nxt]; rewrite upd_other by lia; rewrite upd_other by auto; rewrite upd_same; reflexivity).
  reflexivity.
Qed.

(** ** C68: errors become exceptions *)

(** The class of exception for each code of the C library (include/polycap-error.h). *)
Definition class_of (c : Z) : pyclass :=
  match c with
  | 0 => MemoryError | 1 => ValueError | 2 | 3 => IOError | 4 => TypeError | 5 => NotImplementedError | _ => RuntimeError
  end%Z.

(** An error object becomes an exception of its class with its text, and is released; without an
    error the method goes on. *)
Theorem C68_errors_raise :
  forall A (k : M T (pyres A)) s e t c m,
    set_exception NULL k s = k s /\
    (error_object s e t c m ->
     wp (set_exception (Some e) k)
        (fun x s' => x = Raised (class_of c) m /\ mem s' e = None /\ mem s' t = None /\ same_memory_except [e; t] s s') s).
Proof.
  intros A k s e t c m. split; [reflexivity|]. intros (H1 & H2 & H3). unfold set_exception.
  apply wp_bind. eapply wp_load_int; [exact H1|reflexivity|]. apply wp_bind. eapply wp_load_ptr; [exact H1|reflexivity|].
  apply wp_bind. eapply wp_load_str; [exact H2|reflexivity|]. apply wp_bind. unfold error_free.
  apply wp_bind. eapply wp_load_ptr; [exact H1|reflexivity|]. apply wp_bind. eapply wp_free; [exact H2|].
  eapply wp_free; [cbn [mem]; rewrite upd_other by auto; exact H1|]. apply wp_ret. cbn [mem].
  split.
  { f_equal. unfold polycap_error_map, class_of. repeat match goal with |- context [Z.eqb ?a ?b] => destruct (Z.eqb_spec a b) as [->|] end; try reflexivity.
    unfold POLYCAP_ERROR_MEMORY, POLYCAP_ERROR_INVALID_ARGUMENT, POLYCAP_ERROR_IO, POLYCAP_ERROR_OPENMP, POLYCAP_ERROR_TYPE, POLYCAP_ERROR_UNSUPPORTED, POLYCAP_ERROR_RUNTIME in *.
    destruct c as [|c|c]; [congruence| |reflexivity]. destruct c as [[[|c|]|[|c|]|]|[[|c|]|[|c|]|]|]; try reflexivity; congruence. }
  split; [apply upd_same|]. split; [rewrite upd_other by auto; apply upd_same|].
  intros l Hl. cbn in Hl. cbn [mem]. rewrite !upd_other by (intros ->; tauto). reflexivity.
Qed.

(** ** C69: arrays handed to the library *)

(** Element k of the array. *)
Definition elements s (a : ndarray) (xs : list T) : Prop :=
  List.length xs = nd_size a /\ exists b, mem s (nd_data a) = Some (List.map Vdbl b) /\
    forall k, k < nd_size a -> nth_error b (nd_step a * k) = nth_error xs k.

Lemma contiguous_prefix (b xs : list T) n : List.length xs = n -> (forall k, k < n -> nth_error b (1 * k) = nth_error xs k) ->
  firstn n b = xs /\ n <= List.length b.
Proof.
  intros L H.
  assert (Lb : n <= List.length b).
  { destruct n as [|n]; [lia|]. specialize (H n ltac:(lia)). rewrite Nat.mul_1_l in H.
    apply nth_error_Some. rewrite H. apply nth_error_Some. lia. }
  split; [|exact Lb].
  revert b xs L H Lb. induction n as [|n IH]; intros [|x b] [|y xs] L H Lb; cbn in *; try discriminate; try reflexivity; try lia.
  pose proof (H 0 ltac:(lia)) as H0. cbn in H0. injection H0 as ->. f_equal. apply IH; [lia| |lia].
  intros k Hk. specialize (H (S k) ltac:(lia)). cbn in H. rewrite Nat.add_0_r in H |- *. exact H.
Qed.

(** new_from_arrays takes the first cells of the blocks. *)
Lemma from_arrays_prefix nid lext lcap lz exts caps zs err s :
  wf s -> allocs_succeed 4 s -> (1 < nid)%Z ->
  dbl_array s lext exts -> dbl_array s lcap caps -> dbl_array s lz zs ->
  (nid < Z.of_nat (List.length exts))%Z -> (nid < Z.of_nat (List.length caps))%Z -> (nid < Z.of_nat (List.length zs))%Z ->
  let n := Z.to_nat (nid + 1) in
  wp (profile_new_from_arrays nid (Some lext) (Some lcap) (Some lz) err)
     (fun p s' => exists l pz pc pe, p = Some l /\
        profile_object s' l pz pc pe nid (firstn n zs) (firstn n caps) (firstn n exts) /\
        mem s l = None /\ mem s pz = None /\ mem s pc = None /\ mem s pe = None /\
        same_memory_except [l; pz; pc; pe] s s') s.
Proof.
  intros Hwf Ho Hnid He Hc Hz Le Lc Lz n. unfold dbl_array in *.
  pose proof (live_lt _ _ _ Hwf He). pose proof (live_lt _ _ _ Hwf Hc). pose proof (live_lt _ _ _ Hwf Hz).
  unfold profile_new_from_arrays, reject_if'. cbn [is_null].
  replace (Z.leb nid 1) with false by (symmetry; apply Z.leb_gt; lia).
  pose proof (Ho 0 ltac:(lia)) as O0. pose proof (Ho 1 ltac:(lia)) as O1.
  pose proof (Ho 2 ltac:(lia)) as O2. pose proof (Ho 3 ltac:(lia)) as O3.
  replace (cnt s + 0) with (cnt s) in O0 by lia. replace (cnt s + 1) with (S (cnt s)) in O1 by lia.
  replace (cnt s + 2) with (S (S (cnt s))) in O2 by lia. replace (cnt s + 3) with (S (S (S (cnt s)))) in O3 by lia.
  fold n.
  repeat (wstep; try congruence; cbn [is_null]).
  eapply wp_memcpy; [wlook|wlook|rewrite repeat_length; auto|rewrite map_length; lia|].
  wstep. wsimp.
  eapply wp_memcpy; [wlook|wlook|rewrite repeat_length; auto|rewrite map_length; lia|].
  wstep. wsimp.
  eapply wp_memcpy; [wlook|wlook|rewrite repeat_length; auto|rewrite map_length; lia|].
  wsimp. wstep.
  assert (F : forall (xs : list T), firstn n (List.map Vdbl xs) ++ skipn n (repeat (@Vundef T) n) = List.map Vdbl (firstn n xs)).
  { intros xs. rewrite firstn_map, skipn_all2 by (rewrite repeat_length; auto). apply app_nil_r. }
  rewrite !F.
  exists (nxt s), (S (S (S (nxt s)))), (S (S (nxt s))), (S (nxt s)). split; [reflexivity|].
  split; [|refine (conj _ (conj _ (conj _ (conj _ _)))); try (apply Hwf; lia)].
  - repeat split; cbn [mem nxt]; unfold dbl_array; cbn [mem]; upd_simpl; try reflexivity.
    repeat constructor; cbn; lia.
  - intros l Hl. cbn [mem]. rewrite !upd_other by (intro; subst; apply Hl; cbn; tauto). reflexivity.
Qed.

(** Whatever the step, the profile is made of neighbouring cells ... *)
Theorem C102_neighbouring_cells :
  forall s ext cap z bx bc bz le v,
    wf s -> allocs_succeed 4 s -> mem s le = Some [Vptr v] -> ~ In le [nd_data ext; nd_data cap; nd_data z] ->
    2 < nd_size z -> nd_size ext = nd_size z -> nd_size cap = nd_size z ->
    dbl_array s (nd_data ext) bx -> dbl_array s (nd_data cap) bc -> dbl_array s (nd_data z) bz ->
    nd_size z <= List.length bx -> nd_size z <= List.length bc -> nd_size z <= List.length bz ->
    let n := nd_size z in
    wp (py_new_from_arrays ext cap z (Some le))
       (fun x s' => exists l pz pc pe, x = Value (Some l) /\
          profile_object s' l pz pc pe (Z.of_nat n - 1) (firstn n bz) (firstn n bc) (firstn n bx) /\
          all_free s [l; pz; pc; pe] /\ same_memory_except [l; pz; pc; pe; le] s s') s.
Proof.
  intros s ext cap z bx bc bz le v W A Hle Hn Sz E1 E2 Dx Dc Dz Lx Lc Lz n. unfold py_new_from_arrays.
  apply wp_bind. eapply wp_store; [exact Hle|cbn; lia|]. cbn [set_nth]. rewrite E1, E2, Nat.eqb_refl. cbn [negb orb].
  match goal with |- wp _ _ ?S => set (s1 := S) end.
  assert (K : forall l, l <> le -> mem s1 l = mem s l) by (intros l H; unfold s1; cbn [mem]; now rewrite upd_other by auto).
  pose proof (live_lt _ _ _ W Hle) as Lle. cbn in Hn.
  apply wp_bind. eapply wp_mono; [apply (from_arrays_prefix (Z.of_nat n - 1) _ _ _ bx bc bz)|].
  - intros l Hl. change (nxt s1) with (nxt s) in Hl. rewrite K by lia. now apply W.
  - exact A.
  - unfold n. lia.
  - unfold dbl_array. rewrite K by tauto. exact Dx.
  - unfold dbl_array. rewrite K by tauto. exact Dc.
  - unfold dbl_array. rewrite K by tauto. exact Dz.
  - unfold n. lia.
  - unfold n. lia.
  - unfold n. lia.
  - cbn beta zeta. intros p s2 (l & pz & pc & pe & -> & PO & N1 & N2 & N3 & N4 & X).
    replace (Z.to_nat (Z.of_nat n - 1 + 1)) with n in PO by lia.
    assert (Hs1 : mem s1 le = Some [Vptr NULL]) by (unfold s1; cbn [mem]; apply upd_same).
    assert (Nle : ~ In le [l; pz; pc; pe]).
    { intros [E|[E|[E|[E|[]]]]]; rewrite <- E in Hs1; congruence. }
    apply wp_bind. eapply wp_load_ptr; [rewrite X by exact Nle; exact Hs1|reflexivity|]. cbn [set_exception]. apply wp_ret.
    exists l, pz, pc, pe. split; [reflexivity|]. split; [exact PO|]. split.
    + intros a Ha. cbn in Ha. rewrite <- K by (intros ->; apply Nle; exact Ha). destruct Ha as [<-|[<-|[<-|[<-|[]]]]]; assumption.
    + intros a Ha. cbn in Ha. rewrite X by (cbn; intuition congruence). apply K. intuition congruence.
Qed.

(** ... which are the elements if the arrays are contiguous. *)
Theorem C102_contiguous_arrays :
  forall s ext cap z exts caps zs le v,
    wf s -> allocs_succeed 4 s -> mem s le = Some [Vptr v] -> ~ In le [nd_data ext; nd_data cap; nd_data z] ->
    2 < nd_size z -> nd_size ext = nd_size z -> nd_size cap = nd_size z ->
    nd_step ext = 1 -> nd_step cap = 1 -> nd_step z = 1 ->
    elements s ext exts -> elements s cap caps -> elements s z zs ->
    wp (py_new_from_arrays ext cap z (Some le))
       (fun x s' => exists l pz pc pe, x = Value (Some l) /\
          profile_object s' l pz pc pe (Z.of_nat (nd_size z) - 1) zs caps exts /\
          all_free s [l; pz; pc; pe] /\ same_memory_except [l; pz; pc; pe; le] s s') s.
Proof.
  intros s ext cap z exts caps zs le v W A Hle Hn Sz E1 E2 P1 P2 P3 (L1 & b1 & B1 & F1) (L2 & b2 & B2 & F2) (L3 & b3 & B3 & F3).
  rewrite P1 in F1. rewrite P2 in F2. rewrite P3 in F3.
  destruct (contiguous_prefix b1 exts _ L1 F1) as [G1 K1]. destruct (contiguous_prefix b2 caps _ L2 F2) as [G2 K2].
  destruct (contiguous_prefix b3 zs _ L3 F3) as [G3 K3].
  eapply wp_mono; [apply (C102_neighbouring_cells s ext cap z b1 b2 b3 le v); auto; lia|].
  cbn. intros x s' (l & pz & pc & pe & -> & PO & R). exists l, pz, pc, pe. split; [reflexivity|]. split; [|exact R].
  rewrite G3 in PO. rewrite <- E2, G2 in PO. rewrite E2, <- E1, G1 in PO. rewrite E1 in PO. exact PO.
Qed.

(** With a[::2], every second element, the profile holds other numbers than the arrays. *)
Theorem C69_strided_arrays_refuted :
  forall a b c d e f : T, a <> b -> b <> c ->
  let A := mkNd 1 2 3 in
  let s := mkSt (fun l => nth_error [[Vptr NULL]; List.map Vdbl [a; b; c; d; e; f]] l) 2 (fun _ => true) 0 in
  elements s A [a; c; e] /\
  wp (py_new_from_arrays A A A (Some 0))
     (fun x s' => exists l pz pc pe, x = Value (Some l) /\ profile_object s' l pz pc pe 2 [a; b; c] [a; b; c] [a; b; c]) s.
Proof.
  intros a b c d e f Hab Hbc A s. split.
  - split; [reflexivity|]. exists [a; b; c; d; e; f]. split; [reflexivity|]. intros [|[|[|k]]] Hk; try reflexivity. cbn in Hk. lia.
  - eapply wp_mono; [apply (C102_neighbouring_cells s A A A [a; b; c; d; e; f] [a; b; c; d; e; f] [a; b; c; d; e; f] 0 NULL)|].
    + intros l Hl. apply nth_error_None. exact Hl.
    + intros k _. reflexivity.
    + reflexivity.
    + cbn. lia.
    + cbn. lia.
    + reflexivity.
    + reflexivity.
    + reflexivity.
    + reflexivity.
    + reflexivity.
    + cbn. lia.
    + cbn. lia.
    + cbn. lia.
    + intros x s' (l & pz & pc & pe & -> & PO & _). exists l, pz, pc, pe. split; [reflexivity|exact PO].
Qed.

(** Arrays of different sizes are refused. *)
Theorem C68_sizes_must_agree :
  forall s ext cap z le v, mem s le = Some [v] ->
    nd_size ext <> nd_size z \/ nd_size ext <> nd_size cap ->
    wp (py_new_from_arrays ext cap z (Some le))
       (fun x s' => x = Raised ValueError "arrays must be of identical size." /\ same_memory_except [le] s s') s.
Proof.
  intros s ext cap z le v H D. unfold py_new_from_arrays. apply wp_bind. eapply wp_store; [exact H|cbn; lia|].
  replace (negb (Nat.eqb (nd_size ext) (nd_size z)) || negb (Nat.eqb (nd_size ext) (nd_size cap))) with true.
  2:{ symmetry. apply orb_true_iff. rewrite !negb_true_iff, !Nat.eqb_neq. exact D. }
  apply wp_ret. split; [reflexivity|]. intros l Hl. cbn [mem]. apply upd_other. intros ->. apply Hl. now left.
Qed.

(** Arrays of fewer than three elements raise ValueError, with the text of the C library, and
    leave nothing behind. *)
Theorem C68_short_arrays :
  forall s ext cap z le v,
    wf s -> memory_available s -> mem s le = Some [Vptr v] -> nd_size z <= 2 -> nd_size ext = nd_size z -> nd_size cap = nd_size z ->
    wp (py_new_from_arrays ext cap z (Some le))
       (fun x s' => x = Raised ValueError "polycap_profile_new_from_array: nid must be greater than 1" /\ same_memory_except [le] s s') s.
Proof.
  intros s ext cap z le v W MA H Sz E1 E2. unfold py_new_from_arrays. apply wp_bind. eapply wp_store; [exact H|cbn; lia|]. cbn [set_nth].
  rewrite E1, E2, Nat.eqb_refl. cbn [negb orb]. pose proof (live_lt _ _ _ W H) as Lle.
  unfold profile_new_from_arrays, reject_if'. cbn [is_null]. replace (Z.of_nat (nd_size z) - 1 <=? 1)%Z with true by (symmetry; apply Z.leb_le; lia).
  match goal with |- wp _ _ ?S => set (s1 := S) end.
  apply wp_bind. apply wp_bind. eapply (wp_report false).
  - intros l Hl. unfold s1 in *. cbn [mem nxt] in *. rewrite upd_other by lia. now apply W.
  - exists NULL. unfold slot_holds, s1. cbn [mem]. apply upd_same.
  - intros _. split; apply MA.
  - intros s2 W2 _ _ _ [E _]. destruct E as (e & t & Hs & Ho & Ne & Nt & X).
    { unfold slot_holds, s1. cbn [mem]. apply upd_same. }
    apply wp_ret. apply wp_bind. eapply wp_load_ptr; [exact Hs|reflexivity|].
    eapply wp_mono; [eapply C68_errors_raise; exact Ho|].
    cbn beta. intros x s3 (-> & F1 & F2 & X3). split; [reflexivity|]. intros l Hl. cbn in Hl.
    destruct (Nat.eq_dec l e) as [->|]; [rewrite F1; unfold s1 in Ne; cbn [mem] in Ne; rewrite upd_other in Ne by (intros ->; cbn in Hl; tauto); now rewrite Ne|].
    destruct (Nat.eq_dec l t) as [->|]; [rewrite F2; unfold s1 in Nt; cbn [mem] in Nt; rewrite upd_other in Nt by (intros ->; cbn in Hl; tauto); now rewrite Nt|].
    rewrite X3 by (cbn; intuition congruence). rewrite X by (cbn; intuition congruence). unfold s1. cbn [mem]. apply upd_other. intuition congruence.
Qed.

(** The hypotheses are met: three points, one block per array. *)
Theorem C48_example : forall a b c : T,
  let s := mkSt (fun l => nth_error [[Vundef]; [Vundef]; [Vptr NULL]; [Vint 2; Vptr (Some 4); Vptr (Some 5); Vptr (Some 6)];
    List.map Vdbl [a; b; c]; List.map Vdbl [a; b; c]; List.map Vdbl [c; b; a]] l) 7 (fun _ => true) 0 in
  wf s /\ memory_available s /\ profile_object s 3 4 5 6 2 [a; b; c] [a; b; c] [c; b; a] /\ NoDup [0; 1; 2; 3; 4; 5; 6] /\
  elements s (mkNd 4 1 3) [a; b; c] /\ mem s 2 = Some [Vptr NULL].
Proof.
  intros a b c s. split; [intros l Hl; apply nth_error_None; exact Hl|]. split; [intros n; reflexivity|].
  split; [repeat split; repeat constructor; cbn; lia|]. split; [repeat constructor; cbn; lia|]. split; [|reflexivity].
  split; [reflexivity|]. exists [a; b; c]. split; [reflexivity|]. intros k Hk. cbn [nd_step]. now rewrite Nat.mul_1_l.
Qed.

End Generic.

Print Assumptions C48_profile_arrays_partial.
Print Assumptions C68_errors_raise.
Print Assumptions C69_strided_arrays_refuted.
