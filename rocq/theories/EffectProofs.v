(** * What an interleaving leaves in shared memory *)
From Coq Require Import ZArith List Bool Lia Permutation.
From Verif Require Import Num Geometry SpecPhoton RM CapilModel TraceModel LaunchModel RunModel TeamProofs RunProofs.
Import ListNotations.

Section Effects.
Context {T : Type} {N : Num T}.
Notation action := (action T). Notation shared := (shared T).
Implicit Types (tr : list action) (s : shared).

(** Actions before the first barrier. *)
Definition early (a : action) : Prop := match a with ASingle | ACopy _ _ => False | _ => True end.

Definition is_incr (c : counter) (t : nat) (a : action) : bool :=
  match a with AIncr c' t' => (counter_eqb c c' && Nat.eqb t t')%bool | _ => false end.
Definition refls (a : action) : Z := match a with ARefl n => n | _ => 0%Z end.
Definition sums (a : action) : list (list T) := match a with ASum w _ => [w] | _ => [] end.
Definition eleaks (a : action) : Z := match a with ASum _ (Some (e, _)) => e | _ => 0%Z end.
Definition ileaks (a : action) : Z := match a with ASum _ (Some (_, i)) => i | _ => 0%Z end.
Definition zsum (f : action -> Z) tr : Z := fold_right Z.add 0%Z (map f tr).
Definition locs (a : action) : list (field * nat) := match a with AStore f j _ => [(f, j)] | _ => [] end.

Lemma zsum_perm f tr tr' : Permutation tr tr' -> zsum f tr = zsum f tr'.
Proof. unfold zsum. induction 1; cbn; lia. Qed.
Lemma zsum_app f tr tr' : zsum f (tr ++ tr') = (zsum f tr + zsum f tr')%Z.
Proof. unfold zsum. induction tr; cbn; lia. Qed.

Lemma counter_eqb_spec a b : counter_eqb a b = true <-> a = b.
Proof. destruct a, b; cbn; intuition discriminate. Qed.
Lemma field_eqb_refl f : field_eqb f f = true.
Proof. destruct f; cbn; auto. apply Nat.eqb_refl. Qed.
Lemma field_eqb_spec f g : field_eqb f g = true <-> f = g.
Proof.
  split; [|intros ->; apply field_eqb_refl].
  destruct f, g; cbn; intros H; try discriminate; auto. apply Nat.eqb_eq in H. congruence.
Qed.

Lemma early_run tr : forall s, Forall early tr -> exists s', run tr s = Some s' /\
  (forall c t, sh_cnt s' c t = (sh_cnt s c t + Z.of_nat (length (filter (is_incr c t) tr)))%Z) /\
  sh_irefl s' = (sh_irefl s + zsum refls tr)%Z /\
  sh_sumw s' = fold_left vec_add (flat_map sums tr) (sh_sumw s) /\
  sh_iext s' = (sh_iext s + zsum eleaks tr)%Z /\ sh_iint s' = (sh_iint s + zsum ileaks tr)%Z /\
  sh_single s' = sh_single s /\ sh_ext s' = sh_ext s /\ sh_next s' = sh_next s /\ sh_int s' = sh_int s /\ sh_nint s' = sh_nint s /\
  (forall f j, ~ In (f, j) (flat_map locs tr) -> sh_img s' f j = sh_img s f j) /\
  (NoDup (flat_map locs tr) -> forall f j e, In (AStore f j e) tr -> sh_img s' f j = Some e).
Proof.
  induction tr as [|a tr IH]; intros s F.
  - exists s. cbn. spl; auto; intros; try lia; contradiction.
  - inversion F as [|? ? Fa Ft]; subst. clear F. cbn [run].
    destruct (act a s) as [s1|] eqn:Ea; [|destruct a as [| | |w [[? ?]|]| |]; cbn in Ea; try discriminate; contradiction].
    destruct (IH s1 Ft) as (s' & R & H1 & H2 & H3 & H4 & H5 & H6 & H7 & H8 & H9 & H10 & H11 & H12). clear IH.
    exists s'. split; [exact R|].
    rewrite H2, H3, H4, H5, H6, H7, H8, H9, H10. clear H2 H3 H4 H5 H6 H7 H8 H9 H10.
    unfold zsum in *. cbn [map fold_right flat_map filter].
    destruct a as [c t|f j e|n|w lk| |ext int]; cbn in Ea; try contradiction;
      try (destruct lk as [[e1 e2]|]); injection Ea as <-; cbn [refls sums eleaks ileaks locs is_incr app fold_left sh_cnt sh_img sh_irefl sh_sumw sh_iext sh_iint sh_single sh_ext sh_next sh_int sh_nint] in *;
      spl; auto; try lia;
      try (intros f' j' e' I; destruct I as [I|I]; [discriminate|]; eauto; fail);
      try (intros ND f' j' e' I; destruct I as [I|I]; [discriminate|]; eauto; fail).
    + intros c' t'. rewrite H1. destruct (andb _ _) eqn:E; [|lia].
      apply andb_prop in E. destruct E as [E1 E2]. apply counter_eqb_spec in E1. apply Nat.eqb_eq in E2. subst. cbn. lia.
    + intros f' j' Hn. rewrite H11 by (intros I; apply Hn; right; auto).
      destruct (andb _ _) eqn:E; auto. apply andb_prop in E. destruct E as [E1 E2]. apply field_eqb_spec in E1. apply Nat.eqb_eq in E2.
      subst. exfalso. apply Hn. left. auto.
    + intros ND f' j' e' [I|I].
      * injection I as <- <- <-. inversion ND; subst. rewrite H11 by auto. rewrite field_eqb_refl, Nat.eqb_refl. auto.
      * inversion ND; subst. auto.
Qed.

(** All threads execute the single block: it takes effect once. *)
Lemma single_run m s : run (repeat ASingle (S m)) s = act ASingle s.
Proof.
  cbn. destruct (sh_single s) eqn:E.
  - assert (H : forall k, run (repeat ASingle k) s = Some s); [|apply H].
    induction k as [|k IH]; cbn; auto. rewrite E. auto.
  - match goal with |- run _ ?s1 = _ => assert (H : forall k, run (repeat ASingle k) s1 = Some s1) end; [|apply H].
    induction k as [|k IH]; cbn; auto.
Qed.

Lemma shuf_single segs tr : Forall (fun g => g = [ASingle]) segs -> shuf segs tr -> tr = repeat ASingle (length segs).
Proof.
  intros F H. apply shuf_perm in H.
  assert (E : concat segs = repeat ASingle (length segs)) by (clear H; induction F as [|g segs -> _ IH]; cbn; congruence).
  rewrite E in H. clear E F. apply Permutation_sym, Permutation_repeat in H. exact H.
Qed.

(** The copies of the leak records. *)
Definition c_ext (a : action) : list (leak_data T) := match a with ACopy e _ => e | _ => [] end.
Definition c_int (a : action) : list (leak_data T) := match a with ACopy _ i => i | _ => [] end.
Definition is_copy (a : action) : Prop := match a with ACopy _ _ => True | _ => False end.

Lemma copy_run tr : forall s e0 i0 m1 m2, Forall is_copy tr ->
  sh_ext s = map Some e0 ++ repeat None m1 -> sh_next s = length e0 ->
  sh_int s = map Some i0 ++ repeat None m2 -> sh_nint s = length i0 ->
  length (flat_map c_ext tr) <= m1 -> length (flat_map c_int tr) <= m2 ->
  exists s', run tr s = Some s' /\
    sh_cnt s' = sh_cnt s /\ sh_img s' = sh_img s /\ sh_irefl s' = sh_irefl s /\ sh_sumw s' = sh_sumw s /\
    sh_iext s' = sh_iext s /\ sh_iint s' = sh_iint s /\
    sh_ext s' = map Some (e0 ++ flat_map c_ext tr) ++ repeat None (m1 - length (flat_map c_ext tr)) /\
    sh_int s' = map Some (i0 ++ flat_map c_int tr) ++ repeat None (m2 - length (flat_map c_int tr)).
Proof.
  induction tr as [|a tr IH]; intros s e0 i0 m1 m2 F E1 E2 E3 E4 L1 L2.
  - exists s. cbn. rewrite !app_nil_r, !Nat.sub_0_r. auto 12.
  - inversion F as [|? ? Fa Ft]; subst. destruct a as [| | | | |e i]; cbn in Fa; try contradiction.
    cbn [run act]. rewrite E1, E2, E3, E4. cbn [flat_map c_ext c_int] in *. rewrite app_length in L1, L2.
    rewrite !put_all_app by lia.
    match goal with |- context [run tr ?s1] => destruct (IH s1 (e0 ++ e) (i0 ++ i) (m1 - length e) (m2 - length i) Ft) as (s' & R & H) end; cbn; auto; try lia.
    + rewrite app_length. auto.
    + rewrite app_length. auto.
    + exists s'. split; [exact R|]. cbn in H. rewrite !app_length, !app_assoc in *.
      rewrite <- !Nat.sub_add_distr in H. exact H.
Qed.

End Effects.
