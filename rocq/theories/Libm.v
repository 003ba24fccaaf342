(** * Special values of libm in binary64

    [libm_std lm]: lm returns NaN for NaN and the correctly rounded result at 0 (and
    acos at 1), as C11 Annex F prescribes for IEC 60559 implementations (acos 0 is the
    rounded pi/2).  Nothing else is assumed. *)
From Coq Require Import Floats FunctionalExtensionality.
From Coq Require Import ZArith Bool.
From Verif Require Import Num ProfileFloat.

Definition f_pi_2 : float := PrimFloat.div (PrimFloat.div (F_ofZ 884279719003555) (F_ofZ 281474976710656)) 2%float.

Definition libm_std (lm : libm) : Prop :=
  (forall f, f = f_exp lm \/ f = f_sin lm \/ f = f_cos lm \/ f = f_tan lm \/ f = f_atan lm \/ f = f_acos lm -> f nan = nan) /\
  (forall x, PrimFloat.eqb x 0%float = true ->
     f_exp lm x = 1%float /\ f_sin lm x = x /\ f_cos lm x = 1%float /\ f_tan lm x = x /\ f_atan lm x = x /\ f_acos lm x = f_pi_2) /\
  f_acos lm 1%float = 0%float.

Definition special (at0 f : float -> float) (x : float) : float :=
  if is_nan x then nan else if PrimFloat.eqb x 0%float then at0 x else f x.
(** [lm] with the special values filled in: a libm on which concrete runs compute. *)
Definition patch (lm : libm) : libm :=
  {| f_exp := special (fun _ => 1%float) (f_exp lm);
     f_sin := special (fun x => x) (f_sin lm);
     f_cos := special (fun _ => 1%float) (f_cos lm);
     f_tan := special (fun x => x) (f_tan lm);
     f_atan := special (fun x => x) (f_atan lm);
     f_acos := fun x => if is_nan x then nan else if PrimFloat.eqb x 0%float then f_pi_2 else
                        if PrimFloat.eqb x 1%float then 0%float else f_acos lm x |}.

Lemma is_nan_nan x : is_nan x = true -> x = nan.
Proof. intros H. apply Prim2SF_inj. rewrite (is_nan_SF x H). symmetry. vm_compute. reflexivity. Qed.
Lemma SF_one : Prim2SF 1%float = S754_finite false 4503599627370496 (-52).
Proof. vm_compute. reflexivity. Qed.
Lemma eqb_one x : PrimFloat.eqb x 1%float = true -> x = 1%float.
Proof.
  intros H. apply Prim2SF_inj. rewrite FloatAxioms.eqb_spec in H. rewrite SF_one in *.
  unfold SFeqb, SFcompare in H. destruct (Prim2SF x) as [s|s| |s m e] eqn:E; try (destruct s; discriminate); [discriminate|].
  destruct s; [discriminate|]. destruct (Z.compare e (-52)) eqn:C; try discriminate. apply Z.compare_eq in C. subst e.
  revert H. generalize 4503599627370496%positive as k. intros k H.
  destruct (Pos.compare_cont Eq m k) eqn:Cm; try discriminate. change (Pos.compare m k = Eq) in Cm.
  apply Pos.compare_eq in Cm. now subst.
Qed.

Lemma libm_std_patch lm : libm_std lm -> patch lm = lm.
Proof.
  intros (N & Z & A). assert (S : forall at0 f, (f = f_exp lm \/ f = f_sin lm \/ f = f_cos lm \/ f = f_tan lm \/ f = f_atan lm \/ f = f_acos lm) ->
    (forall x, PrimFloat.eqb x 0%float = true -> f x = at0 x) -> special at0 f = f).
  { intros at0 f M H. apply functional_extensionality. intros x. unfold special. destruct (is_nan x) eqn:E.
    - rewrite (is_nan_nan x E). symmetry. apply N. exact M.
    - destruct (PrimFloat.eqb x 0%float) eqn:E0; [symmetry; apply H; exact E0|reflexivity]. }
  unfold patch. destruct lm as [fe fs fc ft fa fac]. cbn [f_exp f_sin f_cos f_tan f_atan f_acos] in *. f_equal; try (apply S; [tauto|]; intros x Hx; apply Z; exact Hx).
  apply functional_extensionality. intros x. destruct (is_nan x) eqn:E.
  - rewrite (is_nan_nan x E). symmetry. apply N. tauto.
  - destruct (PrimFloat.eqb x 0%float) eqn:E0; [symmetry; apply Z; exact E0|].
    destruct (PrimFloat.eqb x 1%float) eqn:E1; [|reflexivity]. rewrite (eqb_one x E1). symmetry. exact A.
Qed.
(** Such libm exist. *)
Lemma patch_std lm : libm_std (patch lm).
Proof.
  unfold libm_std, patch, special. cbn [f_exp f_sin f_cos f_tan f_atan f_acos]. split; [|split].
  - intros f [->|[->|[->|[->|[->| ->]]]]]; vm_compute; reflexivity.
  - intros x Hx. assert (E : is_nan x = false).
    { destruct (is_nan x) eqn:E; [|reflexivity]. rewrite (is_nan_nan x E) in Hx. vm_compute in Hx. discriminate. }
    rewrite E, Hx. repeat split.
  - vm_compute. reflexivity.
Qed.
