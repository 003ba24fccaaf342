(** * binary64 behaviour of the profile code: NaN goes through every check *)
From Coq Require Import Floats.
From Coq Require Import ZArith List Bool Lia String.
From Verif Require Import Num Mem ErrorModel SpecHeap ProfileModel ProfileProofs Geometry.
Import ListNotations.

Definition is_nan (x : float) : bool := negb (PrimFloat.eqb x x).

Lemma is_nan_SF x : is_nan x = true -> Prim2SF x = S754_nan.
Proof.
  unfold is_nan. rewrite FloatAxioms.eqb_spec. intros H. destruct (Prim2SF x) as [s|s| |s m e] eqn:E; auto; exfalso.
  - destruct s; discriminate.
  - destruct s; discriminate.
  - unfold SFeqb, SFcompare in H. rewrite Z.compare_refl, Pos.compare_cont_refl in H. destruct s; discriminate.
Qed.

Lemma ltb_nan_l x y : is_nan x = true -> PrimFloat.ltb x y = false.
Proof. intros H. rewrite FloatAxioms.ltb_spec, (is_nan_SF x H). destruct (Prim2SF y); reflexivity. Qed.
Lemma leb_nan_l x y : is_nan x = true -> PrimFloat.leb x y = false.
Proof. intros H. rewrite FloatAxioms.leb_spec, (is_nan_SF x H). destruct (Prim2SF y); reflexivity. Qed.
Lemma leb_nan_r x y : is_nan y = true -> PrimFloat.leb x y = false.
Proof. intros H. rewrite FloatAxioms.leb_spec, (is_nan_SF y H). destruct (Prim2SF x) as [[]|[]| |[] ? ?]; reflexivity. Qed.

Lemma SF_nan_is_nan x : Prim2SF x = S754_nan -> is_nan x = true.
Proof. intros H. unfold is_nan. rewrite FloatAxioms.eqb_spec, H. reflexivity. Qed.

Lemma mul_nan_l x y : is_nan x = true -> is_nan (PrimFloat.mul x y) = true.
Proof. intros H. apply SF_nan_is_nan. rewrite FloatAxioms.mul_spec, (is_nan_SF x H). destruct (Prim2SF y); reflexivity. Qed.
Lemma sub_nan_l x y : is_nan x = true -> is_nan (PrimFloat.sub x y) = true.
Proof. intros H. apply SF_nan_is_nan. rewrite FloatAxioms.sub_spec, (is_nan_SF x H). destruct (Prim2SF y); reflexivity. Qed.
Lemma sqrt_nan x : is_nan x = true -> is_nan (PrimFloat.sqrt x) = true.
Proof. intros H. apply SF_nan_is_nan. rewrite FloatAxioms.sqrt_spec, (is_nan_SF x H). reflexivity. Qed.

Section F.
Variable lm : libm.
#[local] Instance FN : Num float := FNum lm.

(** The boundary test answers "inside" for every point when the radius is NaN. *)
Lemma within_nan (e : float) (c : vec3 float) : is_nan e = true -> within_pc_boundary e c = 1%Z.
Proof.
  intros H. unfold within_pc_boundary. cbn [nleb nltb nofZ nsqrt nsub nmul ndiv FN FNum].
  rewrite leb_nan_l by auto.
  assert (D : is_nan (PrimFloat.sqrt (PrimFloat.sub (PrimFloat.mul e e)
      (PrimFloat.mul (PrimFloat.div e (F_ofZ 2)) (PrimFloat.div e (F_ofZ 2))))) = true)
    by (apply sqrt_nan, sub_nan_l, mul_nan_l, H).
  rewrite !ltb_nan_l by exact D. reflexivity.
Qed.

Lemma first_bad_all1 {A} (f : A -> Z) l : (forall a, In a l -> f a = 1%Z) -> first_bad f l = 1%Z.
Proof.
  induction l; cbn; auto. intros H. rewrite H by auto. cbn. auto.
Qed.

Lemma points_in : forall (e c z : list float) x, In x (points e c z) -> In (fst (fst x)) e.
Proof.
  induction e; intros c z x; destruct c, z; cbn; try tauto.
  intros [<- | H]; [auto | right; eauto].
Qed.

Lemma in_firstn {A} m (l : list A) x : In x (firstn m l) -> In x l.
Proof. intros. rewrite <- (firstn_skipn m l). apply in_or_app; auto. Qed.

(** A profile whose exterior radii are all NaN passes the validation, whatever the
    rest of it and whatever n_cap. *)
Lemma validate_nan (p : profile float) (n_cap : Z) :
  List.length (p_z p) = S (p_nmax p) -> List.length (p_cap p) = S (p_nmax p) -> List.length (p_ext p) = S (p_nmax p) ->
  (forall e, In e (p_ext p) -> is_nan e = true) ->
  profile_validate p n_cap = Some 1%Z.
Proof.
  intros H1 H2 H3 Hn. unfold profile_validate. rewrite H1, H2, H3, Nat.leb_refl. cbn [andb].
  destruct (neqb _ _).
  - f_equal. apply first_bad_all1. intros ((e & c) & z) Hin. apply points_in in Hin. cbn [fst] in Hin.
    apply in_firstn in Hin. apply Hn in Hin. cbn [nleb FN FNum]. now rewrite leb_nan_l.
  - f_equal. apply first_bad_all1. intros qr _. apply first_bad_all1.
    intros ((e & c) & z) Hin. apply points_in in Hin. cbn [fst] in Hin.
    apply in_firstn in Hin. apply Hn in Hin. now apply within_nan.
Qed.

Variable fit : list (float * float) -> float * float * float.

Definition fl (m : Z) (d : positive) : float := ndec m d.

(** Admissible ellipsoidal arguments (a strong taper with a far focus) give NaN
    exterior radii at every one of the 1000 points. *)
Lemma ellipse_nan_args :
  arg_error (fl 9 1) (fl 3 10) (fl 1 10) (fl 3 1000) (fl 1 1000) (fl 100 1) (fl 10 1) = None.
Proof. vm_compute. reflexivity. Qed.

Lemma ellipse_nan_values :
  forallb is_nan (List.map (pe fit POLYCAP_PROFILE_ELLIPSOIDAL (fl 9 1) (fl 3 10) (fl 1 10) (fl 100 1) (fl 10 1)) (seq 0 1000)) = true.
Proof. vm_compute. reflexivity. Qed.

(** Equal radii at both ends (a straight "ellipsoidal" optic): NaN everywhere as well. *)
Lemma ellipse_equal_args :
  arg_error (fl 9 1) (fl 2 10) (fl 2 10) (fl 2 1000) (fl 1 1000) (fl 100 1) (fl 10 1) = None.
Proof. vm_compute. reflexivity. Qed.

Lemma ellipse_equal_values :
  forallb is_nan (List.map (pe fit POLYCAP_PROFILE_ELLIPSOIDAL (fl 9 1) (fl 2 10) (fl 2 10) (fl 100 1) (fl 10 1)) (seq 0 1000)) = true.
Proof. vm_compute. reflexivity. Qed.

(** NaN arguments are accepted. *)
Lemma nan_args : arg_error nan nan nan nan nan nan nan = None.
Proof. vm_compute. reflexivity. Qed.

End F.
