(** * Numbers: one signature for C [double] arithmetic, two interpretations.

    The numeric code of /repo/src is written ONCE, over the class [Num] below,
    operation by operation as in the C text.  It is then interpreted

    - over Coq's real numbers ([RNum]): exact arithmetic, no rounding, no
      NaN/infinity.  All geometric and physical theorems are about this
      instance.  Simplification: rounding errors, overflow, signed zeros and
      NaN are ignored here.
    - over IEEE-754 binary64 ([FNum], Coq's primitive floats) to exhibit
      behaviour that only exists with NaN or rounding, and to run the model.

    A C comparison [a > b] is [nltb b a]; [a >= b] is [nleb b a].  The code never
    replaces [!(a <= b)] by [a > b], so NaN behaves in [FNum] as in C. *)
From Coq Require Import Floats.
From Coq Require Import ZArith List Bool Lia Reals Lra.
Import ListNotations.

Class Num (T : Type) := {
  nofZ  : Z -> T;              (* an integer literal, or int -> double conversion *)
  nadd  : T -> T -> T;
  nsub  : T -> T -> T;
  nmul  : T -> T -> T;
  ndiv  : T -> T -> T;
  nopp  : T -> T;
  nsqrt : T -> T;              (* sqrt *)
  nabs  : T -> T;              (* fabs *)
  nround : T -> T;             (* round: nearest integer, halves away from zero *)
  nexp  : T -> T;
  nsin  : T -> T;
  ncos  : T -> T;
  ntan  : T -> T;
  natan : T -> T;
  nacos : T -> T;
  nltb  : T -> T -> bool;      (* < *)
  nleb  : T -> T -> bool;      (* <= *)
  neqb  : T -> T -> bool;      (* == *)
  npi   : T;                   (* M_PI,     polycap-private.h:31 *)
  ncospi6 : T;                 (* COSPI_6,  polycap-private.h:37 *)
  ndec  : Z -> positive -> T;  (* decimal literal: [ndec m d] is m/d *)
  ntoZ  : T -> option Z;       (* double -> int conversion (truncation); None = undefined *)
  natandiv : T -> T -> T       (* the composite C expression [atan(y/x)] *)
}.

Declare Scope num_scope.
Delimit Scope num_scope with num.
Notation "a + b" := (nadd a b) : num_scope.
Notation "a - b" := (nsub a b) : num_scope.
Notation "a * b" := (nmul a b) : num_scope.
Notation "a / b" := (ndiv a b) : num_scope.
Notation "- a" := (nopp a) : num_scope.
Notation "a <? b" := (nltb a b) : num_scope.
Notation "a <=? b" := (nleb a b) : num_scope.
Notation "a >? b" := (nltb b a) : num_scope.
Notation "a >=? b" := (nleb b a) : num_scope.
Notation "a =? b" := (neqb a b) : num_scope.
Notation "# n" := (nofZ n%Z) (at level 1, n at level 0, format "# n") : num_scope.

(** ** Real-number interpretation *)

Definition Rltb (x y : R) : bool := if Rlt_dec x y then true else false.
Definition Rleb (x y : R) : bool := if Rle_dec x y then true else false.
Definition Reqb (x y : R) : bool := if Req_EM_T x y then true else false.

(** C [round]: nearest integer, halves away from zero. *)
Definition R_round (x : R) : R :=
  if Rle_dec 0 x then IZR (Int_part (x + / 2)) else (- IZR (Int_part (- x + / 2)))%R.

(** C conversion double -> int: truncation towards zero. *)
Definition R_trunc (x : R) : Z :=
  if Rle_dec 0 x then Int_part x else (- Int_part (- x))%Z.

(** [atan(y/x)] as IEEE evaluates it: for [x = +0] the quotient is an infinity
    of the sign of [y].  (Coq's total division would give [atan 0].)  The one
    place where [x] can be 0 is polycap-profile.c:360, where the zero is +0. *)
Definition R_atandiv (y x : R) : R :=
  if Req_EM_T x 0 then
    (if Rlt_dec 0 y then PI / 2 else if Rlt_dec y 0 then - (PI / 2) else 0)%R
  else atan (y / x).

(** COSPI_6 and M_PI are read as the mathematical constants they abbreviate
    (the literals agree with them to within 1e-19). *)
#[export] Instance RNum : Num R := {
  nofZ := IZR; nadd := Rplus; nsub := Rminus; nmul := Rmult; ndiv := Rdiv;
  nopp := Ropp; nsqrt := sqrt; nabs := Rabs; nround := R_round; nexp := exp;
  nsin := sin; ncos := cos; ntan := tan; natan := atan; nacos := acos;
  nltb := Rltb; nleb := Rleb; neqb := Reqb; npi := PI; ncospi6 := (sqrt 3 / 2)%R;
  ndec := fun m d => (IZR m / IZR (Zpos d))%R;
  ntoZ := fun x => Some (R_trunc x);
  natandiv := R_atandiv
}.

(** ** binary64 interpretation *)

(** The parts of libm that are not IEEE basic operations are parameters. *)
Record libm := { f_exp : float -> float; f_sin : float -> float; f_cos : float -> float;
                 f_tan : float -> float; f_atan : float -> float; f_acos : float -> float }.

Definition F_ofZ (z : Z) : float :=
  if Z.ltb z 0 then PrimFloat.opp (PrimFloat.of_uint63 (Uint63.of_Z (- z)))
  else PrimFloat.of_uint63 (Uint63.of_Z z).

Definition F_two52 : float := F_ofZ 4503599627370496.

(** round(): exact for |x| < 2^52 (adding and subtracting 2^52 rounds to nearest
    even, the tie is then corrected away from zero); larger values are integers. *)
Definition F_round (x : float) : float :=
  let a := PrimFloat.abs x in
  if PrimFloat.ltb a F_two52 then
    let t := PrimFloat.sub (PrimFloat.add a F_two52) F_two52 in
    let t := if PrimFloat.eqb (PrimFloat.sub a t) (PrimFloat.div PrimFloat.one PrimFloat.two)
             then PrimFloat.add t PrimFloat.one else t in
    if PrimFloat.ltb x PrimFloat.zero then PrimFloat.opp t else t
  else x.

Definition F_toZ (x : float) : option Z :=
  match Prim2SF x with
  | S754_zero _ => Some 0%Z
  | S754_finite s m e =>
      let a := if Z.leb 0 e then (Zpos m * 2 ^ e)%Z else (Zpos m / 2 ^ (- e))%Z in
      if Z.ltb a 2147483648 then Some (if s then (- a)%Z else a) else None
  | _ => None
  end.

Definition FNum (lm : libm) : Num float := {|
  nofZ := F_ofZ; nadd := PrimFloat.add; nsub := PrimFloat.sub; nmul := PrimFloat.mul;
  ndiv := PrimFloat.div; nopp := PrimFloat.opp; nsqrt := PrimFloat.sqrt;
  nabs := PrimFloat.abs; nround := F_round; nexp := f_exp lm; nsin := f_sin lm;
  ncos := f_cos lm; ntan := f_tan lm; natan := f_atan lm; nacos := f_acos lm;
  nltb := PrimFloat.ltb; nleb := PrimFloat.leb; neqb := PrimFloat.eqb;
  npi := PrimFloat.div (F_ofZ 884279719003555) (F_ofZ 281474976710656);
  ncospi6 := PrimFloat.div (PrimFloat.sqrt (F_ofZ 3)) PrimFloat.two;
  ndec := fun m d => PrimFloat.div (F_ofZ m) (F_ofZ (Zpos d));
  ntoZ := F_toZ;
  natandiv := fun y x => f_atan lm (PrimFloat.div y x)
|}.

(** ** Reflection of the real comparisons *)

Lemma Rltb_spec x y : reflect (x < y)%R (Rltb x y).
Proof. unfold Rltb; destruct (Rlt_dec x y); constructor; assumption. Qed.
Lemma Rleb_spec x y : reflect (x <= y)%R (Rleb x y).
Proof. unfold Rleb; destruct (Rle_dec x y); constructor; assumption. Qed.
Lemma Reqb_spec x y : reflect (x = y) (Reqb x y).
Proof. unfold Reqb; destruct (Req_EM_T x y); constructor; assumption. Qed.

Lemma Rltb_true x y : (x < y)%R -> Rltb x y = true.
Proof. destruct (Rltb_spec x y); intros; [reflexivity | contradiction]. Qed.
Lemma Rltb_false x y : (y <= x)%R -> Rltb x y = false.
Proof. destruct (Rltb_spec x y); intros; [lra | reflexivity]. Qed.
Lemma Rleb_true x y : (x <= y)%R -> Rleb x y = true.
Proof. destruct (Rleb_spec x y); intros; [reflexivity | contradiction]. Qed.
Lemma Rleb_false x y : (y < x)%R -> Rleb x y = false.
Proof. destruct (Rleb_spec x y); intros; [lra | reflexivity]. Qed.
Lemma Reqb_true x y : x = y -> Reqb x y = true.
Proof. destruct (Reqb_spec x y); intros; [reflexivity | contradiction]. Qed.
Lemma Reqb_false x y : x <> y -> Reqb x y = false.
Proof. destruct (Reqb_spec x y); intros; [contradiction | reflexivity]. Qed.

(** Unfold the generic operations to the real ones. *)
Ltac rnum := cbn [nofZ nadd nsub nmul ndiv nopp nsqrt nabs nround nexp nsin ncos ntan
                  natan nacos nltb nleb neqb npi ncospi6 ndec ntoZ natandiv RNum] in *.
(** Case split on the first real comparison found in the goal. *)
Ltac rcase :=
  match goal with
  | |- context [Rltb ?x ?y] => destruct (Rltb_spec x y)
  | |- context [Rleb ?x ?y] => destruct (Rleb_spec x y)
  | |- context [Reqb ?x ?y] => destruct (Reqb_spec x y)
  end.
Ltac rcase_in H :=
  match type of H with
  | context [Rltb ?x ?y] => destruct (Rltb_spec x y)
  | context [Rleb ?x ?y] => destruct (Rleb_spec x y)
  | context [Reqb ?x ?y] => destruct (Reqb_spec x y)
  end.

(** ** Facts about rounding *)

Lemma Int_part_bounds x : (IZR (Int_part x) <= x < IZR (Int_part x) + 1)%R.
Proof. destruct (base_Int_part x); lra. Qed.

Lemma Int_part_unique x z : (IZR z <= x < IZR z + 1)%R -> Int_part x = z.
Proof.
  intros H. pose proof (Int_part_bounds x) as B.
  assert (IZR (Int_part x) < IZR (z + 1))%R by (rewrite plus_IZR; lra).
  assert (IZR z < IZR (Int_part x + 1))%R by (rewrite plus_IZR; lra).
  apply lt_IZR in H0. apply lt_IZR in H1. lia.
Qed.

Lemma R_round_is_int x : exists z, R_round x = IZR z.
Proof.
  unfold R_round. destruct (Rle_dec 0 x).
  - eexists; reflexivity.
  - exists (- Int_part (- x + / 2))%Z. now rewrite opp_IZR.
Qed.

Lemma R_round_close x : (Rabs (R_round x - x) <= / 2)%R.
Proof.
  unfold R_round. destruct (Rle_dec 0 x).
  - pose proof (Int_part_bounds (x + / 2)). apply Rabs_le. lra.
  - pose proof (Int_part_bounds (- x + / 2)). apply Rabs_le. lra.
Qed.

Lemma Rabs_le_elim a b : (Rabs a <= b)%R -> (- b <= a <= b)%R.
Proof. unfold Rabs; destruct (Rcase_abs a); lra. Qed.

Lemma R_round_unique x z : (IZR z - / 2 < x < IZR z + / 2)%R -> R_round x = IZR z.
Proof.
  intros H. destruct (R_round_is_int x) as [w Hw].
  pose proof (R_round_close x) as C. rewrite Hw in *.
  apply Rabs_le_elim in C.
  assert (IZR w < IZR (z + 1))%R by (rewrite plus_IZR; lra).
  assert (IZR z < IZR (w + 1))%R by (rewrite plus_IZR; lra).
  apply lt_IZR in H0. apply lt_IZR in H1. f_equal. lia.
Qed.

Lemma R_round_mono x y : (x <= y)%R -> (R_round x <= R_round y)%R.
Proof.
  intros H. unfold R_round.
  assert (M : forall a b, (a <= b)%R -> (IZR (Int_part a) <= IZR (Int_part b))%R).
  { intros a b Hab. apply IZR_le.
    pose proof (Int_part_bounds a). pose proof (Int_part_bounds b).
    assert (IZR (Int_part a) < IZR (Int_part b + 1))%R by (rewrite plus_IZR; lra).
    apply lt_IZR in H2. lia. }
  assert (P : forall a, (0 <= a)%R -> (0 <= IZR (Int_part (a + / 2)))%R).
  { intros a Ha. change 0%R with (IZR 0). apply IZR_le.
    pose proof (Int_part_bounds (a + / 2)).
    assert (IZR (-1) < IZR (Int_part (a + / 2)))%R by (replace (IZR (-1)) with (-1)%R by reflexivity; lra).
    apply lt_IZR in H1. lia. }
  destruct (Rle_dec 0 x); destruct (Rle_dec 0 y).
  - apply M; lra.
  - lra.
  - pose proof (P (- x)%R ltac:(lra)). pose proof (P y ltac:(lra)). lra.
  - apply Ropp_le_contravar. apply M. lra.
Qed.
