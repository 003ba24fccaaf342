(** * Reading complete input files *)
From Coq Require Import ZArith List Bool Lia String.
From Verif Require Import Num Mem ErrorModel ProfileModel ProfileProofs Geometry ConsModel DescProofs SourceModel FromFile SpecInput.
Import ListNotations.

Section Read.
Context {T : Type} {N : Num T}.
Local Notation token := (token T).
Implicit Types (ts rest : list token).

Lemma lists_cons (i : item) is ts rest : lists (i :: is) ts rest -> exists t ts', ts = t :: ts' /\ says i t /\ lists is ts' rest.
Proof. intros (toks & -> & F). inversion F; subst. exists y. eexists. split; [reflexivity|]. split; [assumption|]. exists l'. auto. Qed.
Lemma lists_nil ts rest : lists [] ts rest -> ts = rest.
Proof. intros (toks & -> & F). inversion F; subst. reflexivity. Qed.

Lemma read_elems_lists (es : list (Z * T)) : forall is ts rest, lists (flat_map (fun e => [Whole (fst e); Number (snd e)]) es ++ is) ts rest ->
  exists ts', read_elems (List.length es) ts = Some (List.map fst es, List.map (fun e => (snd e / #100)%num) es, ts') /\ lists is ts' rest.
Proof.
  induction es as [|[z w] es IH]; intros is ts rest H; cbn [flat_map app fst snd List.length List.map read_elems] in *; [eauto|].
  apply lists_cons in H. destruct H as (t1 & ts1 & -> & E1 & H). apply lists_cons in H. destruct H as (t2 & ts2 & -> & E2 & H).
  cbn [says] in E1, E2. destruct (IH is ts2 rest H) as (ts' & E & H'). exists ts'. split; [|exact H'].
  unfold scan2, scan1. rewrite E1, E2. cbn [Z.eqb Pos.eqb]. rewrite E. reflexivity.
Qed.

Ltac tok H := let t := fresh "t" in let ts1 := fresh "ts" in let E := fresh "E" in apply lists_cons in H; destruct H as (t & ts1 & -> & E & H); cbn [says] in E.

Definition read_source (c : input T) (n : Z) (a : profile T) : file_source T :=
  mkFS (mkSource (i_d c) (i_x c) (i_y c) (i_sx c) (i_sy c) (i_hx c) (i_hy c) (i_pol c)) (file_energies (i_first c) (i_step c) (Z.to_nat n))
    (i_sig c) (i_ncap c) (#0)%num (List.map fst (i_elems c)) (List.map (fun e => (snd e / #100)%num) (i_elems c)) (i_dens c) a.

Lemma read_complete fit pff (c : input T) h ts n :
  complete_file c h ts -> (0 <= i_type c <= 2)%Z -> ntoZ ((i_last c - i_first c) / i_step c + #1)%num = Some n -> (0 <= n)%Z ->
  source_from_file fit pff None ts =
    match profile_value fit (i_type c) (h_len h) (h_rext_up h) (h_rext_down h) (h_rint_up h) (h_rint_down h) (h_foc_up h) (h_foc_down h) with
    | None => FDone (Some POLYCAP_ERROR_INVALID_ARGUMENT) None
    | Some a => finish None (read_source c n a)
    end.
Proof.
  intros (rest & H) Ht En Hn. unfold first_part in H. rewrite <- !app_assoc in H. cbn [app] in H.
  do 10 tok H. apply read_elems_lists in H. destruct H as (ts' & E9' & H). cbn [app] in H. do 6 tok H. unfold shape_part in H. cbn [app] in H. do 8 tok H.
  unfold source_from_file, read1, read2, scan2, scan1.
  Local Ltac go := repeat match goal with E : as_dbl ?t = Some _ |- context [as_dbl ?t] => rewrite E; cbn [Z.eqb Pos.eqb need] | E : as_int ?t = Some _ |- context [as_int ?t] => rewrite E; cbn [Z.eqb Pos.eqb need] end.
  go. rewrite Nat2Z.id, E9'. cbn [need].
  cbn [read_dbl_vars]. unfold scan1. go. rewrite En. cbn [need].
  destruct (Z.ltb_spec n 0); [lia|]. go. unfold read_profile.
  replace (Z.eqb (i_type c) 0 || Z.eqb (i_type c) 1 || Z.eqb (i_type c) 2)%bool with true
    by (destruct (Z.eqb_spec (i_type c) 0), (Z.eqb_spec (i_type c) 1), (Z.eqb_spec (i_type c) 2); auto; lia).
  cbn [read_dbl_vars]. unfold scan1. go.
  destruct (profile_value fit (i_type c) (h_len h) (h_rext_up h) (h_rext_down h) (h_rint_up h) (h_rint_down h) (h_foc_up h) (h_foc_down h)) as [a|]; [|reflexivity].
  go. reflexivity.
Qed.

Lemma read1_some {A} (get : token -> option A) o t r (k : option A -> list token -> fres T) v : get t = Some v -> read1 get o None (t :: r) k = k (Some v) r.
Proof. intros E. unfold read1, scan1. rewrite E. reflexivity. Qed.
Lemma read1_none {A} (get : token -> option A) o t r (k : option A -> list token -> fres T) : get t = None -> read1 get o None (t :: r) k = FDone (Some POLYCAP_ERROR_IO) None.
Proof. intros E. unfold read1, scan1. rewrite E. reflexivity. Qed.
Lemma read2_some o1 o2 t1 t2 r (k : option T -> option T -> list token -> fres T) v w : as_dbl t1 = Some v -> as_dbl t2 = Some w ->
  read2 o1 o2 None (t1 :: t2 :: r) k = k (Some v) (Some w) r.
Proof. intros E1 E2. unfold read2, scan2, scan1. rewrite E1, E2. reflexivity. Qed.
Lemma read2_half o1 o2 t1 t2 r (k : option T -> option T -> list token -> fres T) v : as_dbl t1 = Some v -> as_dbl t2 = None ->
  read2 o1 o2 None (t1 :: t2 :: r) k = k (Some v) o2 (t2 :: r).
Proof. intros E1 E2. unfold read2, scan2, scan1. rewrite E1, E2. reflexivity. Qed.
Lemma read2_none o1 o2 t r (k : option T -> option T -> list token -> fres T) : as_dbl t = None -> read2 o1 o2 None (t :: r) k = FDone (Some POLYCAP_ERROR_IO) None.
Proof. intros E1. unfold read2, scan2, scan1. rewrite E1. reflexivity. Qed.

(** A token that is no number among the first nine, or no whole number in the tenth place. *)
Lemma read_garbage fit pff nums t rest :
  Forall (fun t : token => as_dbl t <> None) nums ->
  (List.length nums < 9 /\ as_dbl t = None) \/ (List.length nums = 9 /\ as_int t = None) ->
  source_from_file fit pff None (nums ++ t :: rest) = FDone (Some POLYCAP_ERROR_IO) None.
Proof.
  intros FA H. assert (G : Forall (fun t : token => exists v, as_dbl t = Some v) nums).
  { eapply Forall_impl; [|exact FA]. intros a Ha. cbv beta in Ha. destruct (as_dbl a) as [v|]; [eauto|congruence]. }
  clear FA. unfold source_from_file.
  do 10 try (let x := fresh "x" in destruct nums as [|x nums]; [clear G; cbn [app]|let v := fresh "v" in let E := fresh "E" in pose proof (Forall_inv G) as [v E]; apply Forall_inv_tail in G; cbn [app]]).
  all: try (exfalso; cbn in H; lia).
  all: destruct H as [[L H]|[L H]]; try discriminate L; try (exfalso; cbn in L; lia).
  all: repeat first [rewrite (read1_none _ _ _ _ _ H); reflexivity | rewrite (read2_none _ _ _ _ _ H); reflexivity | erewrite read1_some by eassumption | erewrite read2_some by eassumption | erewrite read2_half by eassumption].
Qed.
End Read.
