(** * Property theorems: memory running out in polycap_source_new_from_file (C138, C129)

    As in PropFileSrc.v.  The function allocates, in this order: 0 the description, 1 the
    source, 2 and 3 the random number generator, 4 the atomic numbers, 5 the fractions, 6 the
    energies, 7 to 10 the profile, after that only error objects.  "The [k]-th allocation fails"
    is [forall i, orc s i = false <-> i = cnt s + k]: that one and no other. *)
From Coq Require Import ZArith List Bool Lia Reals Lra String Permutation.
From Verif Require Import Num Mem SpecHeap HeapLib ErrorModel ProfileModel ProfileProofs Geometry ConsModel CapilModel DescProofs SrcProofs ConsReal ProfileReal SepLib
  FlightRep FlightHeap FlightLaunch2 FlightProp PyModel PyResProofs PyResInv SpecPyObj PyObjHeap PyObjCons PyObjProofs SourceModel FromFile FromFileProofs LineModel ProfFile
  SpecInput FileSrc FileSrcProofs FileSrcRead OomFile PropFileSrc.
Import ListNotations.
Local Notation ret := Mem.ret.
Local Notation bind := Mem.bind.

Section Any.
Context {T : Type} {N : Num T}.
Variable fit : list (T * T) -> T * T * T.
Variable names_at : list (token T) -> list Z * list Z * list Z * list (token T).
Variable disk : list Z -> option (list (token T)).
Implicit Types (s : st T).

Lemma oom_run c h ts n k s le : wf s -> slot_holds s le NULL -> (forall i, orc s i = false <-> i = cnt s + k) -> k < 11 -> k <> 2 -> k <> 3 ->
  complete_file c h ts -> (0 <= i_type c <= 2)%Z -> ntoZ ((i_last c - i_first c) / i_step c + #1)%num = Some n -> (0 <= n)%Z ->
  arg_error (h_len h) (h_rext_up h) (h_rext_down h) (h_rint_up h) (h_rint_down h) (h_foc_up h) (h_foc_down h) = None ->
  wp (source_new_from_file fit names_at disk (Some (Some ts)) (Some le))
     (fun r s' => r = (NULL, if Nat.leb k 1 then 0 else 1) /\ exists m, error_reported (Some le) POLYCAP_ERROR_MEMORY m s s') s.
Proof.
  intros W Sl Ho K1 K2 K3 Cf Ht En Hn Ha.
  assert (H : hs (without [le] s) [(le, [Vptr NULL])] (swap always s)).
  { apply hs_swap; auto.
    - intros l b [E|[]]. injection E as <- <-. exact Sl.
    - repeat constructor. tauto.
    - intros l Hl. symmetry. apply without_nin. exact Hl.
    - intros l Hl. unfold without. cbn [map fst] in Hl. destruct (in_dec Nat.eq_dec l [le]); [reflexivity|contradiction]. }
  pose proof (oom_file fit names_at disk c h ts n k (without [le] s) le [] (orc s) (swap always s) Cf Ht En Hn Ha H eq_refl (cnt s) eq_refl Ho ltac:(lia)) as G.
  apply wpF_start in G. eapply wp_mono; [exact G|]. intros r s' (E & q & t & m & H'). split; [exact E|]. exists m.
  exact (reported_hs s le POLYCAP_ERROR_MEMORY m q t (swap always s') Sl H').
Qed.

(** C138: the description, the source, the composition, the energies or the profile cannot be
    allocated while a complete file is read: NULL, one MEMORY error, everything else in memory
    as it was. *)
Theorem C138_out_of_memory_partial :
  forall c h ts n k s le, wf s -> slot_holds s le NULL -> (forall i, orc s i = false <-> i = cnt s + k) -> k < 11 -> k <> 2 -> k <> 3 ->
    complete_file c h ts -> (0 <= i_type c <= 2)%Z -> ntoZ ((i_last c - i_first c) / i_step c + #1)%num = Some n -> (0 <= n)%Z ->
    arg_error (h_len h) (h_rext_up h) (h_rext_down h) (h_rint_up h) (h_rint_down h) (h_foc_up h) (h_foc_down h) = None ->
    wp (source_new_from_file fit names_at disk (Some (Some ts)) (Some le))
       (fun r s' => fst r = NULL /\ exists m, error_reported (Some le) POLYCAP_ERROR_MEMORY m s s') s.
Proof. intros c h ts n k s le. intros. eapply wp_mono; [apply (oom_run c h ts n k s le); assumption|]. cbn. intros r s' [-> E]. auto. Qed.

(** If the generator cannot be allocated the behaviour is undefined, whatever the file. *)
Theorem C138_generator_refuted :
  forall ts s le, orc s (cnt s) = true -> orc s (S (cnt s)) = true -> orc s (S (S (cnt s))) = false ->
    source_new_from_file fit names_at disk (Some ts) (Some le) s = UB.
Proof.
  intros ts s le O1 O2 O3. unfold source_new_from_file, bind, alloc. rewrite O1. cbn [orc cnt nxt mem]. rewrite O2. cbn [orc cnt nxt mem].
  unfold store at 1. cbn [mem]. unfold upd at 1. rewrite Nat.eqb_refl. cbn [src_zero List.length repeat app Nat.ltb Nat.leb orc cnt nxt mem].
  unfold rng_new, bind, alloc. cbn [orc cnt nxt mem]. rewrite O3. unfold malloc, alloc. cbn [orc cnt nxt mem].
  destruct (orc s (S (S (S (cnt s))))); reflexivity.
Qed.

(** C129: the file stays open when memory for what it lists runs out. *)
Theorem C129_open_without_memory_refuted :
  forall c h ts n k s le, wf s -> slot_holds s le NULL -> (forall i, orc s i = false <-> i = cnt s + k) -> 4 <= k < 11 ->
    complete_file c h ts -> (0 <= i_type c <= 2)%Z -> ntoZ ((i_last c - i_first c) / i_step c + #1)%num = Some n -> (0 <= n)%Z ->
    arg_error (h_len h) (h_rext_up h) (h_rext_down h) (h_rint_up h) (h_rint_down h) (h_foc_up h) (h_foc_down h) = None ->
    wp (source_new_from_file fit names_at disk (Some (Some ts)) (Some le)) (fun r _ => r = (NULL, 1)) s.
Proof.
  intros c h ts n k s le W Sl Ho Hk Cf Ht En Hn Ha. eapply wp_mono; [apply (oom_run c h ts n k s le); try assumption; lia|]. cbn. intros r s' [-> _].
  replace (Nat.leb k 1) with false by (symmetry; apply Nat.leb_gt; lia). reflexivity.
Qed.
End Any.

(** ** The hypotheses are met *)
Local Open Scope R_scope.
Definition poor (k : nat) : st R := mkSt (fun l => if Nat.eqb l 0 then Some [Vptr NULL] else None) 1%nat (fun i => negb (Nat.eqb i k)) 0%nat.
Example poor_ok k : wf (poor k) /\ slot_holds (poor k) 0%nat NULL /\ (forall i, orc (poor k) i = false <-> i = (cnt (poor k) + k)%nat).
Proof.
  split; [|split; [reflexivity|]].
  - intros l H. cbn in *. destruct (Nat.eqb_spec l 0); [lia|reflexivity].
  - intros i. cbn [orc cnt poor]. rewrite negb_false_iff, Nat.eqb_eq. lia.
Qed.
Example C138_met :
  complete_file (demo_input 100) demo_shape (demo_file (1/2) 10 1 1 0 100 2 8) /\ (0 <= i_type (demo_input 100) <= 2)%Z /\
  ntoZ ((i_last (demo_input 100) - i_first (demo_input 100)) / i_step (demo_input 100) + #1)%num = Some 1%Z /\
  arg_error (h_len demo_shape) (h_rext_up demo_shape) (h_rext_down demo_shape) (h_rint_up demo_shape) (h_rint_down demo_shape) (h_foc_up demo_shape) (h_foc_down demo_shape) = None.
Proof.
  split; [apply demo_complete|]. split; [cbn; lia|]. split; [exact trunc_1|]. apply arg_error_good. unfold good_args, demo_shape.
  cbn [h_len h_rext_up h_rext_down h_rint_up h_rint_down h_foc_up h_foc_down]. lra.
Qed.
Print Assumptions C138_out_of_memory_partial.
Print Assumptions C138_generator_refuted.
Print Assumptions C129_open_without_memory_refuted.
