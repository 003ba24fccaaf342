(** * Property theorem: the Python result object (C104)

    [te_session o eff ops]: a TransmissionEfficiencies object is made around the library's result at
    [eff], the user evaluates its properties and iterates over them as in [ops], and the object is
    deleted (PyResult.v; [o] is where the C variables of the object are).  [answers r ops []] is what
    a user expects who thinks of every property as a fixed sequence (SpecPy.v). *)
From Coq Require Import Floats.
From Coq Require Import ZArith List Bool Lia String Permutation.
From Verif Require Import Num Mem SpecHeap SpecPhoton ErrorModel ProfileModel ProfileProofs Geometry ConsModel HeapLib
  ResultModel SpecResult PropResult SepLib PyModel SpecPy PyResult PyResProofs PyResInv PyResServe PyResEnd.
Import ListNotations.

Section Generic.
Context {T : Type} {N : Num T}.

(** The C variables of the object and its methods. *)
Definition variables (o : te) : list loc :=
  [v_eff o; v_err o; v_int o; v_nint o; v_ext o; v_next o; v_nstart o; v_sc o; v_sd o; v_se o; v_ss o;
   v_nexit o; v_nen o; v_xc o; v_xd o; v_xe o; v_xw o; v_refl o; v_trav o; v_n o; v_en o; v_ef o].

(** Whatever the user evaluates, in whatever order and however interleaved: the data pair is the
    result's energies and efficiencies, every iteration gives the result's contents in order (leaks:
    a ValueError if there are none), nothing depends on what was asked before, and when the object
    is gone so are the result and every array made on the way: apart from the object's own variables
    memory is as if the result had never been. *)
Theorem C104_python_result :
  forall (s : st T) eff im pen peff src p1 p2 p3 r o ops,
    let result := result_blocks eff im pen peff p1 p2 p3 in
    wf s -> memory_available s -> result_object s eff im pen peff src p1 p2 p3 r -> NoDup result ->
    NoDup (variables o) -> (forall l, In l (variables o) -> variable s l /\ ~ In l result) ->
    q_started r <> 0%Z -> q_rows r <> [] -> q_energies r <> [] ->
    exists s', te_session o (Some eff) ops s = Ok (Value (q_energies r, q_effs r, answers r ops []), s') /\
      all_free s' result /\ same_memory_except (result ++ variables o) s s' /\ wf s' /\ memory_available s' /\ (forall l, In l (variables o) -> variable s' l).
Proof.
  intros s eff im pen peff src p1 p2 p3 r o ops result W Av R ND NV HV Hs Hr He.
  pose (c := fun l => match mem s l with Some [v] => v | _ => Vundef end).
  pose (F := fun l => if in_dec Nat.eq_dec l (variables o) then None else mem s l).
  assert (E0 : map fst (init_cells (T := T) o c) = variables o) by reflexivity.
  assert (H0 : hs F (init_cells (T := T) o c) s).
  { split; [exact W|]. split; [exact Av|]. rewrite E0. split; [exact NV|]. split; [|split].
    - intros l b I. unfold init_cells in I. apply in_map_iff in I. destruct I as (l' & [= <- <-] & I). destruct (HV l' I) as [[v Ev] _].
      unfold c. rewrite Ev. reflexivity.
    - intros l I. unfold F. destruct (in_dec _ _ _); [contradiction|reflexivity].
    - intros l I. unfold F. destruct (in_dec _ _ _); [reflexivity|contradiction]. }
  assert (HF : forall l, In l result -> F l = mem s l).
  { intros l I. unfold F. destruct (in_dec _ _ _) as [K|K]; [|reflexivity]. exfalso. exact (proj2 (HV l K) I). }
  assert (G : wp (te_session o (Some eff) ops) (fun x s' => x = Value (q_energies r, q_effs r, answers r ops []) /\ all_free s' result /\
             same_memory_except (result ++ variables o) s s' /\ wf s' /\ memory_available s' /\ (forall l, In l (variables o) -> variable s' l)) s).
  { unfold te_session. apply wp_bind. eapply wp_mono; [eapply create_ok; [exact R|exact HF|exact He|exact H0]|].
    intros x s1 [-> I1]. apply wp_bind. eapply wp_mono; [eapply (serve_ok o eff im pen peff src p1 p2 p3 r F s R HF Hs Hr ops _ _ [] []); [exact I1|constructor]|].
    intros xs s2 [-> [C I2]]. apply wp_bind. eapply wp_mono; [eapply dealloc_ok; [exact R|exact HF|exact ND|exact I2]|].
    intros _ s3 (L & H3 & P & Sg). apply wp_ret. split; [reflexivity|].
    destruct H3 as (W3 & A3 & _ & H3h & H3 & _).
    assert (Q : forall l, ~ In l (variables o) -> mem s3 l = minus F result l).
    { intros l I. apply H3. intros K. apply I. eapply Permutation_in; [exact P|exact K]. }
    split; [|split; [|split; [exact W3|split; [exact A3|]]]].
    3:{ intros l I. apply (Permutation_in _ (Permutation_sym P)) in I. apply in_map_iff in I. destruct I as ([l' b] & <- & I). rewrite Forall_forall in Sg.
        destruct (Sg _ I) as [v Ev]. cbn [snd fst] in *. subst b. exists v. apply (H3h l' [v] I). }
    - intros l I. rewrite Q by (intros K; exact (proj2 (HV l K) I)). unfold minus. destruct (in_dec _ _ _); [reflexivity|contradiction].
    - intros l I. assert (~ In l result /\ ~ In l (variables o)) as [I1' I2'] by (split; intros K; apply I; apply in_or_app; auto).
      rewrite Q by exact I2'. unfold minus, F. destruct (in_dec Nat.eq_dec l result); [contradiction|]. destruct (in_dec _ _ _); [contradiction|reflexivity]. }
  unfold wp in G. destruct (te_session o (Some eff) ops s) as [[x s']|]; [|contradiction]. destruct G as (-> & A & B). exists s'. auto.
Qed.

(** The hypotheses are met: a result with one transmitted photon and a leak of either kind. *)
Definition demo_vars : te := mkTe 50 51 52 53 54 55 56 57 58 59 60 61 62 63 64 65 66 67 68 69 70 71.
Definition demo_state : st T := mkSt (fun l => if Nat.ltb l 50 then nth_error (layout demo_result) l else if Nat.ltb l 72 then Some [Vundef] else None) 72 (fun _ => true) 0.
Theorem C104_met :
  let P1 := List.map Some (seq 16 18) in let P2 := List.map Some (seq 34 7) in let P3 := List.map Some (seq 41 9) in
  let result := result_blocks 12 13 (Some 14) (Some 15) P1 P2 P3 in
  wf demo_state /\ memory_available demo_state /\ result_object demo_state 12 13 (Some 14) (Some 15) NULL P1 P2 P3 demo_result /\ NoDup result /\
  NoDup (variables demo_vars) /\ (forall l, In l (variables demo_vars) -> variable demo_state l /\ ~ In l result) /\
  q_started demo_result <> 0%Z /\ q_rows demo_result <> [] /\ q_energies demo_result <> [] /\ q_ext demo_result <> [] /\ q_int demo_result <> [].
Proof.
  intros P1 P2 P3 result. assert (LB : result = seq 14 36 ++ [13; 12]) by reflexivity.
  split; [|split; [|split; [|split; [|split; [|split]]]]].
  - intros l Hl. cbn [mem nxt demo_state] in *. destruct (Nat.ltb_spec l 50); [lia|]. destruct (Nat.ltb_spec l 72); [lia|reflexivity].
  - intros n. reflexivity.
  - split; [repeat split; cbn; auto|]. split; [reflexivity|]. split; [reflexivity|].
    split; [exists []; rewrite app_nil_r; reflexivity|]. split; [exists []; rewrite app_nil_r; reflexivity|].
    split; [|split]; repeat (constructor; [exists []; rewrite app_nil_r; reflexivity|]); constructor.
  - rewrite LB. apply (NoDup_count_occ' Nat.eq_dec). intros l Hl. clear - Hl. cbn in Hl. repeat (destruct Hl as [<-|Hl]; [reflexivity|]). destruct Hl.
  - change (variables demo_vars) with (seq 50 22). apply seq_NoDup.
  - change (variables demo_vars) with (seq 50 22). intros l Hl. apply in_seq in Hl. split.
    + exists Vundef. cbn [mem demo_state]. destruct (Nat.ltb_spec l 50); [lia|]. destruct (Nat.ltb_spec l 72); [reflexivity|lia].
    + rewrite LB, in_app_iff, in_seq. cbn [In]. lia.
  - repeat split; discriminate.
Qed.

(** What the answers are, in an example: two interleaved iterators over the reflection counts and
    one over the external leaks. *)
Theorem C104_example :
  answers (T := T) demo_result [Iter n_refl; Next 0; Iter n_refl; Next 0; Next 1; Iter extleak_data; Next 2; Next 2; Next 0] [] =
  [Iterator; Item (PInt 4); Iterator; Stop; Item (PInt 4); Iterator;
   Item (PLeak (mkV #1 #2 #3)%num (completed (#0, #0)%num) [Vundef; Vundef; Vundef] 1 [#1; #0]%num); Stop; Stop].
Proof. reflexivity. Qed.

(** ** C105: the object after a MemoryError *)

(** Two transmitted photons. *)
Definition demo_two : result T :=
  mkResult 3 (q_rows demo_result ++ q_rows demo_result) (q_ext demo_result) (q_int demo_result) (q_energies demo_result) (q_effs demo_result).
Definition state_of (r : result T) (oracle : nat -> bool) : st T :=
  mkSt (fun l => if Nat.ltb l 50 then nth_error (layout r) l else if Nat.ltb l 72 then Some [Vundef] else None) 72 oracle 0.

(** One allocation fails while the exit data are fetched.  The exception is the right one and the
    object could be deleted; but evaluating the property once more reads memory that was never
    written. *)
Theorem C105_used_again_refuted :
  let s := state_of demo_two (fun k => negb (Nat.eqb k 3)) in
  (exists s', te_session demo_vars (Some 12) [Iter exit_coords; Next 0] s = Ok (Value (q_energies demo_two, q_effs demo_two, [Iterator; Raise MemoryError]), s')) /\
  te_session demo_vars (Some 12) [Iter exit_coords; Next 0; Iter exit_coords; Next 1] s = UB.
Proof. intros s. split; [eexists; vm_compute; reflexivity|vm_compute; reflexivity]. Qed.

(** If it is one of the arrays of weights, deleting the object is already undefined behaviour. *)
Theorem C105_deleted_refuted :
  let s := state_of demo_two (fun k => negb (Nat.eqb k 8)) in
  (exists d xs s1, te_create demo_vars (Some 12) s = Ok (Value d, s1) /\ match serve demo_vars [Iter exit_weights; Next 0] [] s1 with Ok (a, _) => a = xs | UB => False end /\ xs = [Iterator; Raise MemoryError]) /\
  te_session demo_vars (Some 12) [Iter exit_weights; Next 0] s = UB.
Proof. intros s. split; [do 3 eexists; split; [vm_compute; reflexivity|split; [vm_compute; reflexivity|reflexivity]]|vm_compute; reflexivity]. Qed.
End Generic.
