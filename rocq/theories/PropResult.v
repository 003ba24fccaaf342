(** * Property theorems: the result object (C45, C65, C66)

    [wp m Q s]: running the API function [m] in memory state [s] ends without undefined
    behaviour, in a result and a state satisfying Q.  [result_object s eff im ... r]: at
    [eff] there is a result object with content [r] (SpecResult.v); [failed err c outs s s']:
    an error with code [c] is reported and, except for the variables [outs], every block
    that existed is as it was; [completed (x, y)]: the vector (x, y, sqrt(1 - x^2 - y^2)). *)
From Coq Require Import Floats.
From Coq Require Import ZArith List Bool Lia Reals Lra String.
From Verif Require Import Num Mem SpecHeap SpecPhoton ErrorModel ProfileProofs Geometry ConsModel HeapLib
  ResultModel SpecResult ResultProofs ResultExit ResultLeak ResultLeakGet ResultMore.
Import ListNotations.

Section Generic.
Context {T : Type} {N : Num T}.

(** The variables whose addresses the caller passes in: distinct, not part of the result,
    not the error slot. *)
Definition out_variables (s : st T) (err : ptr) (blocks outs : list loc) : Prop :=
  NoDup outs /\ forall l, In l outs -> variable s l /\ ~ In l blocks /\ err <> Some l.

(** ** C45: the getters hand out fresh copies of what is stored *)

(** Start data: either everything is delivered, for every transmitted photon, in four new
    arrays and nothing else changes, or an allocation failed and that is reported. *)
Theorem C95_start_data :
  forall (s : st T) eff im pen peff src p1 p2 p3 r nsp nxp o1 o2 o3 o4 err,
    let outs := [nsp; nxp; o1; o2; o3; o4] in
    wf s -> result_object s eff im pen peff src p1 p2 p3 r ->
    out_variables s err (result_blocks eff im pen peff p1 p2 p3) outs ->
    legal_err s err -> reports_fit err s ->
    q_started r <> 0%Z -> q_rows r <> [] ->
    wp (get_start_data (Some eff) (Some nsp) (Some nxp) (Some o1) (Some o2) (Some o3) (Some o4) err)
       (fun ok s' =>
          ok = true /\ mem s' nsp = Some [Vint (q_started r)] /\ mem s' nxp = Some [Vint (Z.of_nat (List.length (q_rows r)))] /\
            (exists l1 l2 l3 l4,
               mem s' o1 = Some [Vptr (Some l1)] /\ mem s' o2 = Some [Vptr (Some l2)] /\
               mem s' o3 = Some [Vptr (Some l3)] /\ mem s' o4 = Some [Vptr (Some l4)] /\
               vec_array s' l1 (List.map (fun x => flat (r_start x)) (q_rows r)) /\
               vec_array s' l2 (List.map (fun x => completed (r_start_dir x)) (q_rows r)) /\
               vec_array s' l3 (List.map (fun x => completed (r_start_elecv x)) (q_rows r)) /\
               vec_array s' l4 (List.map (fun x => flat (r_src x)) (q_rows r)) /\
               NoDup [l1; l2; l3; l4] /\ all_free s [l1; l2; l3; l4] /\ same_memory_except ([l1; l2; l3; l4] ++ outs) s s')
          \/ ok = false /\ (exists k, orc s k = false) /\ failed err POLYCAP_ERROR_MEMORY outs s s') s.
Proof. intros s eff im pen peff src p1 p2 p3 r nsp nxp o1 o2 o3 o4 err outs W R [ND Hv] Le Rf Hs Hr. eapply get_start_ok; eauto. Qed.

(** Exit data. *)
Theorem C95_exit_data :
  forall (s : st T) eff im pen peff src p1 p2 p3 r nxp nep o1 o2 o3 o4 o5 o6 err,
    let outs := [nxp; nep; o1; o2; o3; o4; o5; o6] in
    wf s -> result_object s eff im pen peff src p1 p2 p3 r ->
    out_variables s err (result_blocks eff im pen peff p1 p2 p3) outs ->
    legal_err s err -> reports_fit err s ->
    q_started r <> 0%Z ->
    wp (get_exit_data (Some eff) (Some nxp) (Some o1) (Some o2) (Some o3) (Some o4) (Some o5) (Some nep) (Some o6) err)
       (fun ok s' =>
          ok = true /\ mem s' nxp = Some [Vint (Z.of_nat (List.length (q_rows r)))] /\
            mem s' nep = Some [Vint (Z.of_nat (List.length (q_energies r)))] /\
            (exists l1 l2 l3 l4 l5 l6 lw,
               mem s' o1 = Some [Vptr (Some l1)] /\ mem s' o2 = Some [Vptr (Some l2)] /\
               mem s' o3 = Some [Vptr (Some l3)] /\ mem s' o4 = Some [Vptr (Some l4)] /\
               mem s' o5 = Some [Vptr (Some l5)] /\ mem s' o6 = Some [Vptr (Some l6)] /\
               vec_array s' l1 (List.map r_exit (q_rows r)) /\
               vec_array s' l2 (List.map (fun x => completed (r_exit_dir x)) (q_rows r)) /\
               vec_array s' l3 (List.map (fun x => completed (r_exit_elecv x)) (q_rows r)) /\
               int_array s' l4 (List.map r_nrefl (q_rows r)) /\
               dbl_array s' l5 (List.map r_travel (q_rows r)) /\
               dbl_arrays s' l6 lw (List.map r_weights (q_rows r)) /\
               NoDup ([l1; l2; l3; l4; l5; l6] ++ lw) /\ all_free s ([l1; l2; l3; l4; l5; l6] ++ lw) /\
               same_memory_except (([l1; l2; l3; l4; l5; l6] ++ lw) ++ outs) s s')
          \/ ok = false /\ (exists k, orc s k = false) /\ failed err POLYCAP_ERROR_MEMORY outs s s') s.
Proof. intros s eff im pen peff src p1 p2 p3 r nxp nep o1 o2 o3 o4 o5 o6 err outs W R [ND Hv] Le Rf Hs. eapply get_exit_ok; eauto. Qed.

(** Leaks: new leak objects with the stored positions, directions, reflection counts and
    weights; internal leaks with their electric vectors. *)
Theorem C95_internal_leaks :
  forall (s : st T) eff im pen peff src p1 p2 p3 r lp np err,
    wf s -> result_object s eff im pen peff src p1 p2 p3 r ->
    out_variables s err (result_blocks eff im pen peff p1 p2 p3) [lp; np] ->
    legal_err s err -> reports_fit err s ->
    q_int r <> [] ->
    wp (get_intleak_data (Some eff) (Some lp) (Some np) err)
       (fun ok s' =>
          ok = true /\ mem s' np = Some [Vint (Z.of_nat (List.length (q_int r)))] /\
            (exists q ls, mem s' lp = Some [Vptr (Some q)] /\
               leak_records s' q ls (fun k => completed (k_dir k)) (fun k => Some (completed (k_elecv k))) (q_int r) /\
               NoDup (q :: leak_blocks ls) /\ all_free s (q :: leak_blocks ls) /\
               same_memory_except ((q :: leak_blocks ls) ++ [lp; np]) s s')
          \/ ok = false /\ (exists k, orc s k = false) /\ failed err POLYCAP_ERROR_MEMORY [lp; np] s s') s.
Proof.
  intros s eff im pen peff src p1 p2 p3 r lp np err W R [ND Hv] Le Rf Hr. eapply get_intleak_ok; eauto.
  inversion ND as [|? ? n1 _]; subst. nin_split n1. assumption.
Qed.

(** External leaks are handed out without electric vectors: that part is not initialised. *)
Theorem C95_external_leaks :
  forall (s : st T) eff im pen peff src p1 p2 p3 r lp np err,
    wf s -> result_object s eff im pen peff src p1 p2 p3 r ->
    out_variables s err (result_blocks eff im pen peff p1 p2 p3) [lp; np] ->
    legal_err s err -> reports_fit err s ->
    q_ext r <> [] ->
    wp (get_extleak_data (Some eff) (Some lp) (Some np) err)
       (fun ok s' =>
          ok = true /\ mem s' np = Some [Vint (Z.of_nat (List.length (q_ext r)))] /\
            (exists q ls, mem s' lp = Some [Vptr (Some q)] /\
               leak_records s' q ls (fun k => completed (k_dir k)) (fun _ => None) (q_ext r) /\
               NoDup (q :: leak_blocks ls) /\ all_free s (q :: leak_blocks ls) /\
               same_memory_except ((q :: leak_blocks ls) ++ [lp; np]) s s')
          \/ ok = false /\ (exists k, orc s k = false) /\ failed err POLYCAP_ERROR_MEMORY [lp; np] s s') s.
Proof.
  intros s eff im pen peff src p1 p2 p3 r lp np err W R [ND Hv] Le Rf Hr. eapply get_extleak_ok; eauto.
  inversion ND as [|? ? n1 _]; subst. nin_split n1. assumption.
Qed.

(** Energies and efficiencies, provided the two allocations succeed ... *)
Theorem C95_energies :
  forall (s : st T) eff im pen peff src p1 p2 p3 r np o1 o2 err,
    wf s -> result_object s eff im pen peff src p1 p2 p3 r ->
    out_variables s err (result_blocks eff im pen peff p1 p2 p3) [np; o1; o2] ->
    q_energies r <> [] -> orc s (cnt s) = true -> orc s (S (cnt s)) = true ->
    wp (get_data (Some eff) (Some np) (Some o1) (Some o2) err)
       (fun ok s' => ok = true /\ mem s' np = Some [Vint (Z.of_nat (List.length (q_energies r)))] /\
          exists l1 l2, mem s' o1 = Some [Vptr (Some l1)] /\ mem s' o2 = Some [Vptr (Some l2)] /\ l1 <> l2 /\
            dbl_array s' l1 (q_energies r) /\ dbl_array s' l2 (q_effs r) /\ all_free s [l1; l2] /\
            same_memory_except ([l1; l2] ++ [np; o1; o2]) s s') s.
Proof.
  intros s eff im pen peff src p1 p2 p3 r np o1 o2 err W R [ND Hv] Hne O1 O2. eapply get_data_ok; eauto.
  intros l Hl. destruct (Hv l Hl) as (A & B & _). auto.
Qed.

(** ... and undefined behaviour instead of an error report when the first one fails. *)
Theorem C45_energies_out_of_memory_refuted :
  forall (s : st T) eff im pen peff src p1 p2 p3 r np o1 o2 err,
    wf s -> result_object s eff im pen peff src p1 p2 p3 r ->
    out_variables s err (result_blocks eff im pen peff p1 p2 p3) [np; o1; o2] ->
    orc s (cnt s) = false ->
    get_data (Some eff) (Some np) (Some o1) (Some o2) err s = UB.
Proof.
  intros s eff im pen peff src p1 p2 p3 r np o1 o2 err W R [ND Hv] O1. eapply get_data_oom; eauto.
  intros l Hl. destruct (Hv l Hl) as (A & B & _). auto.
Qed.

(** Refusals.  No result object: false, INVALID_ARGUMENT, nothing else changes, whatever the
    other arguments. *)
Theorem C95_null_result :
  forall (s : st T) nsp nxp nep o1 o2 o3 o4 o5 o6 err, wf s -> legal_err s err -> report_fits err s ->
    (forall g, In g [fun e => get_start_data e nsp nxp o1 o2 o3 o4 err; fun e => get_exit_data e nxp o1 o2 o3 o4 o5 nep o6 err;
                     fun e => get_extleak_data e o1 nxp err; fun e => get_intleak_data e o1 nxp err; fun e => get_data e nep o1 o2 err] ->
       wp (g NULL) (fun ok s' => ok = false /\ failed err POLYCAP_ERROR_INVALID_ARGUMENT [] s s') s).
Proof.
  intros s nsp nxp nep o1 o2 o3 o4 o5 o6 err W Le Rf g Hg.
  pose proof (getters_null_eff nsp nxp nep o1 o2 o3 o4 o5 o6 err s W Le Rf) as F.
  inversion F as [|? ? F1 G1]; subst. inversion G1 as [|? ? F2 G2]; subst. inversion G2 as [|? ? F3 G3]; subst. inversion G3 as [|? ? F4 G4]; subst.
  cbn [In] in Hg. destruct Hg as [<-|[<-|[<-|[<-|[<-|[]]]]]]; auto. apply get_data_null_eff; auto.
Qed.

(** A result object without recorded events. *)
Theorem C95_no_images :
  forall (s : st T) nsp nxp nep o1 o2 o3 o4 o5 o6 err eff k pen peff src, wf s -> legal_err s err -> report_fits err s ->
    mem s eff = Some [Vint k; Vptr pen; Vptr peff; Vptr NULL; Vptr src] ->
    (forall g, In g [fun e => get_start_data e nsp nxp o1 o2 o3 o4 err; fun e => get_exit_data e nxp o1 o2 o3 o4 o5 nep o6 err;
                     fun e => get_extleak_data e o1 nxp err; fun e => get_intleak_data e o1 nxp err] ->
       wp (g (Some eff)) (fun ok s' => ok = false /\ failed err POLYCAP_ERROR_INVALID_ARGUMENT [] s s') s).
Proof.
  intros s nsp nxp nep o1 o2 o3 o4 o5 o6 err eff k pen peff src W Le Rf E g Hg.
  pose proof (getters_null_images nsp nxp nep o1 o2 o3 o4 o5 o6 err s eff k pen peff src W Le Rf E) as F.
  inversion F as [|? ? F1 G1]; subst. inversion G1 as [|? ? F2 G2]; subst. inversion G2 as [|? ? F3 G3]; subst. inversion G3 as [|? ? F4 G4]; subst.
  cbn [In] in Hg. destruct Hg as [<-|[<-|[<-|[<-|[]]]]]; auto.
Qed.

(** No photon was started or none transmitted: no start data. *)
Theorem C95_no_start_data :
  forall (s : st T) eff im pen peff src p1 p2 p3 r nsp nxp o1 o2 o3 o4 err,
    wf s -> legal_err s err -> report_fits err s -> result_object s eff im pen peff src p1 p2 p3 r ->
    out_variables s err (result_blocks eff im pen peff p1 p2 p3) [nsp; nxp] ->
    q_started r = 0%Z \/ q_rows r = [] ->
    wp (get_start_data (Some eff) (Some nsp) (Some nxp) o1 o2 o3 o4 err)
       (fun ok s' => ok = false /\ failed err POLYCAP_ERROR_INVALID_ARGUMENT [nsp; nxp] s s') s.
Proof.
  intros s eff im pen peff src p1 p2 p3 r nsp nxp o1 o2 o3 o4 err W Le Rf R [ND Hv] Hz.
  destruct (Hv nsp) as (V1 & B1 & X1); [cbn; auto|]. destruct (Hv nxp) as (V2 & B2 & X2); [cbn; auto|].
  eapply start_none; eauto. inversion ND as [|? ? n1 _]; subst. nin_split n1. assumption.
Qed.

(** No leaks: count 0, no array, and an error. *)
Theorem C95_no_leaks :
  forall (s : st T) eff im pen peff src p1 p2 p3 r lp np err,
    wf s -> legal_err s err -> report_fits err s -> result_object s eff im pen peff src p1 p2 p3 r ->
    out_variables s err (result_blocks eff im pen peff p1 p2 p3) [lp; np] ->
    (q_ext r = [] -> wp (get_extleak_data (Some eff) (Some lp) (Some np) err)
       (fun ok s' => ok = false /\ mem s' np = Some [Vint 0] /\ mem s' lp = Some [Vptr NULL] /\
          failed err POLYCAP_ERROR_INVALID_ARGUMENT [lp; np] s s') s) /\
    (q_int r = [] -> wp (get_intleak_data (Some eff) (Some lp) (Some np) err)
       (fun ok s' => ok = false /\ mem s' np = Some [Vint 0] /\ mem s' lp = Some [Vptr NULL] /\
          failed err POLYCAP_ERROR_INVALID_ARGUMENT [lp; np] s s') s).
Proof.
  intros s eff im pen peff src p1 p2 p3 r lp np err W Le Rf R [ND Hv].
  destruct (Hv lp) as (V1 & B1 & X1); [cbn; auto|]. destruct (Hv np) as (V2 & B2 & X2); [cbn; auto|].
  assert (Hd : lp <> np) by (inversion ND as [|? ? n1 _]; subst; nin_split n1; assumption).
  pose proof (lens s eff im pen peff src p1 p2 p3 r R) as (L1 & L2 & L3). destruct R as (_ & R2 & R3 & _).
  split; intros Hz; rewrite Hz in R3; eapply leak_none; eauto.
  - match goal with |- nth_error (_ :: _ :: ?L) _ = ?R => change (nth_error L 18 = R) end.
    rewrite nth_error_app2; rewrite map_length, L1; [|lia]. reflexivity.
  - match goal with |- nth_error (_ :: _ :: ?L) _ = ?R => change (nth_error L 26 = R) end.
    rewrite nth_error_app2; rewrite map_length, L1; [|lia].
    match goal with |- nth_error (_ :: ?L) _ = ?R => change (nth_error L 7 = R) end.
    rewrite nth_error_app2; rewrite map_length, L2; [|lia]. reflexivity.
Qed.

(** ** C65: external leaks have no electric vector *)
Theorem C65_external_leak_uninitialised_refuted :
  forall (s : st T) eff im pen peff src p1 p2 p3 r lp np err,
    wf s -> result_object s eff im pen peff src p1 p2 p3 r ->
    out_variables s err (result_blocks eff im pen peff p1 p2 p3) [lp; np] ->
    legal_err s err -> (forall k, orc s k = true) ->
    q_ext r <> [] ->
    wp (get_extleak_data (Some eff) (Some lp) (Some np) err)
       (fun ok s' => ok = true /\ exists q, mem s' lp = Some [Vptr (Some q)] /\
          forall i, i < List.length (q_ext r) -> exists l, load_ptr (Some q) i s' = Ok (Some l, s') /\
            load_dbl (Some l) 6 s' = UB /\ load_dbl (Some l) 7 s' = UB /\ load_dbl (Some l) 8 s' = UB) s.
Proof.
  intros s eff im pen peff src p1 p2 p3 r lp np err W R O Le Or Hr.
  eapply wp_mono; [eapply C95_external_leaks; eauto|].
  - intros k Hk. rewrite Or in Hk. discriminate.
  - intros ok s' [H|(_ & (k & Hk) & _)]; [|rewrite Or in Hk; discriminate].
    destruct H as (-> & _ & q & ls & H1 & (H2 & H3) & _). split; [reflexivity|]. exists q. split; [exact H1|].
    intros i Hi. destruct (nth_error_Some_ex (q_ext r) i Hi) as [k Hk].
    destruct (Forall2_nth _ _ _ _ _ H3 Hk) as (lw & E & (Lr & _)). exists (fst lw).
    split.
    + unfold load_ptr, load, bind. rewrite H2. rewrite nth_error_map, E. reflexivity.
    + unfold load_dbl, load, bind. rewrite Lr. cbn. repeat split.
Qed.

(** ** C66: releasing a result *)

(** polycap_transmission_efficiencies_free releases every block of the result and no other
    (in particular not the source it was made for). *)
Theorem C66_released :
  forall (s : st T) eff im pen peff src p1 p2 p3 r,
    result_object s eff im pen peff src p1 p2 p3 r -> NoDup (result_blocks eff im pen peff p1 p2 p3) ->
    wp (efficiencies_free (Some eff))
       (fun _ s' => all_free s' (result_blocks eff im pen peff p1 p2 p3) /\
          same_memory_except (result_blocks eff im pen peff p1 p2 p3) s s') s.
Proof. intros. eapply efficiencies_free_ok; eauto. Qed.
Theorem C66_null : forall s : st T, wp (efficiencies_free NULL) (fun _ s' => s' = s) s.
Proof. intros s. apply wp_ret. reflexivity. Qed.

Lemma blocks_away (s s' : st T) eff im pen peff src p1 p2 p3 r new outs :
  result_object s eff im pen peff src p1 p2 p3 r ->
  (forall l, In l outs -> ~ In l (result_blocks eff im pen peff p1 p2 p3)) -> all_free s new ->
  same_memory_except (new ++ outs) s s' ->
  result_object s' eff im pen peff src p1 p2 p3 r /\
  (forall l, In l (new ++ outs) -> ~ In l (result_blocks eff im pen peff p1 p2 p3)).
Proof.
  intros R Ho Hn X.
  assert (D : forall l, In l (new ++ outs) -> ~ In l (result_blocks eff im pen peff p1 p2 p3)).
  { intros l Hl Hb. apply in_app_or in Hl. destruct Hl as [Hl|Hl]; [|exact (Ho l Hl Hb)].
    destruct (RB_live s eff im pen peff src p1 p2 p3 r R l Hb) as [b E]. rewrite (Hn l Hl) in E. discriminate. }
  split; [|exact D]. eapply obj_keep; eauto. intros l Hl. apply X. intros K. exact (D l K Hl).
Qed.

(** What the getters handed out survives the release of the result object: here the exit
    data (every array, every row of weights). *)
Theorem C66_copies_survive :
  forall (s : st T) eff im pen peff src p1 p2 p3 r nxp nep o1 o2 o3 o4 o5 o6 err,
    wf s -> result_object s eff im pen peff src p1 p2 p3 r -> NoDup (result_blocks eff im pen peff p1 p2 p3) ->
    out_variables s err (result_blocks eff im pen peff p1 p2 p3) [nxp; nep; o1; o2; o3; o4; o5; o6] ->
    legal_err s err -> (forall k, orc s k = true) -> q_started r <> 0%Z ->
    wp (bind (get_exit_data (Some eff) (Some nxp) (Some o1) (Some o2) (Some o3) (Some o4) (Some o5) (Some nep) (Some o6) err)
          (fun _ => efficiencies_free (Some eff)))
       (fun _ s' => all_free s' (result_blocks eff im pen peff p1 p2 p3) /\
          exists l1 l2 l3 l4 l5 l6 lw,
            mem s' o1 = Some [Vptr (Some l1)] /\ mem s' o2 = Some [Vptr (Some l2)] /\
            mem s' o3 = Some [Vptr (Some l3)] /\ mem s' o4 = Some [Vptr (Some l4)] /\
            mem s' o5 = Some [Vptr (Some l5)] /\ mem s' o6 = Some [Vptr (Some l6)] /\
            vec_array s' l1 (List.map r_exit (q_rows r)) /\
            vec_array s' l2 (List.map (fun x => completed (r_exit_dir x)) (q_rows r)) /\
            vec_array s' l3 (List.map (fun x => completed (r_exit_elecv x)) (q_rows r)) /\
            int_array s' l4 (List.map r_nrefl (q_rows r)) /\
            dbl_array s' l5 (List.map r_travel (q_rows r)) /\
            dbl_arrays s' l6 lw (List.map r_weights (q_rows r)) /\
            same_memory_except (result_blocks eff im pen peff p1 p2 p3 ++ ([l1; l2; l3; l4; l5; l6] ++ lw) ++
              [nxp; nep; o1; o2; o3; o4; o5; o6]) s s') s.
Proof.
  intros s eff im pen peff src p1 p2 p3 r nxp nep o1 o2 o3 o4 o5 o6 err W R NDB O Le Or Hs.
  apply wp_bind. eapply wp_mono; [eapply C95_exit_data; eauto|].
  { intros k Hk. rewrite Or in Hk. discriminate. }
  intros ok s1 [H|(_ & (k & Hk) & _)]; [|rewrite Or in Hk; discriminate].
  destruct H as (_ & _ & _ & l1 & l2 & l3 & l4 & l5 & l6 & lw & H1 & H2 & H3 & H4 & H5 & H6 & A1 & A2 & A3 & A4 & A5 & A6 & ND & AF & X).
  destruct (blocks_away s s1 eff im pen peff src p1 p2 p3 r _ _ R (fun l Hl => proj1 (proj2 (proj2 O l Hl))) AF X) as [R1 D].
  eapply wp_mono; [eapply C66_released; [exact R1|exact NDB]|].
  intros _ s2 [F2 X2]. split; [exact F2|].
  assert (K : forall l, In l (([l1; l2; l3; l4; l5; l6] ++ lw) ++ [nxp; nep; o1; o2; o3; o4; o5; o6]) -> mem s2 l = mem s1 l).
  { intros l Hl. apply X2. apply D. exact Hl. }
  assert (KL : forall l, In l [l1; l2; l3; l4; l5; l6] -> mem s2 l = mem s1 l).
  { intros l Hl. apply K. apply in_or_app. left. apply in_or_app. left. exact Hl. }
  assert (KO : forall l, In l [nxp; nep; o1; o2; o3; o4; o5; o6] -> mem s2 l = mem s1 l).
  { intros l Hl. apply K. apply in_or_app. right. exact Hl. }
  exists l1, l2, l3, l4, l5, l6, lw.
  unfold vec_array, int_array, dbl_array, dbl_arrays in *.
  do 6 (split; [rewrite KO by (cbn; auto 10); assumption|]).
  do 5 (split; [rewrite KL by (cbn; auto 10); assumption|]).
  split.
  - destruct A6 as [B1 B2]. split; [rewrite KL by (cbn; auto 10); exact B1|].
    assert (KW : forall l, In l lw -> mem s2 l = mem s1 l).
    { intros l Hl. apply K. apply in_or_app. left. apply in_or_app. right. exact Hl. }
    clear - B2 KW. induction B2; constructor; [unfold dbl_array in *; rewrite KW by (cbn; auto); assumption|].
    apply IHB2. intros. apply KW. cbn; auto.
  - intros l Hl. apply not_in_app in Hl. destruct Hl as [Hl1 Hl2]. rewrite X2 by exact Hl1. apply X. exact Hl2.
Qed.

(** ** Any result can be laid out in memory: the hypotheses above are met *)
Definition layout (r : result T) : list (list (val T)) :=
  repeat [Vundef] 12 ++
  [[Vint (Z.of_nat (List.length (q_energies r))); Vptr (Some 14); Vptr (Some 15); Vptr (Some 13); Vptr NULL];
   Vint (q_started r) :: Vint (Z.of_nat (List.length (q_rows r))) :: List.map (fun l => Vptr (Some l)) (seq 16 18) ++
     Vint (Z.of_nat (List.length (q_ext r))) :: List.map (fun l => Vptr (Some l)) (seq 34 7) ++
     Vint (Z.of_nat (List.length (q_int r))) :: List.map (fun l => Vptr (Some l)) (seq 41 9);
   List.map Vdbl (q_energies r); List.map Vdbl (q_effs r)] ++
  row_columns (q_rows r) ++ ext_columns (q_ext r) ++ int_columns (q_int r).
Definition laid_out (r : result T) (oracle : nat -> bool) : st T := mkSt (fun l => nth_error (layout r) l) 50 oracle 0.

Definition laid_out_ok (r : result T) oracle :
  regular r ->
  let s := laid_out r oracle in
  let P1 := List.map Some (seq 16 18) in let P2 := List.map Some (seq 34 7) in let P3 := List.map Some (seq 41 9) in
  wf s /\ result_object s 12 13 (Some 14) (Some 15) NULL P1 P2 P3 r /\
  NoDup (result_blocks 12 13 (Some 14) (Some 15) P1 P2 P3) /\
  (forall outs, NoDup outs -> (forall l, In l outs -> l < 12) -> out_variables s NULL (result_blocks 12 13 (Some 14) (Some 15) P1 P2 P3) outs).
Proof.
  intros Rg s P1 P2 P3.
  assert (LB : result_blocks 12 13 (Some 14) (Some 15) P1 P2 P3 = seq 14 36 ++ [13; 12]) by reflexivity.
  split; [|split; [|split]].
  - intros l Hl. cbn [mem nxt s laid_out] in *. apply nth_error_None. exact Hl.
  - split; [exact Rg|]. split; [reflexivity|]. split; [reflexivity|].
    split; [exists []; rewrite app_nil_r; reflexivity|]. split; [exists []; rewrite app_nil_r; reflexivity|].
    split; [|split]; repeat (constructor; [exists []; rewrite app_nil_r; reflexivity|]); constructor.
  - rewrite LB. apply (NoDup_count_occ' Nat.eq_dec). intros l Hl. clear - Hl.
    cbn in Hl. repeat (destruct Hl as [<-|Hl]; [reflexivity|]). destruct Hl.
  - intros outs ND Ho. split; [exact ND|]. intros l Hl. specialize (Ho l Hl). split; [|split; [|discriminate]].
    + do 12 (destruct l as [|l]; [eexists; reflexivity|]). lia.
    + rewrite LB. rewrite in_app_iff, in_seq. cbn [In]. lia.
Qed.

(** One photon transmitted, one leak of either kind, two energies. *)
Definition demo_result : result T :=
  mkResult 3 [mkRow (#0, #1)%num (#1, #0)%num (#0, #0)%num (#1, #0)%num (mkV #1 #1 #2)%num (#0, #0)%num (#0, #1)%num 4 (#5)%num [#1; #2]%num]
    [mkLeakRow (mkV #1 #2 #3)%num (#0, #0)%num (#1, #0)%num 1 [#1; #0]%num] [mkLeakRow (mkV #3 #2 #1)%num (#0, #0)%num (#0, #1)%num 2 [#0; #1]%num]
    [#10; #20]%num [#1; #0]%num.
Theorem C95_example :
  let s := laid_out demo_result (fun _ => true) in
  let P1 := List.map Some (seq 16 18) in let P2 := List.map Some (seq 34 7) in let P3 := List.map Some (seq 41 9) in
  wf s /\ result_object s 12 13 (Some 14) (Some 15) NULL P1 P2 P3 demo_result /\
  NoDup (result_blocks 12 13 (Some 14) (Some 15) P1 P2 P3) /\
  out_variables s NULL (result_blocks 12 13 (Some 14) (Some 15) P1 P2 P3) [0; 1; 2; 3; 4; 5; 6; 7] /\
  legal_err s NULL /\ reports_fit NULL s /\ q_started demo_result <> 0%Z /\ q_rows demo_result <> [] /\ q_ext demo_result <> [] /\ q_int demo_result <> [].
Proof.
  intros s P1 P2 P3. destruct (laid_out_ok demo_result (fun _ => true)) as (A & B & C & D).
  { repeat split; cbn; auto. }
  split; [exact A|]. split; [exact B|]. split; [exact C|]. split.
  { apply D; [repeat constructor; cbn; lia|]. intros l Hl. cbn in Hl. lia. }
  split; [exact I|]. split; [intros k _; left; reflexivity|]. repeat split; discriminate.
Qed.

(** A failing getter leaves arrays behind: here start data, when the second allocation
    fails.  Nothing in the documentation says that the caller has to release anything then. *)
Theorem C45_failure_leaves_arrays_refuted :
  let s := laid_out demo_result (fun k => negb (Nat.eqb k 1)) in
  exists s', get_start_data (Some 12) (Some 0) (Some 1) (Some 2) (Some 3) (Some 4) (Some 5) NULL s = Ok (false, s') /\
    mem s 50 = None /\ mem s' 50 <> None.
Proof.
  intros s.
  assert (H : match get_start_data (Some 12) (Some 0) (Some 1) (Some 2) (Some 3) (Some 4) (Some 5) NULL s with
              | Ok (b, s') => negb b && match mem s' 50 with Some _ => true | None => false end | UB => false end = true) by (vm_compute; reflexivity).
  destruct (get_start_data (Some 12) (Some 0) (Some 1) (Some 2) (Some 3) (Some 4) (Some 5) NULL s) as [[[|] s']|]; try discriminate H.
  exists s'. split; [reflexivity|]. split; [reflexivity|]. destruct (mem s' 50); [discriminate|discriminate H].
Qed.

End Generic.

(** ** Directions are recovered, electric vectors are not *)
Local Open Scope R_scope.

(** Over the reals: a unit vector that points downstream is recovered from its x and y. *)
Theorem C95_directions : forall v : vec3 R,
  vx v * vx v + vy v * vy v + vz v * vz v = 1 -> 0 <= vz v -> completed (vx v, vy v) = v.
Proof.
  intros [x y z] H Hz. unfold completed. cbn [fst snd vx vy vz] in *. f_equal. rnum.
  replace (1 - x * x - y * y) with (z * z) by lra. apply sqrt_square. exact Hz.
Qed.
(** A vector that points upstream is not: it comes back mirrored. *)
Theorem C45_upstream_refuted : forall v : vec3 R,
  vx v * vx v + vy v * vy v + vz v * vz v = 1 -> vz v < 0 -> completed (vx v, vy v) = mkV (vx v) (vy v) (- vz v).
Proof.
  intros [x y z] H Hz. unfold completed. cbn [fst snd vx vy vz] in *. f_equal. rnum.
  replace (1 - x * x - y * y) with (- z * - z) by lra. apply sqrt_square. lra.
Qed.

(** Electric vectors are rounded to whole numbers when they are recorded (C30, C60), so what the
    getter returns is not the electric vector, already for a vector in the xy plane ... *)
Theorem C65_electric_vector_refuted :
  exists e : vec3 R, vx e * vx e + vy e * vy e + vz e * vz e = 1 /\ 0 <= vz e /\
    completed (nround (vx e), nround (vy e)) <> e.
Proof.
  exists (mkV (3/5) 0 (4/5)). cbn [vx vy vz]. split; [lra|]. split; [lra|].
  unfold completed. cbn [fst snd]. intros E. injection E as E1 _ _. revert E1. cbn [nround RNum].
  destruct (R_round_is_int (3/5)) as [z ->]. intros E1.
  assert (5 * z = 3)%Z by (apply eq_IZR; rewrite mult_IZR; lra). lia.
Qed.
(** ... and a number is returned at all only if at most one component was at least 1/2: over the
    reals z^2 would have to be -1 ... *)
Theorem C65_no_square_root_refuted : forall e : vec3 R,
  (1/2 <= Rabs (vx e) <= 1 -> 1/2 <= Rabs (vy e) <= 1 ->
   1 - nround (vx e) * nround (vx e) - nround (vy e) * nround (vy e) <= -1)%R.
Proof.
  intros e Hx Hy. cbn [nround RNum].
  assert (G : forall x, 1/2 <= Rabs x <= 1 -> 1 <= R_round x * R_round x).
  { intros x Hx'. pose proof (R_round_close x) as C. destruct (R_round_is_int x) as [z Ez]. rewrite Ez in *.
    assert (z <> 0)%Z.
    { intros ->. unfold R_round in Ez. destruct (Rle_dec 0 x) as [P|P].
      - rewrite Rabs_right in Hx' by lra. apply eq_IZR in Ez. pose proof (base_Int_part (x + / 2)) as [B1 B2]. rewrite Ez in *. lra.
      - rewrite Rabs_left in Hx' by lra. rewrite <- opp_IZR in Ez. apply eq_IZR in Ez.
        assert (Int_part (- x + / 2) = 0)%Z by lia. pose proof (base_Int_part (- x + / 2)) as [B1 B2]. rewrite H in *. lra. }
    rewrite <- mult_IZR. apply IZR_le. nia. }
  pose proof (G _ Hx). pose proof (G _ Hy). lra.
Qed.
(** ... and the binary64 computation gives NaN for the electric vector (0.6, 0.6, ...). *)
Theorem C65_nan_refuted : forall lm,
  let F := FNum lm in
  let e := @completed float F (@nround float F 0.6%float, @nround float F 0.6%float) in
  PrimFloat.eqb (vz e) (vz e) = false.
Proof. intros lm. vm_compute. reflexivity. Qed.

Print Assumptions C95_exit_data.
Print Assumptions C66_copies_survive.
Print Assumptions C65_electric_vector_refuted.
