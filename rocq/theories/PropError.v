(** * Property theorems: error reporting (C01, C02)

    Reading guide: [wp m Q s] says that running [m] from memory [s] has no
    undefined behaviour and ends in a state satisfying [Q]; the specification
    vocabulary (slot_holds, error_object, same_memory, ...) is in SpecHeap.v;
    [do_reports err rs] performs the reports [rs] one after the other, each
    through polycap_set_error (true) or polycap_set_error_literal (false). *)
From Coq Require Import ZArith List Bool Lia String.
From Verif Require Import Mem SpecHeap ErrorModel ErrorProofs.
Import ListNotations.
Local Open Scope string_scope.

(** C01: an empty slot ends up with the first report, whatever follows. *)
Theorem C01_first_error_wins :
  forall (T : Type) (err : loc) (first : report) (rest : list report) (s : st T),
    wf s -> memory_available s -> slot_holds s err NULL ->
    wp (do_reports (Some err) (first :: rest))
       (fun _ s' => exists e t,
          slot_holds s' err (Some e) /\
          error_object s' e t (fst (snd first)) (snd (snd first)) /\
          mem s e = None /\ mem s t = None /\
          same_memory_except [err; e; t] s s') s.
Proof. intros; now apply reports_empty. Qed.

(** C01: an occupied slot is untouched (nothing at all changes in memory). *)
Theorem C01_occupied_slot_untouched :
  forall (T : Type) (err e : loc) (reports : list report) (s : st T),
    wf s -> memory_available s -> slot_holds s err (Some e) ->
    wp (do_reports (Some err) reports) (fun _ s' => same_memory s s') s.
Proof.
  intros. eapply wp_mono; [now apply (reports_occupied err e)|]. cbn. tauto.
Qed.

(** C01: a NULL error argument makes every report a no-op. *)
Theorem C01_null_argument_ignored :
  forall (T : Type) (reports : list report) (s : st T),
    wp (do_reports NULL reports) (fun _ s' => s' = s) s.
Proof. intros; apply reports_null. Qed.

(** C02: any sequence of reports, propagations, copies and clears on a client's
    error variables, followed by clearing every variable, has no undefined
    behaviour (in particular no double free) and gives back exactly the memory of
    the beginning: nothing lost, nothing released that was not ours. *)
Theorem C02_error_ownership :
  forall (T : Type) (vars : list loc) (history : list eop) (s : st T),
    NoDup vars -> wf s -> memory_available s ->
    (forall l, In l vars -> slot_holds s l NULL) ->
    wp (bind (do_eops vars history) (fun _ =>
          do_eops vars (List.map OClear (List.rev (seq 0 (List.length vars))))))
       (fun _ s' => same_memory s s') s.
Proof. intros; now apply history_no_leak. Qed.

(** C02: a copy has the same code and text in fresh memory; the original is unchanged. *)
Theorem C02_copy_is_deep :
  forall (T : Type) (e t : loc) (code : Z) (text : string) (s : st T),
    wf s -> memory_available s -> error_object s e t code text ->
    wp (error_copy (Some e))
       (fun p s' => exists e' t', p = Some e' /\ error_object s' e' t' code text /\
          mem s e' = None /\ mem s t' = None /\ same_memory_except [e'; t'] s s') s.
Proof. intros. now apply (copy_spec e t). Qed.

(** C02: propagating hands the object over to an empty variable (the object is untouched,
    only the variable changes); into NULL or into an occupied variable the object is
    released, with its text, and nothing else changes. *)
Theorem C02_propagate :
  forall (T : Type) (dest : ptr) (e t : loc) (code : Z) (text : string) (s : st T),
    wf s -> memory_available s -> error_object s e t code text ->
    match dest with
    | None => wp (propagate_error dest (Some e))
                 (fun _ s' => mem s' e = None /\ mem s' t = None /\ same_memory_except [e; t] s s') s
    | Some d =>
        (slot_holds s d NULL ->
           wp (propagate_error dest (Some e))
              (fun _ s' => slot_holds s' d (Some e) /\ error_object s' e t code text /\
                           same_memory_except [d] s s') s) /\
        (forall old, slot_holds s d (Some old) -> d <> e -> d <> t ->
           wp (propagate_error dest (Some e))
              (fun _ s' => slot_holds s' d (Some old) /\ mem s' e = None /\ mem s' t = None /\
                           same_memory_except [e; t] s s') s)
    end.
Proof.
  intros T dest e t code text s Hwf Hma He.
  assert (HF : forall Q : unit -> st T -> Prop,
    (forall s', (forall l, mem s' l = upd (upd (mem s) t None) e None l) -> Q tt s') ->
    wp (error_free (Some e)) Q s).
  { intros Q HQ. eapply wp_error_free; eauto. }
  assert (HX : forall s' : st T, (forall l, mem s' l = upd (upd (mem s) t None) e None l) ->
     mem s' e = None /\ mem s' t = None /\ same_memory_except [e; t] s s').
  { intros s' Hm. destruct He as (_ & _ & Hne). repeat split.
    - rewrite Hm. apply upd_same.
    - rewrite Hm, upd_other by auto. apply upd_same.
    - intros l Hl. cbn in Hl. rewrite Hm, !upd_other by (intro; subst; tauto). reflexivity. }
  destruct dest as [d|].
  - split.
    + intros Hd. unfold propagate_error. apply wp_bind.
      eapply wp_load_ptr; [exact Hd | reflexivity |].
      eapply wp_store; [exact Hd | cbn; lia |]. cbn [set_nth].
      destruct He as (H1 & H2 & H3).
      assert (d <> e) by (intros ->; unfold slot_holds in Hd; congruence).
      assert (d <> t) by (intros ->; unfold slot_holds in Hd; congruence).
      repeat split; auto.
      * unfold slot_holds. cbn. apply upd_same.
      * cbn. rewrite upd_other by auto. exact H1.
      * cbn. rewrite upd_other by auto. exact H2.
      * intros l Hl. cbn in *. rewrite upd_other by (intro; subst; tauto). reflexivity.
    + intros old Hd Hde Hdt. unfold propagate_error. apply wp_bind.
      eapply wp_load_ptr; [exact Hd | reflexivity |]. apply wp_bind.
      eapply wp_load_ptr; [apply He | reflexivity |]. apply HF. intros s' Hm. split; [|now apply HX].
      unfold slot_holds. rewrite Hm, !upd_other by auto. exact Hd.
  - unfold propagate_error. apply HF. exact HX.
Qed.

(** C02: the comparison with a code answers "yes" for the object's own code only, "no" for
    NULL, and changes nothing. *)
Theorem C02_matches :
  forall (T : Type) (e t : loc) (code : Z) (text : string) (wanted : Z) (s : st T),
    error_object s e t code text ->
    wp (error_matches (Some e) wanted) (fun b s' => (b = true <-> wanted = code) /\ s' = s) s /\
    wp (error_matches NULL wanted) (fun b s' => b = false /\ s' = s) s.
Proof.
  intros T e t code text wanted s (H1 & _). split.
  - unfold error_matches. apply wp_bind. eapply wp_load_int; [exact H1 | reflexivity |].
    apply wp_ret. split; auto. rewrite Z.eqb_eq. split; congruence.
  - unfold error_matches. now apply wp_ret.
Qed.

(** C02: releasing an error gives back its object and its text, nothing else. *)
Theorem C02_free :
  forall (T : Type) (e t : loc) (code : Z) (text : string) (s : st T),
    wf s -> memory_available s -> error_object s e t code text ->
    wp (error_free (Some e))
       (fun _ s' => mem s' e = None /\ mem s' t = None /\ same_memory_except [e; t] s s') s /\
    wp (error_free NULL) (fun _ s' => s' = s) s.
Proof.
  intros T e t code text s Hwf Hma He. split; [|now apply wp_ret].
  exact (C02_propagate T None e t code text s Hwf Hma He).
Qed.

(** What does not hold: with memory exhausted, reporting is undefined behaviour. *)
Theorem C01_report_without_memory_refuted :
  exists (err : loc) (s : st unit),
    wf s /\ slot_holds s err NULL /\
    do_report (Some err) (false, (POLYCAP_ERROR_MEMORY, "no memory")) s = UB.
Proof.
  exists 0, (mkSt (fun l => if Nat.eqb l 0 then Some [Vptr NULL] else None) 1 (fun _ => false) 0).
  repeat split; intros; cbn in *; auto.
  unfold wf; cbn. intros [|l] H; auto; lia.
Qed.

(** *** The hypotheses are met: two variables, a history with every operation. *)
Definition demo_state : st unit :=
  mkSt (fun l => if Nat.ltb l 2 then Some [Vptr NULL] else None) 2 (fun _ => true) 0.

Example demo_ok : wf demo_state /\ memory_available demo_state /\
  slot_holds demo_state 0 NULL /\ slot_holds demo_state 1 NULL.
Proof.
  repeat split. unfold wf, demo_state; cbn -[Nat.ltb]. intros l H.
  destruct (Nat.ltb_spec l 2); [lia | reflexivity].
Qed.

Example demo_first_wins :
  match do_reports (T := unit) (Some 0) [(true, (1%Z, "first")); (false, (2%Z, "second"))] demo_state with
  | Ok (_, s') => mem s' 0 = Some [Vptr (Some 2)] /\ mem s' 2 = Some [Vint 1; Vptr (Some 3)] /\
                  mem s' 3 = Some [Vstr "first"] /\ mem s' 4 = None
  | UB => False
  end.
Proof. vm_compute. auto. Qed.

Example demo_history :
  match bind (do_eops [0; 1] [OReport 0 (true, (1%Z, "a")); OCopy 0 1; OReport 1 (false, (2%Z, "b")); OClear 0; OPropagate 0 1])
             (fun _ => do_eops [0; 1] (List.map OClear (List.rev (seq 0 2)))) demo_state with
  | Ok (_, s') => forall l, l < 20 -> mem s' l = mem demo_state l
  | UB => False
  end.
Proof.
  vm_compute. intros l H. do 20 (destruct l; [reflexivity|]). lia.
Qed.

Print Assumptions C01_first_error_wins.
Print Assumptions C01_occupied_slot_untouched.
Print Assumptions C01_null_argument_ignored.
Print Assumptions C01_report_without_memory_refuted.
Print Assumptions C02_error_ownership.
Print Assumptions C02_copy_is_deep.
Print Assumptions C02_propagate.
Print Assumptions C02_matches.
Print Assumptions C02_free.
