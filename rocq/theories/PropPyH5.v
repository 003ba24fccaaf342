(** * Property theorems: TransmissionEfficiencies.write_hdf5 of python/polycap.pyx (C145)

    [py_write_hdf5 v tabs e eff f] is the method on an object whose C result is [eff], with [e] its
    variable [error]; [wpW], [h5_works], [result_file] ... as in PropH5.v. *)
From Coq Require Import ZArith List Bool Lia String.
From Verif Require Import Num Mem SpecHeap ErrorModel ErrorProofs ProfileModel ProfileProofs Geometry ConsModel HeapLib
  DescProofs SpecPhoton PhotProofs ResultModel SpecResult ResultProofs H5Lib H5Model SpecH5 H5Proofs H5Write H5Table H5Main H5File H5All PropH5 PyModel PropPython.
Import ListNotations.
Local Notation ret := Mem.ret.
Local Notation bind := Mem.bind.

Section Py.
Context {T : Type} {N : Num T}.
Implicit Types (s : st T) (w : hw T).

(** python/polycap.pyx:454-462.  The variable [error] (line 460) is NULL in the state the method
    starts in; the value of the C function is not looked at (line 461). *)
Definition py_write_hdf5 (v : h5version) (tabs : ptr) (e : loc) (eff : ptr) (f : string) : W T (pyres unit) :=
  bindW (write_hdf5 v tabs eff (Some f) (Some e)) (fun _ =>
  lift (bind (load_ptr (Some e) 0) (fun err => PyModel.set_exception err (ret (Value tt))))).

(** Either the method returns, and then the file is complete -- although the C function can return true
    when it is not (C46_true_though_incomplete_refuted) --, or it raises, because the library failed, an
    exception of the class that belongs to what went wrong, and the file is not complete.  Whatever was in
    memory stays as it was, other files are not touched. *)
Theorem C145_returns_or_raises :
  forall (v : h5version) w s (tabs e eff im src : loc) (f : string) pen peff p1 p2 p3 r i,
    wf s -> slot_holds s e NULL -> tables_ready v tabs s -> h5_explains w -> h5_ids w -> file_open w f = false -> memory_available s ->
    result_object s eff im pen peff (Some src) p1 p2 p3 r -> source_input s src i ->
    wpW (py_write_hdf5 v (Some tabs) e (Some eff) f)
        (fun x w' s' =>
           (forall g, g <> f -> h_disk w' g = h_disk w g) /\ (forall l b, mem s l = Some b -> l <> e -> mem s' l = Some b) /\
           ( (x = Value tt /\ same_memory s s' /\ h_open w' = h_open w /\ h_disk w' f = Some (result_file r i))
             \/
             (~ h5_works w /\ (exists c m, x = Raised (class_of c) m /\ code_explained v w c) /\
              ((h_disk w' f = None /\ file_open w' f = true) \/ same_library w w')))) w s.
Proof.
  intros v w s tabs e eff im src f pen peff p1 p2 p3 r i Wf Hn Tr EX Ids Hop MA RO SI. unfold py_write_hdf5. apply wpW_bind.
  eapply wpW_mono; [eapply (C96_write_hdf5 v w s tabs eff im src (Some e) f); eauto; exists NULL; exact Hn|].
  cbn beta. intros ok w' s' (O & [(-> & Sm & Ho & Hd)|(Nw & (c & Ec & Fl) & D)]); apply wpW_lift.
  - apply wp_bind. unfold slot_holds in Hn. eapply wp_load_ptr; [rewrite <- Sm in Hn; exact Hn|reflexivity|]. cbn [PyModel.set_exception]. apply wp_ret.
    split; [intros g Hg; apply O; exact Hg|]. split; [intros l b Hl _; rewrite Sm; exact Hl|]. left. auto.
  - destruct Fl as [F1 F2]. destruct (F2 e eq_refl) as [F3 _]. destruct (F3 Hn) as (p & t & m & Sl & Eo & Fresh).
    apply wp_bind. unfold slot_holds in Sl. eapply wp_load_ptr; [exact Sl|reflexivity|].
    destruct (C68_errors_raise unit (ret (Value tt)) s' p t c m) as [_ H]. eapply wp_mono; [apply H; exact Eo|].
    cbn beta. intros x s'' (-> & _ & _ & X). split; [intros g Hg; apply O; exact Hg|]. split.
    + intros l b Hl Ne. rewrite <- (F1 l b Hl); [|intros []|congruence]. apply X. intros [<-|[<-|[]]].
      * rewrite (Fresh p) in Hl; [discriminate|auto|intros []].
      * rewrite (Fresh t) in Hl; [discriminate|auto|intros []].
    + right. split; [intros K; apply Nw; auto|]. split; [exists c, m; auto|]. destruct D as [D|[_ D]]; auto.
Qed.

(** With a library that works: the file. *)
Theorem C145_file :
  forall (v : h5version) w s (tabs e eff im src : loc) (f : string) pen peff p1 p2 p3 r i,
    wf s -> slot_holds s e NULL -> tables_ready v tabs s -> h5_works w -> h5_explains w -> h5_ids w -> file_open w f = false -> memory_available s ->
    result_object s eff im pen peff (Some src) p1 p2 p3 r -> source_input s src i ->
    wpW (py_write_hdf5 v (Some tabs) e (Some eff) f)
        (fun x w' s' => x = Value tt /\ h_disk w' f = Some (result_file r i) /\ same_memory s s' /\ h_open w' = h_open w /\
           (forall g, g <> f -> h_disk w' g = h_disk w g)) w s.
Proof.
  intros. eapply wpW_mono; [eapply C145_returns_or_raises; eauto|].
  cbn beta. intros x w' s' (O & _ & [(-> & Sm & Ho & Hd)|(Nw & _)]); [|contradiction]. auto.
Qed.

(** An object without a result (TransmissionEfficiencies() itself): ValueError, and nothing has changed. *)
Theorem C145_no_result :
  forall (v : h5version) w s (tabs e : loc) (f : string),
    wf s -> slot_holds s e NULL -> tables_ready v tabs s -> memory_available s ->
    wpW (py_write_hdf5 v (Some tabs) e NULL f)
        (fun x w' s' => x = Raised ValueError "polycap_transmission_efficiencies_write_hdf5: efficiencies cannot be NULL" /\
           w' = w /\ same_memory_except [e] s s') w s.
Proof.
  intros v w s tabs e f Wf Hn Tr MA. unfold py_write_hdf5. apply wpW_bind. eapply wpW_mono; [apply (C96_null_arguments v w s tabs NULL (Some f) (Some e)); auto|].
  { exists NULL. exact Hn. } { intros _. split; apply MA. }
  cbn beta iota. intros ok w' s' (_ & -> & R & _). destruct (R Hn) as (p & t & Sl & Eo & Fp & Ft & X). apply wpW_lift.
  apply wp_bind. unfold slot_holds in Sl. eapply wp_load_ptr; [exact Sl|reflexivity|].
  destruct (C68_errors_raise unit (ret (Value tt)) s' p t POLYCAP_ERROR_INVALID_ARGUMENT "polycap_transmission_efficiencies_write_hdf5: efficiencies cannot be NULL"%string) as [_ H].
  eapply wp_mono; [apply H; exact Eo|]. cbn beta. intros x s'' (-> & Hp & Ht & Y). split; [reflexivity|]. split; [reflexivity|].
  intros l Hl. destruct (Nat.eq_dec l p) as [->|Np]; [rewrite Hp; symmetry; exact Fp|]. destruct (Nat.eq_dec l t) as [->|Nt]; [rewrite Ht; symmetry; exact Ft|].
  rewrite Y by (intros [K|[K|[]]]; auto). apply X. intros [K|[K|[K|[]]]]; [apply Hl; left; exact K|auto|auto].
Qed.

(** The Source may be gone: the object keeps no reference to it (polycap.pyx:367-387), and the method then
    reads released memory. *)
Theorem C145_deleted_source_refuted :
  let s := h5_memory v_old h5_result h5_input (repeat (#0)%num 7) (fun _ => true) in let w := h5_library (fun _ => true) in
  (exists w' s', py_write_hdf5 v_old (Some 1) 0 (Some 12) "out.h5" w s = Ok (Value tt, w', s')) /\
  exists s', source_free (Some 4) s = Ok (tt, s') /\ py_write_hdf5 v_old (Some 1) 0 (Some 12) "out.h5" w s' = UB.
Proof.
  intros s w. split.
  - assert (H : match py_write_hdf5 v_old (Some 1) 0 (Some 12) "out.h5" w s with Ok (Value tt, _, _) => true | _ => false end = true) by (vm_compute; reflexivity).
    destruct (py_write_hdf5 v_old (Some 1) 0 (Some 12) "out.h5" w s) as [[[[[]|c m] w'] s1]|]; try discriminate. eauto.
  - assert (H : match source_free (Some 4) s with Ok (_, s') => match py_write_hdf5 v_old (Some 1) 0 (Some 12) "out.h5" w s' with UB => true | _ => false end | UB => false end = true) by (vm_compute; reflexivity).
    destruct (source_free (Some 4) s) as [[[] s']|]; [|discriminate]. exists s'. split; [reflexivity|].
    destruct (py_write_hdf5 v_old (Some 1) 0 (Some 12) "out.h5" w s'); [discriminate|reflexivity].
Qed.

(** The hypotheses can be met with libraries that work and that fail: the call fails that closes the file,
    the C function returns true, the method raises. *)
Example C145_met :
  let s := h5_memory v_old h5_result h5_input (repeat (#0)%num 7) (fun _ => true) in let w := h5_library (fun n => negb (Nat.eqb n 414)) in
  (exists w' s', write_hdf5 v_old (Some 1) (Some 12) (Some "out.h5"%string) (Some 0) w s = Ok (true, w', s')) /\
  exists c m w' s', py_write_hdf5 v_old (Some 1) 0 (Some 12) "out.h5" w s = Ok (Raised c m, w', s') /\ h_disk w' "out.h5"%string = None.
Proof.
  intros s w. split.
  - assert (H : match write_hdf5 v_old (Some 1) (Some 12) (Some "out.h5"%string) (Some 0) w s with Ok (b, _, _) => b | UB => false end = true) by (vm_compute; reflexivity).
    destruct (write_hdf5 v_old (Some 1) (Some 12) (Some "out.h5"%string) (Some 0) w s) as [[[[|] w'] s']|]; try discriminate. eauto.
  - assert (H : match py_write_hdf5 v_old (Some 1) 0 (Some 12) "out.h5" w s with Ok (Raised _ _, w', _) => match h_disk w' "out.h5"%string with None => true | _ => false end | _ => false end = true) by (vm_compute; reflexivity).
    destruct (py_write_hdf5 v_old (Some 1) 0 (Some 12) "out.h5" w s) as [[[[|c m] w'] s']|]; try discriminate. exists c, m, w', s'. split; [reflexivity|]. destruct (h_disk w' "out.h5"%string); [discriminate|reflexivity].
Qed.
End Py.

Print Assumptions C145_returns_or_raises.
Print Assumptions C145_file.
Print Assumptions C145_no_result.
Print Assumptions C145_deleted_source_refuted.
