(** * Proofs about the heap-level profile model *)
From Coq Require Import ZArith List Bool Lia String.
From Verif Require Import Num Mem SpecHeap ErrorModel ErrorProofs ProfileModel.
Import ListNotations.

Section Proofs.
Context {T : Type} {N : Num T}.
Implicit Types s : st T.

(** ** Reporting an error inside a larger function *)

Lemma live_lt s l b : wf s -> mem s l = Some b -> l < nxt s.
Proof.
  intros Hwf Hs. destruct (Nat.lt_ge_cases l (nxt s)) as [H|H]; auto.
  rewrite (Hwf _ H) in Hs. discriminate.
Qed.

Lemma wp_error_new_local c m (Q : ptr -> st T -> Prop) s :
  wf s -> orc s (cnt s) = true -> orc s (S (cnt s)) = true ->
  (forall s',
     wf s' -> orc s' = orc s -> nxt s' = S (S (nxt s)) ->
     (forall l, mem s' l = upd (upd (mem s) (S (nxt s)) (Some [Vstr m])) (nxt s)
                             (Some [Vint c; Vptr (Some (S (nxt s)))]) l) ->
     Q (Some (nxt s)) s') ->
  wp (error_new c (Some m)) Q s.
Proof.
  intros Hwf Ho1 Ho2 HQ. unfold error_new, strdup.
  repeat wstep; try congruence.
  apply HQ; cbn; auto.
  - intros l Hl. cbn in *. rewrite !upd_other by lia. apply Hwf. lia.
  - intros l. unfold upd.
    destruct (Nat.eqb_spec l (nxt s)); [reflexivity|].
    destruct (Nat.eqb_spec l (S (nxt s))); [reflexivity|]. reflexivity.
Qed.

(** [lit] selects polycap_set_error_literal, otherwise polycap_set_error. *)
Definition report_fn (lit : bool) (err : eslot) (c : Z) (m : string) : M T unit :=
  if lit then set_error_literal err c (Some m) else set_error err c (Some m).

Lemma wp_report lit err c m (Q : unit -> st T -> Prop) s :
  wf s -> legal_err s err ->
  (err <> None -> orc s (cnt s) = true /\ orc s (S (cnt s)) = true) ->
  (forall s', wf s' -> orc s' = orc s -> nxt s <= nxt s' ->
     (forall l b, mem s l = Some b -> err <> Some l -> mem s' l = Some b) ->
     error_reported err c m s s' -> Q tt s') ->
  wp (report_fn lit err c m) Q s.
Proof.
  intros Hwf Herr Ho HQ. destruct err as [l|].
  2:{ destruct lit; apply wp_ret; apply HQ; auto; intros x; reflexivity. }
  destruct Ho as [Ho1 Ho2]; [discriminate|]. destruct Herr as [p Hp].
  pose proof (live_lt _ _ _ Hwf Hp) as Hl. unfold report_fn.
  assert (Fin0 : p = None -> forall s' : st T, wf s' -> orc s' = orc s ->
     nxt s' = S (S (nxt s)) ->
     (forall x, mem s' x = upd (upd (mem s) (S (nxt s)) (Some [Vstr m])) (nxt s)
                             (Some [Vint c; Vptr (Some (S (nxt s)))]) x) ->
     Q tt (mkSt (upd (mem s') l (Some [Vptr (Some (nxt s))])) (nxt s') (orc s') (cnt s'))).
  { intros -> s' Hwf' Ho' Hn Hm. apply HQ; cbn; auto.
    - intros x Hx. cbn in *. rewrite upd_other by lia. apply Hwf'; lia.
    - lia.
    - intros x b Hx Hne. pose proof (live_lt _ _ _ Hwf Hx).
      rewrite upd_other by congruence. rewrite Hm. now upd_simpl.
    - split.
      + intros _. exists (nxt s), (S (nxt s)).
        assert (X1 : slot_holds (mkSt (upd (mem s') l (Some [Vptr (Some (nxt s))])) (nxt s') (orc s') (cnt s'))
                  l (Some (nxt s))) by (unfold slot_holds; cbn; now rewrite upd_same).
        assert (X2 : error_object (mkSt (upd (mem s') l (Some [Vptr (Some (nxt s))])) (nxt s') (orc s') (cnt s'))
                  (nxt s) (S (nxt s)) c m).
        { repeat split; cbn; try lia; rewrite upd_other by lia; rewrite Hm; now upd_simpl. }
        refine (conj X1 (conj X2 (conj (Hwf _ _) (conj (Hwf _ _) _)))); try lia.
        intros x Hx. cbn in *. rewrite upd_other by (intro; subst; tauto). rewrite Hm.
        rewrite !upd_other by (intro; subst; tauto). reflexivity.
      + intros e He. unfold slot_holds in *. congruence. }
  assert (Fin1 : forall e, p = Some e -> forall s', wf s' -> orc s' = orc s -> nxt s <= nxt s' ->
            same_memory s s' -> Q tt s').
  { intros e -> s' Hwf' Ho' Hn Hm. apply HQ; auto.
    - intros x b Hx _. now rewrite Hm.
    - split; [|auto]. intros Hs. unfold slot_holds in *. congruence. }
  unfold slot_holds in Hp. destruct lit.
  - unfold set_error_literal. apply wp_bind. eapply wp_load_ptr; [exact Hp|reflexivity|].
    destruct p as [e|].
    + apply wp_ret. eapply Fin1; eauto. intros x; reflexivity.
    + apply wp_bind. apply wp_error_new_local; auto. intros s' Hwf' Ho' Hn Hm.
      eapply wp_store with (b := [Vptr NULL]); [rewrite Hm; now upd_simpl|cbn; lia|].
      cbn [set_nth]. now apply Fin0.
  - unfold set_error. apply wp_bind. apply wp_error_new_local; auto. intros s' Hwf' Ho' Hn Hm.
    apply wp_bind. eapply wp_load_ptr with (b := [Vptr p]); [rewrite Hm; now upd_simpl|reflexivity|].
    destruct p as [e|].
    + apply wp_bind. eapply wp_load_ptr; [rewrite Hm; upd_simpl; reflexivity | reflexivity |].
      unfold error_free. apply wp_bind.
      eapply wp_load_ptr; [rewrite Hm; upd_simpl; reflexivity | reflexivity |].
      apply wp_bind. eapply wp_free; [rewrite Hm; upd_simpl; reflexivity |].
      eapply wp_free; [cbn; upd_simpl; rewrite Hm; upd_simpl; reflexivity |]. cbn.
      eapply Fin1; eauto; cbn.
      * intros x Hx. cbn in *. rewrite !upd_other by lia. apply Hwf'. lia.
      * lia.
      * intros x. cbn. unfold upd at 1 2.
        destruct (Nat.eqb_spec x (nxt s)); [subst; symmetry; apply Hwf; lia|].
        destruct (Nat.eqb_spec x (S (nxt s))); [subst; symmetry; apply Hwf; lia|].
        rewrite Hm. rewrite !upd_other by lia. reflexivity.
    + eapply wp_store with (b := [Vptr NULL]); [rewrite Hm; now upd_simpl|cbn; lia|].
      cbn [set_nth]. now apply Fin0.
Qed.

(** A report in the middle of a function whose temporary blocks [L] are released
    afterwards looks, from outside, like a plain report. *)
Lemma error_reported_frame err c m L s0 s s' s'' :
  legal_err s0 err ->
  (forall l, In l L -> mem s0 l = None /\ mem s l <> None) ->
  same_memory_except L s0 s ->
  error_reported err c m s s' ->
  (forall l, In l L -> mem s'' l = None) ->
  (forall l, ~ In l L -> mem s'' l = mem s' l) ->
  error_reported err c m s0 s''.
Proof.
  intros Hle HL Hx Hr H1 H2. destruct err as [l|]; cbn in *.
  - destruct Hle as [p Hp].
    assert (HlL : ~ In l L).
    { intros Hin. destruct (HL l Hin) as [X _]. unfold slot_holds in Hp. congruence. }
    destruct Hr as [Hr1 Hr2]. split.
    + intros Hs. destruct Hr1 as (e & t & G1 & G2 & G3 & G4 & G5).
      { unfold slot_holds. rewrite Hx by auto. exact Hs. }
      assert (He : ~ In e L) by (intros Hin; destruct (HL e Hin); auto).
      assert (Ht : ~ In t L) by (intros Hin; destruct (HL t Hin); auto).
      exists e, t. destruct G2 as (G2a & G2b & G2c).
      repeat split; auto.
      * unfold slot_holds. rewrite H2; auto.
      * rewrite H2; auto.
      * rewrite H2; auto.
      * rewrite <- (Hx e); auto.
      * rewrite <- (Hx t); auto.
      * intros x Hxn. destruct (in_dec Nat.eq_dec x L) as [I|I].
        -- rewrite (H1 x I). symmetry. apply HL, I.
        -- rewrite (H2 x I). rewrite G5 by exact Hxn. apply Hx, I.
    + intros e Hs x. destruct (in_dec Nat.eq_dec x L) as [I|I].
      * rewrite (H1 x I). symmetry. apply HL, I.
      * rewrite (H2 x I). rewrite (Hr2 e); [apply Hx, I|].
        unfold slot_holds. rewrite Hx by auto. exact Hs.
  - intros x. destruct (in_dec Nat.eq_dec x L) as [I|I].
    + rewrite (H1 x I). symmetry. apply HL, I.
    + rewrite (H2 x I), (Hr x). apply Hx, I.
Qed.

(** ** Filling arrays *)

(** An array of [n] doubles whose first [i] entries have been written. *)
Definition filled (f : nat -> T) (i n : nat) : list (val T) :=
  List.map (fun k => Vdbl (f k)) (seq 0 i) ++ repeat Vundef (n - i).

Lemma length_filled f i n : i <= n -> List.length (filled f i n) = n.
Proof. intros H. unfold filled. rewrite app_length, map_length, seq_length, repeat_length. lia. Qed.

Lemma filled_0 f n : filled f 0 n = repeat Vundef n.
Proof. unfold filled. cbn. now rewrite Nat.sub_0_r. Qed.

Lemma filled_all f n : filled f n n = List.map Vdbl (List.map f (seq 0 n)).
Proof. unfold filled. rewrite Nat.sub_diag. cbn. rewrite app_nil_r. now rewrite map_map. Qed.

Lemma filled_step f i n : i < n -> set_nth (filled f i n) i (Vdbl (f i)) = filled f (S i) n.
Proof.
  intros H. unfold filled. replace (n - i) with (S (n - S i)) by lia. cbn [repeat].
  assert (L : List.length (List.map (fun k => Vdbl (f k)) (seq 0 i)) = i)
    by now rewrite map_length, seq_length.
  pose proof (set_nth_app (List.map (fun k => Vdbl (f k)) (seq 0 i))
                (repeat Vundef (n - S i)) Vundef (Vdbl (f i))) as E.
  rewrite L in E. rewrite E.
  rewrite seq_S, map_app. cbn. now rewrite <- app_assoc.
Qed.

Lemma nth_filled f i j n : j < i -> nth_error (filled f i n) j = Some (Vdbl (f j)).
Proof.
  intros H. unfold filled. rewrite nth_error_app1 by (rewrite map_length, seq_length; auto).
  rewrite nth_error_map. rewrite nth_error_nth' with (d := 0) by (rewrite seq_length; auto).
  cbn. f_equal. f_equal. f_equal. rewrite seq_nth; auto.
Qed.


Lemma nodup3 (a b c : loc) : NoDup [a; b; c] -> a <> b /\ a <> c /\ b <> c.
Proof.
  intros ND. inversion ND as [|? ? h1 ND1]; subst. inversion ND1 as [|? ? h2 ND2]; subst.
  cbn in *. repeat split; intros ->; auto.
Qed.
Ltac notin := cbn [In]; let H := fresh in intro H; repeat (destruct H as [H|H]; [congruence|]); exact H.

Lemma npts_eq : npts = 1000.
Proof. reflexivity. Qed.
Local Opaque npts.

(** ** The loops *)

Definition pz (len : T) (i : nat) : T := prof_z len 999 i.
Definition pc (len ri_up ri_down : T) (i : nat) : T := prof_lin ri_up ri_down len (pz len i).

Lemma fill_loop z cap ext len ri_up ri_down fext (Q : unit -> st T -> Prop) s :
  NoDup [z; cap; ext] ->
  mem s z = Some (repeat Vundef npts) ->
  mem s cap = Some (repeat Vundef npts) ->
  mem s ext = Some (repeat Vundef npts) ->
  (forall s', nxt s' = nxt s -> orc s' = orc s -> cnt s' = cnt s ->
     dbl_array s' z (List.map (pz len) (seq 0 npts)) ->
     dbl_array s' cap (List.map (pc len ri_up ri_down) (seq 0 npts)) ->
     dbl_array s' ext (List.map (fun i => fext (pz len i)) (seq 0 npts)) ->
     same_memory_except [z; cap; ext] s s' -> Q tt s') ->
  wp (for_n npts 0 (fill_body (Some z) (Some cap) (Some ext) len ri_up ri_down fext 999)) Q s.
Proof.
  intros ND Hz Hc He HQ.
  apply wp_for_n with (I := fun i s' =>
     nxt s' = nxt s /\ orc s' = orc s /\ cnt s' = cnt s /\
     mem s' z = Some (filled (pz len) i npts) /\
     mem s' cap = Some (filled (pc len ri_up ri_down) i npts) /\
     mem s' ext = Some (filled (fun i => fext (pz len i)) i npts) /\
     same_memory_except [z; cap; ext] s s').
  - rewrite !filled_0. repeat split; auto.
  - assert (D1 : z <> cap) by (inversion ND; subst; cbn in *; intuition).
    assert (D2 : z <> ext) by (inversion ND; subst; cbn in *; intuition).
    assert (D3 : cap <> ext) by (inversion ND as [|? ? ? ND2]; inversion ND2; subst; cbn in *; intuition).
    intros i s' Hi (h1 & h2 & h3 & h4 & h5 & h6 & h7). unfold fill_body.
    apply wp_bind. eapply wp_store; [exact h4 | rewrite length_filled; lia |].
    change (prof_z len 999 i) with (pz len i). rewrite filled_step by lia.
    apply wp_bind. eapply wp_load_dbl; [cbn [mem nxt orc cnt]; now rewrite upd_same | apply nth_filled; lia |].
    apply wp_bind. eapply wp_store; [cbn [mem nxt orc cnt]; rewrite upd_other by auto; exact h5 | rewrite length_filled; lia |].
    change (prof_lin ri_up ri_down len (pz len i)) with (pc len ri_up ri_down i).
    rewrite filled_step by lia. cbn [mem nxt orc cnt].
    apply wp_bind. eapply wp_load_dbl;
      [cbn [mem nxt orc cnt]; rewrite upd_other by auto; now rewrite upd_same | apply nth_filled; lia |].
    eapply wp_store; [cbn [mem nxt orc cnt]; rewrite !upd_other by auto; exact h6 | rewrite length_filled; lia |].
    rewrite (filled_step (fun i => fext (pz len i))) by lia. cbn [mem nxt orc cnt].
    repeat split; auto.
    + rewrite !upd_other by auto. now rewrite upd_same.
    + rewrite upd_other by auto. now rewrite upd_same.
    + now rewrite upd_same.
    + intros l Hl. cbn [mem nxt orc cnt].
      rewrite !upd_other by (intros ->; apply Hl; cbn; auto). now apply h7.
  - intros s' (h1 & h2 & h3 & h4 & h5 & h6 & h7). rewrite Nat.add_0_l in *.
    rewrite filled_all in h4, h5, h6. apply HQ; auto.
Qed.

Lemma fill_loop2 z cap len ri_up ri_down (Q : unit -> st T -> Prop) s :
  z <> cap ->
  mem s z = Some (repeat Vundef npts) ->
  mem s cap = Some (repeat Vundef npts) ->
  (forall s', nxt s' = nxt s -> orc s' = orc s -> cnt s' = cnt s ->
     dbl_array s' z (List.map (pz len) (seq 0 npts)) ->
     dbl_array s' cap (List.map (pc len ri_up ri_down) (seq 0 npts)) ->
     same_memory_except [z; cap] s s' -> Q tt s') ->
  wp (for_n npts 0 (fill_body2 (Some z) (Some cap) len ri_up ri_down 999)) Q s.
Proof.
  intros ND Hz Hc HQ.
  apply wp_for_n with (I := fun i s' =>
     nxt s' = nxt s /\ orc s' = orc s /\ cnt s' = cnt s /\
     mem s' z = Some (filled (pz len) i npts) /\
     mem s' cap = Some (filled (pc len ri_up ri_down) i npts) /\
     same_memory_except [z; cap] s s').
  - rewrite !filled_0. repeat split; auto.
  - intros i s' Hi (h1 & h2 & h3 & h4 & h5 & h7). unfold fill_body2.
    apply wp_bind. eapply wp_store; [exact h4 | rewrite length_filled; lia |].
    change (prof_z len 999 i) with (pz len i). rewrite filled_step by lia.
    apply wp_bind. eapply wp_load_dbl; [cbn [mem nxt orc cnt]; now rewrite upd_same | apply nth_filled; lia |].
    eapply wp_store; [cbn [mem nxt orc cnt]; rewrite upd_other by auto; exact h5 | rewrite length_filled; lia |].
    change (prof_lin ri_up ri_down len (pz len i)) with (pc len ri_up ri_down i).
    rewrite filled_step by lia. cbn [mem nxt orc cnt].
    repeat split; auto.
    + rewrite !upd_other by auto. now rewrite upd_same.
    + now rewrite upd_same.
    + intros l Hl. cbn [mem nxt orc cnt].
      rewrite !upd_other by (intros ->; apply Hl; cbn; auto). now apply h7.
  - intros s' (h1 & h2 & h3 & h4 & h5 & h7). rewrite Nat.add_0_l in *.
    rewrite filled_all in h4, h5. apply HQ; auto.
Qed.

Lemma fill_loop3 z ext len fext (Q : unit -> st T -> Prop) s :
  z <> ext ->
  dbl_array s z (List.map (pz len) (seq 0 npts)) ->
  mem s ext = Some (repeat Vundef npts) ->
  (forall s', nxt s' = nxt s -> orc s' = orc s -> cnt s' = cnt s ->
     dbl_array s' ext (List.map (fun i => fext (pz len (999 - i))) (seq 0 npts)) ->
     same_memory_except [ext] s s' -> Q tt s') ->
  wp (for_n npts 0 (fill_body3 (Some z) (Some ext) fext 999)) Q s.
Proof.
  intros ND Hz Hc HQ.
  apply wp_for_n with (I := fun i s' =>
     nxt s' = nxt s /\ orc s' = orc s /\ cnt s' = cnt s /\
     mem s' ext = Some (filled (fun i => fext (pz len (999 - i))) i npts) /\
     same_memory_except [ext] s s').
  - rewrite !filled_0. repeat split; auto.
  - intros i s' Hi (h1 & h2 & h3 & h5 & h7). unfold fill_body3.
    apply wp_bind. eapply wp_load_dbl.
    + rewrite h7 by (cbn; intuition). exact Hz.
    + rewrite <- filled_all. apply nth_filled. rewrite npts_eq in *; lia.
    + eapply wp_store; [exact h5 | rewrite length_filled; lia |].
      rewrite (filled_step (fun i => fext (pz len (999 - i)))) by lia. cbn [mem nxt orc cnt].
      repeat split; auto.
      * now rewrite upd_same.
      * intros l Hl. cbn [mem nxt orc cnt].
        rewrite !upd_other by (intros ->; apply Hl; cbn; auto). now apply h7.
  - intros s' (h1 & h2 & h3 & h5 & h7). rewrite Nat.add_0_l in *.
    rewrite filled_all in h5. apply HQ; auto.
Qed.

(** ** polycap_profile_new *)

Variable fit : list (T * T) -> T * T * T.

(** The exterior radius at index [i], by shape. *)
Definition pe (type : Z) (len re_up re_down fd_up fd_down : T) (i : nat) : T :=
  if Z.eqb type POLYCAP_PROFILE_CONICAL then prof_lin re_up re_down len (pz len i)
  else if Z.eqb type POLYCAP_PROFILE_PARABOLOIDAL then
    prof_quad (fit (prof_points len re_up re_down fd_up fd_down)) (pz len i)
  else if nltb re_down re_up then
    let slope := (re_down / fd_down)%num in
    let b := ell_b re_down re_up slope len in
    let k := ell_k re_up b in
    ell_ext (nsqrt (ell_a2 re_down k b slope len)) b k (pz len i)
  else
    let slope := (re_up / fd_up)%num in
    let b := ell_b re_up re_down slope len in
    let k := ell_k re_down b in
    ell_ext (nsqrt (nabs (ell_a2 re_up k b slope len))) b k (pz len (999 - i)).

Definition known_type (type : Z) : Prop :=
  type = POLYCAP_PROFILE_CONICAL \/ type = POLYCAP_PROFILE_PARABOLOIDAL \/
  type = POLYCAP_PROFILE_ELLIPSOIDAL.

(** The first failed argument test, in program order. *)
Definition arg_error (len re_up re_down ri_up ri_down fd_up fd_down : T) : option string :=
  if nleb len (nofZ 0) then Some "polycap_profile_new: length must be greater than 0.0"%string
  else if nleb re_up (nofZ 0) then Some "polycap_profile_new: rad_ext_upstream must be greater than 0.0"%string
  else if nleb re_down (nofZ 0) then Some "polycap_profile_new: rad_ext_downstream must be greater than 0.0"%string
  else if nleb ri_up (nofZ 0) then Some "polycap_profile_new: rad_int_upstream must be greater than 0.0"%string
  else if nleb ri_down (nofZ 0) then Some "polycap_profile_new: rad_int_downstream must be greater than 0.0"%string
  else if nleb re_up ri_up then Some "polycap_profile_new: rad_ext_upstream must be greater than rad_int_upstream"%string
  else if nleb re_down ri_down then Some "polycap_profile_new: rad_ext_downstream must be greater than rad_int_downstream"%string
  else if nleb fd_up (nofZ 0) then Some "polycap_profile_new: focal_dist_upstream must be greater than 0.0"%string
  else if nleb fd_down (nofZ 0) then Some "polycap_profile_new: focal_dist_downstream must be greater than 0.0"%string
  else None.

Lemma profile_new_args type len re_up re_down ri_up ri_down fd_up fd_down err :
  profile_new fit type len re_up re_down ri_up ri_down fd_up fd_down err =
  match arg_error len re_up re_down ri_up ri_down fd_up fd_down with
  | Some m => bind (report_fn true err POLYCAP_ERROR_INVALID_ARGUMENT m) (fun _ => ret NULL)
  | None => profile_alloc err (fun p z cap ext =>
      profile_fill fit type p z cap ext len re_up re_down ri_up ri_down fd_up fd_down err)
  end.
Proof.
  unfold profile_new, arg_error, reject_if, report_fn.
  repeat match goal with |- context [if ?b then _ else _] => destruct b; [reflexivity|] end.
  reflexivity.
Qed.

(** Isolated failures: after a failed allocation the next two succeed (so that the
    error object describing the failure can be built). *)
Definition isolated_failures s : Prop :=
  forall n, orc s n = false -> orc s (S n) = true /\ orc s (S (S n)) = true.

Definition profile_built (type : Z) (len re_up re_down ri_up ri_down fd_up fd_down : T)
    (p : ptr) s s' : Prop :=
  exists l lz lc le, p = Some l /\
    profile_object s' l lz lc le 999
      (List.map (pz len) (seq 0 npts))
      (List.map (pc len ri_up ri_down) (seq 0 npts))
      (List.map (pe type len re_up re_down fd_up fd_down) (seq 0 npts)) /\
    mem s l = None /\ mem s lz = None /\ mem s lc = None /\ mem s le = None /\
    same_memory_except [l; lz; lc; le] s s'.

Lemma profile_fill_spec type len re_up re_down ri_up ri_down fd_up fd_down err p z c e
    (Q : ptr -> st T -> Prop) s :
  known_type type -> NoDup [p; z; c; e] ->
  mem s p = Some [Vint 999; Vptr (Some z); Vptr (Some c); Vptr (Some e)] ->
  mem s z = Some (repeat Vundef npts) ->
  mem s c = Some (repeat Vundef npts) ->
  mem s e = Some (repeat Vundef npts) ->
  (forall s', nxt s' = nxt s -> orc s' = orc s -> cnt s' = cnt s ->
     profile_object s' p z c e 999
      (List.map (pz len) (seq 0 npts))
      (List.map (pc len ri_up ri_down) (seq 0 npts))
      (List.map (pe type len re_up re_down fd_up fd_down) (seq 0 npts)) ->
     same_memory_except [z; c; e] s s' -> Q (Some p) s') ->
  wp (profile_fill fit type (Some p) (Some z) (Some c) (Some e) len re_up re_down ri_up ri_down
        fd_up fd_down err) Q s.
Proof.
  intros Kt ND Hp Hz Hc He HQ.
  assert (ND3 : NoDup [z; c; e]) by now inversion ND.
  assert (Np : ~ In p [z; c; e]) by now inversion ND.
  assert (Fin : forall fext, (forall i, pe type len re_up re_down fd_up fd_down i = fext (pz len i)) ->
    wp (bind (for_n npts 0 (fill_body (Some z) (Some c) (Some e) len ri_up ri_down fext 999))
          (fun _ => ret (Some p))) Q s).
  { intros fext Hf. apply wp_bind. apply fill_loop; auto.
    intros s' h1 h2 h3 h4 h5 h6 h7. apply wp_ret. apply HQ; auto.
    repeat split; auto.
    - rewrite h7 by auto. exact Hp.
    - unfold dbl_array. rewrite h6. f_equal. f_equal. apply map_ext. intros i. symmetry. apply Hf. }
  unfold profile_fill. destruct Kt as [->|[->| ->]]; cbn [Z.eqb POLYCAP_PROFILE_CONICAL
     POLYCAP_PROFILE_PARABOLOIDAL POLYCAP_PROFILE_ELLIPSOIDAL Pos.eqb].
  - apply Fin. reflexivity.
  - apply Fin. reflexivity.
  - destruct (nltb re_down re_up) eqn:E.
    + apply Fin. intros i. unfold pe.
      cbn [Z.eqb POLYCAP_PROFILE_CONICAL POLYCAP_PROFILE_PARABOLOIDAL POLYCAP_PROFILE_ELLIPSOIDAL Pos.eqb].
      rewrite E. reflexivity.
    + destruct (nodup3 _ _ _ ND3) as (d1 & d2 & d3).
      assert (dp : p <> z /\ p <> c /\ p <> e)
        by (repeat split; intros ->; apply Np; cbn; auto).
      destruct dp as (dp1 & dp2 & dp3).
      apply wp_bind. apply fill_loop2; auto.
      intros s1 h1 h2 h3 h4 h5 h6.
      apply wp_bind. apply fill_loop3 with (len := len); auto.
      { rewrite h6; auto. notin. }
      intros s2 g1 g2 g3 g4 g5. apply wp_ret. apply HQ; try congruence.
      * repeat split; auto.
        -- rewrite g5, h6; auto; notin.
        -- unfold dbl_array. rewrite g5; auto. notin.
        -- unfold dbl_array. rewrite g5; auto. notin.
        -- unfold dbl_array. rewrite g4. f_equal. f_equal. apply map_ext. intros i.
           unfold pe. cbn [Z.eqb POLYCAP_PROFILE_CONICAL POLYCAP_PROFILE_PARABOLOIDAL POLYCAP_PROFILE_ELLIPSOIDAL Pos.eqb].
           rewrite E. reflexivity.
      * clear - g5 h6. intros l Hl. rewrite g5; [rewrite h6; [reflexivity|]|]; intros Hin; apply Hl; cbn [In] in *; tauto.
Qed.

Definition allocs_succeed (n : nat) s : Prop := forall k, k < n -> orc s (cnt s + k) = true.

Lemma allocs_at n k s : allocs_succeed n s -> k < n -> orc s (cnt s + k) = true.
Proof. auto. Qed.

(** All four blocks obtained. *)
Lemma profile_alloc_ok err (k : ptr -> ptr -> ptr -> ptr -> M T ptr) (Q : ptr -> st T -> Prop) s :
  wf s -> allocs_succeed 4 s ->
  (forall s' p z c e,
     p = nxt s -> z = S (nxt s) -> c = S (S (nxt s)) -> e = S (S (S (nxt s))) ->
     wf s' -> orc s' = orc s -> cnt s' = 4 + cnt s -> nxt s' = 4 + nxt s ->
     mem s' p = Some [Vint 999; Vptr (Some z); Vptr (Some c); Vptr (Some e)] ->
     mem s' z = Some (repeat Vundef npts) ->
     mem s' c = Some (repeat Vundef npts) ->
     mem s' e = Some (repeat Vundef npts) ->
     same_memory_except [p; z; c; e] s s' ->
     wp (k (Some p) (Some z) (Some c) (Some e)) Q s') ->
  wp (profile_alloc err k) Q s.
Proof.
  intros Hwf Ho HQ. unfold profile_alloc.
  pose proof (Ho 0 ltac:(lia)) as O0. pose proof (Ho 1 ltac:(lia)) as O1.
  pose proof (Ho 2 ltac:(lia)) as O2. pose proof (Ho 3 ltac:(lia)) as O3.
  replace (cnt s + 0) with (cnt s) in O0 by lia. replace (cnt s + 1) with (S (cnt s)) in O1 by lia.
  replace (cnt s + 2) with (S (S (cnt s))) in O2 by lia. replace (cnt s + 3) with (S (S (S (cnt s)))) in O3 by lia.
  repeat (wstep; try congruence).
  eapply HQ; try reflexivity; cbn [mem nxt orc cnt]; upd_simpl; auto.
  - intros l Hl. cbn [mem nxt] in *. upd_simpl. apply Hwf. lia.
  - intros l Hl. cbn [mem nxt] in *.
    rewrite !upd_other by (intro; subst; apply Hl; cbn; tauto). reflexivity.
Qed.

(** Some block could not be obtained: everything is released and reported. *)
Lemma profile_alloc_fail err (k : ptr -> ptr -> ptr -> ptr -> M T ptr) s :
  wf s -> legal_err s err -> ~ allocs_succeed 4 s ->
  (err <> None -> isolated_failures s) ->
  wp (profile_alloc err k)
     (fun p s' => p = None /\ exists m, error_reported err POLYCAP_ERROR_MEMORY m s s') s.
Proof.
  intros Hwf Hle Ho Hiso.
  assert (HE : forall err', err = err' -> forall l, mem s l = None -> err' <> Some l).
  { intros err' <- l Hl ->. destruct Hle as [q Hq]. unfold slot_holds in Hq. congruence. }
  assert (Rep : forall L s1 m (cont : M T ptr),
     wf s1 -> orc s1 = orc s -> (exists n, cnt s1 = S n /\ orc s n = false) ->
     (forall l, In l L -> mem s l = None /\ mem s1 l <> None) ->
     same_memory_except L s s1 ->
     (forall s2, wf s2 -> (forall l b, mem s1 l = Some b -> err <> Some l -> mem s2 l = Some b) ->
        wp cont (fun p s3 => p = None /\ (forall l, In l L -> mem s3 l = None) /\
                             (forall l, ~ In l L -> mem s3 l = mem s2 l)) s2) ->
     wp (bind (mem_error err m) (fun _ => cont))
       (fun p s' => p = None /\ exists m, error_reported err POLYCAP_ERROR_MEMORY m s s') s1).
  { intros L s1 m cont Hwf1 Ho1 (n & Hn & Hf) HL Hx Hcont.
    apply wp_bind. change (mem_error err m) with (report_fn false err POLYCAP_ERROR_MEMORY m).
    apply wp_report; auto.
    - destruct err as [l|]; [|exact I]. cbn. destruct Hle as [q Hq]. exists q.
      unfold slot_holds in *. rewrite Hx; auto.
      intros Hin. destruct (HL l Hin) as [X _]. congruence.
    - intros Hne. rewrite Ho1, Hn. apply Hiso; auto.
    - intros s2 Hwf2 Ho2 Hn2 Hpres Hrep.
      eapply wp_mono; [apply Hcont; auto|].
      intros p s3 (-> & G1 & G2). split; auto. exists m.
      eapply error_reported_frame with (L := L); eauto. }
  unfold profile_alloc.
  apply wp_bind. unfold malloc. apply wp_alloc; intros O0; wsimp.
  2:{ eapply Rep with (L := []); cbn; auto.
      - exists (cnt s); auto.
      - intros l [].
      - intros l _. reflexivity.
      - intros s2 Hwf2 Hp. repeat split; auto. intros l []. }
  assert (F0 : mem s (nxt s) = None) by (apply Hwf; lia).
  assert (F1 : mem s (S (nxt s)) = None) by (apply Hwf; lia).
  assert (F2 : mem s (S (S (nxt s))) = None) by (apply Hwf; lia).
  pose proof (HE err eq_refl _ F0) as E0.
  pose proof (HE err eq_refl _ F1) as E1.
  pose proof (HE err eq_refl _ F2) as E2.
  wstep. wstep. wstep. unfold malloc. apply wp_alloc; intros O1; wsimp; cbn [orc cnt] in O1.
  2:{ wstep. wstep.
      eapply Rep with (L := [nxt s]); cbn [mem nxt orc cnt]; auto.
      - intros l Hl. cbn [mem nxt] in *. upd_simpl. apply Hwf. lia.
      - exists (S (cnt s)); auto.
      - intros l [<-|[]]. split; auto. cbn [mem]. upd_simpl. congruence.
      - intros l Hl. cbn [mem]. rewrite !upd_other by (intro; subst; apply Hl; cbn; tauto). reflexivity.
      - intros s2 Hwf2 Hp.
        assert (P0 : mem s2 (nxt s) = Some [Vint 999; Vptr None; Vundef; Vundef])
          by (apply Hp; auto; cbn [mem]; upd_simpl; reflexivity).
        repeat wstep. repeat split.
        + intros l [<-|[]]. cbn [mem]. now upd_simpl.
        + intros l Hl. cbn [mem]. rewrite !upd_other by (intro; subst; apply Hl; cbn; tauto). reflexivity. }
  wstep. wstep. wstep. unfold malloc. apply wp_alloc; intros O2; wsimp; cbn [orc cnt] in O2.
  2:{ wstep. wstep.
      eapply Rep with (L := [nxt s; S (nxt s)]); cbn [mem nxt orc cnt]; auto.
      - intros l Hl. cbn [mem nxt] in *. upd_simpl. apply Hwf. lia.
      - exists (S (S (cnt s))); auto.
      - intros l [<-|[<-|[]]]; (split; [auto|]); cbn [mem]; upd_simpl; congruence.
      - intros l Hl. cbn [mem]. rewrite !upd_other by (intro; subst; apply Hl; cbn; tauto). reflexivity.
      - intros s2 Hwf2 Hp.
        assert (P0 : mem s2 (nxt s) = Some [Vint 999; Vptr (Some (S (nxt s))); Vptr None; Vundef])
          by (apply Hp; auto; cbn [mem]; upd_simpl; reflexivity).
        assert (P1 : mem s2 (S (nxt s)) = Some (repeat Vundef npts))
          by (apply Hp; auto; cbn [mem]; upd_simpl; reflexivity).
        repeat wstep. repeat split.
        + intros l [<-|[<-|[]]]; cbn [mem]; now upd_simpl.
        + intros l Hl. cbn [mem]. rewrite !upd_other by (intro; subst; apply Hl; cbn; tauto). reflexivity. }
  wstep. wstep. wstep. unfold malloc. apply wp_alloc; intros O3; wsimp; cbn [orc cnt] in O3.
  2:{ wstep. wstep.
      eapply Rep with (L := [nxt s; S (nxt s); S (S (nxt s))]); cbn [mem nxt orc cnt]; auto.
      - intros l Hl. cbn [mem nxt] in *. upd_simpl. apply Hwf. lia.
      - exists (S (S (S (cnt s)))); auto.
      - intros l [<-|[<-|[<-|[]]]]; (split; [auto|]); cbn [mem]; upd_simpl; congruence.
      - intros l Hl. cbn [mem]. rewrite !upd_other by (intro; subst; apply Hl; cbn; tauto). reflexivity.
      - intros s2 Hwf2 Hp.
        assert (P0 : mem s2 (nxt s) = Some [Vint 999; Vptr (Some (S (nxt s))); Vptr (Some (S (S (nxt s)))); Vptr None])
          by (apply Hp; auto; cbn [mem]; upd_simpl; reflexivity).
        assert (P1 : mem s2 (S (nxt s)) = Some (repeat Vundef npts))
          by (apply Hp; auto; cbn [mem]; upd_simpl; reflexivity).
        assert (P2 : mem s2 (S (S (nxt s))) = Some (repeat Vundef npts))
          by (apply Hp; auto; cbn [mem]; upd_simpl; reflexivity).
        repeat wstep. repeat split.
        + intros l [<-|[<-|[<-|[]]]]; cbn [mem]; now upd_simpl.
        + intros l Hl. cbn [mem]. rewrite !upd_other by (intro; subst; apply Hl; cbn; tauto). reflexivity. }
  exfalso. apply Ho. intros j Hj.
  destruct j as [|[|[|[|j]]]]; [replace (cnt s + 0) with (cnt s) by lia
    |replace (cnt s + 1) with (S (cnt s)) by lia
    |replace (cnt s + 2) with (S (S (cnt s))) by lia
    |replace (cnt s + 3) with (S (S (S (cnt s)))) by lia|lia]; assumption.
Qed.

Lemma profile_new_success type len re_up re_down ri_up ri_down fd_up fd_down err s :
  wf s -> allocs_succeed 4 s -> known_type type ->
  arg_error len re_up re_down ri_up ri_down fd_up fd_down = None ->
  wp (profile_new fit type len re_up re_down ri_up ri_down fd_up fd_down err)
     (fun p s' => wf s' /\
        profile_built type len re_up re_down ri_up ri_down fd_up fd_down p s s') s.
Proof.
  intros Hwf Ho Kt Ha. rewrite profile_new_args, Ha.
  apply profile_alloc_ok; auto.
  intros s' p z c e -> -> -> -> Hwf' Ho' Hc Hn Hp Hz Hcc He Hx.
  apply profile_fill_spec; auto.
  - repeat constructor; cbn; lia.
  - intros s2 n2 o2 c2 Hpo Hx2. split.
    + intros l Hl. rewrite n2 in Hl. rewrite Hx2; [apply Hwf'; auto|]. cbn. lia.
    + eexists _, _, _, _. split; [reflexivity|]. split; [exact Hpo|].
      refine (conj _ (conj _ (conj _ (conj _ _)))); try (apply Hwf; lia).
      intros l Hl. rewrite Hx2, Hx; auto. cbn in *. tauto.
Qed.

Lemma profile_new_badarg type len re_up re_down ri_up ri_down fd_up fd_down err m s :
  wf s -> legal_err s err ->
  (err <> None -> allocs_succeed 2 s) ->
  arg_error len re_up re_down ri_up ri_down fd_up fd_down = Some m ->
  wp (profile_new fit type len re_up re_down ri_up ri_down fd_up fd_down err)
     (fun p s' => p = None /\ error_reported err POLYCAP_ERROR_INVALID_ARGUMENT m s s') s.
Proof.
  intros Hwf Hle Ho Ha. rewrite profile_new_args, Ha. apply wp_bind.
  apply wp_report; auto.
  - intros Hne. specialize (Ho Hne). split.
    + replace (cnt s) with (cnt s + 0) by lia. apply Ho. lia.
    + replace (S (cnt s)) with (cnt s + 1) by lia. apply Ho. lia.
  - intros s' _ _ _ _ Hr. apply wp_ret. auto.
Qed.

Lemma profile_new_badtype type len re_up re_down ri_up ri_down fd_up fd_down err s :
  wf s -> legal_err s err -> ~ known_type type ->
  allocs_succeed 4 s -> (err <> None -> allocs_succeed 6 s) ->
  arg_error len re_up re_down ri_up ri_down fd_up fd_down = None ->
  wp (profile_new fit type len re_up re_down ri_up ri_down fd_up fd_down err)
     (fun p s' => p = None /\
        error_reported err POLYCAP_ERROR_INVALID_ARGUMENT
          "polycap_profile_new: invalid profile type detected" s s') s.
Proof.
  intros Hwf Hle Kt Ho4 Ho Ha. rewrite profile_new_args, Ha.
  apply profile_alloc_ok; auto.
  intros s' p z c e Ep Ez Ec Ee Hwf' Ho' Hc Hn Hp Hz Hcc He Hx.
  unfold profile_fill.
  destruct (Z.eqb_spec type POLYCAP_PROFILE_CONICAL); [exfalso; apply Kt; left; auto|].
  destruct (Z.eqb_spec type POLYCAP_PROFILE_PARABOLOIDAL); [exfalso; apply Kt; right; left; auto|].
  destruct (Z.eqb_spec type POLYCAP_PROFILE_ELLIPSOIDAL); [exfalso; apply Kt; right; right; auto|].
  assert (HL : forall l, In l [p; z; c; e] -> mem s l = None /\ mem s' l <> None).
  { intros l [<-|[<-|[<-|[<-|[]]]]]; (split; [apply Hwf; lia|congruence]). }
  assert (NE : forall l, In l [p; z; c; e] -> err <> Some l).
  { intros l Hin ->. destruct Hle as [q Hq]. destruct (HL l Hin) as [X _].
    unfold slot_holds in Hq. congruence. }
  apply wp_bind.
  match goal with |- wp (set_error_literal err ?c (Some ?m)) _ _ =>
    change (set_error_literal err c (Some m)) with (report_fn true err c m : M T unit) end.
  apply wp_report; auto.
  - destruct err as [l|]; [|exact I]. destruct Hle as [q Hq]. exists q.
    unfold slot_holds in *. rewrite Hx; auto. intros Hin. apply (NE l Hin eq_refl).
  - intros Hne. specialize (Ho Hne). rewrite Ho', Hc. split.
    + replace (4 + cnt s) with (cnt s + 4) by lia. apply Ho. lia.
    + replace (S (4 + cnt s)) with (cnt s + 5) by lia. apply Ho. lia.
  - intros s2 Hwf2 Ho2 Hn2 Hpres Hrep.
    assert (P0 : mem s2 p = Some [Vint 999; Vptr (Some z); Vptr (Some c); Vptr (Some e)])
      by (apply Hpres; auto; apply NE; cbn; tauto).
    assert (P1 : mem s2 z = Some (repeat Vundef npts))
      by (apply Hpres; auto; apply NE; cbn; tauto).
    assert (P2 : mem s2 c = Some (repeat Vundef npts))
      by (apply Hpres; auto; apply NE; cbn; tauto).
    assert (P3 : mem s2 e = Some (repeat Vundef npts))
      by (apply Hpres; auto; apply NE; cbn; tauto).
    repeat wstep. split; [reflexivity|].
    eapply error_reported_frame with (L := [p; z; c; e]); eauto.
    + intros l [<-|[<-|[<-|[<-|[]]]]]; cbn [mem]; now upd_simpl.
    + intros l Hl. cbn [mem]. rewrite !upd_other by (intro; subst; apply Hl; cbn; tauto). reflexivity.
Qed.

Lemma profile_new_oom type len re_up re_down ri_up ri_down fd_up fd_down err s :
  wf s -> legal_err s err -> ~ allocs_succeed 4 s ->
  (err <> None -> isolated_failures s) ->
  arg_error len re_up re_down ri_up ri_down fd_up fd_down = None ->
  wp (profile_new fit type len re_up re_down ri_up ri_down fd_up fd_down err)
     (fun p s' => p = None /\ exists m, error_reported err POLYCAP_ERROR_MEMORY m s s') s.
Proof.
  intros Hwf Hle Ho Hiso Ha. rewrite profile_new_args, Ha. now apply profile_alloc_fail.
Qed.

(** If memory is exhausted for good and the caller wants to know, the report
    itself is undefined behaviour. *)
Lemma profile_new_oom_ub type len re_up re_down ri_up ri_down fd_up fd_down l s :
  slot_holds s l NULL -> orc s (cnt s) = false -> orc s (S (cnt s)) = false ->
  arg_error len re_up re_down ri_up ri_down fd_up fd_down = None ->
  profile_new fit type len re_up re_down ri_up ri_down fd_up fd_down (Some l) s = UB.
Proof.
  intros Hs O1 O2 Ha. rewrite profile_new_args, Ha.
  unfold profile_alloc, malloc, alloc, bind. rewrite O1.
  unfold mem_error, set_error, error_new, malloc, alloc, bind. cbn [orc cnt]. rewrite O2. reflexivity.
Qed.

(** ** polycap_profile_free *)

Lemma profile_free_spec p lz lc le n zs caps exts (Q : unit -> st T -> Prop) s :
  profile_object s p lz lc le n zs caps exts ->
  (forall s', nxt s' = nxt s -> orc s' = orc s -> cnt s' = cnt s ->
     (forall l, In l [p; lz; lc; le] -> mem s' l = None) ->
     same_memory_except [p; lz; lc; le] s s' -> Q tt s') ->
  wp (profile_free (Some p)) Q s.
Proof.
  intros (Hp & Hz & Hc & He & ND) HQ. unfold dbl_array in *.
  assert (D : p <> lz /\ p <> lc /\ p <> le /\ lz <> lc /\ lz <> le /\ lc <> le).
  { inversion ND as [|? ? h1 ND1]; subst. inversion ND1 as [|? ? h2 ND2]; subst.
    inversion ND2 as [|? ? h3 ND3]; subst. cbn in *. intuition. }
  destruct D as (d1 & d2 & d3 & d4 & d5 & d6).
  unfold profile_free, free_if. repeat wstep.
  apply HQ; auto; cbn [mem].
  - intros l [<-|[<-|[<-|[<-|[]]]]]; now upd_simpl.
  - intros l Hl. cbn [mem]. rewrite !upd_other by (intro; subst; apply Hl; cbn; tauto). reflexivity.
Qed.

(** ** new_from_arrays and the accessors *)

Lemma from_arrays_ok nid lext lcap lz exts caps zs err s :
  wf s -> allocs_succeed 4 s -> (1 < nid)%Z ->
  dbl_array s lext exts -> dbl_array s lcap caps -> dbl_array s lz zs ->
  Z.of_nat (List.length exts) = (nid + 1)%Z ->
  Z.of_nat (List.length caps) = (nid + 1)%Z ->
  Z.of_nat (List.length zs) = (nid + 1)%Z ->
  wp (profile_new_from_arrays nid (Some lext) (Some lcap) (Some lz) err)
     (fun p s' => wf s' /\ orc s' = orc s /\ cnt s' = 4 + cnt s /\
        exists l pz pc pe, p = Some l /\
        profile_object s' l pz pc pe nid zs caps exts /\
        mem s l = None /\ mem s pz = None /\ mem s pc = None /\ mem s pe = None /\
        same_memory_except [l; pz; pc; pe] s s') s.
Proof.
  intros Hwf Ho Hnid He Hc Hz Le Lc Lz. unfold dbl_array in *.
  pose proof (live_lt _ _ _ Hwf He). pose proof (live_lt _ _ _ Hwf Hc). pose proof (live_lt _ _ _ Hwf Hz).
  assert (Ln : forall A (l : list A), Z.of_nat (List.length l) = (nid + 1)%Z ->
             List.length l = Z.to_nat (nid + 1)) by (intros; lia).
  unfold profile_new_from_arrays, reject_if'. cbn [is_null].
  replace (Z.leb nid 1) with false by (symmetry; apply Z.leb_gt; lia).
  pose proof (Ho 0 ltac:(lia)) as O0. pose proof (Ho 1 ltac:(lia)) as O1.
  pose proof (Ho 2 ltac:(lia)) as O2. pose proof (Ho 3 ltac:(lia)) as O3.
  replace (cnt s + 0) with (cnt s) in O0 by lia. replace (cnt s + 1) with (S (cnt s)) in O1 by lia.
  replace (cnt s + 2) with (S (S (cnt s))) in O2 by lia. replace (cnt s + 3) with (S (S (S (cnt s)))) in O3 by lia.
  set (n := Z.to_nat (nid + 1)) in *.
  repeat (wstep; try congruence; cbn [is_null]).
  eapply wp_memcpy; [wlook|wlook|rewrite repeat_length; auto|rewrite map_length, (Ln _ exts Le); auto|].
  wstep. wsimp.
  eapply wp_memcpy; [wlook|wlook|rewrite repeat_length; auto|rewrite map_length, (Ln _ caps Lc); auto|].
  wstep. wsimp.
  eapply wp_memcpy; [wlook|wlook|rewrite repeat_length; auto|rewrite map_length, (Ln _ zs Lz); auto|].
  wsimp. wstep.
  assert (F : forall (xs : list T), Z.of_nat (List.length xs) = (nid + 1)%Z ->
     firstn n (List.map Vdbl xs) ++ skipn n (repeat (@Vundef T) n) = List.map Vdbl xs).
  { intros xs Hl. rewrite firstn_all2 by (rewrite map_length, (Ln _ xs Hl); auto).
    rewrite skipn_all2 by (rewrite repeat_length; auto). apply app_nil_r. }
  rewrite !F by auto.
  split; [|split; [reflexivity|split; [reflexivity|]]].
  - intros l Hl. cbn [mem nxt] in *. upd_simpl. apply Hwf. lia.
  - exists (nxt s), (S (S (S (nxt s)))), (S (S (nxt s))), (S (nxt s)). split; [reflexivity|].
    split; [|refine (conj _ (conj _ (conj _ (conj _ _)))); try (apply Hwf; lia)].
    + repeat split; cbn [mem nxt]; unfold dbl_array; cbn [mem]; upd_simpl; try reflexivity.
      repeat constructor; cbn; lia.
    + intros l Hl. cbn [mem]. rewrite !upd_other by (intro; subst; apply Hl; cbn; tauto). reflexivity.
Qed.

(** An ext array with exactly nid elements (the documented size) is read out of
    bounds. *)
Lemma from_arrays_overread nid lext lcap lz exts err s :
  wf s -> allocs_succeed 4 s -> (1 < nid)%Z ->
  dbl_array s lext exts -> Z.of_nat (List.length exts) = nid ->
  profile_new_from_arrays nid (Some lext) (Some lcap) (Some lz) err s = UB.
Proof.
  intros Hwf Ho Hnid He Le. unfold dbl_array in *.
  pose proof (live_lt _ _ _ Hwf He) as Hl.
  pose proof (Ho 0 ltac:(lia)) as O0. pose proof (Ho 1 ltac:(lia)) as O1.
  pose proof (Ho 2 ltac:(lia)) as O2. pose proof (Ho 3 ltac:(lia)) as O3.
  replace (cnt s + 0) with (cnt s) in O0 by lia. replace (cnt s + 1) with (S (cnt s)) in O1 by lia.
  replace (cnt s + 2) with (S (S (cnt s))) in O2 by lia. replace (cnt s + 3) with (S (S (S (cnt s)))) in O3 by lia.
  assert (W : forall Q : ptr -> st T -> Prop,
     (wp (profile_new_from_arrays nid (Some lext) (Some lcap) (Some lz) err) Q s -> False) ->
     True) by auto. clear W.
  unfold profile_new_from_arrays, reject_if'. cbn [is_null].
  replace (Z.leb nid 1) with false by (symmetry; apply Z.leb_gt; lia).
  unfold malloc. unfold bind at 1. unfold alloc at 1. rewrite O0. cbn [repeat].
  unfold bind at 1, store at 1. cbn [mem nxt orc cnt]. rewrite upd_same.
  cbn [List.length Nat.ltb Nat.leb set_nth].
  unfold bind at 1, alloc at 1. cbn [mem nxt orc cnt]. rewrite O1.
  unfold bind at 1, store at 1. cbn [mem nxt orc cnt]. upd_simpl.
  cbn [List.length Nat.ltb Nat.leb set_nth is_null]. unfold bind at 1, ret at 1.
  unfold bind at 1, alloc at 1. cbn [mem nxt orc cnt]. rewrite O2.
  unfold bind at 1, store at 1. cbn [mem nxt orc cnt]. upd_simpl.
  cbn [List.length Nat.ltb Nat.leb set_nth is_null]. unfold bind at 1, ret at 1.
  unfold bind at 1, alloc at 1. cbn [mem nxt orc cnt]. rewrite O3.
  unfold bind at 1, store at 1. cbn [mem nxt orc cnt]. upd_simpl.
  cbn [List.length Nat.ltb Nat.leb set_nth is_null]. unfold bind at 1, ret at 1.
  unfold bind at 1, memcpy at 1. cbn [mem nxt orc cnt]. upd_simpl. rewrite He.
  rewrite map_length.
  replace (Nat.leb (Z.to_nat (nid + 1)) (List.length exts)) with false
    by (symmetry; apply Nat.leb_gt; lia).
  rewrite andb_false_r. reflexivity.
Qed.

(** The accessor copies the requested array. *)
Lemma profile_get_spec fld xs p lz lc le n zs caps exts nidp outp v1 v2 (Q : bool -> st T -> Prop) s :
  wf s -> orc s (cnt s) = true -> (0 <= n)%Z ->
  profile_object s p lz lc le n zs caps exts ->
  Z.of_nat (List.length xs) = (n + 1)%Z ->
  (fld = 1 /\ xs = zs \/ fld = 2 /\ xs = caps \/ fld = 3 /\ xs = exts) ->
  mem s nidp = Some [v1] -> mem s outp = Some [v2] ->
  NoDup [nidp; outp; p; lz; lc; le] ->
  (forall s' q, wf s' -> orc s' = orc s -> cnt s' = S (cnt s) -> mem s q = None ->
     mem s' nidp = Some [Vint n] -> mem s' outp = Some [Vptr (Some q)] ->
     dbl_array s' q xs ->
     same_memory_except [nidp; outp; q] s s' -> Q true s') ->
  wp (profile_get fld (Some p) (Some nidp) (Some outp)) Q s.
Proof.
  intros Hwf Ho Hn (Hp & Hz & Hc & He & ND4) Hlen Hfld H1 H2 ND HQ. unfold dbl_array in *.
  pose proof (live_lt _ _ _ Hwf H1). pose proof (live_lt _ _ _ Hwf H2).
  pose proof (live_lt _ _ _ Hwf Hp). pose proof (live_lt _ _ _ Hwf Hz).
  pose proof (live_lt _ _ _ Hwf Hc). pose proof (live_lt _ _ _ Hwf He).
  assert (D : nidp <> outp /\ ~ In nidp [p; lz; lc; le] /\ ~ In outp [p; lz; lc; le]).
  { inversion ND as [|? ? h1 ND1]; subst. inversion ND1 as [|? ? h2 ND2]; subst. cbn in *. intuition. }
  destruct D as (d0 & d1 & d2). cbn in d1, d2.
  unfold profile_get. repeat (wstep; try congruence).
  set (m := Z.to_nat (n + 1)).
  assert (Hm : List.length xs = m) by (unfold m; lia).
  assert (F : firstn m (List.map Vdbl xs) ++ skipn m (repeat (@Vundef T) m) = List.map Vdbl xs).
  { rewrite firstn_all2 by (rewrite map_length, Hm; auto).
    rewrite skipn_all2 by (rewrite repeat_length; auto). apply app_nil_r. }
  assert (Src : exists lx, nth_error [@Vint T n; Vptr (Some lz); Vptr (Some lc); Vptr (Some le)] fld
                    = Some (Vptr (Some lx)) /\ mem s lx = Some (List.map Vdbl xs) /\ lx < nxt s /\
                    lx <> nidp /\ lx <> outp).
  { destruct Hfld as [[-> ->]|[[-> ->]|[-> ->]]]; cbn;
      [exists lz|exists lc|exists le]; repeat split; auto; intuition. }
  destruct Src as (lx & S1 & S2 & S3 & S4 & S5).
  eapply wp_load_ptr; [wlook|exact S1|]. wsimp.
  wstep. eapply wp_memcpy; [wlook|wlook|rewrite repeat_length; auto|rewrite map_length, Hm; auto|].
  wsimp. wstep. rewrite F. eapply HQ with (q := nxt s); auto; cbn [mem]; upd_simpl; auto.
  - intros l Hl. cbn [mem nxt] in *. upd_simpl. apply Hwf. lia.
  - intros l Hl. cbn [mem]. rewrite !upd_other by (intro; subst; apply Hl; cbn; tauto). reflexivity.
Qed.

(** Exhaustion inside new_from_arrays: the NULL pointer is written to. *)
Lemma from_arrays_oom_ub nid lext lcap lz s :
  (1 < nid)%Z -> orc s (cnt s) = true -> orc s (S (cnt s)) = false ->
  orc s (S (S (cnt s))) = true -> orc s (S (S (S (cnt s)))) = true ->
  profile_new_from_arrays nid (Some lext) (Some lcap) (Some lz) NULL s = UB.
Proof.
  intros Hnid O0 O1 O2 O3.
  unfold profile_new_from_arrays, reject_if'. cbn [is_null].
  replace (Z.leb nid 1) with false by (symmetry; apply Z.leb_gt; lia).
  unfold malloc. unfold bind at 1. unfold alloc at 1. rewrite O0. cbn [repeat].
  unfold bind at 1, store at 1. cbn [mem nxt orc cnt]. rewrite upd_same.
  cbn [List.length Nat.ltb Nat.leb set_nth].
  unfold bind at 1, alloc at 1. cbn [mem nxt orc cnt]. rewrite O1.
  unfold bind at 1, store at 1. cbn [mem nxt orc cnt]. upd_simpl.
  cbn [List.length Nat.ltb Nat.leb set_nth is_null]. unfold mem_error, set_error. unfold bind at 1, ret at 1.
  unfold bind at 1, alloc at 1. cbn [mem nxt orc cnt]. rewrite O2.
  unfold bind at 1, store at 1. cbn [mem nxt orc cnt]. upd_simpl.
  cbn [List.length Nat.ltb Nat.leb set_nth is_null]. unfold bind at 1, ret at 1.
  unfold bind at 1, alloc at 1. cbn [mem nxt orc cnt]. rewrite O3.
  unfold bind at 1, store at 1. cbn [mem nxt orc cnt]. upd_simpl.
  cbn [List.length Nat.ltb Nat.leb set_nth is_null]. unfold bind at 1, ret at 1.
  reflexivity.
Qed.

End Proofs.
