(** * Proofs about the Python result object: its memory and the calls that fill it *)
From Coq Require Import ZArith List Bool Lia String Permutation.
From Verif Require Import Num Mem SpecHeap SpecPhoton ErrorModel ProfileModel ProfileProofs Geometry ConsModel HeapLib
  ResultModel SpecResult ResultProofs ResultExit ResultLeak ResultLeakGet ResultMore PropResult SepLib FlightRep FlightHeap2 PyModel SpecPy PyResult PyResProofs.
Import ListNotations.

Lemma F2_len {A B} (P : A -> B -> Prop) l m : Forall2 P l m -> List.length l = List.length m.
Proof. intros H. induction H; cbn; congruence. Qed.

Section Change.
Context {T : Type} {N : Num T}.
Local Notation blocks := (list (loc * @block T)).
Implicit Types (s : st T).

Definition hold s (L : blocks) : Prop := forall l b, In (l, b) L -> mem s l = Some b.
Lemma hold_cons s l b (L : blocks) : hold s ((l, b) :: L) <-> mem s l = Some b /\ hold s L.
Proof. unfold hold. split; [intros H; split; [apply H; left; reflexivity|intros; apply H; right; auto]|]. intros [H H'] l' b' [E|I]; [congruence|auto]. Qed.
Lemma hold_nil s : hold s [].
Proof. intros l b []. Qed.
Lemma hold_app s (L L' : blocks) : hold s (L ++ L') <-> hold s L /\ hold s L'.
Proof. unfold hold. split; [intros H; split; intros l b I; apply H, in_or_app; auto|]. intros [H H'] l b I. apply in_app_or in I. destruct I; auto. Qed.

Lemma hs_live F (L : blocks) s l : hs F L s -> In l (map fst L) -> mem s l <> None.
Proof. intros H I. destruct (in_map_fst_ex _ _ I) as [b Ib]. rewrite (hs_in _ _ _ _ _ H Ib). discriminate. Qed.

Lemma NoDup_app_intro {A} (l1 l2 : list A) : NoDup l1 -> NoDup l2 -> (forall x, In x l1 -> ~ In x l2) -> NoDup (l1 ++ l2).
Proof.
  intros N1 N2 D. induction N1 as [|a l1 Ha N1 IH]; [exact N2|]. cbn. constructor.
  - intros K. apply in_app_or in K. destruct K as [K|K]; [auto|]. apply (D a); [left; reflexivity|exact K].
  - apply IH. intros x I. apply D. right. exact I.
Qed.

(** A call described by what it changes. *)
Lemma hs_change F (A A' R : blocks) s s' new :
  hs F (A ++ R) s -> wf s' -> orc s' = orc s -> same_memory_except (new ++ map fst A) s s' -> all_free s new -> NoDup new ->
  Permutation (map fst A') (new ++ map fst A) -> hold s' A' -> hs F (A' ++ R) s'.
Proof.
  intros H W' O' X AF NDn P HA. assert (H0 := H). destruct H as (W & Av & ND & H1 & H2 & H3). rewrite map_app in ND, H2, H3.
  destruct (nodup_app_inv _ _ ND) as (NA & NR & D).
  assert (Fr : forall l, In l new -> ~ In l (map fst A ++ map fst R)).
  { intros l I K. apply (hs_live F (A ++ R) s l H0); [rewrite map_app; exact K|apply AF; exact I]. }
  assert (InA' : forall l, In l (map fst A') <-> In l new \/ In l (map fst A)).
  { intros l. rewrite <- in_app_iff. split; apply Permutation_in; [exact P|symmetry; exact P]. }
  assert (DR : forall l, In l (map fst A') -> ~ In l (map fst R)).
  { intros l I K. apply InA' in I. destruct I as [I|I]; [apply (Fr l I); apply in_or_app; auto|exact (D l I K)]. }
  split; [exact W'|]. split; [unfold memory_available; rewrite O'; exact Av|]. rewrite map_app. split; [|split; [|split]].
  - apply NoDup_app_intro; [|exact NR|exact DR]. eapply Permutation_NoDup; [symmetry; exact P|].
    apply NoDup_app_intro; auto. intros x I K. apply (Fr x I). apply in_or_app. auto.
  - intros l b I. apply in_app_or in I. destruct I as [I|I]; [apply HA; exact I|].
    assert (Il : In l (map fst R)) by (apply in_map_iff; exists (l, b); auto).
    rewrite X; [apply H1; apply in_or_app; auto|]. intros K. apply (DR l); [|exact Il]. apply InA'. apply in_app_or in K. exact K.
  - intros l I. rewrite in_app_iff in I. rewrite X; [apply H2|].
    + intros K. apply I. apply in_app_or in K. destruct K as [K|K]; [left; apply InA'; auto|auto].
    + intros K. apply I. left. apply InA'. apply in_app_or in K. exact K.
  - intros l I. apply in_app_or in I. destruct I as [I|I]; [|apply H3; apply in_or_app; auto].
    apply InA' in I. destruct I as [I|I]; [|apply H3; apply in_or_app; auto].
    rewrite <- H2; [apply AF; exact I|]. apply Fr. exact I.
Qed.

(** Releasing something that is part of the frame. *)
Definition minus (F : loc -> option (@block T)) (B : list loc) : loc -> option (@block T) := fun l => if in_dec Nat.eq_dec l B then None else F l.
Lemma hs_minus F (L : blocks) s s' B :
  hs F L s -> wf s' -> orc s' = orc s -> all_free s' B -> same_memory_except B s s' -> (forall l, In l B -> ~ In l (map fst L)) -> hs (minus F B) L s'.
Proof.
  intros (W & Av & ND & H1 & H2 & H3) W' O' AF X D. split; [exact W'|]. split; [unfold memory_available; rewrite O'; exact Av|]. split; [exact ND|].
  split; [|split].
  - intros l b I. rewrite X; [auto|]. intros K. apply (D l K). apply in_map_iff. exists (l, b). auto.
  - intros l I. unfold minus. destruct (in_dec _ _ _) as [K|K]; [apply AF; exact K|rewrite X by exact K; auto].
  - intros l I. unfold minus. destruct (in_dec _ _ _); auto.
Qed.

(** Every block of a result is in use. *)
Lemma result_live s eff im pen peff src p1 p2 p3 (r : result T) : result_object s eff im pen peff src p1 p2 p3 r ->
  forall l, In l (result_blocks eff im pen peff p1 p2 p3) -> mem s l <> None.
Proof.
  intros (_ & R2 & R3 & R4 & R5 & R6 & R7 & R8) l I. unfold result_blocks in I. apply in_app_or in I. destruct I as [I|I].
  - apply in_concat in I. destruct I as (x & Ix & Il). apply in_map_iff in Ix. destruct Ix as (p & <- & Ip). destruct p as [q|]; [|destruct Il].
    destruct Il as [->|[]].
    assert (B : forall ps cs, Forall2 (begins s) ps cs -> In (Some l) ps -> exists c, begins s (Some l) c).
    { intros ps cs Fa. induction Fa; intros []; [subst; eauto|auto]. }
    assert (exists c, begins s (Some l) c) as (c & more & ->); [|discriminate].
    cbn [In] in Ip. rewrite !in_app_iff in Ip. destruct Ip as [->|[->|[Ip|[Ip|Ip]]]]; eauto.
  - cbn in I. destruct I as [<-|[<-|[]]]; congruence.
Qed.

End Change.

(** Bring the block at [l] to the front of the blocks of [H]. *)
Ltac without l L :=
  lazymatch L with
  | (l, _) :: ?R => R
  | ?x :: ?R => let r := without l R in constr:(x :: r)
  | ?A ++ ?R => match constr:(Set) with _ => let a := without l A in constr:(a ++ R) | _ => let r := without l R in constr:(A ++ r) end
  end.
Ltac block_of l L :=
  lazymatch L with
  | (l, ?b) :: ?R => b
  | ?x :: ?R => block_of l R
  | ?A ++ ?R => match constr:(Set) with _ => block_of l A | _ => block_of l R end
  end.
Ltac pull l H :=
  lazymatch type of H with
  | hs ?F ?L ?s => let b := block_of l L in let R := without l L in
      let K := fresh "K" in pose proof (hs_perm F L ((l, b) :: R) s ltac:(perm) H) as K; clear H; rename K into H
  end.

Section Inv.
Context {T : Type} {N : Num T}.
Local Notation blocks := (list (loc * @block T)).
Implicit Types (s : st T).
Variables (o : te) (eff im : loc) (pen peff src : ptr) (p1 p2 p3 : list ptr) (r : result T).
Local Notation RB := (result_blocks eff im pen peff p1 p2 p3).

(** What is cached. *)
Record caches := mkC {
  c_ext : option (loc * list (loc * loc)); c_int : option (loc * list (loc * loc));
  c_start : option (loc * loc * loc * loc);
  c_exit : option (loc * loc * loc * loc * loc * loc * list loc) }.
Definition loaded (C : caches) (a : acc) : Prop :=
  match a with
  | extleak_data => c_ext C <> None | intleak_data => c_int C <> None
  | exit_coords | exit_direction | exit_elecv | n_refl | exit_weights | d_travel => c_exit C <> None
  | start_coords | start_direction | start_elecv | src_start_coords => c_start C <> None
  end.

Definition miscb (e ns nx ne x y z : val T) : blocks :=
  [(v_eff o, [Vptr (Some eff)]); (v_err o, [e]); (v_nstart o, [ns]); (v_nexit o, [nx]); (v_nen o, [ne]); (v_n o, [x]); (v_en o, [y]); (v_ef o, [z])].
Fixpoint lkbs (ev : leak_row T -> option (vec3 T)) (ls : list (loc * loc)) (ks : list (leak_row T)) : blocks :=
  match ls, ks with
  | (l, w) :: ls, k :: ks =>
      (l, vcells (k_coords k) ++ vcells (completed (k_dir k)) ++ match ev k with Some v => vcells v | None => [Vundef; Vundef; Vundef] end ++
          [Vint (Z.of_nat (List.length (k_weights k))); Vptr (Some w); Vint (k_nrefl k)]) :: (w, map Vdbl (k_weights k)) :: lkbs ev ls ks
  | _, _ => []
  end.
Definition leakg (vl vn : loc) ev (ks : list (leak_row T)) (x : option (loc * list (loc * loc))) : blocks :=
  match x with
  | None => [(vl, [Vptr NULL]); (vn, [Vint 0])]
  | Some (q, ls) => (vl, [Vptr (Some q)]) :: (vn, [Vint (Z.of_nat (List.length ks))]) :: (q, map (fun lw => Vptr (Some (fst lw))) ls) :: lkbs ev ls ks
  end.
Definition ev_ext (k : leak_row T) : option (vec3 T) := None.
Definition ev_int (k : leak_row T) : option (vec3 T) := Some (completed (k_elecv k)).
Definition extg := leakg (v_ext o) (v_next o) ev_ext (q_ext r).
Definition intg := leakg (v_int o) (v_nint o) ev_int (q_int r).
Definition startg (x : option (loc * loc * loc * loc)) : blocks :=
  match x with
  | None => [(v_sc o, [Vptr NULL]); (v_sd o, [Vptr NULL]); (v_se o, [Vptr NULL]); (v_ss o, [Vptr NULL])]
  | Some (l1, l2, l3, l4) =>
      [(v_sc o, [Vptr (Some l1)]); (v_sd o, [Vptr (Some l2)]); (v_se o, [Vptr (Some l3)]); (v_ss o, [Vptr (Some l4)]);
       (l1, cells3 (map (fun x => flat (r_start x)) (q_rows r)));
       (l2, cells3 (map (fun x => completed (r_start_dir x)) (q_rows r)));
       (l3, cells3 (map (fun x => completed (r_start_elecv x)) (q_rows r)));
       (l4, cells3 (map (fun x => flat (r_src x)) (q_rows r)))]
  end.
Fixpoint arrs (ls : list loc) (xss : list (list T)) : blocks :=
  match ls, xss with l :: ls, xs :: xss => (l, map Vdbl xs) :: arrs ls xss | _, _ => [] end.
Definition exitg (x : option (loc * loc * loc * loc * loc * loc * list loc)) : blocks :=
  match x with
  | None => [(v_xc o, [Vptr NULL]); (v_xd o, [Vptr NULL]); (v_xe o, [Vptr NULL]); (v_refl o, [Vptr NULL]); (v_trav o, [Vptr NULL]); (v_xw o, [Vptr NULL])]
  | Some (l1, l2, l3, l4, l5, l6, lw) =>
      [(v_xc o, [Vptr (Some l1)]); (v_xd o, [Vptr (Some l2)]); (v_xe o, [Vptr (Some l3)]);
       (v_refl o, [Vptr (Some l4)]); (v_trav o, [Vptr (Some l5)]); (v_xw o, [Vptr (Some l6)]);
       (l1, cells3 (map r_exit (q_rows r)));
       (l2, cells3 (map (fun x => completed (r_exit_dir x)) (q_rows r)));
       (l3, cells3 (map (fun x => completed (r_exit_elecv x)) (q_rows r)));
       (l4, map Vint (map r_nrefl (q_rows r)));
       (l5, map Vdbl (map r_travel (q_rows r)));
       (l6, map (fun a => Vptr (Some a)) lw)] ++ arrs lw (map r_weights (q_rows r))
  end.
Definition lens_ok (C : caches) : Prop :=
  (forall q ls, c_ext C = Some (q, ls) -> q_ext r <> [] /\ List.length ls = List.length (q_ext r)) /\
  (forall q ls, c_int C = Some (q, ls) -> q_int r <> [] /\ List.length ls = List.length (q_int r)) /\
  (forall x lw, c_exit C = Some (x, lw) -> List.length lw = List.length (q_rows r)).
Definition num n : val T := Vint (Z.of_nat n).
Definition heapC (C : caches) (e ns nx ne x y z : val T) : blocks :=
  miscb e ns nx ne x y z ++ extg (c_ext C) ++ intg (c_int C) ++ startg (c_start C) ++ exitg (c_exit C).

Lemma lkbs_fst ev : forall ls ks, List.length ls = List.length ks -> map fst (lkbs ev ls ks) = leak_blocks ls.
Proof. induction ls as [|[l w] ls IH]; intros [|d ds] E; cbn in E; try discriminate; [reflexivity|]. cbn. unfold leak_blocks in IH. rewrite IH by lia. reflexivity. Qed.
Lemma lkbs_hold ev s : forall ls ks,
  Forall2 (fun lw k => leak_record s (fst lw) (snd lw) (k_coords k) (completed (k_dir k)) (ev k) (k_nrefl k) (k_weights k)) ls ks ->
  hold s (lkbs ev ls ks).
Proof. intros ls ks Fa. induction Fa as [|[l w] k ls ks [A B] Fa IH]; [apply hold_nil|]. cbn [lkbs]. rewrite !hold_cons. auto. Qed.
Lemma arrs_fst : forall ls xss, List.length ls = List.length xss -> map fst (arrs ls xss) = ls.
Proof. induction ls as [|l ls IH]; intros [|xs xss] E; cbn in E; try discriminate; [reflexivity|]. cbn. rewrite IH by lia. reflexivity. Qed.
Lemma arrs_hold s : forall ls xss, Forall2 (dbl_array s) ls xss -> hold s (arrs ls xss).
Proof. intros ls xss Fa. induction Fa; [apply hold_nil|]. cbn [arrs]. rewrite hold_cons. auto. Qed.

(** The frame contains the result. *)
Variables (F : loc -> option (@block T)) (s0 : st T).
Hypothesis Obj : result_object s0 eff im pen peff src p1 p2 p3 r.
Hypothesis HF : forall l, In l RB -> F l = mem s0 l.

Lemma rb_out (L : blocks) s l : hs F L s -> In l (map fst L) -> ~ In l RB.
Proof.
  intros (_ & _ & _ & _ & _ & H3) I K. apply (result_live s0 eff im pen peff src p1 p2 p3 r Obj l K). rewrite <- HF by exact K. auto.
Qed.
Lemma obj_at (L : blocks) s : hs F L s -> result_object s eff im pen peff src p1 p2 p3 r.
Proof.
  intros H. eapply obj_keep; [exact Obj|]. intros l I. rewrite <- HF by exact I. destruct H as (_ & _ & _ & _ & H2 & H3). apply H2. intros K.
  apply (result_live s0 eff im pen peff src p1 p2 p3 r Obj l I). rewrite <- HF by exact I. auto.
Qed.
Lemma outs_ok (A R : blocks) s err e : hs F (A ++ R) s -> In (err, e) R -> (forall l b, In (l, b) A -> exists v, b = [v]) ->
  out_variables s (Some err) RB (map fst A).
Proof.
  intros H Ie V. assert (H0 := H). destruct H as (_ & _ & ND & H1 & _). rewrite map_app in ND. destruct (nodup_app_inv _ _ ND) as (NA & _ & D).
  split; [exact NA|]. intros l I. split; [|split].
  - destruct (in_map_fst_ex _ _ I) as [b Ib]. destruct (V _ _ Ib) as [v ->]. exists v. apply H1. apply in_or_app. auto.
  - eapply rb_out; [exact H0|]. rewrite map_app. apply in_or_app. auto.
  - intros [= ->]. apply (D l I). apply in_map_iff. exists (l, e). auto.
Qed.
Lemma fits (L : blocks) s err : hs F L s -> reports_fit err s.
Proof. intros (_ & A & _) k Hk. rewrite A in Hk. discriminate. Qed.
Lemma avail (L : blocks) s : hs F L s -> forall k, orc s k = true.
Proof. intros (_ & A & _). exact A. Qed.

Ltac vals := let l := fresh "l" in let b := fresh "b" in let I := fresh "I" in intros l b I; cbn [In] in I; repeat destruct I as [I|I]; [..|destruct I]; injection I as <- <-; eexists; reflexivity.

(** The start data. *)
Lemma start_ok C s ns nx ne x y z :
  q_started r <> 0%Z -> q_rows r <> [] -> c_start C = None ->
  hs F (heapC C (Vptr NULL) ns nx ne x y z) s ->
  wp (get_start_data (Some eff) (Some (v_nstart o)) (Some (v_nexit o)) (Some (v_sc o)) (Some (v_sd o)) (Some (v_se o)) (Some (v_ss o)) (Some (v_err o)))
     (fun _ s' => exists c, hs F (heapC (mkC (c_ext C) (c_int C) (Some c) (c_exit C)) (Vptr NULL) (Vint (q_started r)) (num (List.length (q_rows r))) ne x y z) s') s.
Proof.
  intros Hs Hr E0 H. unfold heapC in H. rewrite E0 in H. cbn [startg] in H. unfold miscb in H.
  set (G1 := extg (c_ext C)) in *. set (G2 := intg (c_int C)) in *. set (G3 := exitg (c_exit C)) in *.
  pose (A := [(v_nstart o, [ns]); (v_nexit o, [nx]); (v_sc o, [Vptr NULL]); (v_sd o, [Vptr NULL]); (v_se o, [Vptr NULL]); (v_ss o, [Vptr NULL])] : blocks).
  pose (R := [(v_eff o, [Vptr (Some eff)]); (v_err o, [Vptr NULL]); (v_nen o, [ne]); (v_n o, [x]); (v_en o, [y]); (v_ef o, [z])] ++ G1 ++ G2 ++ G3 : blocks).
  assert (H' : hs F (A ++ R) s).
  { eapply hs_perm; [|exact H]. subst A R. perm. }
  clear H. rename H' into H.
  eapply wp_mono; [eapply wp_keeps; [apply keeps_start|apply H|]; eapply (C95_start_data s eff im pen peff src p1 p2 p3 r)|].
  - apply H.
  - eapply obj_at; exact H.
  - eapply (outs_ok A R s (v_err o) [Vptr NULL] H); [subst R; cbn; auto|vals].
  - exists NULL. eapply hs_in; [exact H|]. subst A R. cbn; auto 20.
  - eapply fits; exact H.
  - exact Hs.
  - exact Hr.
  - intros ok s' (W' & O' & [P|(_ & (k & Hk) & _)]); [|rewrite (avail _ _ H) in Hk; discriminate].
    destruct P as (_ & M1 & M2 & l1 & l2 & l3 & l4 & M3 & M4 & M5 & M6 & V1 & V2 & V3 & V4 & ND & AF & X).
    exists (l1, l2, l3, l4). unfold heapC. cbn [startg c_ext c_int c_start c_exit]. fold G1 G2 G3.
    assert (H' : hs F (([(v_nstart o, [Vint (q_started r)]); (v_nexit o, [num (List.length (q_rows r))])] ++ startg (Some (l1, l2, l3, l4))) ++ R) s').
    { eapply (hs_change F A _ R s s' [l1; l2; l3; l4]); [exact H|exact W'|exact O'|exact X|exact AF|exact ND| |].
      - subst A. cbn [map fst app startg]. perm.
      - cbn [startg app]. rewrite !hold_cons. unfold vec_array in *. repeat (split; [assumption|]). apply hold_nil. }
    eapply hs_perm; [|exact H']. subst R. cbn [startg]. unfold miscb. perm.
Qed.

(** The exit data. *)
Lemma exit_ok C s ns nx ne x y z :
  q_started r <> 0%Z -> c_exit C = None ->
  hs F (heapC C (Vptr NULL) ns nx ne x y z) s ->
  wp (get_exit_data (Some eff) (Some (v_nexit o)) (Some (v_xc o)) (Some (v_xd o)) (Some (v_xe o)) (Some (v_refl o))
                 (Some (v_trav o)) (Some (v_nen o)) (Some (v_xw o)) (Some (v_err o)))
     (fun _ s' => exists c lw, List.length lw = List.length (q_rows r) /\
        hs F (heapC (mkC (c_ext C) (c_int C) (c_start C) (Some (c, lw))) (Vptr NULL) ns (num (List.length (q_rows r))) (num (List.length (q_energies r))) x y z) s') s.
Proof.
  intros Hs E0 H. unfold heapC in H. rewrite E0 in H. cbn [exitg] in H. unfold miscb in H.
  set (G1 := extg (c_ext C)) in *. set (G2 := intg (c_int C)) in *. set (G3 := startg (c_start C)) in *.
  pose (A := [(v_nexit o, [nx]); (v_nen o, [ne]); (v_xc o, [Vptr NULL]); (v_xd o, [Vptr NULL]); (v_xe o, [Vptr NULL]); (v_refl o, [Vptr NULL]); (v_trav o, [Vptr NULL]); (v_xw o, [Vptr NULL])] : blocks).
  pose (R := [(v_eff o, [Vptr (Some eff)]); (v_err o, [Vptr NULL]); (v_nstart o, [ns]); (v_n o, [x]); (v_en o, [y]); (v_ef o, [z])] ++ G1 ++ G2 ++ G3 : blocks).
  assert (H' : hs F (A ++ R) s).
  { eapply hs_perm; [|exact H]. subst A R. perm. }
  clear H. rename H' into H.
  eapply wp_mono; [eapply wp_keeps; [apply keeps_exit|apply H|]; eapply (C95_exit_data s eff im pen peff src p1 p2 p3 r)|].
  - apply H.
  - eapply obj_at; exact H.
  - eapply (outs_ok A R s (v_err o) [Vptr NULL] H); [subst R; cbn; auto|vals].
  - exists NULL. eapply hs_in; [exact H|]. subst A R. cbn; auto 20.
  - eapply fits; exact H.
  - exact Hs.
  - intros ok s' (W' & O' & [P|(_ & (k & Hk) & _)]); [|rewrite (avail _ _ H) in Hk; discriminate].
    destruct P as (_ & M1 & M2 & l1 & l2 & l3 & l4 & l5 & l6 & lw & M3 & M4 & M5 & M6 & M7 & M8 & V1 & V2 & V3 & V4 & V5 & (V6 & V7) & ND & AF & X).
    assert (Len : List.length lw = List.length (map r_weights (q_rows r))) by (eapply F2_len; exact V7).
    exists (l1, l2, l3, l4, l5, l6), lw. split; [rewrite Len, map_length; reflexivity|].
    unfold heapC. cbn [c_ext c_int c_start c_exit]. fold G1 G2 G3.
    assert (H' : hs F (([(v_nexit o, [num (List.length (q_rows r))]); (v_nen o, [num (List.length (q_energies r))])] ++ exitg (Some (l1, l2, l3, l4, l5, l6, lw))) ++ R) s').
    { eapply (hs_change F A _ R s s' ([l1; l2; l3; l4; l5; l6] ++ lw)); [exact H|exact W'|exact O'|exact X|exact AF|exact ND| |].
      - subst A. cbn [map fst app exitg]. rewrite (arrs_fst _ _ Len). perm.
      - cbn [exitg app]. rewrite !hold_cons. unfold vec_array, int_array, dbl_array in *. repeat (split; [assumption|]). apply arrs_hold. exact V7. }
    eapply hs_perm; [|exact H']. subst R. cbn [exitg]. unfold miscb. perm.
Qed.

(** The leaks. *)
Lemma ext_ok C s ns nx ne x y z : q_ext r <> [] -> c_ext C = None ->
  hs F (heapC C (Vptr NULL) ns nx ne x y z) s ->
  wp (get_extleak_data (Some eff) (Some (v_ext o)) (Some (v_next o)) (Some (v_err o)))
     (fun _ s' => exists q ls, List.length ls = List.length (q_ext r) /\
        hs F (heapC (mkC (Some (q, ls)) (c_int C) (c_start C) (c_exit C)) (Vptr NULL) ns nx ne x y z) s') s.
Proof.
  intros Hr E0 H. unfold heapC in H. rewrite E0 in H. unfold extg in H. cbn [leakg] in H. unfold miscb in H.
  set (G1 := exitg (c_exit C)) in *. set (G2 := intg (c_int C)) in *. set (G3 := startg (c_start C)) in *.
  pose (A := [(v_ext o, [Vptr NULL]); (v_next o, [Vint 0])] : blocks).
  pose (R := [(v_eff o, [Vptr (Some eff)]); (v_err o, [Vptr NULL]); (v_nstart o, [ns]); (v_nexit o, [nx]); (v_nen o, [ne]); (v_n o, [x]); (v_en o, [y]); (v_ef o, [z])] ++ G1 ++ G2 ++ G3 : blocks).
  assert (H' : hs F (A ++ R) s).
  { eapply hs_perm; [|exact H]. subst A R. perm. }
  clear H. rename H' into H.
  eapply wp_mono; [eapply wp_keeps; [apply keeps_leak|apply H|]; eapply (C95_external_leaks s eff im pen peff src p1 p2 p3 r)|].
  - apply H.
  - eapply obj_at; exact H.
  - eapply (outs_ok A R s (v_err o) [Vptr NULL] H); [subst R; cbn; auto|vals].
  - exists NULL. eapply hs_in; [exact H|]. subst A R. cbn; auto 20.
  - eapply fits; exact H.
  - exact Hr.
  - intros ok s' (W' & O' & [P|(_ & (k & Hk) & _)]); [|rewrite (avail _ _ H) in Hk; discriminate].
    destruct P as (_ & M1 & q & ls & M2 & (V1 & V2) & ND & AF & X).
    assert (Len : List.length ls = List.length (q_ext r)) by (eapply F2_len; exact V2).
    exists q, ls. split; [exact Len|]. unfold heapC. cbn [c_ext c_int c_start c_exit]. fold G1 G2 G3.
    assert (H' : hs F (extg (Some (q, ls)) ++ R) s').
    { eapply (hs_change F A _ R s s' (q :: leak_blocks ls)); [exact H|exact W'|exact O'|exact X|exact AF|exact ND| |].
      - subst A. unfold extg. cbn [map fst app leakg]. rewrite (lkbs_fst _ _ _ Len). perm.
      - unfold extg. cbn [leakg app]. rewrite !hold_cons. repeat (split; [assumption|]). apply lkbs_hold. exact V2. }
    eapply hs_perm; [|exact H']. subst R. unfold miscb. perm.
Qed.
Lemma int_ok C s ns nx ne x y z : q_int r <> [] -> c_int C = None ->
  hs F (heapC C (Vptr NULL) ns nx ne x y z) s ->
  wp (get_intleak_data (Some eff) (Some (v_int o)) (Some (v_nint o)) (Some (v_err o)))
     (fun _ s' => exists q ls, List.length ls = List.length (q_int r) /\
        hs F (heapC (mkC (c_ext C) (Some (q, ls)) (c_start C) (c_exit C)) (Vptr NULL) ns nx ne x y z) s') s.
Proof.
  intros Hr E0 H. unfold heapC in H. rewrite E0 in H. unfold intg in H. cbn [leakg] in H. unfold miscb in H.
  set (G1 := exitg (c_exit C)) in *. set (G2 := extg (c_ext C)) in *. set (G3 := startg (c_start C)) in *.
  pose (A := [(v_int o, [Vptr NULL]); (v_nint o, [Vint 0])] : blocks).
  pose (R := [(v_eff o, [Vptr (Some eff)]); (v_err o, [Vptr NULL]); (v_nstart o, [ns]); (v_nexit o, [nx]); (v_nen o, [ne]); (v_n o, [x]); (v_en o, [y]); (v_ef o, [z])] ++ G1 ++ G2 ++ G3 : blocks).
  assert (H' : hs F (A ++ R) s).
  { eapply hs_perm; [|exact H]. subst A R. perm. }
  clear H. rename H' into H.
  eapply wp_mono; [eapply wp_keeps; [apply keeps_leak|apply H|]; eapply (C95_internal_leaks s eff im pen peff src p1 p2 p3 r)|].
  - apply H.
  - eapply obj_at; exact H.
  - eapply (outs_ok A R s (v_err o) [Vptr NULL] H); [subst R; cbn; auto|vals].
  - exists NULL. eapply hs_in; [exact H|]. subst A R. cbn; auto 20.
  - eapply fits; exact H.
  - exact Hr.
  - intros ok s' (W' & O' & [P|(_ & (k & Hk) & _)]); [|rewrite (avail _ _ H) in Hk; discriminate].
    destruct P as (_ & M1 & q & ls & M2 & (V1 & V2) & ND & AF & X).
    assert (Len : List.length ls = List.length (q_int r)) by (eapply F2_len; exact V2).
    exists q, ls. split; [exact Len|]. unfold heapC. cbn [c_ext c_int c_start c_exit]. fold G1 G2 G3.
    assert (H' : hs F (intg (Some (q, ls)) ++ R) s').
    { eapply (hs_change F A _ R s s' (q :: leak_blocks ls)); [exact H|exact W'|exact O'|exact X|exact AF|exact ND| |].
      - subst A. unfold intg. cbn [map fst app leakg]. rewrite (lkbs_fst _ _ _ Len). perm.
      - unfold intg. cbn [leakg app]. rewrite !hold_cons. repeat (split; [assumption|]). apply lkbs_hold. exact V2. }
    eapply hs_perm; [|exact H']. subst R. unfold miscb. perm.
Qed.

(** No leaks. *)
Lemma none_gen inn ic id iw ir ie (vl vn : loc) (R : blocks) b s :
  mem s im = Some b -> nth_error b inn = Some (Vint 0) ->
  hs F ((vl, [Vptr NULL]) :: (vn, [Vint 0]) :: (v_err o, [Vptr NULL]) :: R) s ->
  wp (get_leak_data inn ic id iw ir ie (Some eff) (Some vl) (Some vn) (Some (v_err o)))
     (fun _ s' => exists e t m, hs F ((v_err o, [Vptr (Some e)]) :: (e, [Vint POLYCAP_ERROR_INVALID_ARGUMENT; Vptr (Some t)]) :: (t, [Vstr m]) ::
        (vl, [Vptr NULL]) :: (vn, [Vint 0]) :: R) s') s.
Proof.
  intros Em En H. destruct (obj_at _ _ H) as (_ & R2 & _). unfold get_leak_data, refuse. cbn [is_null].
  apply wp_bind. eapply wp_load_ptr; [exact R2|reflexivity|]. cbn [is_null].
  apply wp_bind. eapply wp_load_int; [exact Em|exact En|].
  pull vn H. apply wp_bind. eapply hs_store; [exact H|cbn; lia|]. cbn [set_nth]. clear H s Em R2. intros s H.
  change (Z.eqb 0 0) with true. cbn match. pull vl H. apply wp_bind. eapply hs_store; [exact H|cbn; lia|]. cbn [set_nth]. clear H s. intros s H.
  apply wp_bind. eapply hs_first_error; [pull (v_err o) H; exact H|]. intros e t s' H'. apply wp_ret. exists e, t, "polycap_source_get_leak_data: no leak events in efficiencies"%string.
  eapply hs_perm; [|exact H']. perm.
Qed.
End Inv.
