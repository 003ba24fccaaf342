(** * A photon in flight as a list of memory blocks; reading and writing it *)
From Coq Require Import ZArith List Bool Lia String Permutation.
From Verif Require Import Num Mem SpecHeap HeapLib ErrorModel ProfileModel Geometry SpecPhoton ConsModel H5Model RM CapilModel TraceModel LaunchModel PhotProofs SepLib FlightMem.
Import ListNotations.

Section Rep.
Context {T : Type} {N : Num T}.
Local Notation M := (M T).
Local Notation ret := Mem.ret.
Local Notation bind := Mem.bind.
Local Notation blocks := (list (loc * @block T)).

(** ** Blocks *)
Definition optb (k : loc) (o : option (list T)) : blocks := match o with None => [] | Some xs => [(k, List.map Vdbl xs)] end.
Definition optp (k : loc) {A} (o : option A) : ptr := match o with None => None | Some _ => Some k end.
Definition leak_block (w : loc) (d : leak_data T) : @block T :=
  vcells (lk_coords d) ++ vcells (lk_dir d) ++ vcells (lk_elecv d) ++
  [Vint (Z.of_nat (List.length (lk_weights d))); Vptr (Some w); Vint (lk_nrefl d)].
Fixpoint leakb (ls : list (loc * loc)) (ds : list (leak_data T)) : blocks :=
  match ls, ds with
  | lw :: ls, d :: ds => (fst lw, leak_block (snd lw) d) :: (snd lw, List.map Vdbl (lk_weights d)) :: leakb ls ds
  | _, _ => []
  end.
Definition arrb (ls : list (loc * loc)) : @block T := List.map (fun lw => Vptr (Some (fst lw))) ls.
Definition lks (X : loc) (ls : list (loc * loc)) (ds : list (leak_data T)) : blocks :=
  match ds with [] => [] | _ => (X, arrb ls) :: leakb ls ds end.
Definition lkp (X : loc) (ds : list (leak_data T)) : ptr := match ds with [] => None | _ => Some X end.

Record keys := { kE : loc; kW : loc; kA : loc; kS : loc; kX : loc; kxl : list (loc * loc); kI : loc; kil : list (loc * loc) }.
Definition zlen {A} (l : list A) : Z := Z.of_nat (List.length l).

Definition pblock (d : loc) (src : vec3 T) (K : keys) (ph : photon T) : @block T :=
  photon_block (Some d) (lkp (kX K) (ph_ext ph)) (lkp (kI K) (ph_int ph)) (zlen (ph_ext ph)) (zlen (ph_int ph))
    (ph_start ph) (ph_sdir ph) (ph_selec ph) (ph_exit ph) (ph_edir ph) (ph_eelec ph) src
    (zlen (ph_en ph)) (Some (kE K)) (Some (kW K)) (optp (kA K) (ph_amu ph)) (optp (kS K) (ph_scatf ph))
    (ph_irefl ph) (ph_dtravel ph).
Definition leaksb (K : keys) (ph : photon T) : blocks := lks (kX K) (kxl K) (ph_ext ph) ++ lks (kI K) (kil K) (ph_int ph).
Definition csb (K : keys) (ph : photon T) : blocks := optb (kA K) (ph_amu ph) ++ optb (kS K) (ph_scatf ph).
Definition flyb (p d : loc) (src : vec3 T) (K : keys) (ph : photon T) : blocks :=
  (p, pblock d src K ph) :: (kE K, List.map Vdbl (ph_en ph)) :: (kW K, List.map Vdbl (ph_w ph)) :: csb K ph ++ leaksb K ph.

(** Sizes. *)
Definition full (ne : nat) (ds : list (leak_data T)) : Prop := Forall (fun d => List.length (lk_weights d) = ne) ds.
Definition olen (ne : nat) (o : option (list T)) : Prop := match o with None => True | Some l => List.length l = ne end.
Definition fit (ph : photon T) : Prop :=
  let ne := List.length (ph_en ph) in
  List.length (ph_w ph) = ne /\ olen ne (ph_amu ph) /\ olen ne (ph_scatf ph) /\ full ne (ph_ext ph) /\ full ne (ph_int ph).
Definition kok (K : keys) (ph : photon T) : Prop := List.length (kxl K) = List.length (ph_ext ph) /\ List.length (kil K) = List.length (ph_int ph).

(** The caller's error variable. *)
Definition errs (err : eslot) (e : slot) (EB : blocks) : Prop :=
  match err with
  | None => EB = []
  | Some l => match e with
              | None => EB = [(l, [Vptr NULL])]
              | Some c => exists o t m, EB = [(l, [Vptr (Some o)]); (o, [Vint c; Vptr (Some t)]); (t, [Vstr m])]
              end
  end.

(** ** Monad *)
Lemma wp_bindF {A B} (m : MF A) (k : A -> MF B) e (Q : option (B * slot) -> st T -> Prop) s :
  wp (m e) (fun o s' => match o with Some (a, e') => wp (k a e') Q s' | None => Q None s' end) s -> wp (bindF m k e) Q s.
Proof.
  intros H. unfold bindF. apply wp_bind. eapply wp_mono; [exact H|]. intros [[a e']|] s' H'; [exact H'|]. apply wp_ret. exact H'.
Qed.
Lemma wp_inM {A} (m : M A) e (Q : option (A * slot) -> st T -> Prop) s : wp m (fun a s' => Q (Some (a, e)) s') s -> wp (inM m e) Q s.
Proof. intros H. unfold inM. apply wp_bind. eapply wp_mono; [exact H|]. intros a s' H'. apply wp_ret. exact H'. Qed.
Lemma wp_retF {A} (a : A) e (Q : option (A * slot) -> st T -> Prop) s : Q (Some (a, e)) s -> wp (retF a e) Q s.
Proof. exact (fun H => H). Qed.

(** ** Errors *)
Definition sticky {A} (m : RM A) : Prop := forall c a e', m (Some c) = Ret (a, e') -> e' = Some c.

Lemma hs_first_error F R l c m (Q : unit -> st T -> Prop) s :
  hs F ((l, [Vptr NULL]) :: R) s ->
  (forall o t s', hs F ((l, [Vptr (Some o)]) :: (o, [Vint c; Vptr (Some t)]) :: (t, [Vstr m]) :: R) s' -> Q tt s') ->
  wp (set_error_literal (Some l) c (Some m)) Q s.
Proof.
  intros H HQ. unfold set_error_literal. apply wp_bind. eapply hs_load_ptr; [exact H|inL|reflexivity|].
  apply wp_bind. unfold error_new, malloc, strdup. apply wp_bind. eapply hs_alloc; [exact H|]. cbn [repeat]. intros o s1 H1.
  apply wp_bind. eapply hs_store; [exact H1|cbn; lia|]. cbn [set_nth]. intros s2 H2.
  apply wp_bind. eapply hs_alloc; [exact H2|]. intros t s3 H3.
  apply wp_bind. eapply hs_store; [eapply (hs_perm _ _ ((o, [Vint c; Vundef]) :: (t, [Vstr m]) :: (l, [Vptr NULL]) :: R)); [|exact H3]; perm|cbn; lia|].
  cbn [set_nth]. intros s4 H4. apply wp_ret.
  eapply hs_store; [eapply (hs_perm _ _ ((l, [Vptr NULL]) :: (o, [Vint c; Vptr (Some t)]) :: (t, [Vstr m]) :: R)); [|exact H4]; perm|cbn; lia|].
  cbn [set_nth]. intros s5 H5. eapply HQ. exact H5.
Qed.

Lemma wp_calc {A} err (m : RM A) e a e' F R EB (Q : option (A * slot) -> st T -> Prop) s :
  m e = Ret (a, e') -> sticky m -> errs err e EB -> hs F (EB ++ R) s ->
  (forall EB' s', errs err e' EB' -> hs F (EB' ++ R) s' -> Q (Some (a, e')) s') ->
  wp (calc err m e) Q s.
Proof.
  intros E St HE H HQ. unfold calc. rewrite E. apply wp_bind. destruct e as [c|].
  - rewrite (St _ _ _ E) in *. apply wp_ret. apply wp_ret. eapply HQ; eauto.
  - destruct e' as [c|]; [|apply wp_ret; apply wp_ret; eapply HQ; eauto].
    destruct err as [l|]; cbn [errs] in HE; subst EB.
    + eapply hs_first_error; [exact H|]. intros o t s' H'. apply wp_ret.
      eapply HQ with (EB' := [(l, [Vptr (Some o)]); (o, [Vint c; Vptr (Some t)]); (t, [Vstr "polycap_photon_launch"%string])]); [|exact H'].
      cbn. eauto.
    + apply wp_ret. apply wp_ret. eapply HQ; eauto. reflexivity.
Qed.

(** ** Reading and writing a photon *)
Lemma hs_read_dbls F L s l xs n (Q : list T -> st T -> Prop) : hs F L s -> In (l, List.map Vdbl xs) L -> n = List.length xs ->
  Q xs s -> wp (read_dbls n 0 (Some l)) Q s.
Proof. intros H I E HQ. eapply wp_read_all; [eapply hs_in; eauto|exact E|exact HQ]. Qed.

Lemma hs_write_dbls F L l : forall xs pre (post : @block T) (Q : unit -> st T -> Prop) s, List.length xs <= List.length post ->
  hs F ((l, pre ++ post) :: L) s ->
  (forall s', hs F ((l, pre ++ List.map Vdbl xs ++ skipn (List.length xs) post) :: L) s' -> Q tt s') ->
  wp (write_dbls (Some l) (List.length pre) xs) Q s.
Proof.
  induction xs as [|x xs IH]; intros pre post Q s Hl H HQ; cbn [write_dbls].
  - apply wp_ret. apply HQ. exact H.
  - destruct post as [|v post]; cbn [List.length] in Hl; [lia|]. apply wp_bind.
    eapply hs_store; [exact H|rewrite app_length; cbn; lia|]. intros s' H'. rewrite set_nth_app in H'.
    replace (S (List.length pre)) with (List.length (pre ++ [Vdbl x])) by (rewrite app_length; cbn; lia).
    eapply (IH _ post); [lia| rewrite <- app_assoc; exact H' |]. intros s2 H2. apply HQ.
    rewrite <- app_assoc in H2. exact H2.
Qed.
Lemma hs_write_all F L l xs (b : @block T) (Q : unit -> st T -> Prop) s : List.length b = List.length xs ->
  hs F ((l, b) :: L) s -> (forall s', hs F ((l, List.map Vdbl xs) :: L) s' -> Q tt s') -> wp (write_dbls (Some l) 0 xs) Q s.
Proof.
  intros E H HQ. apply (hs_write_dbls F L l xs [] b); [lia|exact H|]. intros s'. cbn [app].
  rewrite skipn_all2 by lia. rewrite app_nil_r. apply HQ.
Qed.

Lemma hs_read_vec F L s l b i (v : vec3 T) (Q : vec3 T -> st T -> Prop) : hs F L s -> In (l, b) L ->
  nth_error b i = Some (Vdbl (vx v)) -> nth_error b (S i) = Some (Vdbl (vy v)) -> nth_error b (S (S i)) = Some (Vdbl (vz v)) ->
  Q v s -> wp (read_vec (Some l) i) Q s.
Proof.
  intros H I E1 E2 E3 HQ. unfold read_vec. apply wp_bind. eapply hs_load_dbl; eauto. apply wp_bind. eapply hs_load_dbl; eauto.
  apply wp_bind. eapply hs_load_dbl; eauto. apply wp_ret. destruct v; exact HQ.
Qed.
Lemma hs_store_vec F L s l b i (v : vec3 T) (Q : unit -> st T -> Prop) : hs F ((l, b) :: L) s -> S (S i) < List.length b ->
  (forall s', hs F ((l, set_nth (set_nth (set_nth b i (Vdbl (vx v))) (S i) (Vdbl (vy v))) (S (S i)) (Vdbl (vz v))) :: L) s' -> Q tt s') ->
  wp (store_vec (Some l) i v) Q s.
Proof.
  intros H Hi HQ. unfold store_vec. apply wp_bind. eapply hs_store; [exact H|lia|]. intros s1 H1.
  apply wp_bind. eapply hs_store; [exact H1|rewrite length_set_nth; lia|]. intros s2 H2.
  eapply hs_store; [exact H2|rewrite !length_set_nth; lia|]. exact HQ.
Qed.

Definition strip (ph : photon T) : photon T :=
  mkPhoton (ph_start ph) (ph_sdir ph) (ph_selec ph) (ph_exit ph) (ph_edir ph) (ph_eelec ph) (ph_en ph) (ph_w ph)
           (ph_amu ph) (ph_scatf ph) (ph_irefl ph) (ph_dtravel ph) [] [].

Lemma hs_read_opt F L s k n (o : option (list T)) (Q : option (list T) -> st T -> Prop) : hs F L s ->
  incl (optb k o) L -> olen n o -> Q o s -> wp (read_opt n (optp k o)) Q s.
Proof.
  intros H I E HQ. destruct o as [xs|]; cbn [optp read_opt]; [|apply wp_ret; exact HQ].
  apply wp_bind. eapply hs_read_dbls; [exact H|apply I; cbn; auto|cbn in E; auto|]. apply wp_ret. exact HQ.
Qed.

Lemma zlen_nat {A} (l : list A) : Z.to_nat (zlen l) = List.length l.
Proof. apply Nat2Z.id. Qed.

Lemma hs_read_photon F L s p d src K ph (Q : photon T -> st T -> Prop) : fit ph -> hs F L s -> incl (flyb p d src K ph) L ->
  Q (strip ph) s -> wp (read_photon (Some p)) Q s.
Proof.
  intros (E1 & E2 & E3 & _) H I HQ. unfold read_photon.
  assert (Ip : In (p, pblock d src K ph) L) by (apply I; left; reflexivity).
  assert (Ie : In (kE K, List.map Vdbl (ph_en ph)) L) by (apply I; right; left; reflexivity).
  assert (Iw : In (kW K, List.map Vdbl (ph_w ph)) L) by (apply I; right; right; left; reflexivity).
  assert (Ia : incl (optb (kA K) (ph_amu ph)) L) by (intros z Z; apply I; right; right; right; unfold csb; rewrite !in_app_iff; auto).
  assert (Is : incl (optb (kS K) (ph_scatf ph)) L) by (intros z Z; apply I; right; right; right; unfold csb; rewrite !in_app_iff; auto).
  do 6 (apply wp_bind; eapply hs_read_vec; [exact H|exact Ip|reflexivity|reflexivity|reflexivity|]).
  apply wp_bind. eapply hs_load_int; [exact H|exact Ip|reflexivity|]. rewrite zlen_nat.
  apply wp_bind. eapply hs_load_ptr; [exact H|exact Ip|reflexivity|].
  apply wp_bind. eapply hs_read_dbls; [exact H|exact Ie|reflexivity|].
  apply wp_bind. eapply hs_load_ptr; [exact H|exact Ip|reflexivity|].
  apply wp_bind. eapply hs_read_dbls; [exact H|exact Iw|auto|].
  apply wp_bind. eapply hs_load_ptr; [exact H|exact Ip|reflexivity|].
  apply wp_bind. eapply hs_read_opt; [exact H|exact Ia|exact E2|].
  apply wp_bind. eapply hs_load_ptr; [exact H|exact Ip|reflexivity|].
  apply wp_bind. eapply hs_read_opt; [exact H|exact Is|exact E3|].
  apply wp_bind. eapply hs_load_int; [exact H|exact Ip|reflexivity|].
  apply wp_bind. eapply hs_load_dbl; [exact H|exact Ip|reflexivity|]. apply wp_ret. exact HQ.
Qed.

(** What a step on a photon may not change. *)
Definition fixed (ph ph' : photon T) : Prop :=
  ph_start ph' = ph_start ph /\ ph_selec ph' = ph_selec ph /\ ph_en ph' = ph_en ph /\ ph_amu ph' = ph_amu ph /\
  ph_scatf ph' = ph_scatf ph /\ ph_ext ph' = ph_ext ph /\ ph_int ph' = ph_int ph /\
  (fit ph -> List.length (ph_w ph') = List.length (ph_w ph)).
Lemma fixed_fit ph ph' : fixed ph ph' -> fit ph -> fit ph'.
Proof.
  intros (A1 & A2 & A3 & A4 & A5 & A6 & A7 & A8) F. pose proof (A8 F) as Lw. destruct F as (B1 & B2 & B3 & B4 & B5).
  unfold fit. rewrite A3, A4, A5, A6, A7, Lw. auto.
Qed.
Lemma fixed_kok K ph ph' : fixed ph ph' -> kok K ph -> kok K ph'.
Proof. intros (_ & _ & _ & _ & _ & A6 & A7 & _). unfold kok. now rewrite A6, A7. Qed.

(** A step on a photon that does not look at its leaks. *)
Definition local {A} (f : photon T -> RM (A * photon T)) : Prop :=
  (forall ph, sticky (f ph)) /\
  forall ph e a ph' e', f ph e = Ret ((a, ph'), e') -> f (strip ph) e = Ret ((a, strip ph'), e') /\ fixed ph ph'.

Lemma hs_write_photon F R s p d src K ph ph' b (Q : unit -> st T -> Prop) : fit ph -> fixed ph ph' -> b = strip ph' ->
  hs F (flyb p d src K ph ++ R) s ->
  (forall s', hs F (flyb p d src K ph' ++ R) s' -> Q tt s') -> wp (write_photon (Some p) b) Q s.
Proof.
  intros Ft (A1 & A2 & A3 & A4 & A5 & A6 & A7 & A8) -> H HQ. pose proof (A8 Ft) as Lw.
  unfold write_photon, strip; cbn [ph_sdir ph_exit ph_edir ph_eelec ph_w ph_irefl ph_dtravel].
  unfold flyb in H. cbn [app] in H.
  apply wp_bind. eapply hs_store_vec; [exact H|cbn; lia|]. intros s1 H1.
  apply wp_bind. eapply hs_store_vec; [exact H1|cbn; lia|]. intros s2 H2.
  apply wp_bind. eapply hs_store_vec; [exact H2|cbn; lia|]. intros s3 H3.
  apply wp_bind. eapply hs_store_vec; [exact H3|cbn; lia|]. intros s4 H4.
  apply wp_bind. eapply hs_load_ptr; [exact H4|left; reflexivity|reflexivity|].
  apply wp_bind. match type of H4 with hs _ ((?a, ?bb) :: ?x :: ?y :: ?L) _ => assert (H5 : hs F (y :: (a, bb) :: x :: L) s4) by (eapply hs_perm; [|exact H4]; perm) end.
  eapply hs_write_all; [|exact H5|]; [rewrite map_length; auto|]. intros s6 H6.
  match type of H6 with hs _ (?y :: ?a :: ?x :: ?L) _ => assert (H7 : hs F (a :: x :: y :: L) s6) by (eapply hs_perm; [|exact H6]; perm) end.
  apply wp_bind. eapply hs_store; [exact H7|cbn; lia|]. intros s8 H8.
  eapply hs_store; [exact H8|cbn; lia|]. intros s9 H9. apply HQ. unfold flyb, csb, leaksb. rewrite A3, A4, A5, A6, A7.
  replace (pblock d src K ph') with
    (photon_block (Some d) (lkp (kX K) (ph_ext ph)) (lkp (kI K) (ph_int ph)) (zlen (ph_ext ph)) (zlen (ph_int ph))
    (ph_start ph) (ph_sdir ph') (ph_selec ph) (ph_exit ph') (ph_edir ph') (ph_eelec ph') src
    (zlen (ph_en ph)) (Some (kE K)) (Some (kW K)) (optp (kA K) (ph_amu ph)) (optp (kS K) (ph_scatf ph))
    (ph_irefl ph') (ph_dtravel ph')) by (unfold pblock; rewrite A1, A2, A3, A4, A5, A6, A7; reflexivity).
  exact H9.
Qed.

Lemma wp_on_photon {A} err p d src K ph (f : photon T -> RM (A * photon T)) e a ph' e' F R EB (Q : option (A * slot) -> st T -> Prop) s :
  local f -> fit ph -> f ph e = Ret ((a, ph'), e') -> errs err e EB -> hs F (flyb p d src K ph ++ EB ++ R) s ->
  (forall EB' s', errs err e' EB' -> hs F (flyb p d src K ph' ++ EB' ++ R) s' -> Q (Some (a, e')) s') ->
  wp (on_photon err (Some p) f e) Q s.
Proof.
  intros [St Lo] Ft E HE H HQ. destruct (Lo _ _ _ _ _ E) as [E' Fx]. unfold on_photon.
  apply wp_bindF, wp_inM. eapply hs_read_photon; [exact Ft|exact H|apply incl_appl, incl_refl|].
  apply wp_bindF. eapply (wp_calc err (f (strip ph)) e _ _ F (flyb p d src K ph ++ R) EB); [exact E'|apply St|exact HE| |].
  { eapply hs_perm; [|exact H]. perm. }
  intros EB' s' HE' H'. cbn [fst snd]. apply wp_bindF, wp_inM.
  eapply (hs_write_photon F (EB' ++ R) s' p d src K ph ph'); [exact Ft|exact Fx|reflexivity| |].
  { eapply hs_perm; [|exact H']. perm. }
  intros s2 H2. apply wp_retF. eapply HQ; eauto.
Qed.

End Rep.
