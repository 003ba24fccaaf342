(** * The result of a simulation in terms of its attempts *)
From Coq Require Import ZArith List Bool Lia Permutation.
From Verif Require Import Num Geometry SpecPhoton RM CapilModel TraceModel LaunchModel RunModel TeamProofs RunProofs EffectProofs.
Import ListNotations.

(** Sum over a list. *)
Definition nsum {A} (f : A -> nat) (l : list A) : nat := fold_right plus 0 (map f l).
Lemma nsum_app {A} (f : A -> nat) l l' : nsum f (l ++ l') = nsum f l + nsum f l'.
Proof. unfold nsum. induction l; cbn; lia. Qed.
Lemma nsum_perm {A} (f : A -> nat) l l' : Permutation l l' -> nsum f l = nsum f l'.
Proof. unfold nsum. induction 1; cbn; lia. Qed.
Lemma length_flat_map {A B} (f : A -> list B) l : length (flat_map f l) = nsum (fun x => length (f x)) l.
Proof. unfold nsum. induction l; cbn; auto. rewrite app_length. lia. Qed.

Section Final.
Context {T : Type} {N : Num T}.
Notation action := (action T). Notation shared := (shared T).
Implicit Types (tr : list action) (s : shared) (jobs : nat -> list (attempt T * Z)).

Lemma early_acts z lc ne jobs dist : forall tid, Forall early (concat (segs_of z lc ne jobs tid dist)).
Proof.
  assert (C : forall tid (l : list (attempt T * Z)), Forall early (counts tid l)).
  { intros tid l. apply Forall_forall. intros a Ia. unfold counts in Ia. apply in_flat_map in Ia. destruct Ia as ([b i] & _ & Ia).
    unfold count_actions in Ia. cbn in Ia. destruct (Z.eqb _ 0), (Z.eqb _ 2), (Z.eqb _ 1); cbn in Ia; intuition (subst; cbn; auto). }
  assert (W : forall (w : list T) j k, Forall early (weight_actions j k w)).
  { induction w as [|v w IH]; intros; cbn; constructor; cbn; auto. }
  induction dist as [|js dist IH]; intros tid; cbn; [constructor|].
  apply Forall_app. split; [|auto]. apply Forall_app. split; [|repeat constructor].
  unfold t_acts. apply Forall_forall. intros a Ia. apply in_flat_map in Ia. destruct Ia as (j & _ & Ia). revert a Ia. apply Forall_forall.
  unfold job_acts. destruct (rev (jobs j)) as [|[b i] before]; [constructor|].
  apply Forall_app. split; [apply C|]. apply Forall_app. split; [|repeat constructor].
  unfold stores, exit_actions. cbn. repeat (constructor; [exact I|]). apply Forall_app. split; [apply W|]. repeat constructor.
Qed.

Definition zapp1 (segs : list (list action)) rests := @zapp (instr T) (map (map Act) segs) rests.

(** The interleaving behind an execution to the end. *)
Lemma final_state o lc ne jobs dist e0 progs ths s :
  concat dist <> [] ->
  threads_run o lc ne 0 jobs dist e0 = Ret (progs, e0) ->
  steps (progs, Some (shared0 ne)) (ths, Some s) -> done ths ->
  exists z tr s1, zmax_of o = Some z /\ Permutation (concat (segs_of z lc ne jobs 0 dist)) tr /\
    run tr (shared0 ne) = Some s1 /\
    (if lc then
       exists copies s2 s3, Permutation (map (t_copy jobs) dist) copies /\
         act ASingle s1 = Some s2 /\ run copies s2 = Some s3 /\ s = s3
     else s = s1).
Proof.
  intros Nd Kt St D. destruct (threads_run_spec _ _ _ _ _ _ _ _ _ Kt) as (_ & C1 & C2 & C3).
  destruct (zmax_of o) as [z|] eqn:Ez; [|destruct (C1 Nd eq_refl)].
  rewrite (C3 z (or_introl eq_refl)) in St. clear C3.
  assert (Nd' : dist <> []) by (intros ->; apply Nd; auto).
  destruct lc.
  - replace (map (fun js => [Barrier; Act ASingle; Barrier; Act (t_copy jobs js)]) dist)
      with (map (cons Barrier) (zapp (map (map Act) (map (fun _ => [@ASingle T]) dist)) (map (cons Barrier) (map (fun js => [Act (t_copy jobs js)]) dist)))) in St.
    2:{ clear. induction dist as [|js dist IH]; cbn; auto. f_equal. exact IH. }
    apply segment_barrier in St; auto.
    2:{ rewrite segs_of_length, zapp_length; rewrite ?map_length; auto. }
    2:{ destruct dist; [congruence|discriminate]. }
    destruct St as (tr & s1 & Sh & R & St). exists z, tr, s1. split; [auto|]. split; [apply shuf_perm; auto|]. split; [auto|].
    apply segment_barrier in St; auto.
    2:{ rewrite !map_length. auto. }
    2:{ destruct dist; [congruence|discriminate]. }
    destruct St as (tr2 & s2 & Sh2 & R2 & St).
    apply shuf_single in Sh2; [|clear; induction dist; constructor; auto]. subst tr2.
    rewrite map_length in R2. destruct dist as [|js dist]; [congruence|]. cbn [length] in R2. rewrite single_run in R2.
    replace (map (fun js => [Act (t_copy jobs js)]) (js :: dist)) with (map (map Act) (map (fun js => [t_copy jobs js]) (js :: dist))) in St
      by (rewrite map_map; reflexivity).
    destruct (segment_last _ _ _ _ St D) as (tr3 & Sh3 & R3). exists tr3, s2, s. split; [|auto].
    apply shuf_perm in Sh3. rewrite <- Sh3. clear. induction (js :: dist) as [|k l IH]; cbn; auto.
  - replace (zapp (map (map Act) (segs_of z false ne jobs 0 dist)) (map (fun _ => []) dist)) with (map (map (@Act T)) (segs_of z false ne jobs 0 dist)) in St.
    2:{ generalize 0. clear. induction dist as [|js dist IH]; intros t; cbn; auto. rewrite app_nil_r, <- IH. auto. }
    destruct (segment_last _ _ _ _ St D) as (tr & Sh & R). exists z, tr, s. split; [auto|]. split; [apply shuf_perm; auto|]. auto.
Qed.

(** ** Counters *)
Definition is_c (c : counter) (a : action) : bool := match a with AIncr c' _ => counter_eqb c c' | _ => false end.
(** The attempts counted under each counter. *)
Definition tallied (c : counter) (x : attempt T * Z) : bool :=
  match c with CExit => Z.eqb (snd x) 1 | CNotEntered => Z.eqb (at_code (fst x)) 2 | CNotTransmitted => Z.eqb (at_code (fst x)) 0 end.

Lemma filter_all {A} (f : A -> bool) l : (forall a, In a l -> f a = false) -> filter f l = [].
Proof. induction l as [|a l IH]; intros H; cbn; auto. rewrite (H a) by (left; auto). apply IH. intros; apply H; right; auto. Qed.

Lemma counts_tally c tid (l : list (attempt T * Z)) : length (filter (is_c c) (counts tid l)) = length (filter (tallied c) l).
Proof.
  induction l as [|[a i] l IH]; cbn [counts flat_map filter]; auto. fold (counts tid l). rewrite filter_app, app_length, IH.
  unfold count_actions, tallied. cbn [fst snd]. destruct (Z.eqb (at_code a) 0) eqn:E0, (Z.eqb (at_code a) 2) eqn:E2, (Z.eqb i 1), c; cbn; auto;
  apply Z.eqb_eq in E0; apply Z.eqb_eq in E2; lia.
Qed.

Lemma stores_not_c c z j a w : filter (is_c c) (stores z j a w) = [].
Proof.
  apply filter_all. intros b Ib. unfold stores, exit_actions in Ib. cbn in Ib.
  repeat (destruct Ib as [<-|Ib]; [auto|]). apply in_app_or in Ib. destruct Ib as [Ib|Ib].
  - revert Ib. generalize 0. induction w as [|v w IH]; intros k Ib; cbn in Ib; [contradiction|]. destruct Ib as [<-|Ib]; eauto.
  - repeat (destruct Ib as [<-|Ib]; [auto|]). contradiction.
Qed.

Lemma job_tally c z ne tid j (l : list (attempt T * Z)) : length (filter (is_c c) (job_acts z ne tid j l)) = length (filter (tallied c) l).
Proof.
  unfold job_acts. destruct (rev l) as [|[a i] before] eqn:E.
  - assert (l = []) by (rewrite <- (rev_involutive l), E; auto). subst. auto.
  - rewrite filter_app, app_length, counts_tally, filter_app, app_length, stores_not_c. cbn. lia.
Qed.

Lemma segs_tally c z lc ne jobs dist : forall tid,
  length (filter (is_c c) (concat (segs_of z lc ne jobs tid dist))) = nsum (fun j => length (filter (tallied c) (jobs j))) (concat dist).
Proof.
  induction dist as [|js dist IH]; intros tid; cbn [segs_of concat]; auto.
  rewrite filter_app, app_length, IH, nsum_app. f_equal. rewrite filter_app, app_length. cbn. rewrite Nat.add_0_r.
  unfold t_acts. clear. induction js as [|j js IH]; cbn; auto. rewrite filter_app, app_length, IH, job_tally. auto.
Qed.

Definition tid_below (m : nat) (a : action) : Prop := match a with AIncr _ t => t < m | _ => True end.

Lemma counts_tids m tid (l : list (attempt T * Z)) : tid < m -> Forall (tid_below m) (counts tid l).
Proof.
  intros H. apply Forall_forall. intros a Ia. unfold counts in Ia. apply in_flat_map in Ia. destruct Ia as ([b i] & _ & Ia).
  unfold count_actions in Ia. cbn in Ia. destruct (Z.eqb _ 0), (Z.eqb _ 2), (Z.eqb _ 1); cbn in Ia; intuition (subst; cbn; auto).
Qed.
Lemma stores_tids m z j a w : Forall (tid_below m) (stores z j a w).
Proof.
  unfold stores, exit_actions. cbn. repeat (constructor; [exact I|]). apply Forall_app. split; [|repeat constructor].
  generalize 0. induction w; intros; cbn; constructor; cbn; auto.
Qed.
Lemma segs_tids z lc ne jobs dist : forall tid m, tid + length dist <= m -> Forall (tid_below m) (concat (segs_of z lc ne jobs tid dist)).
Proof.
  induction dist as [|js dist IH]; intros tid m H; cbn in *; [constructor|].
  apply Forall_app. split; [|apply IH; lia]. apply Forall_app. split; [|repeat constructor].
  unfold t_acts. apply Forall_forall. intros a Ia. apply in_flat_map in Ia. destruct Ia as (j & _ & Ia). revert a Ia. apply Forall_forall.
  unfold job_acts. destruct (rev (jobs j)) as [|[b i] before]; [constructor|].
  apply Forall_app. split; [apply counts_tids; lia|]. apply Forall_app. split; [apply stores_tids|repeat constructor].
Qed.

Lemma fold_left_Zadd l a : fold_left Z.add l a = (a + fold_right Z.add 0 l)%Z.
Proof. revert a. induction l as [|x l IH]; intros a; cbn; [lia|]. rewrite IH. lia. Qed.

(** Number of increments of counter [c], all threads. *)
Lemma sum_incr c tr m : forall k,
  fold_right Z.add 0%Z (map (fun t => Z.of_nat (length (filter (is_incr c t) tr))) (seq k m))
  = Z.of_nat (length (filter (fun a => match a with AIncr c' t => (counter_eqb c c' && (Nat.leb k t && Nat.ltb t (k + m)))%bool | _ => false end) tr)).
Proof.
  induction m as [|m IH]; intros k; cbn [seq map fold_right].
  - induction tr as [|a tr IHt]; cbn [filter]; auto. destruct a; auto.
    destruct (counter_eqb c c0); cbn [andb]; auto. destruct (Nat.leb_spec k tid), (Nat.ltb_spec tid (k + 0)); cbn; auto; lia.
  - rewrite IH. rewrite <- Nat2Z.inj_add. f_equal. clear IH.
    assert (Hi : forall c' t', is_incr c k (@AIncr T c' t') = (counter_eqb c c' && Nat.eqb k t')%bool) by reflexivity.
    induction tr as [|a tr IHt]; cbn [filter]; auto.
    destruct a; auto. rewrite Hi. destruct (counter_eqb c c0); cbn [andb]; auto.
    destruct (Nat.eqb_spec k tid), (Nat.leb_spec (S k) tid), (Nat.ltb_spec tid (S k + m)), (Nat.leb_spec k tid), (Nat.ltb_spec tid (k + S m)); cbn [andb length]; lia.
Qed.

Lemma total_spec c m tr s : Forall (tid_below m) tr ->
  (forall t, sh_cnt s c t = Z.of_nat (length (filter (is_incr c t) tr))) ->
  total c m s = Z.of_nat (length (filter (is_c c) tr)).
Proof.
  intros F H. unfold total. rewrite fold_left_Zadd. rewrite (map_ext _ _ H), sum_incr. rewrite Z.add_0_l. f_equal. f_equal.
  apply filter_ext_in. intros a Ia. rewrite Forall_forall in F. specialize (F a Ia). destruct a; cbn in *; auto.
  destruct (counter_eqb c c0); auto. apply (Nat.ltb_lt tid m). auto.
Qed.

(** ** Stores *)
Definition fields (ne : nat) : list field :=
  [FSrcX; FSrcY; FStartX; FStartY; FSdirX; FSdirY; FSelecX; FSelecY] ++ map FWeight (seq 0 ne) ++
  [FExitX; FExitY; FExitZ; FEdirX; FEdirY; FEelecX; FEelecY; FNrefl; FDtravel].

Lemma NoDup_app_intro {A} (l l' : list A) : NoDup l -> NoDup l' -> (forall a, In a l -> In a l' -> False) -> NoDup (l ++ l').
Proof.
  induction 1 as [|a l Na _ IH]; cbn; auto. intros N' D. constructor.
  - intros I. apply in_app_or in I. destruct I as [I|I]; [auto|]. eapply D; eauto.
  - apply IH; auto. intros b I I'. eapply D; eauto.
Qed.

Lemma fields_nodup ne : NoDup (fields ne).
Proof.
  unfold fields. apply NoDup_app_intro.
  - repeat constructor; cbn; intuition discriminate.
  - apply NoDup_app_intro.
    + apply FinFun.Injective_map_NoDup; [|apply seq_NoDup]. intros a b E. congruence.
    + repeat constructor; cbn; intuition discriminate.
    + intros a I I'. apply in_map_iff in I. destruct I as (k & <- & _). cbn in I'. intuition discriminate.
  - intros a I I'. apply in_app_or in I'. cbn in I. destruct I' as [I'|I'].
    + apply in_map_iff in I'. destruct I' as (k & <- & _). intuition discriminate.
    + cbn in I'. intuition (subst; discriminate).
Qed.

Lemma locs_counts tid (l : list (attempt T * Z)) : flat_map locs (counts tid l) = [].
Proof.
  induction l as [|[a i] l IH]; cbn [counts flat_map]; auto. fold (counts tid l). rewrite flat_map_app, IH, app_nil_r.
  unfold count_actions. cbn. destruct (Z.eqb _ 0), (Z.eqb _ 2), (Z.eqb _ 1); auto.
Qed.
Lemma locs_weights j (w : list T) : forall k, flat_map locs (weight_actions j k w) = map (fun f => (f, j)) (map FWeight (seq k (length w))).
Proof. induction w as [|v w IH]; intros k; cbn; auto. now rewrite IH. Qed.
Lemma locs_stores z j a (w : list T) : flat_map locs (stores z j a w) = map (fun f => (f, j)) (fields (length w)).
Proof.
  unfold stores, exit_actions, fields. cbn. do 8 f_equal. rewrite flat_map_app, locs_weights, map_app. reflexivity.
Qed.

Lemma locs_segs z lc ne jobs dist : forall tid,
  Forall (fun j => length (job_w ne (jobs j)) = ne /\ jobs j <> []) (concat dist) ->
  flat_map locs (concat (segs_of z lc ne jobs tid dist)) = flat_map (fun j => map (fun f => (f, j)) (fields ne)) (concat dist).
Proof.
  induction dist as [|js dist IH]; intros tid F; cbn [segs_of concat] in *; auto.
  apply Forall_app in F. destruct F as [F1 F2]. rewrite !flat_map_app, IH by auto. cbn. rewrite app_nil_r. f_equal.
  unfold t_acts. clear -F1. induction js as [|j js IH]; cbn; auto. inversion F1 as [|? ? [L Nj] F']; subst.
  rewrite flat_map_app, IH by auto. f_equal. unfold job_acts.
  destruct (rev (jobs j)) as [|[a i] before] eqn:E.
  - destruct Nj. rewrite <- (rev_involutive (jobs j)), E. auto.
  - rewrite !flat_map_app, locs_counts, locs_stores, L. cbn. now rewrite app_nil_r.
Qed.

Lemma locs_nodup ne js : NoDup js -> NoDup (flat_map (fun j : nat => map (fun f => (f, j)) (fields ne)) js).
Proof.
  induction 1 as [|j js Nj _ IH]; cbn [flat_map]; [constructor|]. apply NoDup_app_intro; auto.
  - apply FinFun.Injective_map_NoDup; [|apply fields_nodup]. intros a b E. congruence.
  - intros [f k] I I'. apply in_map_iff in I. destruct I as (f' & E & _). injection E as -> <-.
    apply in_flat_map in I'. destruct I' as (k' & Ik & I'). apply in_map_iff in I'. destruct I' as (f'' & E & _). injection E as -> <-. auto.
Qed.

Lemma stores_in_segs z lc ne jobs dist : forall tid j a i before, In j (concat dist) -> rev (jobs j) = (a, i) :: before ->
  incl (stores z j a (job_w ne (jobs j))) (concat (segs_of z lc ne jobs tid dist)).
Proof.
  induction dist as [|js dist IH]; intros tid j a i before Ij E b Ib; cbn in *; [contradiction|].
  apply in_or_app. apply in_app_or in Ij. destruct Ij as [Ij|Ij]; [left|right; eapply IH; eauto].
  apply in_or_app. left. unfold t_acts. apply in_flat_map. exists j. split; [auto|].
  unfold job_acts. rewrite E. apply in_or_app. right. apply in_or_app. left. auto.
Qed.

(** ** Sums *)
Lemma in_counts tid (l : list (attempt T * Z)) a : In a (counts tid l) -> exists c, a = AIncr c tid.
Proof.
  intros Ia. unfold counts in Ia. apply in_flat_map in Ia. destruct Ia as ([b i] & _ & Ia).
  unfold count_actions in Ia. cbn in Ia. destruct (Z.eqb _ 0), (Z.eqb _ 2), (Z.eqb _ 1); cbn in Ia; intuition (subst; eauto).
Qed.
Lemma in_stores z j a (w : list T) b : In b (stores z j a w) -> exists f e, b = AStore f j e.
Proof.
  unfold stores, exit_actions. cbn. intros Ib.
  repeat (destruct Ib as [<-|Ib]; [eauto|]). apply in_app_or in Ib. destruct Ib as [Ib|Ib].
  - revert Ib. generalize 0. induction w as [|v w IH]; intros k Ib; cbn in Ib; [contradiction|]. destruct Ib as [<-|Ib]; eauto.
  - repeat (destruct Ib as [<-|Ib]; [eauto|]). contradiction.
Qed.
Lemma flat_map_nil {A B} (f : A -> list B) l : (forall a, In a l -> f a = []) -> flat_map f l = [].
Proof. induction l as [|a l IH]; intros H; cbn; auto. rewrite (H a) by (left; auto). apply IH. intros; apply H; right; auto. Qed.
Lemma stores_none {B} (f : action -> list B) z j a w :
  (forall g k e, f (AStore g k e) = []) -> flat_map f (stores z j a w) = [].
Proof. intros H. apply flat_map_nil. intros b Ib. destruct (in_stores _ _ _ _ _ Ib) as (g & e & ->). auto. Qed.
Lemma counts_none {B} (f : action -> list B) tid (l : list (attempt T * Z)) :
  (forall c t, f (AIncr c t) = []) -> flat_map f (counts tid l) = [].
Proof. intros H. apply flat_map_nil. intros b Ib. destruct (in_counts _ _ _ Ib) as (c & ->). auto. Qed.

Lemma segs_sums z lc ne jobs dist : forall tid, flat_map sums (concat (segs_of z lc ne jobs tid dist)) = map (t_w ne jobs) dist.
Proof.
  induction dist as [|js dist IH]; intros tid; cbn [segs_of concat map]; auto.
  rewrite !flat_map_app, IH. cbn. replace (flat_map sums (t_acts z ne jobs tid js)) with (@nil (list T)); [auto|].
  symmetry. unfold t_acts. induction js as [|j js IHj]; cbn; auto. rewrite flat_map_app, IHj, app_nil_r. unfold job_acts.
  destruct (rev (jobs j)) as [|[a i] before]; auto. rewrite !flat_map_app, counts_none, stores_none by auto. auto.
Qed.

Lemma zsum_flat (f : action -> Z) tr : zsum f tr = fold_right Z.add 0%Z (flat_map (fun a => [f a]) tr).
Proof. unfold zsum. induction tr; cbn; auto. Qed.

Lemma zsum_zero f tr : (forall a, In a tr -> f a = 0%Z) -> zsum f tr = 0%Z.
Proof. unfold zsum. induction tr as [|a tr IH]; intros H; cbn; auto. rewrite (H a) by (left; auto). rewrite IH; auto. intros; apply H; right; auto. Qed.

Lemma in_acts z ne jobs tid js a : In a (t_acts z ne jobs tid js) ->
  (exists c, a = AIncr c tid) \/ (exists j f e, In j js /\ a = AStore f j e) \/ (exists n, a = ARefl n).
Proof.
  unfold t_acts. intros Ia. apply in_flat_map in Ia. destruct Ia as (j & Ij & Ia). unfold job_acts in Ia.
  destruct (rev (jobs j)) as [|[b i] before]; [contradiction|]. apply in_app_or in Ia. destruct Ia as [Ia|Ia]; [left; eapply in_counts; eauto|].
  right. apply in_app_or in Ia. destruct Ia as [Ia|[<-|[]]]; [left|right; eauto]. destruct (in_stores _ _ _ _ _ Ia) as (f & e & ->). eauto.
Qed.

Lemma segs_leaks z ne jobs dist : forall tid,
  zsum eleaks (concat (segs_of z true ne jobs tid dist)) = Z.of_nat (length (flat_map (fun j => job_leaks ph_ext (jobs j)) (concat dist))) /\
  zsum ileaks (concat (segs_of z true ne jobs tid dist)) = Z.of_nat (length (flat_map (fun j => job_leaks ph_int (jobs j)) (concat dist))).
Proof.
  induction dist as [|js dist IH]; intros tid; cbn [segs_of concat]; auto.
  destruct (IH (S tid)) as [I1 I2]. rewrite !zsum_app, I1, I2, !flat_map_app, !app_length.
  rewrite (zsum_zero eleaks (t_acts _ _ _ _ _)), (zsum_zero ileaks (t_acts _ _ _ _ _)).
  - cbn [t_sum zsum map fold_right eleaks ileaks]. unfold zsum. cbn. unfold t_leaks. lia.
  - intros a Ia. destruct (in_acts _ _ _ _ _ _ Ia) as [(c & ->)|[(j & f & e & _ & ->)|(n & ->)]]; auto.
  - intros a Ia. destruct (in_acts _ _ _ _ _ _ Ia) as [(c & ->)|[(j & f & e & _ & ->)|(n & ->)]]; auto.
Qed.
Lemma segs_noleaks z ne jobs dist : forall tid,
  zsum eleaks (concat (segs_of z false ne jobs tid dist)) = 0%Z /\ zsum ileaks (concat (segs_of z false ne jobs tid dist)) = 0%Z.
Proof.
  induction dist as [|js dist IH]; intros tid; cbn [segs_of concat]; auto.
  destruct (IH (S tid)) as [I1 I2]. rewrite !zsum_app, I1, I2.
  rewrite (zsum_zero eleaks (t_acts _ _ _ _ _)), (zsum_zero ileaks (t_acts _ _ _ _ _)); auto.
  - intros a Ia. destruct (in_acts _ _ _ _ _ _ Ia) as [(c & ->)|[(j & f & e & _ & ->)|(n & ->)]]; auto.
  - intros a Ia. destruct (in_acts _ _ _ _ _ _ Ia) as [(c & ->)|[(j & f & e & _ & ->)|(n & ->)]]; auto.
Qed.

Definition job_refl (l : list (attempt T * Z)) : Z := match rev l with [] => 0%Z | (a, _) :: _ => ph_irefl (at_ph a) end.
Lemma segs_refls z lc ne jobs dist : forall tid,
  zsum refls (concat (segs_of z lc ne jobs tid dist)) = fold_right Z.add 0%Z (map (fun j => job_refl (jobs j)) (concat dist)).
Proof.
  induction dist as [|js dist IH]; intros tid; cbn [segs_of concat]; auto.
  rewrite !zsum_app, IH, map_app.
  assert (E : zsum refls (t_acts z ne jobs tid js) = fold_right Z.add 0%Z (map (fun j => job_refl (jobs j)) js)).
  { unfold t_acts. induction js as [|j js IHj]; cbn [flat_map map fold_right]; auto. rewrite zsum_app, IHj. f_equal. unfold job_acts, job_refl.
    destruct (rev (jobs j)) as [|[a i] before]; auto. rewrite !zsum_app.
    rewrite (zsum_zero refls (counts _ _)), (zsum_zero refls (stores _ _ _ _)).
    - cbn. lia.
    - intros b Ib. destruct (in_stores _ _ _ _ _ Ib) as (f & e & ->). auto.
    - intros b Ib. destruct (in_counts _ _ _ Ib) as (c & ->). auto. }
  rewrite E. change (zsum refls [t_sum lc ne jobs js]) with 0%Z.
  assert (H : forall l l', fold_right Z.add 0%Z (l ++ l') = (fold_right Z.add 0 l + fold_right Z.add 0 l')%Z)
    by (clear; intros l l'; induction l; cbn; lia).
  rewrite H. lia.
Qed.

End Final.
