(** * Proofs about the HDF5 writer, part 1: the error tables and set_exception *)
From Coq Require Import ZArith List Bool Lia String FunctionalExtensionality.
From Verif Require Import Num Mem SpecHeap ErrorModel ErrorProofs ProfileModel ProfileProofs Geometry ConsModel HeapLib
  DescProofs SpecPhoton PhotProofs ResultModel SpecResult ResultProofs H5Lib H5Model SpecH5.
Import ListNotations.

Section P.
Context {T : Type} {N : Num T}.
Implicit Types (s : st T) (w : hw T).

(** ** Weakest preconditions with the library state *)
Definition wpW {A} (m : W T A) (Q : A -> hw T -> st T -> Prop) (w : hw T) (s : st T) : Prop :=
  wp (m w) (fun aw s' => Q (fst aw) (snd aw) s') s.

Lemma wpW_ret {A} (a : A) (Q : _ -> hw T -> st T -> Prop) w s : Q a w s -> wpW (retW a) Q w s.
Proof. exact (fun H => H). Qed.
Lemma wpW_bind {A B} (m : W T A) (k : A -> W T B) Q w s :
  wpW m (fun a w' s' => wpW (k a) Q w' s') w s -> wpW (bindW m k) Q w s.
Proof. unfold wpW, bindW. apply wp_bind. Qed.
Lemma wpW_lift {A} (m : M T A) (Q : A -> hw T -> st T -> Prop) w s :
  wp m (fun a s' => Q a w s') s -> wpW (lift m) Q w s.
Proof. unfold wpW, lift. intros H. apply wp_bind. eapply wp_mono; [exact H|]. intros a s' K. apply wp_ret. exact K. Qed.
Lemma wpW_mono {A} (m : W T A) (Q Q' : A -> hw T -> st T -> Prop) w s :
  wpW m Q w s -> (forall a w' s', Q a w' s' -> Q' a w' s') -> wpW m Q' w s.
Proof. unfold wpW. intros H K. eapply wp_mono; [exact H|]. intros [a w'] s'. apply K. Qed.

(** ** The tables *)

(** Table [L] (entries of [sz] cells) is stored in block [p] with room for [cap] entries. *)
Definition table_at (s : st T) (p : loc) (sz cap : nat) (L : list (list Z)) : Prop :=
  Forall (fun e => List.length e = sz) L /\ List.length L <= cap /\
  exists more, mem s p = Some (List.map Vint (List.concat L) ++ more) /\ List.length more = sz * (cap - List.length L).

Lemma concat_length_const {A} (L : list (list A)) sz : Forall (fun e => List.length e = sz) L ->
  List.length (List.concat L) = sz * List.length L.
Proof.
  induction 1 as [|e L H F IH]; cbn; [lia|]. rewrite app_length, H, IH. lia.
Qed.

(** Writing an entry behind the others. *)
Lemma wp_put_entry p (pre : list (val T)) (cells : list Z) more (Q : unit -> st T -> Prop) s :
  mem s p = Some (pre ++ more) -> List.length cells <= List.length more ->
  Q tt (setmem s (upd (mem s) p (Some (pre ++ List.map Vint cells ++ skipn (List.length cells) more)))) ->
  wp (for_n (List.length cells) 0 (fun i => store (Some p) (List.length pre + i) (Vint (List.nth i cells 0%Z)))) Q s.
Proof.
  intros Hp Hl HQ.
  apply wp_for_n with (I := fun i s1 => s1 = setmem s (upd (mem s) p (Some (pre ++ List.map Vint (firstn i cells) ++ skipn i more)))).
  - cbn [firstn List.map app skipn]. rewrite upd_id by exact Hp. now rewrite setmem_id.
  - intros i s1 Hi ->. cbn [plus] in Hi.
    destruct (nth_error_Some_ex cells i) as [x Hx]; [lia|]. destruct (nth_error_Some_ex more i) as [y Hy]; [lia|].
    assert (Hs : skipn i more = y :: skipn (S i) more).
    { clear - Hy. revert more Hy. induction i as [|i IH]; intros [|z more] Hy; try discriminate; cbn in *; [congruence|]. now apply IH. }
    assert (Hf : firstn (S i) cells = firstn i cells ++ [x]).
    { clear - Hx. revert cells Hx. induction i as [|i IH]; intros [|z more] Hx; try discriminate; cbn in *; [congruence|]. f_equal. now apply IH. }
    assert (Hn : List.nth i cells 0%Z = x) by (apply nth_error_nth; exact Hx).
    eapply wp_store; [cbn [mem setmem]; apply upd_same| |].
    + rewrite !app_length, map_length, firstn_length, skipn_length. lia.
    + cbn [mem setmem nxt orc cnt]. unfold setmem. rewrite upd_shadow. do 4 f_equal.
      pose proof (set_nth_app (pre ++ List.map Vint (firstn i cells)) (skipn (S i) more) y (Vint x)) as G.
      rewrite app_length, map_length, firstn_length, Nat.min_l in G by lia.
      rewrite Hs, Hn, Hf, map_app, (app_assoc pre), G, <- !app_assoc. reflexivity.
  - intros s1 ->. cbn [plus]. rewrite firstn_all. exact HQ.
Qed.

Definition set3 (b : list (val T)) (k : nat) (p : ptr) (len cap : Z) : list (val T) :=
  set_nth (set_nth (set_nth b k (Vptr p)) (k + 1) (Vint len)) (k + 2) (Vint cap).
Definition is3 (b : list (val T)) (k : nat) (p : ptr) (len cap : Z) : Prop :=
  nth_error b k = Some (Vptr p) /\ nth_error b (k + 1) = Some (Vint len) /\ nth_error b (k + 2) = Some (Vint cap).

Lemma is3_set3 b k p len cap : k + 2 < List.length b -> is3 (set3 b k p len cap) k p len cap.
Proof.
  intros H. unfold is3, set3. repeat split.
  - rewrite !nth_error_set_nth_other by lia. apply nth_error_set_nth_same. lia.
  - rewrite nth_error_set_nth_other by lia. apply nth_error_set_nth_same. rewrite length_set_nth. lia.
  - apply nth_error_set_nth_same. rewrite !length_set_nth. lia.
Qed.
Lemma set_nth_same {A} (b : list A) i v : nth_error b i = Some v -> set_nth b i v = b.
Proof. revert i. induction b as [|x b IH]; intros [|i] H; try discriminate; cbn in *; [congruence|]. f_equal. now apply IH. Qed.
Lemma set_nth_twice {A} (b : list A) i v u : set_nth (set_nth b i v) i u = set_nth b i u.
Proof. revert i. induction b as [|x b IH]; intros [|i]; cbn; auto. f_equal. apply IH. Qed.
Lemma set_nth_swap {A} (b : list A) i j v u : i <> j -> set_nth (set_nth b i v) j u = set_nth (set_nth b j u) i v.
Proof. revert i j. induction b as [|x b IH]; intros [|i] [|j] H; cbn; auto; try congruence. f_equal. apply IH. lia. Qed.

(** One call of append_..._table_entry. *)
Lemma wp_append tabs b k p sz cap L e (Q : unit -> st T -> Prop) s :
  memory_available s -> wf s -> mem s tabs = Some b -> k + 2 < List.length b ->
  is3 b k (Some p) (Z.of_nat (List.length L)) (Z.of_nat cap) -> 1 <= cap -> 1 <= sz ->
  table_at s p sz cap L -> List.length e = sz -> tabs <> p ->
  (forall p' cap' s', wf s' -> orc s' = orc s -> nxt s <= nxt s' -> 1 <= cap' ->
     mem s' tabs = Some (set3 b k (Some p') (Z.of_nat (S (List.length L))) (Z.of_nat cap')) ->
     table_at s' p' sz cap' (L ++ [e]) -> (p' = p \/ (nxt s <= p' /\ mem s' p = None)) ->
     (forall l, l <> tabs -> l <> p -> l <> p' -> mem s' l = mem s l) -> Q tt s') ->
  wp (append_entry (Some tabs) k e) Q s.
Proof.
  intros MA Wf Hb Hk (B1 & B2 & B3) Hc Hsz (F & Hlen & more & Hp & Hm) He Np HQ.
  pose proof (concat_length_const L sz F) as CL.
  assert (F' : Forall (fun x => List.length x = sz) (L ++ [e])) by (apply Forall_app; auto).
  assert (LL : List.length (L ++ [e]) = S (List.length L)) by (rewrite app_length; cbn; lia).
  assert (CC : List.concat (L ++ [e]) = List.concat L ++ e) by (rewrite concat_app; cbn; now rewrite app_nil_r).
  unfold append_entry. rewrite He.
  apply wp_bind. eapply wp_load_int; [exact Hb|exact B2|].
  apply wp_bind. eapply wp_load_int; [exact Hb|exact B3|].
  apply wp_bind.
  (* the part after the optional realloc *)
  assert (Rest : forall p1 cap1 more1 s1, wf s1 -> orc s1 = orc s -> nxt s <= nxt s1 -> 1 <= cap1 ->
     S (List.length L) <= cap1 -> tabs <> p1 ->
     mem s1 tabs = Some (set3 b k (Some p1) (Z.of_nat (List.length L)) (Z.of_nat cap1)) ->
     mem s1 p1 = Some (List.map Vint (List.concat L) ++ more1) -> List.length more1 = sz * (cap1 - List.length L) ->
     (p1 = p \/ (nxt s <= p1 /\ mem s1 p = None)) ->
     (forall l, l <> tabs -> l <> p -> l <> p1 -> mem s1 l = mem s l) ->
     wp (bind (load_ptr (Some tabs) k) (fun p => bind
        (for_n sz 0 (fun i => store p (sz * Z.to_nat (Z.of_nat (List.length L)) + i) (Vint (List.nth i e 0%Z))))
        (fun _ => store (Some tabs) (k + 1) (Vint (Z.of_nat (List.length L) + 1))))) Q s1).
  { intros p1 cap1 more1 s1 W1 O1 N1 C1 C1' Np1 T1 P1 M1 D1 K1.
    destruct (is3_set3 b k (Some p1) (Z.of_nat (List.length L)) (Z.of_nat cap1) Hk) as (I1 & I2 & I3).
    apply wp_bind. eapply wp_load_ptr; [exact T1|exact I1|]. apply wp_bind.
    rewrite Nat2Z.id, <- CL.
    replace (List.length (List.concat L)) with (List.length (List.map (@Vint T) (List.concat L))) by apply map_length.
    rewrite <- He at 1.
    eapply wp_put_entry; [exact P1| rewrite He, M1; nia |].
    pose proof (live_lt _ _ _ W1 T1) as Lt. pose proof (live_lt _ _ _ W1 P1) as Lp.
    eapply wp_store; [cbn [mem setmem]; rewrite upd_other by auto; exact T1| |].
    { unfold set3. rewrite !length_set_nth. lia. }
    apply (HQ p1 cap1).
    - intros l Hl. cbn in *. rewrite !upd_other by lia. apply W1. lia.
    - exact O1.
    - exact N1.
    - exact C1.
    - cbn [mem]. rewrite upd_same. f_equal. unfold set3.
      rewrite (set_nth_swap _ (k + 2) (k + 1)) by lia. rewrite set_nth_twice.
      replace (Z.of_nat (List.length L) + 1)%Z with (Z.of_nat (S (List.length L))) by lia. reflexivity.
    - split; [exact F'|]. split; [lia|]. exists (skipn sz more1). cbn [mem setmem]. rewrite upd_other by auto. rewrite upd_same.
      rewrite CC, map_app, <- app_assoc, He. split; [reflexivity|]. rewrite skipn_length, M1, LL. nia.
    - destruct D1 as [->|[D1 D2]]; [now left|right]. split; [exact D1|]. cbn. rewrite upd_other by congruence.
      rewrite upd_other; [exact D2|]. intros ->. congruence.
    - intros l l1 l2 l3. cbn. rewrite !upd_other by auto. auto. }
  destruct (Z.eqb_spec (Z.of_nat (List.length L)) (Z.of_nat cap)) as [E|E].
  - (* full: realloc *)
    assert (Ec : List.length L = cap) by lia. clear E.
    assert (more = []) as ->. { destruct more; [reflexivity|]. cbn in Hm. nia. }
    rewrite app_nil_r in Hp.
    pose proof (live_lt _ _ _ Wf Hb) as Lt. pose proof (live_lt _ _ _ Wf Hp) as Lp.
    apply wp_bind. eapply wp_store; [exact Hb|lia|].
    apply wp_bind. eapply wp_load_ptr; [cbn [mem]; apply upd_same|rewrite nth_error_set_nth_other by lia; exact B1|].
    apply wp_bind. unfold wp, realloc. cbn [mem]. rewrite upd_other by auto. rewrite Hp. fold (@wp T).
    match goal with |- match bind ?m ?kk ?ss with _ => _ end => change (wp (bind m kk) 
       (fun q s' => wp (store (Some tabs) k (Vptr q)) (fun _ s'' => wp (bind (load_ptr (Some tabs) k) (fun p => bind
        (for_n sz 0 (fun i => store p (sz * Z.to_nat (Z.of_nat (List.length L)) + i) (Vint (List.nth i e 0%Z))))
        (fun _ => store (Some tabs) (k + 1) (Vint (Z.of_nat (List.length L) + 1))))) Q s'') s') ss) end.
    apply wp_bind. apply wp_alloc; cbn [orc cnt mem nxt]; intros Or; [|rewrite MA in Or; discriminate].
    apply wp_bind. eapply wp_free; [cbn [mem]; rewrite upd_other by lia; rewrite upd_other by auto; exact Hp|]. cbn [mem nxt orc cnt].
    apply wp_ret. eapply wp_store; [cbn [mem]; rewrite upd_other by auto; rewrite upd_other by lia; apply upd_same|rewrite length_set_nth; lia|].
    cbn [mem nxt orc cnt].
    set (newb := firstn (sz * Z.to_nat (Z.of_nat cap * 2)) (List.map Vint (List.concat L) ++ repeat Vundef (sz * Z.to_nat (Z.of_nat cap * 2)))).
    assert (Nb : newb = List.map Vint (List.concat L) ++ repeat Vundef (sz * cap)).
    { unfold newb. replace (Z.to_nat (Z.of_nat cap * 2)) with (2 * cap) by lia.
      rewrite firstn_app, map_length, CL, Ec. rewrite firstn_all2 by (rewrite map_length, CL, Ec; nia). f_equal.
      replace (sz * (2 * cap) - sz * cap) with (sz * cap) by nia.
      replace (sz * (2 * cap)) with (sz * cap + sz * cap) by nia. rewrite repeat_app, firstn_app, firstn_all2 by (rewrite repeat_length; lia).
      rewrite repeat_length, Nat.sub_diag. cbn. now rewrite app_nil_r. }
    apply (Rest (nxt s) (2 * cap) (repeat Vundef (sz * cap))); cbn [mem nxt orc cnt].
    + intros l Hl. cbn in *. rewrite !upd_other by lia. apply Wf. lia.
    + reflexivity.
    + lia.
    + lia.
    + lia.
    + lia.
    + rewrite upd_same. f_equal. unfold set3.
      replace (Z.of_nat cap * 2)%Z with (Z.of_nat (2 * cap)) by lia.
      rewrite (set_nth_swap _ (k + 2) k) by lia. f_equal.
      rewrite (set_nth_same _ (k + 1)); [reflexivity|]. rewrite nth_error_set_nth_other by lia. exact B2.
    + rewrite upd_other by lia. rewrite upd_other by lia. rewrite upd_same. now rewrite Nb.
    + rewrite repeat_length, Ec. f_equal. lia.
    + right. split; [lia|]. rewrite upd_other by auto. apply upd_same.
    + intros l l1 l2 l3. rewrite !upd_other by auto. reflexivity.
  - apply wp_ret. apply (Rest p cap more s); auto.
    + lia.
    + rewrite Hb. f_equal. unfold set3. rewrite (set_nth_same b k) by exact B1. rewrite (set_nth_same b (k + 1)) by exact B2.
      now rewrite (set_nth_same b (k + 2)) by exact B3.
Qed.

Lemma set3_twice b k p len cap p' len' cap' : set3 (set3 b k p len cap) k p' len' cap' = set3 b k p' len' cap'.
Proof.
  unfold set3.
  rewrite (set_nth_swap (set_nth (set_nth b k _) (k + 1) _) (k + 2) k) by lia.
  rewrite (set_nth_swap (set_nth b k _) (k + 1) k) by lia. rewrite set_nth_twice.
  rewrite (set_nth_swap _ (k + 2) (k + 1)) by lia. rewrite set_nth_twice. now rewrite set_nth_twice.
Qed.
Lemma length_set3 b k p len cap : List.length (set3 b k p len cap) = List.length b.
Proof. unfold set3. now rewrite !length_set_nth. Qed.

Lemma wp_append_all tabs k sz E : forall b p cap L (Q : unit -> st T -> Prop) s,
  memory_available s -> wf s -> mem s tabs = Some b -> k + 2 < List.length b ->
  is3 b k (Some p) (Z.of_nat (List.length L)) (Z.of_nat cap) -> 1 <= cap -> 1 <= sz ->
  table_at s p sz cap L -> Forall (fun e => List.length e = sz) E -> tabs <> p ->
  (forall p' cap' s', wf s' -> orc s' = orc s -> nxt s <= nxt s' -> 1 <= cap' ->
     mem s' tabs = Some (set3 b k (Some p') (Z.of_nat (List.length (L ++ E))) (Z.of_nat cap')) ->
     table_at s' p' sz cap' (L ++ E) -> (p' = p \/ (nxt s <= p' /\ mem s' p = None)) ->
     (forall l, l <> tabs -> l <> p -> l <> p' -> mem s' l = mem s l) -> Q tt s') ->
  wp (append_all (Some tabs) k E) Q s.
Proof.
  induction E as [|e E IH]; intros b p cap L Q s MA Wf Hb Hk I3 Hc Hsz Ht FE Np HQ; cbn [append_all].
  - apply wp_ret. apply (HQ p cap); auto; rewrite ?app_nil_r; auto.
    rewrite Hb. f_equal. destruct I3 as (B1 & B2 & B3). unfold set3.
    rewrite (set_nth_same b k) by exact B1. rewrite (set_nth_same b (k + 1)) by exact B2.
    now rewrite (set_nth_same b (k + 2)) by exact B3.
  - apply wp_bind. eapply wp_append; eauto.
    { exact (Forall_inv FE). }
    intros p1 cap1 s1 W1 O1 N1 C1 T1 A1 D1 K1.
    assert (Lt : tabs < nxt s) by (eapply live_lt; eauto).
    assert (Np1 : tabs <> p1) by (destruct D1 as [->|[D1 _]]; [auto|lia]).
    eapply IH; [intros n; rewrite O1; apply MA|exact W1|exact T1|rewrite length_set3; exact Hk| |exact C1|exact Hsz|exact A1|exact (Forall_inv_tail FE)|exact Np1|].
    { rewrite app_length. cbn [List.length]. replace (List.length L + 1) with (S (List.length L)) by lia. apply is3_set3. exact Hk. }
    intros p2 cap2 s2 W2 O2 N2 C2 T2 A2 D2 K2. rewrite <- app_assoc in *. cbn [app] in *. rewrite set3_twice in T2.
    apply (HQ p2 cap2); auto; try lia; try congruence.
    + destruct D2 as [->|[D2 D2']].
      * destruct D1 as [->|[D1 D1']]; [now left|]. right. split; [exact D1|].
        destruct (Nat.eq_dec p p1) as [->|Hne].
        -- destruct A2 as (_ & _ & mm & X & _). exfalso.
           destruct A1 as (_ & _ & m1 & X1 & _). congruence.
        -- rewrite K2; auto.
      * right. split; [lia|]. destruct (Nat.eq_dec p p1) as [->|Hne]; [exact D2'|].
        rewrite K2; auto. 2:{ intros ->. destruct Ht as (_ & _ & mm & X & _). pose proof (live_lt _ _ _ Wf X). lia. }
        destruct D1 as [D1|[_ D1']]; [congruence|exact D1'].
    + intros l l1 l2 l3. destruct (Nat.eq_dec l p1) as [->|Hne].
      * destruct D1 as [D1|[D1 _]]; [congruence|]. destruct D2 as [D2|[_ D2]]; [congruence|]. rewrite D2. symmetry. apply Wf. exact D1.
      * rewrite K2 by auto. apply K1; auto.
Qed.

Definition all_minor (v : h5version) : list (list Z) := minor_entries ++ [minor_late v].
Definition all_exact (v : h5version) : list (list Z) := exact_entries ++ exact_by_version v ++ [exact_late v].

(** As after the start of the program; as after tables_init. *)
Definition tables_fresh (tabs : loc) (s : st T) : Prop :=
  mem s tabs = Some [Vptr NULL; Vint 0; Vint 0; Vptr NULL; Vint 0; Vint 0].
Definition tables_ready (v : h5version) (tabs : loc) (s : st T) : Prop :=
  exists pm cm pe ce, NoDup [tabs; pm; pe] /\
    mem s tabs = Some [Vptr (Some pm); Vint (Z.of_nat (List.length (all_minor v))); Vint (Z.of_nat cm);
                       Vptr (Some pe); Vint (Z.of_nat (List.length (all_exact v))); Vint (Z.of_nat ce)] /\
    table_at s pm 2 cm (all_minor v) /\ table_at s pe 3 ce (all_exact v).

Lemma minor_sizes : Forall (fun e => List.length e = 2) minor_entries.
Proof. unfold minor_entries. repeat constructor. Qed.
Lemma exact_sizes : Forall (fun e => List.length e = 3) exact_entries.
Proof. unfold exact_entries. repeat constructor. Qed.

Lemma all_minor_pos v : exists n, List.length (all_minor v) = S n.
Proof. unfold all_minor. rewrite app_length. cbn [List.length minor_entries]. eexists. cbn. reflexivity. Qed.
Lemma all_exact_pos v : exists n, List.length (all_exact v) = S n.
Proof. unfold all_exact, exact_by_version. destruct (ge_1_12_0 v); eexists; cbn; reflexivity. Qed.

(** tables_init on initialised tables does nothing. *)
Lemma wp_tables_ready v tabs (Q : unit -> st T -> Prop) s :
  tables_ready v tabs s -> Q tt s -> wp (tables_init v (Some tabs)) Q s.
Proof.
  intros (pm & cm & pe & ce & ND & Hb & _ & _) HQ. unfold tables_init.
  destruct (all_minor_pos v) as [n En], (all_exact_pos v) as [m Em].
  apply wp_bind. eapply wp_load_int; [exact Hb|reflexivity|]. rewrite En.
  replace (Z.of_nat (S n) =? 0)%Z with false by (symmetry; apply Z.eqb_neq; lia). apply wp_bind. apply wp_ret.
  apply wp_bind. eapply wp_load_int; [exact Hb|reflexivity|]. rewrite Em.
  replace (Z.of_nat (S m) =? 0)%Z with false by (symmetry; apply Z.eqb_neq; lia). apply wp_ret. exact HQ.
Qed.

Lemma wp_tables_init v tabs (Q : unit -> st T -> Prop) s :
  memory_available s -> wf s -> tables_fresh tabs s ->
  (forall pm pe s', wf s' -> orc s' = orc s -> nxt s <= nxt s' -> nxt s <= pm -> nxt s <= pe ->
     tables_ready v tabs s' -> same_memory_except [tabs; pm; pe] s s' -> Q tt s') ->
  wp (tables_init v (Some tabs)) Q s.
Proof.
  intros MA Wf Hb HQ. unfold tables_fresh in Hb. unfold tables_init.
  pose proof (live_lt _ _ _ Wf Hb) as Lt.
  apply wp_bind. eapply wp_load_int; [exact Hb|reflexivity|]. cbn [Z.eqb].
  apply wp_bind. apply wp_bind. eapply wp_store; [exact Hb|cbn; lia|]. cbn [plus set_nth].
  apply wp_bind. eapply wp_store; [cbn [mem]; apply upd_same|cbn; lia|]. cbn [plus set_nth mem nxt orc cnt].
  apply wp_bind. unfold malloc. apply wp_alloc; cbn [orc cnt]; intros Or; [|rewrite MA in Or; discriminate]. cbn [mem nxt].
  apply wp_bind. eapply wp_store; [cbn [mem]; rewrite upd_other by lia; apply upd_same|cbn; lia|]. cbn [plus set_nth mem nxt orc cnt].
  match goal with |- wp _ _ ?S1 => set (s1 := S1) end.
  assert (W1 : wf s1). { intros l Hl. cbn in *. rewrite !upd_other by lia. apply Wf. lia. }
  assert (T1 : table_at s1 (nxt s) 2 1 []).
  { split; [constructor|]. split; [cbn; lia|]. exists (repeat Vundef 2). split; [|reflexivity]. cbn. rewrite upd_other by lia. apply upd_same. }
  eapply (wp_append_all tabs 0 2 minor_entries [Vptr (Some (nxt s)); Vint 0; Vint 1; Vptr NULL; Vint 0; Vint 0] (nxt s) 1 []);
    [exact MA|exact W1|cbn; apply upd_same|cbn; lia|cbn; repeat split; reflexivity|lia|lia|exact T1|exact minor_sizes|lia|].
  intros pm cm s2 W2 O2 N2 C2 B2 A2 D2 K2. cbn [app set3 set_nth plus] in B2, A2.
  cbn [nxt s1] in N2, D2.
  assert (Lp : nxt s <= pm) by (destruct D2 as [->|[D2 _]]; lia).
  assert (F2 : forall l, l <> tabs -> l <> pm -> mem s2 l = mem s l).
  { intros l l1 l2. destruct (Nat.eq_dec l (nxt s)) as [->|Hne].
    - destruct D2 as [D2|[_ D2]]; [congruence|]. rewrite D2. symmetry. apply Wf. lia.
    - rewrite K2 by auto. cbn. rewrite !upd_other by auto. reflexivity. }
  pose proof A2 as (_ & _ & mo2 & P2 & _). pose proof (live_lt _ _ _ W2 P2) as Lpm.
  (* exact table *)
  change (@List.length (list Z) minor_entries) with 35 in B2. cbn [Z.of_nat] in B2. rewrite Z.eqb_refl || idtac.
  apply wp_bind. eapply wp_load_int; [exact B2|reflexivity|]. cbn [Z.eqb].
  pose proof (live_lt _ _ _ W2 B2) as Lt2.
  apply wp_bind. eapply wp_store; [exact B2|cbn; lia|]. cbn [plus set_nth mem nxt orc cnt].
  apply wp_bind. eapply wp_store; [cbn [mem]; apply upd_same|cbn; lia|]. cbn [plus set_nth mem nxt orc cnt].
  apply wp_bind. unfold malloc. apply wp_alloc; cbn [orc cnt]; intros Or2; [|rewrite O2 in Or2; cbn in Or2; rewrite MA in Or2; discriminate]. cbn [mem nxt].
  apply wp_bind. eapply wp_store; [cbn [mem]; rewrite upd_other by lia; apply upd_same|cbn; lia|]. cbn [plus set_nth mem nxt orc cnt].
  match goal with |- wp _ _ ?S1 => set (s3 := S1) end.
  assert (W3 : wf s3). { intros l Hl. cbn in *. rewrite !upd_other by lia. apply W2. lia. }
  assert (T3 : table_at s3 (nxt s2) 3 1 []).
  { split; [constructor|]. split; [cbn; lia|]. exists (repeat Vundef 3). split; [|reflexivity]. cbn. rewrite upd_other by lia. apply upd_same. }
  assert (MA3 : memory_available s3) by (intros n; cbn; rewrite O2; apply MA).
  apply wp_bind.
  eapply (wp_append_all tabs 3 3 exact_entries _ (nxt s2) 1 []);
    [exact MA3|exact W3|cbn; apply upd_same|cbn; lia|cbn; repeat split; reflexivity|lia|lia|exact T3|exact exact_sizes|lia|].
  intros pe ce s4 W4 O4 N4 C4 B4 A4 D4 K4. cbn [app] in B4, A4. cbn [nxt s3] in N4, D4.
  apply wp_bind.
  assert (Lpe : nxt s2 <= pe) by (destruct D4 as [->|[D4 _]]; lia).
  assert (F4 : forall l, l <> tabs -> l <> pe -> mem s4 l = mem s2 l).
  { intros l l1 l2. destruct (Nat.eq_dec l (nxt s2)) as [->|Hne].
    - destruct D4 as [D4|[_ D4]]; [congruence|]. rewrite D4. symmetry. apply W2. lia.
    - rewrite K4 by auto. cbn. rewrite !upd_other by auto. reflexivity. }
  eapply (wp_append_all tabs 3 3 (exact_by_version v));
    [intros n; rewrite O4; apply MA3|exact W4|exact B4|cbn; lia|apply is3_set3; cbn; lia|exact C4|lia|exact A4| |lia|].
  { unfold exact_by_version. destruct (ge_1_12_0 v); repeat constructor. }
  intros pe2 ce2 s5 W5 O5 N5 C5 B5 A5 D5 K5. rewrite set3_twice in B5.
  assert (Lpe2 : nxt s2 <= pe2) by (destruct D5 as [->|[D5 _]]; lia).
  assert (F5 : forall l, l <> tabs -> l <> pe2 -> mem s5 l = mem s2 l).
  { intros l l1 l2. destruct (Nat.eq_dec l pe) as [->|Hne].
    - destruct D5 as [D5|[_ D5]]; [congruence|]. rewrite D5. symmetry. apply W2. lia.
    - rewrite K5 by auto. auto. }
  apply wp_bind.
  assert (A2' : table_at s5 pm 2 cm minor_entries).
  { destruct A2 as (X1 & X2 & mo & X3 & X4). split; [exact X1|]. split; [exact X2|]. exists mo. rewrite F5; [auto|lia|lia]. }
  eapply (wp_append tabs _ 0 pm 2 cm minor_entries (minor_late v));
    [intros n; rewrite O5, O4; apply MA3|exact W5|exact B5|rewrite length_set3; cbn; lia|cbn; repeat split; reflexivity|exact C2|lia|exact A2'| |lia|].
  { unfold minor_late. destruct (le_1_13_0 v); reflexivity. }
  intros pm2 cm2 s6 W6 O6 N6 C6 B6 A6 D6 K6.
  assert (Lpm2 : pm2 = pm \/ nxt s5 <= pm2) by (destruct D6 as [->|[D6 _]]; auto).
  pose proof A5 as (_ & _ & mo5 & P5 & _). pose proof (live_lt _ _ _ W5 P5) as Lpe2'.
  assert (A5' : table_at s6 pe2 3 ce2 (exact_entries ++ exact_by_version v)).
  { destruct A5 as (X1 & X2 & mo & X3 & X4). split; [exact X1|]. split; [exact X2|]. exists mo. rewrite K6; [auto|lia|lia|lia]. }
  eapply (wp_append tabs _ 3 pe2 3 ce2 (exact_entries ++ exact_by_version v) (exact_late v));
    [intros n; rewrite O6, O5, O4; apply MA3|exact W6|exact B6|rewrite !length_set3; cbn; lia|cbn; repeat split; reflexivity|exact C5|lia|exact A5'| |lia|].
  { unfold exact_late. destruct (le_1_13_0 v); reflexivity. }
  intros pe3 ce3 s7 W7 O7 N7 C7 B7 A7 D7 K7.
  rewrite <- app_assoc in A7. 
  pose proof A6 as (_ & _ & mo6 & P6 & _). pose proof (live_lt _ _ _ W6 P6) as Lpm6.
  assert (Lpe3 : pe3 = pe2 \/ nxt s6 <= pe3) by (destruct D7 as [->|[D7 _]]; auto).
  apply (HQ pm2 pe3); auto; try lia.
  - rewrite O7, O6, O5, O4. cbn. rewrite O2. reflexivity.
  - exists pm2, cm2, pe3, ce3. split; [|split; [|split]].
    + repeat constructor; cbn; intuition lia.
    + rewrite B7. f_equal. unfold all_minor, all_exact. rewrite !app_length. cbn [set3 set_nth plus List.length].
      repeat f_equal; lia.
    + destruct A6 as (X1 & X2 & mo & X3 & X4). split; [exact X1|]. split; [exact X2|]. exists mo. rewrite K7; [auto|lia|lia|lia].
    + exact A7.
  - intros l Hl. assert (l <> tabs /\ l <> pm2 /\ l <> pe3) as (l1 & l2 & l3) by (cbn in Hl; intuition).
    assert (E56 : l <> pe2 -> mem s6 l = mem s l).
    { intros l4. destruct (Nat.eq_dec l pm) as [->|l5].
      - destruct D6 as [D6|[_ D6]]; [congruence|]. rewrite D6. symmetry. apply Wf. lia.
      - rewrite K6 by auto. rewrite F5 by auto. apply F2; auto. }
    destruct (Nat.eq_dec l pe2) as [->|l4].
    + destruct D7 as [D7|[_ D7]]; [congruence|]. rewrite D7. symmetry. apply Wf. lia.
    + rewrite K7 by auto. auto.
Qed.

(** ** Looking up a code *)
Definition minor_of (L : list (list Z)) (min code : Z) : Z :=
  match List.find (fun e => Z.eqb (List.nth 0 e 0%Z) min) L with Some e => List.nth 1 e 0%Z | None => code end.
Definition exact_of (L : list (list Z)) (maj min code : Z) : Z :=
  match List.find (fun e => Z.eqb (List.nth 1 e 0%Z) min && Z.eqb (List.nth 0 e 0%Z) maj) L with Some e => List.nth 2 e 0%Z | None => code end.

Lemma nth_concat_const {A} (L : list (list A)) sz i e c x : Forall (fun e => List.length e = sz) L ->
  nth_error L i = Some e -> nth_error e c = Some x -> nth_error (List.concat L) (sz * i + c) = Some x.
Proof.
  intros F. revert i. induction F as [|a L H F IH]; intros [|i] Hi Hc; try discriminate; cbn [List.concat nth_error] in *.
  - injection Hi as ->. rewrite nth_error_app1; [now rewrite Nat.mul_0_r|]. apply nth_error_Some. rewrite Nat.mul_0_r. cbn. congruence.
  - rewrite nth_error_app2 by lia. replace (sz * S i + c - List.length a) with (sz * i + c) by lia. now apply IH.
Qed.
Lemma skipn_cons {A} (L : list A) i e : nth_error L i = Some e -> skipn i L = e :: skipn (S i) L.
Proof. revert i. induction L as [|x L IH]; intros [|i] H; try discriminate; cbn in *; [congruence|]. now apply IH. Qed.

Lemma wp_find_minor p cap L min code (Q : Z -> st T -> Prop) s : table_at s p 2 cap L ->
  forall n i, i + n = List.length L -> Q (minor_of (skipn i L) min code) s ->
  wp (find_minor n i (Some p) min code) Q s.
Proof.
  intros (F & _ & more & Hp & _). induction n as [|n IH]; intros i Hi HQ; cbn [find_minor].
  - apply wp_ret. rewrite skipn_all2 in HQ by lia. exact HQ.
  - destruct (nth_error_Some_ex L i) as [e He]; [lia|].
    assert (L2 : List.length e = 2) by (rewrite Forall_forall in F; apply F; eapply nth_error_In; eauto).
    destruct e as [|a [|c [|]]]; try discriminate.
    assert (Cell : forall c0 x, nth_error [a; c] c0 = Some x -> nth_error (List.map (@Vint T) (List.concat L) ++ more) (2 * i + c0) = Some (Vint x)).
    { intros c0 x Hx. pose proof (nth_concat_const L 2 i _ c0 x F He Hx) as G. rewrite nth_error_app1.
      - now rewrite nth_error_map, G.
      - rewrite map_length. apply nth_error_Some. congruence. }
    apply wp_bind. eapply wp_load_int; [exact Hp|rewrite <- (Nat.add_0_r (2 * i)); apply (Cell 0 a); reflexivity|].
    rewrite (skipn_cons _ _ _ He) in HQ. unfold minor_of in HQ. cbn [List.find List.nth] in HQ.
    destruct (Z.eqb a min).
    + eapply wp_load_int; [exact Hp|apply (Cell 1 c); reflexivity|]. exact HQ.
    + apply IH; [lia|exact HQ].
Qed.
Lemma wp_find_exact p cap L maj min code (Q : Z -> st T -> Prop) s : table_at s p 3 cap L ->
  forall n i, i + n = List.length L -> Q (exact_of (skipn i L) maj min code) s ->
  wp (find_exact n i (Some p) maj min code) Q s.
Proof.
  intros (F & _ & more & Hp & _). induction n as [|n IH]; intros i Hi HQ; cbn [find_exact].
  - apply wp_ret. rewrite skipn_all2 in HQ by lia. exact HQ.
  - destruct (nth_error_Some_ex L i) as [e He]; [lia|].
    assert (L2 : List.length e = 3) by (rewrite Forall_forall in F; apply F; eapply nth_error_In; eauto).
    destruct e as [|a [|b [|c [|]]]]; try discriminate.
    assert (Cell : forall c0 x, nth_error [a; b; c] c0 = Some x -> nth_error (List.map (@Vint T) (List.concat L) ++ more) (3 * i + c0) = Some (Vint x)).
    { intros c0 x Hx. pose proof (nth_concat_const L 3 i _ c0 x F He Hx) as G. rewrite nth_error_app1.
      - now rewrite nth_error_map, G.
      - rewrite map_length. apply nth_error_Some. congruence. }
    apply wp_bind. eapply wp_load_int; [exact Hp|rewrite <- (Nat.add_0_r (3 * i)); apply (Cell 0 a); reflexivity|].
    apply wp_bind. eapply wp_load_int; [exact Hp|apply (Cell 1 b); reflexivity|].
    rewrite (skipn_cons _ _ _ He) in HQ. unfold exact_of in HQ. cbn [List.find List.nth] in HQ.
    destruct (Z.eqb b min && Z.eqb a maj)%bool.
    + eapply wp_load_int; [exact Hp|apply (Cell 2 c); reflexivity|]. exact HQ.
    + apply IH; [lia|exact HQ].
Qed.

(** The tables say the same as the classification of SpecH5. *)
Lemma minor_code_spec v min : minor_of (all_minor v) min POLYCAP_ERROR_RUNTIME = h5_minor_code (le_1_13_0 v) min.
Proof.
  unfold minor_of, all_minor, h5_minor_code, isin, h5_io, h5_invalid, h5_type, minor_entries, minor_late.
  destruct (le_1_13_0 v); cbn [app List.find List.nth List.existsb];
  repeat match goal with |- context [Z.eqb ?c min] => 
    first [rewrite (Z.eqb_sym min c)|idtac]; destruct (Z.eqb_spec c min); [subst min; reflexivity|] end;
  repeat match goal with |- context [Z.eqb min ?c] => replace (Z.eqb min c) with false by (symmetry; apply Z.eqb_neq; congruence) end; reflexivity.
Qed.
Lemma exact_code_spec v maj min :
  exact_of (all_exact v) maj min (minor_of (all_minor v) min POLYCAP_ERROR_RUNTIME) = h5_code (ge_1_12_0 v) (le_1_13_0 v) maj min.
Proof.
  rewrite minor_code_spec. unfold exact_of, all_exact, h5_code, exact_entries, exact_by_version, exact_late.
  generalize (h5_minor_code (le_1_13_0 v) min). intros dflt.
  assert (Sw : forall c a, (Z.eqb c min && Z.eqb a maj)%bool = (Z.eqb maj a && Z.eqb min c)%bool).
  { intros c a. now rewrite (Z.eqb_sym c), (Z.eqb_sym a), andb_comm. }
  destruct (ge_1_12_0 v), (le_1_13_0 v); cbn [app List.find List.nth andb];
  rewrite !Sw;
  repeat match goal with |- context [Z.eqb maj ?a && Z.eqb min ?b] =>
         let E := fresh in destruct (Z.eqb maj a && Z.eqb min b)%bool eqn:E;
           [apply andb_true_iff in E; destruct E as [E1 E2]; apply Z.eqb_eq in E1, E2; subst maj min; reflexivity|] end;
  reflexivity.
Qed.

Lemma tables_ready_frame v tabs s s' err :
  tables_ready v tabs s -> legal_err s err ->
  (forall l b, mem s l = Some b -> err <> Some l -> mem s' l = Some b) -> tables_ready v tabs s'.
Proof.
  intros (pm & cm & pe & ce & ND & B & A1 & A2) Le K.
  assert (Ne : forall l b, mem s l = Some b -> (forall p, b <> [Vptr p]) -> err <> Some l).
  { intros l b Hl Hb ->. destruct Le as [p Hp]. unfold slot_holds in Hp. rewrite Hp in Hl. injection Hl as <-. now apply (Hb p). }
  exists pm, cm, pe, ce. split; [exact ND|]. split; [|split].
  - apply K; [exact B|]. eapply Ne; [exact B|]. intros p; discriminate.
  - destruct A1 as (X1 & X2 & mo & X3 & X4). split; [exact X1|]. split; [exact X2|]. exists mo. split; [|exact X4].
    apply K; [exact X3|]. eapply Ne; [exact X3|]. intros p; discriminate.
  - destruct A2 as (X1 & X2 & mo & X3 & X4). split; [exact X1|]. split; [exact X2|]. exists mo. split; [|exact X4].
    apply K; [exact X3|]. eapply Ne; [exact X3|]. intros p; discriminate.
Qed.

(** ** set_exception *)
Definition same_lib (w w' : hw T) : Prop :=
  h_orc w' = h_orc w /\ h_errs w' = h_errs w /\ h_next w' = h_next w /\ h_open w' = h_open w /\
  h_lib w' = h_lib w /\ h_disk w' = h_disk w.

Definition code_of (v : h5version) (e : h5err) : Z := h5_code (ge_1_12_0 v) (le_1_13_0 v) (he_maj e) (he_min e).

Lemma outermost_some (st : list h5err) : st <> [] -> exists e, outermost st = Some e.
Proof.
  unfold outermost. induction st as [|a st IH]; [congruence|]. intros _. destruct st as [|b st]; [eexists; reflexivity|].
  destruct IH as [e He]; [discriminate|]. exists e. exact He.
Qed.

Lemma wp_set_exception v tabs err (Q : unit -> hw T -> st T -> Prop) w s :
  wf s -> legal_err s err -> tables_ready v tabs s -> (err <> None -> memory_available s) -> h_stack w <> [] ->
  (forall w' s', same_lib w w' -> wf s' -> orc s' = orc s -> nxt s <= nxt s' ->
     (forall l b, mem s l = Some b -> err <> Some l -> mem s' l = Some b) ->
     (exists c e, failed err c [] s s' /\ outermost (h_stack w) = Some e /\ (c = code_of v e \/ c = POLYCAP_ERROR_RUNTIME)) ->
     (forall e d b t, h_orc w (h_cnt w) = true -> h_orc w (S (h_cnt w)) = true ->
        outermost (h_stack w) = Some e -> innermost (h_stack w) = Some b -> he_desc e = Some d -> he_desc b = Some t ->
        error_reported err (code_of v e) (d ++ " (" ++ t ++ ")")%string s s') ->
     Q tt w' s') ->
  wpW (set_exception (Some tabs) err) Q w s.
Proof.
  intros Wf Le Tr MA Hst HQ. destruct (outermost_some _ Hst) as [e He].
  unfold set_exception. destruct err as [el|].
  2:{ apply wpW_ret. apply HQ; auto; [repeat split| |].
      - exists (code_of v e), e. split; [|auto]. split; [auto|]. intros ? [=].
      - intros e0 d b t _ _ _ _ _ _ x. reflexivity. }
  specialize (MA ltac:(discriminate)).
  pose proof Tr as (pm & cm & pe & ce & ND & B & A1 & A2).
  assert (Plain : forall m w1, same_lib w w1 -> (h_orc w (h_cnt w) = true -> h_orc w (S (h_cnt w)) = true -> exists a b,
       outermost (h_stack w) = Some a /\ innermost (h_stack w) = Some b /\ (he_desc a = None \/ he_desc b = None)) ->
     forall s1, wf s1 -> orc s1 = orc s -> nxt s <= nxt s1 -> (forall l b, mem s l = Some b -> mem s1 l = Some b) ->
     wpW (lift (set_error_literal (Some el) POLYCAP_ERROR_RUNTIME (Some m))) Q w1 s1).
  { intros m w1 SL Hno s1 W1 O1 N1 E1. apply wpW_lift.
    apply (wp_report true (Some el) POLYCAP_ERROR_RUNTIME m); auto.
    - destruct Le as [p Hp]. exists p. apply E1. exact Hp.
    - intros _. rewrite O1. auto.
    - intros s' W' O' N' K R. apply HQ; auto; try congruence; try lia.
      + exists POLYCAP_ERROR_RUNTIME, e. split; [|auto].
        eapply failed_from with (s1 := s1); eauto.
      + intros e0 d b t h1 h2 h3 h4 h5 h6. exfalso. destruct (Hno h1 h2) as (a & b' & Ha & Hb & [X|X]); congruence. }
  apply wpW_bind. unfold wpW at 1. unfold H5Ewalk at 1. destruct (h_orc w (h_cnt w)) eqn:Ow; apply wp_ret; cbn [fst snd negb].
  2:{ apply Plain; auto; [repeat split|]. intros X. discriminate X. }
  change (List.last (List.map Some (h_stack w)) None) with (outermost (h_stack w)). rewrite He.
  apply wpW_bind. apply wpW_lift.
  apply wp_bind. eapply wp_load_int; [exact B|reflexivity|].
  apply wp_bind. eapply wp_load_ptr; [exact B|reflexivity|].
  apply wp_bind. rewrite Nat2Z.id. eapply wp_find_minor; [exact A1|reflexivity|]. cbn [skipn].
  apply wp_bind. eapply wp_load_int; [exact B|reflexivity|].
  apply wp_bind. eapply wp_load_ptr; [exact B|reflexivity|].
  rewrite Nat2Z.id. eapply wp_find_exact; [exact A2|reflexivity|]. cbn [skipn].
  rewrite exact_code_spec. fold (code_of v e).
  destruct (he_desc e) as [d|] eqn:Hd.
  2:{ apply Plain; auto; [repeat split|]. intros _ _. destruct (h_stack w) as [|b0 st]; [congruence|]. exists e, b0. auto. }
  apply wpW_bind. apply wpW_lift. unfold strdup. apply wp_alloc; intros Or; [|rewrite MA in Or; discriminate].
  match goal with |- wpW _ _ _ ?S1 => set (s1 := S1) end.
  assert (W1 : wf s1). { intros l Hl. cbn in *. rewrite upd_other by lia. apply Wf. lia. }
  assert (E1 : forall l b, mem s l = Some b -> mem s1 l = Some b).
  { intros l b Hl. pose proof (live_lt _ _ _ Wf Hl). cbn. rewrite upd_other by lia. exact Hl. }
  apply wpW_bind. unfold wpW at 1. unfold H5Ewalk at 1. cbn [h_orc h_cnt h_stack].
  destruct (h_orc w (S (h_cnt w))) eqn:Ow2; apply wp_ret; cbn [fst snd negb].
  2:{ apply Plain; auto; [repeat split| |cbn; lia]. intros _ X. discriminate X. }
  destruct (h_stack w) as [|b0 st] eqn:Hs; [congruence|]. cbn [List.map List.hd].
  destruct (he_desc b0) as [bot|] eqn:Hbot.
  2:{ apply Plain; auto; [repeat split| |cbn; lia]. intros _ _. exists e, b0. auto. }
  apply wpW_lift. apply wp_bind. eapply wp_load_str; [cbn; apply upd_same|reflexivity|].
  set (msg := (d ++ " (" ++ bot ++ ")")%string).
  apply wp_bind. apply (wp_report false (Some el) (code_of v e) msg); auto.
  { destruct Le as [p Hp]. exists p. apply E1. exact Hp. }
  { intros _. split; apply MA. }
  intros s2 W2 O2 N2 K2 R2.
  assert (Nel : el <> nxt s). { destruct Le as [p Hp]. pose proof (live_lt _ _ _ Wf Hp). lia. }
  eapply wp_free; [apply K2; [cbn; apply upd_same|congruence]|].
  match goal with |- Q _ _ ?S1 => set (s3 := S1) end.
  assert (Fin : error_reported (Some el) (code_of v e) msg s s3).
  { cbn in R2 |- *. destruct R2 as [R2 R3]. split.
    - intros Hsl. destruct R2 as (ee & tt' & H1 & H2 & H3 & H4 & H5); [apply E1; exact Hsl|].
      assert (Ne : forall x, mem s1 x = None -> x <> nxt s /\ mem s x = None).
      { intros x Hx. split.
        - intros ->. cbn in Hx. rewrite upd_same in Hx. discriminate.
        - destruct (mem s x) eqn:Ex; [|reflexivity]. apply E1 in Ex. congruence. }
      destruct (Ne _ H3) as [N3 H3'], (Ne _ H4) as [N4 H4']. destruct H2 as (Y1 & Y2 & Y3).
      exists ee, tt'. split; [|split; [|split; [|split]]]; auto.
      + unfold slot_holds in *. cbn. rewrite upd_other by auto. exact H1.
      + split; [|split]; [cbn; rewrite upd_other by auto; exact Y1|cbn; rewrite upd_other by auto; exact Y2|exact Y3].
      + intros l Hl. cbn. destruct (Nat.eq_dec l (nxt s)) as [->|Hne].
        * rewrite upd_same. symmetry. apply Wf. lia.
        * rewrite upd_other by auto. rewrite H5 by auto. cbn. now rewrite upd_other by auto.
    - intros p0 Hsl. intros l. cbn. destruct (Nat.eq_dec l (nxt s)) as [->|Hne].
      + rewrite upd_same. symmetry. apply Wf. lia.
      + rewrite upd_other by auto. rewrite (R3 p0) by (apply E1; exact Hsl). cbn. now rewrite upd_other by auto. }
  apply HQ; cbn; auto.
  - repeat split.
  - intros l Hl. cbn in *. destruct (Nat.eq_dec l (nxt s)) as [->|Hne]; [apply upd_same|]. rewrite upd_other by auto. apply W2. exact Hl.
  - cbn in N2. lia.
  - intros l b Hl Hne. pose proof (live_lt _ _ _ Wf Hl). rewrite upd_other by lia. apply K2; auto.
  - exists (code_of v e), e. split; [|split; [exact He|auto]]. 
    eapply failed_from with (s1 := s) (m := msg); eauto.
    intros l b Hl Hne. pose proof (live_lt _ _ _ Wf Hl). cbn. rewrite upd_other by lia. apply K2; auto.
  - intros e0 d0 b1 t _ _ h3 h4 h5 h6. change (outermost (b0 :: st) = Some e0) in h3.
    assert (e0 = e) by congruence. subst e0. assert (b1 = b0) by (cbn in h4; congruence). subst b1.
    rewrite Hd in h5. rewrite Hbot in h6. injection h5 as <-. injection h6 as <-. exact Fin.
Qed.
End P.
