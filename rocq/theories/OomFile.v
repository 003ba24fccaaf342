(** * One failing allocation in polycap_source_new_from_file

    A run in which one allocation fails is compared with runs in which none does: up to the
    failure and after it both do the same. *)
From Coq Require Import ZArith List Bool Lia String Permutation.
From Verif Require Import Num Mem SpecHeap HeapLib ErrorModel ProfileModel ProfileProofs Geometry ConsModel DescProofs SrcProofs SepLib
  FlightRep FlightHeap FlightLaunch2 PyModel PyResProofs PyResInv SpecPyObj PyObjHeap PyObjCons PyObjProofs SourceModel FromFile FileSrc FileSrcProofs SpecInput FileSrcRead PyObjKeep.
Import ListNotations.
Local Notation ret := Mem.ret.
Local Notation bind := Mem.bind.
Local Notation ub := Mem.ub.

Section Oom.
Context {T : Type} {N : Num T}.
Local Notation blocks := (list (loc * @block T)).
Local Notation token := (token T).
Implicit Types (s : st T) (F : loc -> option (@block T)).

Definition always : nat -> bool := fun _ => true.
Definition swap (o : nat -> bool) (s : st T) : st T := mkSt (mem s) (nxt s) o (cnt s).

(** ** Programs that look at the supply of memory only when they allocate *)
Definition oks {A} (m : M T A) : Prop := forall s o a s', m s = Ok (a, s') ->
  cnt s <= cnt s' /\ orc s' = orc s /\ ((forall i, cnt s <= i < cnt s' -> o i = orc s i) -> m (swap o s) = Ok (a, swap o s')).
(** ... and allocate exactly [n] times. *)
Definition okn (n : nat) {A} (m : M T A) : Prop := forall s o a s', m s = Ok (a, s') ->
  cnt s' = cnt s + n /\ orc s' = orc s /\ ((forall i, cnt s <= i < cnt s' -> o i = orc s i) -> m (swap o s) = Ok (a, swap o s')).
Lemma okn_oks n {A} (m : M T A) : okn n m -> oks m.
Proof. intros H s o a s' E. destruct (H s o a s' E) as (C & O & X). split; [lia|]. auto. Qed.
Lemma oks_ret {A} (a : A) : oks (ret a : M T A).
Proof. intros s o x s' E. injection E as <- <-. auto. Qed.
Lemma okn_ret {A} (a : A) : okn 0 (ret a : M T A).
Proof. intros s o x s' E. injection E as <- <-. rewrite Nat.add_0_r. auto. Qed.
Lemma oks_ub {A} : oks (ub : M T A).
Proof. discriminate. Qed.
Lemma okn_ub n {A} : okn n (ub : M T A).
Proof. discriminate. Qed.
Lemma oks_bind {A B} (m : M T A) (k : A -> M T B) : oks m -> (forall a, oks (k a)) -> oks (bind m k).
Proof.
  intros H K s o b s' E. unfold bind in E. destruct (m s) as [[a s1]|] eqn:E1; [|discriminate].
  destruct (H s o a s1 E1) as (C1 & O1 & X1). destruct (K a s1 o b s' E) as (C2 & O2 & X2).
  split; [lia|]. split; [congruence|]. intros Q. unfold bind. rewrite X1 by (intros; apply Q; lia). apply X2. intros i Hi. rewrite O1. apply Q. lia.
Qed.
Lemma okn_bind n1 n2 {A B} (m : M T A) (k : A -> M T B) : okn n1 m -> (forall a, okn n2 (k a)) -> okn (n1 + n2) (bind m k).
Proof.
  intros H K s o b s' E. unfold bind in E. destruct (m s) as [[a s1]|] eqn:E1; [|discriminate].
  destruct (H s o a s1 E1) as (C1 & O1 & X1). destruct (K a s1 o b s' E) as (C2 & O2 & X2).
  split; [lia|]. split; [congruence|]. intros Q. unfold bind. rewrite X1 by (intros; apply Q; lia). apply X2. intros i Hi. rewrite O1. apply Q. lia.
Qed.
Lemma okn_alloc b : okn 1 (alloc (T := T) b).
Proof.
  intros s o a s' E. unfold alloc in *. destruct (orc s (cnt s)) eqn:O; injection E as <- <-; cbn [cnt orc mem nxt]; (split; [lia|]); (split; [reflexivity|]);
    intros Q; unfold swap; cbn [orc cnt mem nxt]; rewrite (Q (cnt s)) by lia; rewrite O; reflexivity.
Qed.
Lemma okn_free p : okn 0 (free (T := T) p).
Proof.
  intros s o a s' E. unfold free in *. destruct p as [l|]; [destruct (mem s l) as [b|] eqn:M; [|discriminate]|]; injection E as <- <-; cbn [cnt orc mem nxt];
    (split; [lia|]); (split; [reflexivity|]); intros _; unfold swap; cbn [orc cnt mem nxt]; try rewrite M; reflexivity.
Qed.
Lemma okn_load p i : okn 0 (load (T := T) p i).
Proof.
  intros s o a s' E. unfold load in *. destruct p as [l|]; [|discriminate]. destruct (mem s l) as [b|] eqn:M; [|discriminate]. destruct (nth_error b i) as [v|] eqn:V; [|discriminate].
  injection E as <- <-. split; [lia|]. split; [reflexivity|]. intros _. unfold swap. cbn [mem]. rewrite M, V. reflexivity.
Qed.
Lemma okn_store p i v : okn 0 (store (T := T) p i v).
Proof.
  intros s o a s' E. unfold store in *. destruct p as [l|]; [|discriminate]. destruct (mem s l) as [b|] eqn:M; [|discriminate]. destruct (Nat.ltb i (List.length b)) eqn:V; [|discriminate].
  injection E as <- <-. cbn [cnt orc]. split; [lia|]. split; [reflexivity|]. intros _. unfold swap. cbn [mem nxt cnt]. rewrite M, V. reflexivity.
Qed.
Lemma okn_load_int p i : okn 0 (load_int (T := T) p i).
Proof. unfold load_int. apply (okn_bind 0 0); [apply okn_load|]. intros [| | | |]; first [apply okn_ret|apply okn_ub]. Qed.
Lemma okn_load_dbl p i : okn 0 (load_dbl (T := T) p i).
Proof. unfold load_dbl. apply (okn_bind 0 0); [apply okn_load|]. intros [| | | |]; first [apply okn_ret|apply okn_ub]. Qed.
Lemma okn_load_ptr p i : okn 0 (load_ptr (T := T) p i).
Proof. unfold load_ptr. apply (okn_bind 0 0); [apply okn_load|]. intros [| | | |]; first [apply okn_ret|apply okn_ub]. Qed.

(** ** Deciding it *)
Local Ltac unit_steps := repeat match goal with
  | |- oks (match ?x with _ => _ end) => destruct x
  | |- oks (bind _ _) => apply oks_bind; [|intros ?]
  | |- oks (ret _) => apply oks_ret
  | |- oks (alloc _) => eapply okn_oks, okn_alloc
  | |- oks (malloc _) => eapply okn_oks, okn_alloc
  | |- oks (free _) => eapply okn_oks, okn_free
  | |- oks (load_int _ _) => eapply okn_oks, okn_load_int
  | |- oks (load_ptr _ _) => eapply okn_oks, okn_load_ptr
  | |- oks (store _ _ _) => eapply okn_oks, okn_store
  end.
Lemma oks_set_error err c m : oks (set_error (T := T) err c m).
Proof. unfold set_error, error_new, strdup, error_free. unit_steps. Qed.
Lemma oks_free_if p : oks (free_if (T := T) p).
Proof. unfold free_if. unit_steps. Qed.
Lemma oks_profile_free p : oks (profile_free (T := T) p).
Proof. unfold profile_free. destruct p; [|apply oks_ret]. repeat (apply oks_bind; [first [apply oks_free_if|eapply okn_oks, okn_load_ptr]|intros ?]). eapply okn_oks, okn_free. Qed.
Lemma oks_description_free p : oks (description_free (T := T) p).
Proof. unfold description_free. destruct p; [|apply oks_ret]. repeat (apply oks_bind; [first [apply oks_free_if|apply oks_profile_free|eapply okn_oks, okn_load_ptr]|intros ?]). eapply okn_oks, okn_free. Qed.
Lemma oks_source_free p : oks (source_free (T := T) p).
Proof.
  unfold source_free, rng_free. destruct p; [|apply oks_ret].
  repeat (apply oks_bind; [first [apply oks_free_if|apply oks_description_free|eapply okn_oks, okn_load_ptr|unit_steps]|intros ?]). eapply okn_oks, okn_free.
Qed.
Lemma okn_rng_new : okn 2 (rng_new (T := T)).
Proof. unfold rng_new. apply (okn_bind 1 1); [apply okn_alloc|intros r]. apply (okn_bind 1 0); [apply okn_alloc|intros g]. apply (okn_bind 0 0); [apply okn_store|intros _]. apply (okn_bind 0 0); [apply okn_store|intros _; apply okn_ret]. Qed.
Lemma okn_fscan_from : forall targets k ts, okn 0 (fscan_from (T := T) k targets ts).
Proof.
  induction targets as [|[p i|p i] r IH]; intros k ts; cbn [fscan_from]; [apply okn_ret|..]; (destruct ts as [|t ts]; [apply okn_ret|]).
  - destruct (as_dbl t); [|apply okn_ret]. apply (okn_bind 0 0); [apply okn_store|intros _; apply IH].
  - destruct (as_int t); [|apply okn_ret]. apply (okn_bind 0 0); [apply okn_store|intros _; apply IH].
Qed.
Lemma okn_scan_elems iz wi : forall n i ts, okn 0 (scan_elems (T := T) n i iz wi ts).
Proof.
  induction n as [|n IH]; intros i ts; cbn [scan_elems]; [apply okn_ret|]. apply (okn_bind 0 0); [apply okn_fscan_from|intros r].
  apply (okn_bind 0 0); [apply okn_load_dbl|intros w]. apply (okn_bind 0 0); [apply okn_store|intros _]. apply IH.
Qed.
Lemma okn_for_n (f : nat -> M T unit) : (forall i, okn 0 (f i)) -> forall n i, okn 0 (for_n n i f).
Proof. intros H. induction n as [|n IH]; intros i; cbn [for_n]; [apply okn_ret|]. apply (okn_bind 0 0); [apply H|intros _; apply IH]. Qed.

(** ** Runs with the supply [o], followed on states where memory is available *)
Definition wpF (o : nat -> bool) {A} (m : M T A) (Q : A -> st T -> Prop) (s : st T) : Prop := wp m (fun a s' => Q a (swap always s')) (swap o s).
Lemma swap_swap o o' s : swap o (swap o' s) = swap o s.
Proof. reflexivity. Qed.
Lemma swap_id s o : orc s = o -> swap o s = s.
Proof. intros <-. destruct s. reflexivity. Qed.
Lemma wpF_step n {A B} (m : M T A) (k : A -> M T B) o (Q : B -> st T -> Prop) s : okn n m -> (forall i, cnt s <= i < cnt s + n -> o i = true) -> orc s = always ->
  wp m (fun a s' => cnt s' = cnt s + n -> orc s' = always -> wpF o (k a) Q s') s -> wpF o (bind m k) Q s.
Proof.
  intros H Ho Os W. unfold wpF, wp in *. destruct (m s) as [[a s1]|] eqn:E; [|contradiction].
  destruct (H s o a s1 E) as (C & O1 & X). unfold bind. rewrite X by (intros i Hi; rewrite Os; apply Ho; lia).
  apply (W C). congruence.
Qed.
Lemma wpF_fail {A} b (k : ptr -> M T A) o (Q : A -> st T -> Prop) s : o (cnt s) = false -> wpF o (k NULL) Q (mkSt (mem s) (nxt s) always (S (cnt s))) -> wpF o (bind (alloc b) k) Q s.
Proof. intros O W. unfold wpF, wp, bind, alloc, swap in *. cbn [orc cnt mem nxt] in *. rewrite O. exact W. Qed.
Lemma wpF_rest {A} (m : M T A) o (Q : A -> st T -> Prop) s : oks m -> (forall i, cnt s <= i -> o i = true) -> orc s = always -> wp m (fun a s' => orc s' = always -> Q a s') s -> wpF o m Q s.
Proof.
  intros H Ho Os W. unfold wpF, wp in *. destruct (m s) as [[a s1]|] eqn:E; [|contradiction].
  destruct (H s o a s1 E) as (C & O1 & X). rewrite X by (intros i Hi; rewrite Os; apply Ho; lia).
  rewrite swap_swap, swap_id by congruence. apply W. congruence.
Qed.
Lemma wpF_start {A} (m : M T A) (Q : A -> st T -> Prop) s : wpF (orc s) m Q (swap always s) -> wp m (fun a s' => Q a (swap always s')) s.
Proof. unfold wpF. rewrite swap_swap, swap_id by reflexivity. auto. Qed.
Lemma hs_swap F L s : wf s -> (forall l b, In (l, b) L -> mem s l = Some b) -> NoDup (map fst L) -> (forall l, ~ In l (map fst L) -> mem s l = F l) -> (forall l, In l (map fst L) -> F l = None) -> hs F L (swap always s).
Proof. intros. unfold hs. cbn [mem]. repeat (split; [first [assumption|intros ?; reflexivity]|]). assumption. Qed.
Lemma hs_count F L s n : hs F L s -> orc s = always -> hs F L (mkSt (mem s) (nxt s) always n).
Proof. intros (W & A & ND & H1 & H2 & H3) O. unfold hs. cbn [mem]. repeat (split; [first [assumption|intros ?; reflexivity]|]). assumption. Qed.

Variable F : loc -> option (@block T).
Variable o : nat -> bool.
Lemma chkD p b i t v ts (R : blocks) src err msg (K : list token -> M T (ptr * nat)) Q s :
  hs F ((p, b) :: R) s -> i < List.length b -> orc s = always -> as_dbl t = Some v ->
  (forall s', hs F ((p, set_nth b i (Vdbl v)) :: R) s' -> cnt s' = cnt s -> orc s' = always -> wpF o (K ts) Q s') ->
  wpF o (checked [TD (Some p) i] src err msg (t :: ts) K) Q s.
Proof.
  intros H Hi Os E HQ. unfold checked, fscan. eapply (wpF_step 0); [apply okn_fscan_from|intros; lia|exact Os|]. cbn [fscan_from]. rewrite E.
  apply wp_bind. eapply hs_store; [exact H|exact Hi|]. intros s' H'. apply wp_ret. intros C O'. cbn [fst snd Z.eqb Z.add Pos.add]. apply HQ; auto. lia.
Qed.
Lemma chkI p b i t v ts (R : blocks) src err msg (K : list token -> M T (ptr * nat)) Q s :
  hs F ((p, b) :: R) s -> i < List.length b -> orc s = always -> as_int t = Some v ->
  (forall s', hs F ((p, set_nth b i (Vint v)) :: R) s' -> cnt s' = cnt s -> orc s' = always -> wpF o (K ts) Q s') ->
  wpF o (checked [TI (Some p) i] src err msg (t :: ts) K) Q s.
Proof.
  intros H Hi Os E HQ. unfold checked, fscan. eapply (wpF_step 0); [apply okn_fscan_from|intros; lia|exact Os|]. cbn [fscan_from]. rewrite E.
  apply wp_bind. eapply hs_store; [exact H|exact Hi|]. intros s' H'. apply wp_ret. intros C O'. cbn [fst snd Z.eqb Z.add Pos.add]. apply HQ; auto. lia.
Qed.
Lemma chkDD p b i t v i' t' v' ts (R : blocks) src err msg (K : list token -> M T (ptr * nat)) Q s :
  hs F ((p, b) :: R) s -> i < List.length b -> i' < List.length b -> orc s = always -> as_dbl t = Some v -> as_dbl t' = Some v' ->
  (forall s', hs F ((p, set_nth (set_nth b i (Vdbl v)) i' (Vdbl v')) :: R) s' -> cnt s' = cnt s -> orc s' = always -> wpF o (K ts) Q s') ->
  wpF o (checked [TD (Some p) i; TD (Some p) i'] src err msg (t :: t' :: ts) K) Q s.
Proof.
  intros H Hi Hi' Os E E' HQ. unfold checked, fscan. eapply (wpF_step 0); [apply okn_fscan_from|intros; lia|exact Os|]. cbn [fscan_from]. rewrite E, E'.
  apply wp_bind. eapply hs_store; [exact H|exact Hi|]. intros s1 H1. apply wp_bind. eapply hs_store; [exact H1|rewrite length_set_nth; exact Hi'|].
  intros s' H'. apply wp_ret. intros C O'. cbn [fst snd Z.eqb Z.add Pos.add]. apply HQ; auto. lia.
Qed.

Lemma okn_source_free p : okn 0 (source_free (T := T) p).
Proof.
  assert (FI : forall q, okn 0 (free_if (T := T) q)) by (intros [q|]; [apply okn_free|apply okn_ret]).
  assert (PF : forall q, okn 0 (profile_free (T := T) q)).
  { intros [q|]; [|apply okn_ret]. unfold profile_free. repeat (apply (okn_bind 0 0); [first [apply FI|apply okn_load_ptr]|intros ?]). apply okn_free. }
  assert (DF : forall q, okn 0 (description_free (T := T) q)).
  { intros [q|]; [|apply okn_ret]. unfold description_free. repeat (apply (okn_bind 0 0); [first [apply FI|apply PF|apply okn_load_ptr]|intros ?]). apply okn_free. }
  assert (RF : forall q, okn 0 (rng_free (T := T) q)).
  { intros [q|]; [|apply okn_ret]. unfold rng_free. repeat (apply (okn_bind 0 0); [first [apply okn_free|apply okn_load_ptr]|intros ?]). apply okn_free. }
  destruct p as [p|]; [|apply okn_ret]. unfold source_free. repeat (apply (okn_bind 0 0); [first [apply FI|apply DF|apply RF|apply okn_load_ptr]|intros ?]). apply okn_free.
Qed.

(** ** The outcome: NULL, [n] files left open, one MEMORY error, nothing kept *)
Definition failed le (R : blocks) (n : nat) (r : ptr * nat) (s' : st T) : Prop :=
  r = (NULL, n) /\ exists q t m, hs F ((le, [Vptr (Some q)]) :: (q, [Vint POLYCAP_ERROR_MEMORY; Vptr (Some t)]) :: (t, [Vstr m]) :: R) s'.
Lemma drop_tail le (R : blocks) src d lr lg bg xs n en sig ncap open nelem iz wi dens pr BE BI BW BP msg k s :
  List.length xs = 8 -> owned1 en BE -> owned1 iz BI -> owned1 wi BW -> ownedp pr BP ->
  hs F ((le, [Vptr NULL]) :: srcblk src d lr xs n en :: dblk d sig ncap open nelem iz wi dens pr :: (lr, [Vptr (Some lg)]) :: (lg, bg) :: BE ++ BI ++ BW ++ BP ++ R) s ->
  orc s = always -> (forall i, cnt s <= i -> o i = true) ->
  wpF o (bind (mem_error (Some le) msg) (fun _ => bind (source_free (Some src)) (fun _ => ret (NULL, k)))) (failed le R k) s.
Proof.
  intros L8 OE OI OW OP H Os Ho. apply wpF_rest; [|exact Ho|exact Os|].
  { apply oks_bind; [apply oks_set_error|intros _]. apply oks_bind; [apply oks_source_free|intros _; apply oks_ret]. }
  apply wp_bind. change (mem_error (Some le) msg) with (report_fn false (Some le) POLYCAP_ERROR_MEMORY msg : M T unit).
  eapply hs_first_report; [exact H|]. clear H Os Ho s. intros q t s H. apply wp_bind.
  eapply (hs_source_drop F src d lr lg bg xs n en sig ncap open nelem iz wi dens pr BE BI BW BP
     ((le, [Vptr (Some q)]) :: (q, [Vint POLYCAP_ERROR_MEMORY; Vptr (Some t)]) :: (t, [Vstr msg]) :: R)); [exact L8|exact OE|exact OI|exact OW|exact OP| |].
  - eapply hs_perm; [|exact H]. perm.
  - clear H s. intros s H. apply wp_ret. intros _. split; [reflexivity|]. exists q, t, msg. exact H.
Qed.
End Oom.

Section Run.
Context {T : Type} {N : Num T}.
Local Notation blocks := (list (loc * @block T)).
Local Notation token := (token T).
Implicit Types (s : st T).
Variable fit : list (T * T) -> T * T * T.
Variable names_at : list token -> list Z * list Z * list Z * list token.
Variable disk : list Z -> option (list token).

Lemma profile_fails F le (R : blocks) o c0 k type len a b c d e f (K : ptr -> M T (ptr * nat)) (Q : ptr * nat -> st T -> Prop) s :
  hs F ((le, [Vptr NULL]) :: R) s -> (forall i, o i = false <-> i = c0 + k) -> c0 + k < cnt s + 4 -> cnt s <= c0 + k ->
  arg_error len a b c d e f = None ->
  (forall q t m s', hs F ((le, [Vptr (Some q)]) :: (q, [Vint POLYCAP_ERROR_MEMORY; Vptr (Some t)]) :: (t, [Vstr m]) :: R) s' -> orc s' = always -> wpF o (K NULL) Q s') ->
  orc s = always -> wpF o (bind (profile_new fit type len a b c d e f (Some le)) K) Q s.
Proof.
  intros H Ho L1 L2 Ha HQ Os. unfold wpF. apply wp_bind. assert (W := hs_wf _ _ _ H).
  eapply wp_mono; [apply wp_keeps; [apply keeps_profile_new|exact W|apply profile_new_oom; [exact W| | | |exact Ha]]|].
  - exists NULL. pose proof (hs_in _ _ _ le [Vptr NULL] H (or_introl eq_refl)) as E. exact E.
  - intros A. specialize (A (c0 + k - cnt s) ltac:(lia)). unfold swap in A. cbn [orc cnt] in A. replace (cnt s + (c0 + k - cnt s)) with (c0 + k) in A by lia.
    rewrite (proj2 (Ho (c0 + k)) eq_refl) in A. discriminate.
  - intros _ i Hi. cbn [orc swap] in *. apply Ho in Hi. split; apply not_false_is_true; rewrite Ho; lia.
  - intros p s' (W' & O' & -> & m & ER). cbn [swap orc] in O'.
    destruct (hs_reported F le POLYCAP_ERROR_MEMORY m R s (swap always s') H) as (q & t & H').
    + exact W'.
    + symmetry. exact Os.
    + exact ER.
    + pose proof (HQ q t m (swap always s') H' eq_refl) as G. unfold wpF in G. rewrite swap_swap, swap_id in G by exact O'. exact G.
Qed.

Local Ltac tok H := let t := fresh "t" in let ts1 := fresh "ts" in let E := fresh "E" in apply lists_cons in H; destruct H as (t & ts1 & -> & E & H); cbn [says] in E.
Lemma oom_file c h ts n k F le (R : blocks) o s :
  complete_file c h ts -> (0 <= i_type c <= 2)%Z -> ntoZ ((i_last c - i_first c) / i_step c + #1)%num = Some n -> (0 <= n)%Z ->
  arg_error (h_len h) (h_rext_up h) (h_rext_down h) (h_rint_up h) (h_rint_down h) (h_foc_up h) (h_foc_down h) = None ->
  hs F ((le, [Vptr NULL]) :: R) s -> orc s = always -> forall c0, cnt s = c0 -> (forall i, o i = false <-> i = c0 + k) -> k = 0 \/ k = 1 \/ 4 <= k < 11 ->
  wpF o (source_new_from_file fit names_at disk (Some (Some ts)) (Some le)) (failed F le R (if Nat.leb k 1 then 0 else 1)) s.
Proof.
  intros (rest & FL) Ht En Hn Ha H Os c0 C Ho Hk.
  assert (HT : forall i, i <> c0 + k -> o i = true) by (intros i Hi; apply not_false_is_true; rewrite Ho; exact Hi).
  unfold first_part in FL. rewrite <- !app_assoc in FL. cbn [app] in FL.
  do 10 tok FL. apply read_elems_lists in FL. destruct FL as (tse & EE & FL). cbn [app] in FL. do 6 tok FL. unfold shape_part in FL. cbn [app] in FL. do 8 tok FL.
  unfold source_new_from_file, desc_zero, src_zero. cbn [repeat app].
  (* description *)
  destruct (Nat.eq_dec k 0) as [->|K0].
  { apply wpF_fail; [apply Ho; lia|]. cbn [Nat.leb]. apply wpF_rest; cbn [cnt orc].
    - apply oks_bind; [apply oks_set_error|intros _; apply oks_ret].
    - intros i Hi. apply HT. lia.
    - reflexivity.
    - apply wp_bind. match goal with |- context [mem_error (Some le) ?msg] => change (mem_error (Some le) msg) with (report_fn false (Some le) POLYCAP_ERROR_MEMORY msg : M T unit) end.
      eapply hs_first_report; [apply hs_count; [exact H|exact Os]|]. intros q t' s' H'. apply wp_ret. intros _. split; [reflexivity|]. do 3 eexists. exact H'. }
  eapply (wpF_step 1); [apply okn_alloc|intros i Hi; apply HT; lia|exact Os|]. eapply hs_alloc; [exact H|]. clear H Os. intros d s1 H C1 Os. rewrite C in C1. clear C s.
  (* source *)
  destruct (Nat.eq_dec k 1) as [->|K1].
  { apply wpF_fail; [apply Ho; lia|]. cbn [Nat.leb]. apply wpF_rest; cbn [cnt orc].
    - apply oks_bind; [apply oks_set_error|intros _]. apply oks_bind; [apply oks_description_free|intros _; apply oks_ret].
    - intros i Hi. apply HT. lia.
    - reflexivity.
    - apply (hs_count _ _ _ (S (cnt s1))) in H; [|exact Os].
      apply wp_bind. match goal with |- context [mem_error (Some le) ?msg] => change (mem_error (Some le) msg) with (report_fn false (Some le) POLYCAP_ERROR_MEMORY msg : M T unit) end.
      pull le H. eapply hs_first_report; [exact H|]. clear H. intros q t' s' H. unfold description_free. apply wp_bind. pull d H.
      apply wp_bind. eapply hs_load_ptr; [exact H|left; reflexivity|reflexivity|]. apply wp_bind. cbn [profile_free]. apply wp_ret.
      apply wp_bind. eapply hs_load_ptr; [exact H|left; reflexivity|reflexivity|]. apply wp_bind. cbn [free_if]. apply wp_ret.
      apply wp_bind. eapply hs_load_ptr; [exact H|left; reflexivity|reflexivity|]. apply wp_bind. cbn [free_if]. apply wp_ret.
      eapply hs_free; [exact H|]. clear H. intros s'' H. apply wp_ret. intros _. split; [reflexivity|]. do 3 eexists. exact H. }
  eapply (wpF_step 1); [apply okn_alloc|intros i Hi; apply HT; lia|exact Os|]. eapply hs_alloc; [exact H|]. clear H Os. intros src s2 H C2 Os. rewrite C1 in C2. clear C1 s1.
  eapply (wpF_step 0); [apply okn_store|intros; lia|exact Os|]. eapply hs_store; [exact H|cbn; lia|]. cbn [set_nth]. clear H Os. intros s3 H C3 Os. rewrite C2 in C3. clear C2 s2.
  eapply (wpF_step 2); [apply okn_rng_new|intros i Hi; apply HT; lia|exact Os|].
  unfold rng_new. apply wp_bind. eapply hs_alloc; [exact H|]. clear H. intros lr sa H. apply wp_bind. eapply hs_malloc; [exact H|]. clear H. intros lg sb H. cbn [repeat] in H.
  pull lr H. apply wp_bind. eapply hs_store; [exact H|cbn; lia|]. cbn [set_nth]. clear H. intros sc H.
  pull lg H. apply wp_bind. eapply hs_store; [exact H|cbn; lia|]. cbn [set_nth]. clear H Os. intros s4 H. apply wp_ret. intros C4 Os. rewrite C3 in C4. clear C3 s3 sa sb sc.
  pull src H. eapply (wpF_step 0); [apply okn_store|intros; lia|exact Os|]. eapply hs_store; [exact H|cbn; lia|]. cbn [set_nth]. clear H Os. intros s5 H C5 Os. rewrite C4 in C5. clear C4 s4.
  (* ten numbers *)
  Local Ltac next H Os C := let s' := fresh "s" in let C' := fresh "C" in cbn [set_nth] in *; clear H Os; intros s' H C' Os; rewrite C in C'; clear C; rename C' into C.
  rename C5 into C. 
  pull d H. eapply chkD; [exact H|cbn; lia|exact Os|eassumption|]. next H Os C.
  pull src H. eapply chkD; [exact H|cbn; lia|exact Os|eassumption|]. next H Os C.
  eapply chkDD; [exact H|cbn; lia|cbn; lia|exact Os|eassumption|eassumption|]. next H Os C.
  eapply chkDD; [exact H|cbn; lia|cbn; lia|exact Os|eassumption|eassumption|]. next H Os C.
  eapply chkDD; [exact H|cbn; lia|cbn; lia|exact Os|eassumption|eassumption|]. next H Os C.
  eapply chkD; [exact H|cbn; lia|exact Os|eassumption|]. next H Os C.
  pull d H. eapply chkI; [exact H|cbn; lia|exact Os|eassumption|]. next H Os C.
  replace (Nat.leb k 1) with false by (symmetry; apply Nat.leb_gt; lia).
  unfold source_tables.
  eapply (wpF_step 0); [apply okn_load_int|intros; lia|exact Os|]. eapply hs_load_int; [exact H|left; reflexivity|reflexivity|]. intros C' _. clear C'.
  (* atomic numbers *)
  set (ne := Z.to_nat (Z.of_nat (List.length (i_elems c)))). assert (Ene : ne = List.length (i_elems c)) by apply Nat2Z.id.
  match type of C with _ = ?x => assert (C' : cnt _ = c0 + 4) by (rewrite C; lia); clear C; rename C' into C end.
  destruct (Nat.eq_dec k 4) as [->|K4].
  { apply wpF_fail; [apply Ho; lia|]. match type of H with hs _ _ ?s0 => apply (hs_count _ _ _ (S (cnt s0))) in H; [|exact Os] end.
    eapply (wpF_step 0); [apply okn_store|intros; lia|reflexivity|]. eapply hs_store; [exact H|cbn; lia|]. cbn [set_nth]. clear H. intros s' H C' Os'. cbn [cnt] in C'.
    match type of H with context [(lg, ?bg)] =>
    eapply (drop_tail F o le R src d lr lg bg [i_d c; i_x c; i_y c; i_sx c; i_sy c; i_hx c; i_hy c; i_pol c] 0%Z NULL (i_sig c) 0%Z (#0)%num (Z.of_nat (List.length (i_elems c))) NULL NULL (#0)%num NULL [] [] [] []) end;
      [reflexivity|constructor|constructor|constructor|constructor| |exact Os'|intros i Hi; apply HT; lia].
    eapply hs_perm; [|exact H]. unfold srcblk, dblk. cbn [List.map app]. perm. }
  eapply (wpF_step 1); [apply okn_alloc|intros i Hi; apply HT; lia|exact Os|]. eapply hs_alloc; [exact H|]. clear H Os. intros liz sa H C' Os. rewrite C in C'. clear C. rename C' into C. pull d H.
  eapply (wpF_step 0); [apply okn_store|intros; lia|exact Os|]. eapply hs_store; [exact H|cbn; lia|]. next H Os C.
  (* fractions *)
  destruct (Nat.eq_dec k 5) as [->|K5].
  { apply wpF_fail; [apply Ho; lia|]. match type of H with hs _ _ ?s0 => apply (hs_count _ _ _ (S (cnt s0))) in H; [|exact Os] end.
    eapply (wpF_step 0); [apply okn_store|intros; lia|reflexivity|]. eapply hs_store; [exact H|cbn; lia|]. cbn [set_nth]. clear H. intros s' H C' Os'. cbn [cnt] in C'.
    match type of H with context [(lg, ?bg)] => match type of H with context [(liz, ?bz)] =>
    eapply (drop_tail F o le R src d lr lg bg [i_d c; i_x c; i_y c; i_sx c; i_sy c; i_hx c; i_hy c; i_pol c] 0%Z NULL (i_sig c) 0%Z (#0)%num (Z.of_nat (List.length (i_elems c))) (Some liz) NULL (#0)%num NULL [] [(liz, bz)] [] []) end end;
      [reflexivity|constructor|constructor|constructor|constructor| |exact Os'|intros i Hi; apply HT; lia].
    eapply hs_perm; [|exact H]. unfold srcblk, dblk. cbn [List.map app]. perm. }
  eapply (wpF_step 1); [apply okn_alloc|intros i Hi; apply HT; lia|exact Os|]. eapply hs_alloc; [exact H|]. clear H Os. intros lwi sc H C' Os. rewrite C in C'. clear C. rename C' into C. pull d H.
  eapply (wpF_step 0); [apply okn_store|intros; lia|exact Os|]. eapply hs_store; [exact H|cbn; lia|]. next H Os C.
  pull lwi H. pull liz H. 
  eapply (wpF_step 0); [apply okn_scan_elems|intros; lia|exact Os|].
  rewrite <- Ene in EE.
  match type of EE with read_elems _ ?tt = _ => match type of H with hs _ _ ?s0 => pose proof (scan_elems_ok F liz lwi ne 0 [] [] _ tt s0 eq_refl eq_refl H) as SE end end.
  rewrite EE in SE. eapply wp_mono; [exact SE|]. clear SE H Os sa sc. cbv beta. intros x sv (-> & Lz & Lw & H) C' Os. rewrite C in C'. clear C. rename C' into C. cbn [app] in H.
  unfold fscan. pull d H. eapply (wpF_step 0); [apply okn_fscan_from|intros; lia|exact Os|]. cbn [fscan_from].
  repeat match goal with E : as_dbl ?t = Some _ |- context [as_dbl ?t] => rewrite E end.
  apply wp_bind. eapply hs_store; [exact H|cbn; lia|]. cbn [set_nth]. clear H Os. intros s' H. apply wp_ret. cbn [fst snd]. intros C' Os. rewrite C in C'. clear C. rename C' into C.
  cbn [read_dbl_vars]. unfold scan1.
  repeat match goal with E : as_dbl ?t = Some _ |- context [as_dbl ?t] => rewrite E; cbn [Z.eqb Pos.eqb] end.
  rewrite En. destruct (Z.ltb_spec n 0) as [K|_]; [lia|].
  pull src H. eapply (wpF_step 0); [apply okn_store|intros; lia|exact Os|]. eapply hs_store; [exact H|cbn; lia|]. next H Os C.
  (* energies *)
  destruct (Nat.eq_dec k 6) as [->|K6].
  { apply wpF_fail; [apply Ho; lia|]. match type of H with hs _ _ ?s0 => apply (hs_count _ _ _ (S (cnt s0))) in H; [|exact Os] end.
    eapply (wpF_step 0); [apply okn_store|intros; lia|reflexivity|]. eapply hs_store; [exact H|cbn; lia|]. cbn [set_nth]. clear H. intros s2' H C' Os'. cbn [cnt] in C'.
    match type of H with context [(lg, ?bg)] => match type of H with context [(liz, ?bz)] => match type of H with context [(lwi, ?bw)] =>
    eapply (drop_tail F o le R src d lr lg bg [i_d c; i_x c; i_y c; i_sx c; i_sy c; i_hx c; i_hy c; i_pol c] n NULL (i_sig c) 0%Z (#0)%num (Z.of_nat (List.length (i_elems c))) (Some liz) (Some lwi) (i_dens c) NULL [] [(liz, bz)] [(lwi, bw)] []) end end end;
      [reflexivity|constructor|constructor|constructor|constructor| |exact Os'|intros i Hi; apply HT; lia].
    eapply hs_perm; [|exact H]. unfold srcblk, dblk. cbn [List.map app]. perm. }
  eapply (wpF_step 1); [apply okn_alloc|intros i Hi; apply HT; lia|exact Os|]. eapply hs_alloc; [exact H|]. clear H Os. intros len sa H C' Os. rewrite C in C'. clear C. rename C' into C. pull src H.
  eapply (wpF_step 0); [apply okn_store|intros; lia|exact Os|]. eapply hs_store; [exact H|cbn; lia|]. next H Os C. pull len H.
  eapply (wpF_step 0); [apply okn_for_n; intros i; apply okn_store|intros; lia|exact Os|].
  eapply (hs_fill_energies F len (fun i => (i_first c + nofZ (Z.of_nat i) * i_step c)%num) (Z.to_nat n) 0 []); [reflexivity|exact H|]. next H Os C. cbn [app] in H.
  repeat match goal with E : as_int ?t = Some _ |- context [as_int ?t] => rewrite E; cbn [Z.eqb Pos.eqb] end.
  (* profile *)
  unfold source_profile. fold (is012 (i_type c)).
  replace (is012 (i_type c)) with true by (unfold is012; symmetry; destruct (Z.eqb_spec (i_type c) 0), (Z.eqb_spec (i_type c) 1), (Z.eqb_spec (i_type c) 2); auto; lia).
  cbn [read_dbl_vars]. unfold scan1.
  repeat match goal with E : as_dbl ?t = Some _ |- context [as_dbl ?t] => rewrite E; cbn [Z.eqb Pos.eqb] end.
  pull le H. eapply (profile_fails F le _ o c0 k); [exact H|exact Ho|lia|lia|exact Ha| |exact Os].
  clear H Os. intros q t' m sz H Os. 
  pull d H. eapply (wpF_step 0); [apply okn_store|intros; lia|exact Os|]. eapply hs_store; [exact H|cbn; lia|]. cbn [set_nth]. clear H Os. intros sy H _ Os.
  eapply (wpF_step 0); [apply okn_source_free|intros; lia|exact Os|].
  match type of H with context [(lg, ?bg)] => match type of H with context [(liz, ?bz)] => match type of H with context [(lwi, ?bw)] => match type of H with context [(len, ?be)] =>
    eapply (hs_source_drop F src d lr lg bg [i_d c; i_x c; i_y c; i_sx c; i_sy c; i_hx c; i_hy c; i_pol c] n (Some len) (i_sig c) 0%Z (#0)%num (Z.of_nat (List.length (i_elems c))) (Some liz) (Some lwi) (i_dens c) NULL [(len, be)] [(liz, bz)] [(lwi, bw)] []
     ((le, [Vptr (Some q)]) :: (q, [Vint POLYCAP_ERROR_MEMORY; Vptr (Some t')]) :: (t', [Vstr m]) :: R)) end end end end;
      [reflexivity|constructor|constructor|constructor|constructor| |].
  - eapply hs_perm; [|exact H]. unfold srcblk, dblk. cbn [List.map app]. perm.
  - clear H. intros sx H _ Ox. unfold wpF. apply wp_ret. split; [reflexivity|]. exists q, t', m.
    rewrite swap_swap, (swap_id _ _ Ox). exact H.
Qed.
End Run.
