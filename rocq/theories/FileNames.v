(** * Proofs about input files that name the files of their profile *)
From Coq Require Import ZArith List Bool Lia String Permutation.
From Verif Require Import Num Mem SpecHeap HeapLib ErrorModel ProfileModel ProfileProofs Geometry ConsModel CapilModel DescProofs SrcProofs SepLib
  FlightRep FlightHeap FlightHeap2 FlightLaunch FlightLaunch2 PyModel PyResProofs PyResInv SpecPyObj PyObjHeap PyObjCons PyObjProofs
  SourceModel FromFile LineModel LineProofs SpecFiles ProfFile ProfFileProofs FileSrc FileSrcProofs SpecInput SpecNames FileSrcRead.
Import ListNotations.
Local Notation ret := Mem.ret.
Local Notation bind := Mem.bind.
Local Notation ub := Mem.ub.

Section Names.
Context {T : Type} {N : Num T}.
Local Notation blocks := (list (loc * @block T)).
Local Notation token := (token T).
Implicit Types (s : st T) (F : loc -> option (@block T)).

(** ** Reading a name *)
Lemma keeps_realloc p n : keeps (@realloc T p n).
Proof.
  intros s a s' W E. unfold realloc in E. destruct p as [l|].
  - destruct (mem s l) as [b|] eqn:M; [|discriminate]. destruct (orc s (cnt s)); injection E as <- <-; (split; [|reflexivity]).
    + intros x Hx. cbn [mem nxt] in *. assert (l < nxt s) by (destruct (le_lt_dec (nxt s) l) as [K|K]; auto; rewrite W in M by auto; discriminate).
      rewrite !upd_other by lia. apply W. lia.
    + intros x Hx. apply W. exact Hx.
  - revert E. apply keeps_alloc. exact W.
Qed.
Lemma keeps_read_loop : forall stream p j size, keeps (@read_loop T stream p j size).
Proof.
  induction stream as [|c r IH]; intros p j size; cbn [read_loop]; [keep|]. destruct (Z.eqb c newline); [keep|].
  apply keeps_bind; [keep|intros _]. destruct (Nat.eqb _ _); [|apply IH]. apply keeps_bind; [apply keeps_realloc|intros q; apply IH].
Qed.
Lemma keeps_read_input_line f err : keeps (@read_input_line T f err).
Proof.
  unfold read_input_line. destruct f as [st|].
  - apply keeps_bind; [apply keeps_alloc|intros [l|]].
    + apply keeps_bind; [apply keeps_read_loop|intros [[q j] rest]]. apply keeps_bind; [keep|intros _]. apply keeps_bind; [apply keeps_realloc|intros o; keep].
    + apply keeps_bind; [|intros _; keep]. unfold ProfileModel.mem_error, set_error, error_new, strdup, error_free. keep.
  - apply keeps_bind; [apply keeps_set_error_literal|intros _; keep].
Qed.
Lemma hs_read_line F (l : list Z) err (R : blocks) (Q : ptr * list Z -> st T -> Prop) s : file_name l ->
  hs F R s -> (forall p s', hs F ((p, List.map Vint (l ++ [0%Z])) :: R) s' -> Q (Some p, []) s') ->
  wp (read_input_line (Some (l ++ [newline])) err) Q s.
Proof.
  intros C H HQ. assert (W := hs_wf _ _ _ H). assert (Av := hs_av _ _ _ H).
  eapply wp_mono; [apply wp_keeps; [apply keeps_read_input_line|exact W|apply (wp_read_input_line l [] (l ++ [newline]) err s W Av)]|].
  - intros I. unfold file_name in C. rewrite Forall_forall in C. destruct (C _ I) as [_ K]. apply K. reflexivity.
  - left. reflexivity.
  - intros r s' (W' & O' & p & -> & Mp & Mp' & X). apply HQ.
    apply (hs_change F [] [(p, List.map Vint (l ++ [0%Z]))] R s s' [p]).
    + exact H.
    + exact W'.
    + exact O'.
    + exact X.
    + intros x [<-|[]]. exact Mp.
    + repeat constructor. tauto.
    + reflexivity.
    + rewrite hold_cons. split; [exact Mp'|apply hold_nil].
Qed.
Lemma read_bytes_name (l : list Z) : file_name l -> @read_bytes T (List.map Vint (l ++ [0%Z])) = Some l.
Proof.
  induction l as [|c l IH]; intros C; cbn [app List.map read_bytes]; [reflexivity|]. inversion C as [|? ? [C0 _] C']; subst.
  destruct c as [|q|q]; [congruence| |]; rewrite (IH C'); reflexivity.
Qed.

Variable fit : list (T * T) -> T * T * T.
Variable names_at : list token -> list Z * list Z * list Z * list token.
Variable disk : list Z -> option (list token).

Lemma hs_named F l p (R : blocks) (Q : option (option (list token)) -> st T -> Prop) s : file_name l ->
  hs F R s -> In (p, List.map Vint (l ++ [0%Z])) R -> Q (Some (disk l)) s -> wp (named_file disk (Some p)) Q s.
Proof. intros C H I HQ. unfold wp, named_file. rewrite (hs_in _ _ _ _ _ H I), (read_bytes_name l C). exact HQ. Qed.

(** ** A profile from files *)
Definition listed_profile (n : Z) (rows1 rows3 : list (T * T)) : profile T :=
  mkProfile (Z.to_nat n) (List.map fst rows3) (List.map snd rows1) (List.map snd rows3).

Lemma entries2 (rows : list (T * T)) : forall i,
  nth_error (flat_map (fun r => [fst r; snd r]) rows) (i * 2 + 0) = option_map fst (nth_error rows i) /\
  nth_error (flat_map (fun r => [fst r; snd r]) rows) (i * 2 + 1) = option_map snd (nth_error rows i).
Proof. induction rows as [|[a b] r IH]; intros [|i]; cbn; auto. Qed.
Lemma cells (n : nat) (f : nat -> val T) (l : list T) : List.length l = n ->
  (forall i v, nth_error l i = Some v -> f i = Vdbl v) -> List.map f (seq 0 n) = List.map Vdbl l.
Proof.
  intros <-. revert f. induction l as [|x l IH]; intros f H; cbn; [reflexivity|].
  rewrite (H 0 x eq_refl). f_equal. rewrite <- seq_shift, map_map. apply IH. intros i v E. apply (H (S i)). exact E.
Qed.

Lemma hs_files F n t1 t2 t3 rows1 rows2 rows3 err (R : blocks) (Q : ptr * nat -> st T -> Prop) s :
  (100 < n < 2147483647)%Z -> lists2 n t1 rows1 -> lists3 n t2 rows2 -> lists2 n t3 rows3 ->
  hs F R s ->
  (forall lp lz lc lx s', hs F (profb lp lz lc lx (listed_profile n rows1 rows3) ++ R) s' -> Q (Some lp, 0) s') ->
  wp (profile_new_from_file (Some (Some t1)) (Some (Some t2)) (Some (Some t3)) err) Q s.
Proof.
  intros Hn (A1 & L1 & N1) (A2 & L2 & N2) (A3 & L3 & N3) H HQ. assert (W := hs_wf _ _ _ H). assert (Av := hs_av _ _ _ H).
  eapply wp_mono.
  - apply (from_file_reads n t1 t2 t3 err s W (avail_n s 4 Av) A1 Hn).
    + intros (m & Am & D). apply D. eapply announces_fun; eauto.
    + intros (m & Am & D). apply D. eapply announces_fun; eauto.
  - intros r s' (W' & O' & _ & l & lz & lc & le & -> & ND & Ml & Mz & Mc & Me & Fr & Sx). apply (HQ l lz lc le).
    apply (hs_change F [] (profb l lz lc le (listed_profile n rows1 rows3)) R s s' [l; lz; lc; le]).
    + exact H.
    + exact W'.
    + exact O'.
    + exact Sx.
    + exact Fr.
    + exact ND.
    + rewrite app_nil_r. reflexivity.
    + unfold profb, listed_profile. cbn [p_nmax p_z p_cap p_ext]. rewrite !hold_cons. rewrite Z2Nat.id by lia.
      split; [exact Ml|]. split; [|split; [|split; [|apply hold_nil]]].
      * rewrite Mz. f_equal. apply cells; [now rewrite map_length|]. intros i v E. unfold zcell, entry. rewrite N3.
        destruct (entries2 rows3 i) as [-> _]. rewrite nth_error_map in E. rewrite E. reflexivity.
      * rewrite Mc. f_equal. apply cells; [now rewrite map_length|]. intros i v E. unfold entry. rewrite N1.
        destruct (entries2 rows1 i) as [_ ->]. rewrite nth_error_map in E. rewrite E. reflexivity.
      * rewrite Me. f_equal. apply cells; [now rewrite map_length|]. intros i v E. unfold entry. rewrite N3.
        destruct (entries2 rows3 i) as [_ ->]. rewrite nth_error_map in E. rewrite E. reflexivity.
Qed.
Lemma listed_sized n t1 t3 rows1 rows3 : (100 < n < 2147483647)%Z -> lists2 n t1 rows1 -> lists2 n t3 rows3 -> well_sized (listed_profile n rows1 rows3).
Proof.
  intros Hn (_ & L1 & _) (_ & L3 & _). unfold well_sized, listed_profile. cbn [p_z p_cap p_ext p_nmax].
  rewrite !map_length, L1, L3, Z2Nat.inj_add by lia. change (Z.to_nat 1) with 1. lia.
Qed.

(** ** The three named files *)
Variable l1 l2 l3 : list Z.
Hypothesis C1 : file_name l1.
Hypothesis C2 : file_name l2.
Hypothesis C3 : file_name l3.
(** [named res]: these three files give [res]; other names are not considered. *)
Definition named (res : option (profile T)) (ts : list token) : option (profile T) * list token :=
  let '(m1, m2, m3, ts') := names_at ts in
  if list_eq_dec Z.eq_dec m1 l1 then if list_eq_dec Z.eq_dec m2 l2 then if list_eq_dec Z.eq_dec m3 l3 then (res, ts')
  else (Some (mkProfile 0 [] [] []), []) else (Some (mkProfile 0 [] [] []), []) else (Some (mkProfile 0 [] [] []), []).
Lemma named_at res ts ts' : names_at ts = (l1, l2, l3, ts') -> named res ts = (res, ts').
Proof.
  intros E. unfold named. rewrite E. destruct (list_eq_dec Z.eq_dec l1 l1); [|congruence]. destruct (list_eq_dec Z.eq_dec l2 l2); [|congruence].
  destruct (list_eq_dec Z.eq_dec l3 l3); [reflexivity|congruence].
Qed.
Lemma named_other res ts : (exists ts', names_at ts = (l1, l2, l3, ts')) \/ named res ts = (Some (mkProfile 0 [] [] []), []).
Proof.
  unfold named. destruct (names_at ts) as [[[m1 m2] m3] ts']. destruct (list_eq_dec Z.eq_dec m1 l1) as [->|]; [|auto].
  destruct (list_eq_dec Z.eq_dec m2 l2) as [->|]; [|auto]. destruct (list_eq_dec Z.eq_dec m3 l3) as [->|]; eauto.
Qed.

Lemma named_tail_ok post res F le (R : blocks) type x0 x1 x2 x3 x4 x5 x6 x7 (ens : list T) sig zs ws dens ts m s : is012 type = false ->
  (forall ts', names_at ts = (l1, l2, l3, ts') ->
     okU post true F le R (match res with
        | None => FDone (Some POLYCAP_ERROR_INVALID_ARGUMENT) None
        | Some prof => finish None (mkFS (mkSource x0 x1 x2 x3 x4 x5 x6 x7) ens sig (ncap_of ts') (#0)%num zs ws dens prof) end) m s) ->
  okU post true F le R (tail_of (named res) fit type x0 x1 x2 x3 x4 x5 x6 x7 ens sig zs ws dens ts) m s.
Proof.
  intros K H. unfold tail_of, read_profile. fold (is012 type). rewrite K. destruct (named_other res ts) as [[ts' E]|E].
  - rewrite (named_at res ts ts' E). cbn [need]. destruct res; exact (H ts' E).
  - rewrite E. cbn [need]. unfold finish. cbn [fs_prof p_cap]. discriminate.
Qed.

Local Ltac names H :=
  apply wp_bind; eapply hs_read_line; [exact C1|exact H|]; clear H; intros q1 ? H;
  apply wp_bind; eapply hs_read_line; [exact C2|exact H|]; clear H; intros q2 ? H;
  apply wp_bind; eapply hs_read_line; [exact C3|exact H|]; clear H; intros q3 ? H;
  cbn [fst];
  apply wp_bind; eapply hs_named; [exact C1|exact H|cbn; auto|];
  apply wp_bind; eapply hs_named; [exact C2|exact H|cbn; auto|];
  apply wp_bind; eapply hs_named; [exact C3|exact H|cbn; auto|].

(** Complete files. *)
Lemma names_complete n t1 t2 t3 rows1 rows2 rows3 post :
  (100 < n < 2147483647)%Z -> disk l1 = Some t1 -> disk l2 = Some t2 -> disk l3 = Some t3 ->
  lists2 n t1 rows1 -> lists3 n t2 rows2 -> lists2 n t3 rows3 ->
  forall F le (R : blocks) src d lr lg bg len liz lwi x0 x1 x2 x3 x4 x5 x6 x7 m (ens : list T) sig nelem zs ws dens type (ts : list token) s,
  is012 type = false ->
  List.length zs = Z.to_nat nelem -> List.length ws = List.length zs -> (0 <= m)%Z -> List.length ens = Z.to_nat m ->
  hs F ((le, [Vptr NULL]) :: srcblk src d lr [x0; x1; x2; x3; x4; x5; x6; x7] m (Some len) :: dblk d sig 0 (#0)%num nelem (Some liz) (Some lwi) dens NULL ::
        (lr, [Vptr (Some lg)]) :: (lg, bg) :: (len, List.map Vdbl ens) :: (liz, List.map Vint zs) :: (lwi, List.map Vdbl ws) :: R) s ->
  okU post true F le R (tail_of (named (Some (listed_profile n rows1 rows3))) fit type x0 x1 x2 x3 x4 x5 x6 x7 ens sig zs ws dens ts)
    (source_profile fit names_at disk type (Some d) (Some src) (Some le) ts) s.
Proof.
  intros Hn D1 D2 D3 T1 T2 T3 F le R src d lr lg bg len liz lwi x0 x1 x2 x3 x4 x5 x6 x7 m ens sig nelem zs ws dens type ts s K Lz Lw Hm Le H.
  apply named_tail_ok; [exact K|]. intros ts' E.
  assert (WS := listed_sized n t1 t3 rows1 rows3 Hn T1 T3). set (a := listed_profile n rows1 rows3) in *.
  unfold okU. destruct (finish _ _) as [|e' f] eqn:Fin; [discriminate|]. intros _.
  unfold source_profile. fold (is012 type). rewrite K, E.
  names H. rewrite D1, D2, D3. apply wp_bind. eapply hs_files; [exact Hn|exact T1|exact T2|exact T3|exact H|]. fold a. clear H. intros lp lz lc lx sa H.
  cbn [fst snd]. unfold dblk, profb in H. cbn [app] in H. pull d H.
  apply wp_bind. eapply hs_store; [exact H|cbn; lia|]. cbn [set_nth]. clear H. intros sb H.
  pull q3 H. apply wp_bind. eapply hs_free; [exact H|]. clear H. intros sc H.
  pull q2 H. apply wp_bind. eapply hs_free; [exact H|]. clear H. intros sd H.
  pull q1 H. apply wp_bind. eapply hs_free; [exact H|]. clear H. intros se H.
  assert (H' : hs F ((le, [Vptr NULL]) :: buildb src d lr lg bg len liz lwi lp lz lc lx [x0; x1; x2; x3; x4; x5; x6; x7] m ens sig 0 (#0)%num nelem zs ws dens a ++ R) se).
  { eapply hs_perm; [|exact H]. unfold buildb, dblk, srcblk, profb. cbn [app List.map]. perm. }
  pose proof (source_checks_ok post true F le R src d lr lg bg len liz lwi lp lz lc lx x0 x1 x2 x3 x4 x5 x6 x7 m ens sig nelem zs ws dens a ts' se WS Lz Lw Hm Le H') as G.
  rewrite Fin in G. exact (G eq_refl).
Qed.

(** Refused profile files: the three names stay in memory, the input file (at least) stays open. *)
Definition names_left F le (R : blocks) (r : ptr * nat) (s' : st T) : Prop :=
  fst r = NULL /\ 1 <= snd r /\ exists o t m c p1 p2 p3, (c = POLYCAP_ERROR_IO \/ c = POLYCAP_ERROR_INVALID_ARGUMENT) /\
    hs F ((le, [Vptr (Some o)]) :: (o, [Vint c; Vptr (Some t)]) :: (t, [Vstr m]) ::
          [(p1, List.map Vint (l1 ++ [0%Z])); (p2, List.map Vint (l2 ++ [0%Z])); (p3, List.map Vint (l3 ++ [0%Z]))] ++ R) s'.
Definition refused_tail (type : Z) (x0 x1 x2 x3 x4 x5 x6 x7 : T) (ens : list T) (sig : T) (zs : list Z) (ws : list T) (dens : T) (ts : list token) : fres T :=
  let '(m1, m2, m3, _) := names_at ts in
  if list_eq_dec Z.eq_dec m1 l1 then if list_eq_dec Z.eq_dec m2 l2 then if list_eq_dec Z.eq_dec m3 l3 then FDone None None else FUB else FUB else FUB.
Definition files_refused : Prop :=
  forall err s, wf s -> memory_available s -> legal_err s err ->
    wp (profile_new_from_file (Some (disk l1)) (Some (disk l2)) (Some (disk l3)) err)
       (fun r s' => fst r = NULL /\ exists c m, (c = POLYCAP_ERROR_IO \/ c = POLYCAP_ERROR_INVALID_ARGUMENT) /\ error_reported err c m s s') s.
Lemma keeps_fscan_cells : forall targets ts, keeps (@fscan_cells T targets ts).
Proof.
  induction targets as [|t r IH]; intros ts; cbn [fscan_cells]; [keep|]. destruct ts as [|tok rest]; [keep|]. destruct (as_dbl tok); [|keep].
  apply keeps_bind; [destruct t as [[p i]|]; keep|intros _; apply IH].
Qed.
Lemma keeps_scan_rows row : forall k i ts, keeps (@scan_rows T k i row ts).
Proof. induction k as [|k IH]; intros i ts; cbn [scan_rows]; [keep|]. apply keeps_bind; [apply keeps_fscan_cells|intros t; apply IH]. Qed.
Lemma keeps_set_error' err c m : keeps (@set_error T err c m).
Proof. unfold set_error, error_new, strdup, error_free. keep. Qed.
Lemma keeps_next_file name p n m row f err k : keeps k -> keeps (@next_file T name p n m row f err k).
Proof.
  intros K. unfold next_file. destruct f as [ts|].
  - destruct (scan_count (Some m) ts) as [[c|] ts']; [|keep]. destruct (Z.eqb n c).
    + apply keeps_bind; [apply keeps_scan_rows|intros _; exact K].
    + apply keeps_bind; [apply keeps_set_error'|intros _]. unfold profile_free, free_if. keep.
  - apply keeps_bind; [apply keeps_set_error'|intros _]. unfold profile_free, free_if. keep.
Qed.
Lemma keeps_files f1 f2 f3 err : keeps (@profile_new_from_file T f1 f2 f3 err).
Proof.
  unfold profile_new_from_file.
  destruct f1 as [f1|]; [|apply keeps_bind; [apply keeps_set_error_literal|intros _; keep]].
  destruct f2 as [f2|]; [|apply keeps_bind; [apply keeps_set_error_literal|intros _; keep]].
  destruct f3 as [f3|]; [|apply keeps_bind; [apply keeps_set_error_literal|intros _; keep]].
  destruct f1 as [ts|]; [|apply keeps_bind; [apply keeps_set_error'|intros _; keep]].
  destruct (scan_count None ts) as [[n|] ts']; [|keep]. destruct (Z.leb n 100); [apply keeps_bind; [apply keeps_set_error_literal|intros _; keep]|].
  destruct (Z.leb int_max n); [keep|]. unfold file_alloc.
  apply keeps_bind; [apply keeps_alloc|intros p]. destruct p; [|apply keeps_bind; [unfold ProfileModel.mem_error; apply keeps_set_error'|intros _; keep]].
  apply keeps_bind; [keep|intros _]. apply keeps_bind; [apply keeps_alloc|intros z]. apply keeps_bind; [keep|intros _].
  destruct z; [|apply keeps_bind; [unfold ProfileModel.mem_error; apply keeps_set_error'|intros _; keep]].
  apply keeps_bind; [apply keeps_alloc|intros z]. apply keeps_bind; [keep|intros _].
  destruct z; [|apply keeps_bind; [unfold ProfileModel.mem_error; apply keeps_set_error'|intros _; keep]].
  apply keeps_bind; [apply keeps_alloc|intros z]. apply keeps_bind; [keep|intros _].
  destruct z; [|apply keeps_bind; [unfold ProfileModel.mem_error; apply keeps_set_error'|intros _; keep]].
  apply keeps_bind; [apply keeps_scan_rows|intros _]. repeat apply keeps_next_file. keep.
Qed.

Lemma names_refused : files_refused ->
  forall F le (R : blocks) src d lr lg bg len liz lwi x0 x1 x2 x3 x4 x5 x6 x7 m (ens : list T) sig nelem zs ws dens type (ts : list token) s,
  is012 type = false ->
  List.length zs = Z.to_nat nelem -> List.length ws = List.length zs -> (0 <= m)%Z -> List.length ens = Z.to_nat m ->
  hs F ((le, [Vptr NULL]) :: srcblk src d lr [x0; x1; x2; x3; x4; x5; x6; x7] m (Some len) :: dblk d sig 0 (#0)%num nelem (Some liz) (Some lwi) dens NULL ::
        (lr, [Vptr (Some lg)]) :: (lg, bg) :: (len, List.map Vdbl ens) :: (liz, List.map Vint zs) :: (lwi, List.map Vdbl ws) :: R) s ->
  okU names_left true F le R (refused_tail type x0 x1 x2 x3 x4 x5 x6 x7 ens sig zs ws dens ts)
    (source_profile fit names_at disk type (Some d) (Some src) (Some le) ts) s.
Proof.
  intros FR F le R src d lr lg bg len liz lwi x0 x1 x2 x3 x4 x5 x6 x7 m ens sig nelem zs ws dens type ts s K Lz Lw Hm Le H.
  unfold refused_tail. destruct (names_at ts) as [[[m1 m2] m3] ts'] eqn:E.
  destruct (list_eq_dec Z.eq_dec m1 l1) as [->|]; [|discriminate]. destruct (list_eq_dec Z.eq_dec m2 l2) as [->|]; [|discriminate].
  destruct (list_eq_dec Z.eq_dec m3 l3) as [->|]; [|discriminate]. intros _.
  unfold source_profile. fold (is012 type). rewrite K, E.
  names H. apply wp_bind. assert (W := hs_wf _ _ _ H). assert (Av := hs_av _ _ _ H).
  match type of H with hs _ _ ?s0 => eapply wp_mono; [apply wp_keeps; [apply keeps_files|exact W|apply (FR (Some le) s0 W Av)]|] end.
  { exists NULL. eapply hs_in; [exact H|cbn; auto]. }
  intros r sa (W' & O' & E1 & c & msg & Hc & ER). rewrite E1. cbn [fst].
  pull le H. destruct (hs_reported F le c msg _ _ _ H W' O' ER) as (o & t & H'). clear H. rename H' into H.
  unfold dblk in H. pull d H.
  apply wp_bind. eapply hs_store; [exact H|cbn; lia|]. cbn [set_nth]. clear H. intros sb H.
  apply wp_bind.
  eapply (hs_source_drop F src d lr lg bg [x0; x1; x2; x3; x4; x5; x6; x7] m (Some len) sig 0%Z (#0)%num nelem (Some liz) (Some lwi) dens NULL
      [(len, List.map Vdbl ens)] [(liz, List.map Vint zs)] [(lwi, List.map Vdbl ws)] []
      ((le, [Vptr (Some o)]) :: (o, [Vint c; Vptr (Some t)]) :: (t, [Vstr msg]) :: [(q1, List.map Vint (l1 ++ [0%Z])); (q2, List.map Vint (l2 ++ [0%Z])); (q3, List.map Vint (l3 ++ [0%Z]))] ++ R));
    [reflexivity|constructor|constructor|constructor|constructor| |].
  - eapply hs_perm; [|exact H]. unfold dblk, srcblk. cbn [app List.map]. perm.
  - clear H. intros sc H. apply wp_ret. cbn [outcome]. split; [reflexivity|]. cbn [snd]. split; [lia|].
    exists o, t, msg, c, q1, q2, q3. split; [exact Hc|exact H].
Qed.
End Names.
