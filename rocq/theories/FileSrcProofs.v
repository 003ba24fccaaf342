(** * Proofs about polycap_source_new_from_file in memory *)
From Coq Require Import ZArith List Bool Lia String Permutation.
From Verif Require Import Num Mem SpecHeap HeapLib ErrorModel ProfileModel ProfileProofs Geometry ConsModel CapilModel DescProofs SrcProofs SepLib
  FlightRep FlightHeap FlightHeap2 FlightLaunch FlightLaunch2 PyModel PyResProofs PyResInv SpecPyObj PyObjHeap PyObjCons PyObjProofs
  SourceModel FromFile LineModel ProfFile FileSrc.
Import ListNotations.
Local Notation ret := Mem.ret.
Local Notation bind := Mem.bind.
Local Notation ub := Mem.ub.

(** Bring the list of blocks [B] to the front. *)
Ltac withoutL B L :=
  lazymatch L with
  | B ++ ?R => R
  | B => constr:(@nil (loc * @block _))
  | ?x :: ?R => let r := withoutL B R in constr:(x :: r)
  | ?A ++ ?R => let r := withoutL B R in constr:(A ++ r)
  end.
Ltac pullL B H :=
  lazymatch type of H with
  | hs ?F ?L ?s => let R := withoutL B L in
      let K := fresh "K" in pose proof (hs_perm F L (B ++ R) s ltac:(perm) H) as K; clear H; rename K into H
  end.

Section Proofs.
Context {T : Type} {N : Num T}.
Local Notation blocks := (list (loc * @block T)).
Local Notation token := (token T).
Implicit Types (s : st T) (F : loc -> option (@block T)).

(** ** A source under construction *)
Inductive owned1 : ptr -> blocks -> Prop :=
| own_none : owned1 None []
| own_some l b : owned1 (Some l) [(l, b)].
Inductive ownedp : ptr -> blocks -> Prop :=
| ownp_none : ownedp None []
| ownp_some p z c e n bz bc be : ownedp (Some p) [(p, [n; Vptr (Some z); Vptr (Some c); Vptr (Some e)]); (z, bz); (c, bc); (e, be)].

Definition srcblk (src d lr : loc) (xs : list T) (n : Z) (en : ptr) : loc * @block T :=
  (src, Vptr (Some d) :: Vptr (Some lr) :: List.map Vdbl xs ++ [Vint n; Vptr en]).
Definition dblk (d : loc) (sig : T) (ncap : Z) (open : T) (nelem : Z) (iz wi : ptr) (dens : T) (pr : ptr) : loc * @block T :=
  (d, [Vdbl sig; Vint ncap; Vdbl open; Vint nelem; Vptr iz; Vptr wi; Vdbl dens; Vptr pr]).

Lemma hs_free_if F p B (R : blocks) (Q : unit -> st T -> Prop) s : owned1 p B -> hs F (B ++ R) s ->
  (forall s', hs F R s' -> Q tt s') -> wp (free_if p) Q s.
Proof. intros O H HQ. destruct O; cbn [free_if]; [apply wp_ret; apply HQ; exact H|eapply hs_free; [exact H|exact HQ]]. Qed.
Lemma hs_prof_free F p B (R : blocks) (Q : unit -> st T -> Prop) s : ownedp p B -> hs F (B ++ R) s ->
  (forall s', hs F R s' -> Q tt s') -> wp (profile_free p) Q s.
Proof. intros O H HQ. destruct O; [apply wp_ret; apply HQ; exact H|]. eapply hs_profile_free; [exact H|exact HQ]. Qed.

Lemma hs_source_drop F src d lr lg bg xs n en sig ncap open nelem iz wi dens pr BE BI BW BP (R : blocks) (Q : unit -> st T -> Prop) s :
  List.length xs = 8 -> owned1 en BE -> owned1 iz BI -> owned1 wi BW -> ownedp pr BP ->
  hs F (srcblk src d lr xs n en :: dblk d sig ncap open nelem iz wi dens pr :: (lr, [Vptr (Some lg)]) :: (lg, bg) :: BE ++ BI ++ BW ++ BP ++ R) s ->
  (forall s', hs F R s' -> Q tt s') -> wp (source_free (Some src)) Q s.
Proof.
  intros L8 OE OI OW OP H HQ. destruct xs as [|x0 [|x1 [|x2 [|x3 [|x4 [|x5 [|x6 [|x7 [|]]]]]]]]]; try discriminate L8.
  unfold source_free, description_free, rng_free, srcblk, dblk in *. cbn [app List.map] in H.
  apply wp_bind. eapply hs_load_ptr; [exact H|left; reflexivity|reflexivity|]. apply wp_bind.
  apply wp_bind. pull d H. eapply hs_load_ptr; [exact H|left; reflexivity|reflexivity|].
  apply wp_bind. pullL BP H. eapply (hs_prof_free F pr BP); [exact OP|exact H|].
  clear H s. intros s H.
  apply wp_bind. eapply hs_load_ptr; [exact H|left; reflexivity|reflexivity|].
  apply wp_bind. pullL BI H. eapply (hs_free_if F iz BI); [exact OI|exact H|].
  clear H s. intros s H.
  apply wp_bind. eapply hs_load_ptr; [exact H|left; reflexivity|reflexivity|].
  apply wp_bind. pullL BW H. eapply (hs_free_if F wi BW); [exact OW|exact H|].
  clear H s. intros s H. eapply hs_free; [exact H|]. clear H s. intros s H.
  apply wp_bind. eapply hs_load_ptr; [exact H|left; reflexivity|reflexivity|]. apply wp_bind.
  apply wp_bind. pull lr H. eapply hs_load_ptr; [exact H|left; reflexivity|reflexivity|]. apply wp_bind. pull lg H. eapply hs_free; [exact H|]. clear H s. intros s H.
  eapply hs_free; [exact H|]. clear H s. intros s H.
  apply wp_bind. eapply hs_load_ptr; [exact H|left; reflexivity|reflexivity|]. apply wp_bind.
  pullL BE H. eapply (hs_free_if F en BE); [exact OE|exact H|].
  clear H s. intros s H. eapply hs_free; [exact H|]. exact HQ.
Qed.

(** ** Outcomes *)
Definition refused F le (R : blocks) (c : Z) (r : ptr * nat) (s' : st T) : Prop :=
  exists o t m, fst r = NULL /\ snd r <= 1 /\ (c = POLYCAP_ERROR_IO -> snd r = 1) /\ hs F ((le, [Vptr (Some o)]) :: (o, [Vint c; Vptr (Some t)]) :: (t, [Vstr m]) :: R) s'.
(** How a refusal of the files of a profile ends. *)
Variable files_post : (loc -> option (@block T)) -> loc -> blocks -> ptr * nat -> st T -> Prop.
Definition code_of (b : bool) : option Z := if b then Some POLYCAP_ERROR_INVALID_ARGUMENT else None.
Definition made F le (R : blocks) (e' : option Z) (f : file_source T) (r : ptr * nat) (s' : st T) : Prop :=
  exists src len lr lg bg d liz lwi lp lz lc lx b EB, r = (Some src, 0) /\ e' = code_of b /\ slot le b EB /\
    hs F (EB ++ srcb src len lr lg d [so_d (fs_nums f); so_x (fs_nums f); so_y (fs_nums f); so_sigx (fs_nums f); so_sigy (fs_nums f); so_shx (fs_nums f); so_shy (fs_nums f); so_pol (fs_nums f)] (fs_energies f) bg ++
          descb d liz lwi lp lz lc lx (fs_open f) (mkOptic (fs_prof f) (fs_ncap f) (fs_sig f) (fs_dens f) (fs_iz f) (fs_wi f)) ++ R) s'.
Definition outcome F le (R : blocks) (e' : option Z) (r : option (file_source T)) (res : ptr * nat) (s' : st T) : Prop :=
  match r with
  | None => match e' with Some c => refused F le R c res s' | None => files_post F le R res s' end
  | Some f => made F le R e' f res s'
  end.

(** Reports in a clean error variable. *)
Lemma hs_first_report F lit le c m (R : blocks) (Q : unit -> st T -> Prop) s :
  hs F ((le, [Vptr NULL]) :: R) s ->
  (forall o t s', hs F ((le, [Vptr (Some o)]) :: (o, [Vint c; Vptr (Some t)]) :: (t, [Vstr m]) :: R) s' -> Q tt s') ->
  wp (report_fn lit (Some le) c m) Q s.
Proof.
  intros H HQ. apply wp_report.
  - apply H.
  - exists NULL. eapply hs_in; [exact H|left; reflexivity].
  - intros _. destruct H as (_ & A & _). split; apply A.
  - intros s' W' O' _ _ E. destruct (hs_reported F le c m R s s' H W' O' E) as (o & t & H'). eapply HQ. exact H'.
Qed.

(** ** The heap program against the functional one *)
(** With [md = true] the outcomes are compared, with [md = false] undefined behaviour is. *)
Variable md : bool.
Definition okU F le (R : blocks) (fr : fres T) (m : M T (ptr * nat)) (s : st T) : Prop :=
  match fr with
  | FUB => md = false -> m s = UB
  | FDone e' r => md = true -> wp m (outcome F le R e' r) s
  end.
(** What reading a profile from other files gives. *)
Variable pff : list token -> option (profile T) * list token.
Lemma okU_bind F le (R : blocks) fr {A} (m : M T A) (k : A -> M T (ptr * nat)) s (Q : A -> st T -> Prop) :
  wp m Q s -> (forall a s', Q a s' -> okU F le R fr (k a) s') -> okU F le R fr (bind m k) s.
Proof.
  intros H K. unfold wp in H. destruct (m s) as [[a s']|] eqn:E; [|contradiction].
  pose proof (K a s' H) as X. unfold okU in *. destruct fr as [|e' r]; intros Md; specialize (X Md); unfold bind, wp in *; rewrite E; exact X.
Qed.

(** fscanf of one and of two objects in memory, as the file reader uses it: [St v] says that
    the object holds [v]. *)
Lemma read1_ok F le (R : blocks) {A} (get : token -> option A) (St : A -> st T -> Prop) (tgt : target) (put : A -> M T unit) src msg
    (kf : option A -> list token -> fres T) (k : list token -> M T (ptr * nat)) old ts s :
  (forall t r K, fscan_from K [tgt] (t :: r) = match get t with Some v => bind (put v) (fun _ => fscan_from (K + 1) [] r) | None => ret (K, t :: r) end) ->
  (forall v v' s (Q : unit -> st T -> Prop), St v s -> (forall s', St v' s' -> Q tt s') -> wp (put v') Q s) ->
  (forall v s, St v s -> okU F le R (FDone (Some POLYCAP_ERROR_IO) None)
     (bind (set_error (Some le) POLYCAP_ERROR_IO (Some msg)) (fun _ => bind (source_free src) (fun _ => ret (NULL, 1)))) s) ->
  (forall v ts s, St v s -> okU F le R (kf (Some v) ts) (k ts) s) ->
  St old s -> okU F le R (read1 get (Some old) None ts kf) (checked [tgt] src (Some le) msg ts k) s.
Proof.
  intros Ht Hp Hg Hk H. unfold checked, read1, scan1, fscan. destruct ts as [|t r].
  - cbn [fscan_from fst snd]. eapply (okU_bind _ _ _ _ _ _ _ (fun a s' => a = ((-1)%Z, []) /\ St old s')); [apply wp_ret; auto|].
    intros a s' [-> H']. cbn [fst snd Z.eqb]. apply Hk. exact H'.
  - rewrite Ht. destruct (get t) as [v|].
    + eapply (okU_bind _ _ _ _ _ _ _ (fun a s' => a = (1%Z, r) /\ St v s')).
      * apply wp_bind. eapply Hp; [exact H|]. intros s' H'. apply wp_ret. auto.
      * intros a s' [-> H']. cbn [fst snd Z.eqb]. apply Hk. exact H'.
    + eapply (okU_bind _ _ _ _ _ _ _ (fun a s' => a = (0%Z, t :: r) /\ St old s')); [apply wp_ret; auto|].
      intros a s' [-> H']. cbn [fst snd Z.eqb report]. eapply Hg. exact H'.
Qed.
Lemma read2_ok F le (R : blocks) (St : T -> T -> st T -> Prop) p i q j src msg
    (kf : option T -> option T -> list token -> fres T) (k : list token -> M T (ptr * nat)) oa ob ts s :
  (forall v w v' s (Q : unit -> st T -> Prop), St v w s -> (forall s', St v' w s' -> Q tt s') -> wp (store p i (Vdbl v')) Q s) ->
  (forall v w w' s (Q : unit -> st T -> Prop), St v w s -> (forall s', St v w' s' -> Q tt s') -> wp (store q j (Vdbl w')) Q s) ->
  (forall v w s, St v w s -> okU F le R (FDone (Some POLYCAP_ERROR_IO) None)
     (bind (set_error (Some le) POLYCAP_ERROR_IO (Some msg)) (fun _ => bind (source_free src) (fun _ => ret (NULL, 1)))) s) ->
  (forall v w ts s, St v w s -> okU F le R (kf (Some v) (Some w) ts) (k ts) s) ->
  St oa ob s -> okU F le R (read2 (Some oa) (Some ob) None ts kf) (checked [TD p i; TD q j] src (Some le) msg ts k) s.
Proof.
  intros Hp Hq Hg Hk H. unfold checked, read2, scan2, scan1, fscan. destruct ts as [|t r].
  - cbn [fscan_from fst snd Z.eqb]. eapply (okU_bind _ _ _ _ _ _ _ (fun a s' => a = ((-1)%Z, []) /\ St oa ob s')); [apply wp_ret; auto|].
    intros a s' [-> H']. cbn [fst snd Z.eqb]. apply Hk. exact H'.
  - cbn [fscan_from]. destruct (as_dbl t) as [v|].
    + destruct r as [|t2 r2]; [|destruct (as_dbl t2) as [w|]].
      * eapply (okU_bind _ _ _ _ _ _ _ (fun a s' => a = (1%Z, []) /\ St v ob s')).
        { apply wp_bind. eapply Hp; [exact H|]. intros s' H'. apply wp_ret. auto. }
        intros a s' [-> H']. cbn [fst snd Z.eqb]. apply Hk. exact H'.
      * eapply (okU_bind _ _ _ _ _ _ _ (fun a s' => a = (2%Z, r2) /\ St v w s')).
        { apply wp_bind. eapply Hp; [exact H|]. intros s1 H1. apply wp_bind. eapply Hq; [exact H1|]. intros s' H'. apply wp_ret. auto. }
        intros a s' [-> H']. cbn [fst snd Z.eqb]. apply Hk. exact H'.
      * eapply (okU_bind _ _ _ _ _ _ _ (fun a s' => a = (1%Z, t2 :: r2) /\ St v ob s')).
        { apply wp_bind. eapply Hp; [exact H|]. intros s' H'. apply wp_ret. auto. }
        intros a s' [-> H']. cbn [fst snd Z.eqb]. apply Hk. exact H'.
    + eapply (okU_bind _ _ _ _ _ _ _ (fun a s' => a = (0%Z, t :: r) /\ St oa ob s')); [apply wp_ret; auto|].
      intros a s' [-> H']. cbn [fst snd Z.eqb report]. eapply Hg. exact H'.
Qed.

(** ** The last part: checks *)
Lemma wp_iz94 l (all : list Z) : forall rest n pre (Q : bool -> st T -> Prop) s,
  n = List.length rest -> all = pre ++ rest -> int_array s l all ->
  Q (negb (existsb (fun z => Z.ltb z 1 || Z.ltb 94 z) rest)) s -> wp (iz_loop94 n (List.length pre) (Some l)) Q s.
Proof.
  induction rest as [|x rest IH]; intros n pre Q s En E Hl HQ; cbn [List.length] in En; subst n; cbn [iz_loop94 existsb] in *; [apply wp_ret; exact HQ|].
  apply wp_bind. eapply wp_load_int; [exact Hl| |].
  { rewrite E, map_app, nth_error_app2; rewrite map_length; [|lia]. rewrite Nat.sub_diag. reflexivity. }
  destruct (Z.ltb x 1 || Z.ltb 94 x); cbn [orb negb] in HQ; [apply wp_ret; exact HQ|].
  specialize (IH (List.length rest) (pre ++ [x]) Q s). rewrite app_length in IH. cbn [List.length] in IH.
  replace (S (List.length pre)) with (List.length pre + 1) by lia. apply IH; auto. now rewrite <- app_assoc.
Qed.

Definition buildb src d lr lg (bg : @block T) len liz lwi lp lz lc lx xs n (ens : list T) sig ncap open nelem (zs : list Z) (ws : list T) dens (a : profile T) : blocks :=
  srcblk src d lr xs n (Some len) :: dblk d sig ncap open nelem (Some liz) (Some lwi) dens (Some lp) :: (lr, [Vptr (Some lg)]) :: (lg, bg) ::
  (len, List.map Vdbl ens) :: (liz, List.map Vint zs) :: (lwi, List.map Vdbl ws) :: profb lp lz lc lx a.
Lemma hs_build_drop F src d lr lg bg len liz lwi lp lz lc lx xs n ens sig ncap open nelem zs ws dens a (R : blocks) (Q : unit -> st T -> Prop) s :
  List.length xs = 8 -> hs F (buildb src d lr lg bg len liz lwi lp lz lc lx xs n ens sig ncap open nelem zs ws dens a ++ R) s ->
  (forall s', hs F R s' -> Q tt s') -> wp (source_free (Some src)) Q s.
Proof.
  intros L8 H HQ.
  eapply (hs_source_drop F src d lr lg bg xs n (Some len) sig ncap open nelem (Some liz) (Some lwi) dens (Some lp)
    [(len, List.map Vdbl ens)] [(liz, List.map Vint zs)] [(lwi, List.map Vdbl ws)] (profb lp lz lc lx a) R Q s L8).
  - constructor.
  - constructor.
  - constructor.
  - unfold profb. constructor.
  - unfold buildb in H. cbn [app] in *. exact H.
  - exact HQ.
Qed.

Lemma refused_slot F le (R : blocks) n EB s : slot le true EB -> hs F (EB ++ R) s -> n <= 1 ->
  outcome F le R (Some POLYCAP_ERROR_INVALID_ARGUMENT) None (NULL, n) s.
Proof.
  intros SL H Hn. inversion SL; subst. exists o, t, m. cbn [fst snd]. split; [reflexivity|]. split; [exact Hn|]. split; [discriminate|exact H].
Qed.
Lemma report_code b : report (code_of b) POLYCAP_ERROR_INVALID_ARGUMENT = Some POLYCAP_ERROR_INVALID_ARGUMENT.
Proof. destruct b; reflexivity. Qed.

Lemma refuse_ok F le (R : blocks) b EB src d lr lg bg len liz lwi lp lz lc lx xs n ens sig ncap open nelem zs ws dens a c msg k e' r s :
  List.length xs = 8 -> slot le b EB ->
  hs F (EB ++ buildb src d lr lg bg len liz lwi lp lz lc lx xs n ens sig ncap open nelem zs ws dens a ++ R) s ->
  (c = true -> e' = Some POLYCAP_ERROR_INVALID_ARGUMENT /\ r = None) ->
  (c = false -> wp k (outcome F le R e' r) s) ->
  wp (refuse c (Some src) (Some le) msg k) (outcome F le R e' r) s.
Proof.
  intros L8 SL H HT HF. unfold refuse. destruct c; [clear HF|apply HF; reflexivity]. destruct (HT eq_refl) as [-> ->].
  apply wp_bind. unfold invalid. eapply hs_report; [exact SL|exact H|]. clear H s. intros EB' s SL' H. apply wp_bind.
  pullL (buildb src d lr lg bg len liz lwi lp lz lc lx xs n ens sig ncap open nelem zs ws dens a) H.
  eapply hs_build_drop; [exact L8|exact H|]. clear H s. intros s H. apply wp_ret. eapply refused_slot; [exact SL'|exact H|lia].
Qed.

Definition ncap_of (ts : list token) : Z := match ts with [] => 0 | t :: _ => match as_int t with Some v => v | None => 0 end end%Z.

Lemma source_checks_ok F le (R : blocks) src d lr lg bg len liz lwi lp lz lc lx x0 x1 x2 x3 x4 x5 x6 x7 n (ens : list T) sig nelem zs ws dens a ts s :
  well_sized a -> List.length zs = Z.to_nat nelem -> List.length ws = List.length zs -> (0 <= n)%Z -> List.length ens = Z.to_nat n ->
  hs F ((le, [Vptr NULL]) :: buildb src d lr lg bg len liz lwi lp lz lc lx [x0; x1; x2; x3; x4; x5; x6; x7] n ens sig 0 (#0)%num nelem zs ws dens a ++ R) s ->
  okU F le R (finish None (mkFS (mkSource x0 x1 x2 x3 x4 x5 x6 x7) ens sig (ncap_of ts) (#0)%num zs ws dens a))
      (source_checks (Some d) (Some src) (Some le) ts) s.
Proof.
  intros WS Lz Lw Hn Le H. unfold source_checks.
  eapply (okU_bind _ _ _ _ _ _ _ (fun _ s' => hs F ((le, [Vptr NULL]) ::
     buildb src d lr lg bg len liz lwi lp lz lc lx [x0; x1; x2; x3; x4; x5; x6; x7] n ens sig (ncap_of ts) (#0)%num nelem zs ws dens a ++ R) s')).
  { unfold fscan, ncap_of. cbn [fscan_from]. destruct ts as [|t r]; [apply wp_ret; exact H|]. destruct (as_int t) as [v|]; [|apply wp_ret; exact H].
    apply wp_bind. unfold buildb, dblk in *. cbn [app] in H. pull d H. eapply hs_store; [exact H|cbn; lia|]. cbn [set_nth]. clear H s. intros s H.
    apply wp_ret. eapply hs_perm; [|exact H]. cbn [app]. perm. }
  clear H s. intros _ s H. generalize (ncap_of ts) H. clear ts H. intros ncap H.
  destruct (validate_some a ncap WS) as [v Ev]. destruct WS as (Sz & Sc & Se).
  destruct (p_cap a) as [|c0 cs] eqn:Ec; [discriminate Sc|]. destruct (p_ext a) as [|e0 es] eqn:Ee; [discriminate Se|].
  unfold finish. cbn [fs_prof fs_wi fs_nums fs_energies fs_sig fs_ncap fs_iz fs_dens]. rewrite Ec, Ee, Ev.
  set (nw := norm_weights ws). set (open := open_area_num ncap c0 e0). set (f := mkFS _ _ _ _ _ _ _ _ _). set (b := negb (snd nw)).
  replace (if snd nw then None else report None POLYCAP_ERROR_INVALID_ARGUMENT) with (code_of b) by (unfold b; destruct (snd nw); reflexivity).
  assert (G : wp (source_checks (Some d) (Some src) (Some le) [])
     (fun x s' => match (if file_checks f then FDone (report (code_of b) POLYCAP_ERROR_INVALID_ARGUMENT) None
        else if (v =? 1)%Z then FDone (code_of b) (Some f) else FDone (Some POLYCAP_ERROR_INVALID_ARGUMENT) None) with FUB => True | FDone e' r => outcome F le R e' r x s' end) s).
  2:{ unfold source_checks, fscan in G. cbn [fscan_from] in G. apply wp_bind_inv in G. destruct (file_checks f); [|destruct (v =? 1)%Z]; intros _; exact G. }
  assert (Hfr : exists e' r, (if file_checks f then FDone (report (code_of b) POLYCAP_ERROR_INVALID_ARGUMENT) None
        else if (v =? 1)%Z then FDone (code_of b) (Some f) else FDone (Some POLYCAP_ERROR_INVALID_ARGUMENT) None) = FDone e' r /\
     (file_checks f = true -> e' = Some POLYCAP_ERROR_INVALID_ARGUMENT /\ r = None) /\
     (file_checks f = false -> v = 1%Z -> e' = code_of b /\ r = Some f) /\
     (file_checks f = false -> v <> 1%Z -> e' = Some POLYCAP_ERROR_INVALID_ARGUMENT /\ r = None)).
  { destruct (file_checks f); [|destruct (Z.eqb_spec v 1) as [E|E]]; (eexists; eexists; split; [reflexivity|split; [|split]]); intros; try congruence; auto.
    split; [apply report_code|reflexivity]. }
  destruct Hfr as (e' & r & -> & A1 & A2 & A3). cbv beta iota.
  unfold source_checks, fscan. cbn [fscan_from]. apply wp_bind, wp_ret.
  unfold buildb, dblk, srcblk, profb in H. cbn [app List.map] in H.
  apply wp_bind. pull d H. eapply hs_load_int; [exact H|left; reflexivity|reflexivity|].
  apply wp_bind. eapply hs_load_ptr; [exact H|left; reflexivity|reflexivity|].
  apply wp_bind. pull le H. pull lwi H. rewrite <- Lz, <- Lw. eapply hs_check_weight; [exact H|]. fold nw. fold b.
  clear H s. intros EB s SL H.
  apply wp_bind. pull d H. eapply hs_load_int; [exact H|left; reflexivity|reflexivity|].
  apply wp_bind. eapply hs_load_ptr; [exact H|left; reflexivity|reflexivity|].
  apply wp_bind. pull lp H. eapply hs_load_ptr; [exact H|left; reflexivity|reflexivity|].
  apply wp_bind. pull lc H. eapply hs_load_dbl; [exact H|left; reflexivity|rewrite Ec; reflexivity|].
  apply wp_bind. pull lp H. eapply hs_load_ptr; [exact H|left; reflexivity|reflexivity|].
  apply wp_bind. pull lx H. eapply hs_load_dbl; [exact H|left; reflexivity|rewrite Ee; reflexivity|]. fold open.
  apply wp_bind. pull d H. eapply hs_store; [exact H|cbn; lia|]. cbn [set_nth]. clear H s. intros s H.
  assert (H2 : hs F (EB ++ buildb src d lr lg bg len liz lwi lp lz lc lx [x0; x1; x2; x3; x4; x5; x6; x7] n ens sig ncap open nelem zs (fst nw) dens a ++ R) s).
  { eapply hs_perm; [|exact H]. unfold buildb, dblk, srcblk, profb. cbn [app List.map]. perm. }
  clear H. rename H2 into H.
  assert (Tr : forall c, (c = true -> file_checks f = true) -> c = true -> e' = Some POLYCAP_ERROR_INVALID_ARGUMENT /\ r = None) by (intros c I E; apply A1, I, E).
  assert (FE : file_checks f = (nltb x0 (#0)%num || nltb x1 (#0)%num || nltb x2 (#0)%num || Nat.leb (List.length ens) 0
     || existsb (fun x => nltb x (#1)%num || nltb (#100)%num x) ens || Z.ltb ncap 1 || (nltb open (#0)%num || nltb (#1)%num open) || Nat.ltb (List.length zs) 1
     || existsb (fun z => Z.ltb z 1 || Z.ltb 94 z) zs || nltb dens (#0)%num)) by reflexivity.
  Local Ltac istrue FE := rewrite FE; intros E; rewrite E, ?orb_true_r; reflexivity.
  assert (I1 : In (src, Vptr (Some d) :: Vptr (Some lr) :: [Vdbl x0; Vdbl x1; Vdbl x2; Vdbl x3; Vdbl x4; Vdbl x5; Vdbl x6; Vdbl x7; Vint n; Vptr (Some len)])
     (EB ++ buildb src d lr lg bg len liz lwi lp lz lc lx [x0; x1; x2; x3; x4; x5; x6; x7] n ens sig ncap open nelem zs (fst nw) dens a ++ R)) by (apply in_or_app; right; left; reflexivity).
  assert (I2 : In (dblk d sig ncap open nelem (Some liz) (Some lwi) dens (Some lp))
     (EB ++ buildb src d lr lg bg len liz lwi lp lz lc lx [x0; x1; x2; x3; x4; x5; x6; x7] n ens sig ncap open nelem zs (fst nw) dens a ++ R)) by (apply in_or_app; right; right; left; reflexivity).
  Local Ltac gate SL H Tr := eapply refuse_ok; [|exact SL|exact H|apply Tr|]; [reflexivity| |].
  apply wp_bind. eapply hs_load_dbl; [exact H|exact I1|reflexivity|]. gate SL H Tr; [istrue FE|intros C1].
  apply wp_bind. eapply hs_load_dbl; [exact H|exact I1|reflexivity|]. gate SL H Tr; [istrue FE|intros C2].
  apply wp_bind. eapply hs_load_dbl; [exact H|exact I1|reflexivity|]. gate SL H Tr; [istrue FE|intros C3].
  apply wp_bind. eapply hs_load_int; [exact H|exact I1|reflexivity|].
  replace (n <=? 0)%Z with (Nat.leb (List.length ens) 0) by (rewrite Le; destruct (Z.leb_spec n 0), (Nat.leb_spec (Z.to_nat n) 0); auto; lia).
  gate SL H Tr; [istrue FE|intros C4].
  apply wp_bind. eapply hs_load_ptr; [exact H|exact I1|reflexivity|].
  apply wp_bind. rewrite <- Le. apply (wp_energy_loop len ens ens (List.length ens) []); [lia|reflexivity|eapply hs_in; [exact H|apply in_or_app; right; unfold buildb, profb; inL]|].
  rewrite firstn_all.
  replace (negb (forallb en_in_range ens)) with (existsb (fun x => nltb x (#1)%num || nltb (#100)%num x) ens)
    by (clear; unfold en_in_range; induction ens as [|y l IH]; cbn; [reflexivity|]; rewrite negb_andb, negb_involutive, IH; reflexivity).
  gate SL H Tr; [istrue FE|intros C5].
  gate SL H Tr; [istrue FE|intros C6].
  apply wp_bind. eapply hs_load_dbl; [exact H|exact I2|reflexivity|]. gate SL H Tr; [istrue FE|intros C7].
  replace (nelem <? 1)%Z with (Nat.ltb (List.length zs) 1) by (rewrite Lz; destruct (Z.ltb_spec nelem 1), (Nat.ltb_spec (Z.to_nat nelem) 1); auto; lia).
  gate SL H Tr; [istrue FE|intros C8].
  apply wp_bind. eapply hs_load_ptr; [exact H|exact I2|reflexivity|].
  apply wp_bind. rewrite Lw. apply (wp_iz94 liz zs zs (List.length zs) []); [reflexivity|reflexivity|eapply hs_in; [exact H|apply in_or_app; right; unfold buildb, profb; inL]|].
  rewrite negb_involutive. gate SL H Tr; [istrue FE|intros C9].
  apply wp_bind. eapply hs_load_dbl; [exact H|exact I2|reflexivity|]. gate SL H Tr; [istrue FE|intros C10].
  assert (FC : file_checks f = false).
  { rewrite FE, C1, C2, C3, C4, C5, C6, C7, C8, C9, C10. reflexivity. }
  assert (Fin : forall EB b' s, slot le b' EB -> (v = 1%Z -> b' = b) ->
     hs F (EB ++ buildb src d lr lg bg len liz lwi lp lz lc lx [x0; x1; x2; x3; x4; x5; x6; x7] n ens sig ncap open nelem zs (fst nw) dens a ++ R) s ->
     wp (if negb (v =? 1)%Z then bind (clear_error (Some le)) (fun _ => refuse true (Some src) (Some le)
           "polycap_source_new_from_file: description->profile is faulty. Some capillary coordinates are outside of the external radius." (ret (NULL, 0)))
         else ret (Some src, 0)) (outcome F le R e' r) s).
  { clear H s EB SL I1 I2. intros EB b' s SL Hb H. destruct (Z.eqb_spec v 1) as [E|E]; cbn [negb].
    - apply wp_ret. destruct (A2 FC E) as [-> ->]. exists src, len, lr, lg, bg, d, liz, lwi, lp, lz, lc, lx, b, EB. rewrite (Hb E) in SL.
      split; [reflexivity|]. split; [reflexivity|]. split; [exact SL|].
      cbn [fs_nums fs_energies fs_ncap fs_open fs_iz fs_wi fs_sig fs_prof fs_dens so_d so_x so_y so_sigx so_sigy so_shx so_shy so_pol f].
      unfold descb, srcb, zlen. cbn [o_rough o_ncap o_iz o_wi o_dens o_prof]. rewrite Le, Z2Nat.id by exact Hn.
      assert (Ez : Z.of_nat (List.length zs) = nelem) by (apply Nat.ltb_ge in C8; rewrite Lz in *; lia). rewrite Ez.
      eapply hs_perm; [|exact H]. unfold buildb, dblk, srcblk, profb. cbn [app List.map]. perm.
    - destruct (A3 FC E) as [-> ->]. apply wp_bind. eapply hs_clear; [exact SL|exact H|]. clear H s SL. intros s H.
      eapply (refuse_ok F le R false [(le, [Vptr NULL])]); [|constructor|exact H|auto|discriminate]; reflexivity. }
  assert (J1 : mem s lp = Some [Vint (Z.of_nat (p_nmax a)); Vptr (Some lz); Vptr (Some lc); Vptr (Some lx)]) by (eapply hs_in; [exact H|apply in_or_app; right; unfold buildb, profb; inL]).
  apply wp_bind. eapply (wp_validate_heap lp lz lc lx (Z.of_nat (p_nmax a)) (p_z a) (p_cap a) (p_ext a) ncap v).
  - exact J1.
  - eapply hs_in; [exact H|apply in_or_app; right; unfold buildb, profb; inL].
  - eapply hs_in; [exact H|apply in_or_app; right; unfold buildb, profb; inL].
  - eapply hs_in; [exact H|apply in_or_app; right; unfold buildb, profb; inL].
  - lia.
  - lia.
  - rewrite Ec. lia.
  - rewrite Ee. lia.
  - rewrite Nat2Z.id. destruct a; exact Ev.
  - intros _. eapply Fin; [exact SL|reflexivity|exact H].
  - intros Ev1. apply wp_bind. eapply hs_report; [exact SL|exact H|]. clear H s J1. intros EB' s SL' H. apply wp_ret. rewrite <- Ev1.
    eapply (Fin EB' true); [exact SL'|lia|exact H].
Qed.

(** ** Profile *)
Variable fit : list (T * T) -> T * T * T.
Variable names_at : list token -> list Z * list Z * list Z * list token.
Variable disk : list Z -> option (list token).

Definition tail_of type x0 x1 x2 x3 x4 x5 x6 x7 ens sig zs ws dens (ts : list token) : fres T :=
  need (read_profile fit pff type ts) (fun '(prof, ts) =>
        match prof with
        | None => FDone (report None POLYCAP_ERROR_INVALID_ARGUMENT) None
        | Some prof => finish None (mkFS (mkSource x0 x1 x2 x3 x4 x5 x6 x7) ens sig (ncap_of ts) (#0)%num zs ws dens prof)
        end).

Definition is012 (type : Z) : bool := (Z.eqb type 0 || Z.eqb type 1 || Z.eqb type 2)%bool.
Lemma made_value type len re_up re_down ri_up ri_down fu fd : is012 type = true ->
  made_profile fit type len re_up re_down ri_up ri_down fu fd = profile_value fit type len re_up re_down ri_up ri_down fu fd.
Proof.
  intros E. unfold made_profile, profile_value. destruct (arg_error _ _ _ _ _ _ _); [reflexivity|].
  replace (Z.leb 0 type && Z.leb type 2) with true; [reflexivity|]. unfold is012 in E. symmetry. apply andb_true_iff.
  destruct (Z.eqb_spec type 0); [subst; auto|]. destruct (Z.eqb_spec type 1); [subst; auto|]. destruct (Z.eqb_spec type 2); [subst; auto|discriminate].
Qed.

Lemma source_profile_ok F le (R : blocks) src d lr lg bg len liz lwi x0 x1 x2 x3 x4 x5 x6 x7 n (ens : list T) sig nelem zs ws dens type ts s :
  is012 type = true ->
  List.length zs = Z.to_nat nelem -> List.length ws = List.length zs -> (0 <= n)%Z -> List.length ens = Z.to_nat n ->
  hs F ((le, [Vptr NULL]) :: srcblk src d lr [x0; x1; x2; x3; x4; x5; x6; x7] n (Some len) :: dblk d sig 0 (#0)%num nelem (Some liz) (Some lwi) dens NULL ::
        (lr, [Vptr (Some lg)]) :: (lg, bg) :: (len, List.map Vdbl ens) :: (liz, List.map Vint zs) :: (lwi, List.map Vdbl ws) :: R) s ->
  okU F le R (tail_of type x0 x1 x2 x3 x4 x5 x6 x7 ens sig zs ws dens ts) (source_profile fit names_at disk type (Some d) (Some src) (Some le) ts) s.
Proof.
  intros K Lz Lw Hn Le H. unfold tail_of, read_profile, source_profile. fold (is012 type). rewrite K.
  destruct (read_dbl_vars 7 ts) as [[[|v0 [|v1 [|v2 [|v3 [|v4 [|v5 [|v6 [|]]]]]]]] ts']|]; try (intros _; reflexivity). cbn [need].
  rewrite <- made_value by exact K. eapply okU_bind; [apply hs_profile_new; exact H|]. cbv beta. clear H s. intros p s H.
  destruct (made_profile fit type v0 v1 v2 v3 v4 v5 v6) as [a|].
  - destruct H as (lp & lz & lc & lx & -> & WS & H). unfold dblk, profb in H. cbn [app] in H. pull d H.
    eapply (okU_bind _ _ _ _ _ _ _ (fun _ s' => hs F ((le, [Vptr NULL]) :: buildb src d lr lg bg len liz lwi lp lz lc lx [x0; x1; x2; x3; x4; x5; x6; x7] n ens sig 0 (#0)%num nelem zs ws dens a ++ R) s')).
    { eapply hs_store; [exact H|cbn; lia|]; cbn [set_nth]; clear H s; intros s H. eapply hs_perm; [|exact H]. unfold buildb, dblk, profb. cbn [app]. perm. }
    clear H s. intros _ s H. cbv beta in H. eapply source_checks_ok; [exact WS|exact Lz|exact Lw|exact Hn|exact Le|exact H].
  - destruct H as (-> & EB & SL & H). cbn [report]. unfold dblk in H. pull d H. intros _.
    apply wp_bind. eapply hs_store; [exact H|cbn; lia|]. cbn [set_nth]. clear H s. intros s H.
    apply wp_bind.
    eapply (hs_source_drop F src d lr lg bg [x0; x1; x2; x3; x4; x5; x6; x7] n (Some len) sig 0%Z (#0)%num nelem (Some liz) (Some lwi) dens NULL
      [(len, List.map Vdbl ens)] [(liz, List.map Vint zs)] [(lwi, List.map Vdbl ws)] [] (EB ++ R)); [reflexivity|constructor|constructor|constructor|constructor| |].
    + eapply hs_perm; [|exact H]. unfold dblk. cbn [app]. perm.
    + clear H s. intros s H. apply wp_ret. eapply refused_slot; [exact SL|exact H|lia].
Qed.

(** ** Tables *)
Lemma bind_ok {A B} (m : M T A) (k : A -> M T B) s a s' : m s = Ok (a, s') -> bind m k s = k a s'.
Proof. intros E. unfold bind, Mem.bind. rewrite E. reflexivity. Qed.
Lemma bind_bind {A B C} (m : M T A) (k : A -> M T B) (k' : B -> M T C) s : bind (bind m k) k' s = bind m (fun a => bind (k a) k') s.
Proof. unfold bind, Mem.bind. destruct (m s) as [[a s']|]; reflexivity. Qed.
Lemma scan_elems_ok F liz lwi : forall n i zs ws (R : blocks) ts s,
  List.length zs = i -> List.length ws = i ->
  hs F ((liz, List.map Vint zs ++ repeat Vundef n) :: (lwi, List.map Vdbl ws ++ repeat Vundef n) :: R) s ->
  match read_elems n ts with
  | None => scan_elems n i (Some liz) (Some lwi) ts s = UB
  | Some (zs', ws', ts') => wp (scan_elems n i (Some liz) (Some lwi) ts) (fun r s' => r = ts' /\ List.length zs' = n /\ List.length ws' = n /\
      hs F ((liz, List.map Vint (zs ++ zs')) :: (lwi, List.map Vdbl (ws ++ ws')) :: R) s') s
  end.
Proof.
  induction n as [|n IH]; intros i zs ws R ts s Lz Lw H; cbn [read_elems scan_elems].
  - apply wp_ret. cbn [repeat] in H. rewrite !app_nil_r in *. auto.
  - assert (Li : forall (b : @block T) v, List.length b = i -> set_nth (b ++ repeat Vundef (S n)) i v = (b ++ [v]) ++ repeat Vundef n).
    { intros b v <-. cbn [repeat]. rewrite set_nth_app. now rewrite <- app_assoc. }
    assert (Hi : forall b : @block T, List.length b = i -> i < List.length (b ++ repeat Vundef (S n))) by (intros b <-; rewrite app_length, repeat_length; lia).
    assert (Nu : forall b : @block T, List.length b = i -> nth_error (b ++ repeat Vundef (S n)) i = Some Vundef) by (intros b <-; rewrite nth_error_app2, Nat.sub_diag by lia; reflexivity).
    assert (UBw : forall s L, hs F L s -> In (lwi, List.map Vdbl ws ++ repeat Vundef (S n)) L -> forall (k : T -> M T (list token)), bind (load_dbl (Some lwi) i) k s = UB).
    { intros s0 L H0 I0 k. unfold bind, load_dbl, load, Mem.bind. cbv beta iota. rewrite (hs_in _ _ _ _ _ H0 I0). cbv beta iota. rewrite (Nu (List.map Vdbl ws)) by (now rewrite map_length). reflexivity. }
    unfold fscan, scan2, scan1. destruct ts as [|t1 r1].
    { cbn [fscan_from fst snd Z.eqb]. rewrite (bind_ok _ _ _ _ _ eq_refl). eapply UBw; [exact H|right; left; reflexivity]. }
    cbn [fscan_from]. destruct (as_int t1) as [z|]; cbn [Z.eqb].
    2:{ rewrite (bind_ok _ _ _ _ _ eq_refl). eapply UBw; [exact H|right; left; reflexivity]. }
    assert (S1 : wp (store (Some liz) i (Vint z)) (fun _ s' => hs F ((liz, List.map Vint (zs ++ [z]) ++ repeat Vundef n) :: (lwi, List.map Vdbl ws ++ repeat Vundef (S n)) :: R) s') s).
    { eapply hs_store; [exact H|apply Hi; now rewrite map_length|]. intros s' H'. rewrite Li in H' by (now rewrite map_length). rewrite map_app. exact H'. }
    unfold wp in S1. destruct (store (Some liz) i (Vint z) s) as [[[] s1]|] eqn:E1; [|contradiction].
    destruct r1 as [|t2 r2]; [|destruct (as_dbl t2) as [w|]]; cbn [Z.eqb].
    1, 3: rewrite bind_bind, (bind_ok _ _ _ _ _ E1), (bind_ok _ _ _ _ _ eq_refl); eapply UBw; [exact S1|right; left; reflexivity].
    assert (H1 := S1). pull lwi H1.
    assert (S2 : wp (bind (store (Some lwi) i (Vdbl w)) (fun _ => bind (load_dbl (Some lwi) i) (fun w => store (Some lwi) i (Vdbl (w / #100)%num))))
      (fun _ s' => hs F ((liz, List.map Vint (zs ++ [z]) ++ repeat Vundef n) :: (lwi, List.map Vdbl (ws ++ [(w / #100)%num]) ++ repeat Vundef n) :: R) s') s1).
    { apply wp_bind. eapply hs_store; [exact H1|apply Hi; now rewrite map_length|]. intros s2 H2. rewrite Li in H2 by (now rewrite map_length).
      apply wp_bind. eapply hs_load_dbl; [exact H2|left; reflexivity| |].
      { rewrite <- app_assoc, nth_error_app2 by (rewrite map_length; lia). rewrite map_length, Lw, Nat.sub_diag. reflexivity. }
      eapply hs_store; [exact H2|rewrite !app_length, map_length; cbn; lia|]. intros s3 H3.
      rewrite <- app_assoc in H3. cbn [app] in H3. rewrite <- Lw in H3. rewrite <- (map_length Vdbl ws) in H3. rewrite set_nth_app in H3.
      eapply hs_perm; [|exact H3]. rewrite (map_app Vdbl). cbn [List.map]. rewrite <- !app_assoc. cbn [app]. perm. }
    assert (E2 : bind (bind (store (Some liz) i (Vint z)) (fun _ => bind (store (Some lwi) i (Vdbl w)) (fun _ => fscan_from (0 + 1 + 1) [] r2)))
                  (fun r => bind (load_dbl (Some lwi) i) (fun w0 => bind (store (Some lwi) i (Vdbl (w0 / #100)%num)) (fun _ => scan_elems n (S i) (Some liz) (Some lwi) (snd r)))) s =
                 bind (bind (store (Some lwi) i (Vdbl w)) (fun _ => bind (load_dbl (Some lwi) i) (fun w => store (Some lwi) i (Vdbl (w / #100)%num))))
                      (fun _ => scan_elems n (S i) (Some liz) (Some lwi) r2) s1).
    { rewrite bind_bind, (bind_ok _ _ _ _ _ E1). unfold bind, fscan_from, ret. destruct (store (Some lwi) i (Vdbl w) s1) as [[[] s2]|]; [|reflexivity].
      cbn [snd]. destruct (load_dbl (Some lwi) i s2) as [[x s3]|]; [|reflexivity]. destruct (store (Some lwi) i (Vdbl (x / #100)%num) s3) as [[[] s4]|]; reflexivity. }
    unfold wp in S2 |- *. cbn [fscan_from] in E2. rewrite E2.
    cbn beta in S2. set (m2 := bind (store _ _ _) _) in *. 
    destruct (m2 s1) as [[[] s2]|] eqn:Em; [|contradiction]. rewrite !(bind_ok _ _ _ _ _ Em).
    specialize (IH (S i) (zs ++ [z]) (ws ++ [(w / #100)%num]) R r2 s2 ltac:(rewrite app_length; cbn; lia) ltac:(rewrite app_length; cbn; lia) S2).
    cbn [Z.eqb Pos.eqb].
    destruct (read_elems n r2) as [[[zs' ws'] ts']|]; [|exact IH]. unfold wp in IH. destruct (scan_elems n (S i) (Some liz) (Some lwi) r2 s2) as [[x s3]|]; [|contradiction].
    destruct IH as (-> & L1 & L2 & H3). cbn [List.length]. rewrite L1, L2. rewrite <- !app_assoc in H3. cbn [app] in H3. auto.
Qed.

Lemma hs_fill_energies F len (g : nat -> T) : forall n i (xs : list T) (R : blocks) (Q : unit -> st T -> Prop) s, List.length xs = i ->
  hs F ((len, List.map Vdbl xs ++ repeat Vundef n) :: R) s ->
  (forall s', hs F ((len, List.map Vdbl (xs ++ List.map g (seq i n))) :: R) s' -> Q tt s') ->
  wp (for_n n i (fun i => store (Some len) i (Vdbl (g i)))) Q s.
Proof.
  induction n as [|n IH]; intros i xs R Q s L H HQ; cbn [for_n].
  - apply wp_ret. apply HQ. cbn [repeat seq List.map] in *. rewrite app_nil_r in *. exact H.
  - apply wp_bind. eapply hs_store; [exact H|rewrite app_length, map_length, repeat_length; lia|]. clear H s. intros s H.
    cbn [repeat] in H. subst i. rewrite <- (map_length Vdbl xs) in H at 1. rewrite set_nth_app in H.
    eapply (IH _ (xs ++ [g (List.length xs)])).
    + rewrite app_length. cbn. lia.
    + rewrite map_app, <- app_assoc. cbn [List.map app]. exact H.
    + intros s' H'. apply HQ. rewrite <- app_assoc in H'. exact H'.
Qed.

(** What a file that names the files of its profile gives. *)
Variable named_tail : Z -> T -> T -> T -> T -> T -> T -> T -> T -> list T -> T -> list Z -> list T -> T -> list token -> fres T.
Hypothesis names_ok : forall F le (R : blocks) src d lr lg bg len liz lwi x0 x1 x2 x3 x4 x5 x6 x7 n (ens : list T) sig nelem zs ws dens type ts s,
  is012 type = false ->
  List.length zs = Z.to_nat nelem -> List.length ws = List.length zs -> (0 <= n)%Z -> List.length ens = Z.to_nat n ->
  hs F ((le, [Vptr NULL]) :: srcblk src d lr [x0; x1; x2; x3; x4; x5; x6; x7] n (Some len) :: dblk d sig 0 (#0)%num nelem (Some liz) (Some lwi) dens NULL ::
        (lr, [Vptr (Some lg)]) :: (lg, bg) :: (len, List.map Vdbl ens) :: (liz, List.map Vint zs) :: (lwi, List.map Vdbl ws) :: R) s ->
  okU F le R (named_tail type x0 x1 x2 x3 x4 x5 x6 x7 ens sig zs ws dens ts) (source_profile fit names_at disk type (Some d) (Some src) (Some le) ts) s.

Definition tables_of x0 x1 x2 x3 x4 x5 x6 x7 sig nelem (ts : list token) : fres T :=
  need (read_elems (Z.to_nat nelem) ts) (fun '(zs, ws, ts) =>
  let '(_, dens, ts) := scan1 as_dbl (Some (#0)%num) ts in
  need (read_dbl_vars 3 ts) (fun '(es, ts) =>
  match es with
  | [e_start; e_final; delta_e] =>
      need (ntoZ ((e_final - e_start) / delta_e + #1)%num) (fun n =>
      if Z.ltb n 0 then FUB
      else
        let ens := file_energies e_start delta_e (Z.to_nat n) in
        let '(_, _, ts) := scan1 as_int None ts in
        let '(_, type, ts) := scan1 as_int None ts in
        need type (fun type => need dens (fun dens =>
          if is012 type then tail_of type x0 x1 x2 x3 x4 x5 x6 x7 ens sig zs ws dens ts else named_tail type x0 x1 x2 x3 x4 x5 x6 x7 ens sig zs ws dens ts)))
  | _ => FUB
  end)).

Lemma okU_ub F le (R : blocks) (m : M T (ptr * nat)) s : m s = UB -> okU F le R FUB m s.
Proof. intros E _. exact E. Qed.

Lemma source_tables_ok F le (R : blocks) src d lr lg bg x0 x1 x2 x3 x4 x5 x6 x7 sig nelem ts s :
  hs F ((le, [Vptr NULL]) :: srcblk src d lr [x0; x1; x2; x3; x4; x5; x6; x7] 0 NULL :: dblk d sig 0 (#0)%num nelem NULL NULL (#0)%num NULL ::
        (lr, [Vptr (Some lg)]) :: (lg, bg) :: R) s ->
  okU F le R (tables_of x0 x1 x2 x3 x4 x5 x6 x7 sig nelem ts) (source_tables fit names_at disk (Some d) (Some src) (Some le) ts) s.
Proof.
  intros H. unfold source_tables, tables_of, srcblk, dblk in *. cbn [List.map app] in H.
  eapply (okU_bind _ _ _ _ _ _ s (fun x s' => x = nelem /\ s' = s)).
  { pull d H. eapply hs_load_int; [exact H|left; reflexivity|reflexivity|auto]. }
  intros x s' [-> ->].
  eapply (okU_bind _ _ _ _ _ _ s (fun x s' => exists l, x = Some l /\ _)); [eapply hs_malloc; [exact H|]; intros l s' H'; exists l; split; [reflexivity|exact H']|].
  cbv beta. clear H s. intros x s (liz & -> & H). pull d H.
  eapply (okU_bind _ _ _ _ _ _ s (fun _ s' => _)); [eapply hs_store; [exact H|cbn; lia|]; cbn [set_nth]; intros s' H'; exact H'|].
  cbv beta. clear H s. intros _ s H.
  eapply (okU_bind _ _ _ _ _ _ s (fun x s' => exists l, x = Some l /\ _)); [eapply hs_malloc; [exact H|]; intros l s' H'; exists l; split; [reflexivity|exact H']|].
  cbv beta. clear H s. intros x s (lwi & -> & H). pull d H.
  eapply (okU_bind _ _ _ _ _ _ s (fun _ s' => _)); [eapply hs_store; [exact H|cbn; lia|]; cbn [set_nth]; intros s' H'; exact H'|].
  cbv beta. clear H s. intros _ s H. pull lwi H. pull liz H.
  pose proof (scan_elems_ok F liz lwi (Z.to_nat nelem) 0 [] [] _ ts s eq_refl eq_refl H) as SE. clear H.
  destruct (read_elems (Z.to_nat nelem) ts) as [[[zs ws] ts1]|]; cbn [need].
  2:{ apply okU_ub. unfold bind, Mem.bind. rewrite SE. reflexivity. }
  eapply okU_bind; [exact SE|]. clear SE s. cbv beta. intros x s (-> & Lz & Lw & H). cbn [app] in H.
  unfold fscan. cbn [fscan_from].
  set (dv := match ts1 with [] => ((-1)%Z, (#0)%num, []) | t :: r => match as_dbl t with Some v => (1%Z, v, r) | None => (0%Z, (#0)%num, ts1) end end : Z * T * list token).
  replace (scan1 as_dbl (Some (#0)%num) ts1) with (fst (fst dv), Some (snd (fst dv)), snd dv)
    by (unfold dv, scan1; destruct ts1 as [|t r]; [reflexivity|]; destruct (as_dbl t); reflexivity).
  pull d H.
  eapply (okU_bind _ _ _ _ _ _ s (fun x s' => snd x = snd dv /\ hs F ((le, [Vptr NULL]) :: srcblk src d lr [x0; x1; x2; x3; x4; x5; x6; x7] 0 NULL ::
     dblk d sig 0 (#0)%num nelem (Some liz) (Some lwi) (snd (fst dv)) NULL :: (lr, [Vptr (Some lg)]) :: (lg, bg) :: (liz, List.map Vint zs) :: (lwi, List.map Vdbl ws) :: R) s')).
  { unfold dv, srcblk, dblk. cbn [List.map app]. destruct ts1 as [|t r]; [apply wp_ret; split; [reflexivity|]; eapply hs_perm; [|exact H]; cbn [snd fst]; perm|].
    destruct (as_dbl t) as [v|]; [|apply wp_ret; split; [reflexivity|]; eapply hs_perm; [|exact H]; cbn [snd fst]; perm].
    apply wp_bind. eapply hs_store; [exact H|cbn; lia|]. cbn [set_nth]. intros s' H'. apply wp_ret. split; [reflexivity|].
    eapply hs_perm; [|exact H']. cbn [snd fst]. perm. }
  clear H s. intros x s [-> H]. generalize (fst (fst dv)) (snd (fst dv)) (snd dv) H. clear ts1 dv H x. intros n1 dens ts1 H.
  destruct (read_dbl_vars 3 ts1) as [[[|v0 [|v1 [|v2 [|]]]] ts2]|]; cbn [need]; try (apply okU_ub; reflexivity).
  destruct (ntoZ ((v1 - v0) / v2 + #1)%num) as [n|]; cbn [need]; [|apply okU_ub; reflexivity].
  destruct (Z.ltb_spec n 0) as [Hn|Hn]; [apply okU_ub; reflexivity|].
  unfold srcblk in H. cbn [List.map app] in H. pull src H.
  eapply (okU_bind _ _ _ _ _ _ s (fun _ s' => _)); [eapply hs_store; [exact H|cbn; lia|]; cbn [set_nth]; intros s' H'; exact H'|].
  cbv beta. clear H s. intros _ s H.
  eapply (okU_bind _ _ _ _ _ _ s (fun x s' => exists l, x = Some l /\ _)); [eapply hs_malloc; [exact H|]; intros l s' H'; exists l; split; [reflexivity|exact H']|].
  cbv beta. clear H s. intros x s (len & -> & H). pull src H.
  eapply (okU_bind _ _ _ _ _ _ s (fun _ s' => _)); [eapply hs_store; [exact H|cbn; lia|]; cbn [set_nth]; intros s' H'; exact H'|].
  cbv beta. clear H s. intros _ s H. pull len H.
  eapply (okU_bind _ _ _ _ _ _ s (fun _ s' => _)); [eapply (hs_fill_energies F len (fun i => (v0 + nofZ (Z.of_nat i) * v2)%num) (Z.to_nat n) 0 []); [reflexivity|exact H|]; intros s' H'; exact H'|].
  cbv beta. clear H s. intros _ s H. cbn [app] in H. change (List.map (fun i : nat => (v0 + nofZ (Z.of_nat i) * v2)%num) (seq 0 (Z.to_nat n))) with (file_energies v0 v2 (Z.to_nat n)) in H.
  destruct (scan1 as_int None ts2) as [[? ?] ts3]. destruct (scan1 as_int None ts3) as [[? [type|]] ts4]; cbn [need]; [|apply okU_ub; reflexivity].
  assert (H' : hs F ((le, [Vptr NULL]) :: srcblk src d lr [x0; x1; x2; x3; x4; x5; x6; x7] n (Some len) :: dblk d sig 0 (#0)%num nelem (Some liz) (Some lwi) dens NULL ::
        (lr, [Vptr (Some lg)]) :: (lg, bg) :: (len, List.map Vdbl (file_energies v0 v2 (Z.to_nat n))) :: (liz, List.map Vint zs) :: (lwi, List.map Vdbl ws) :: R) s).
  { eapply hs_perm; [|exact H]. unfold srcblk, dblk. cbn [List.map app]. perm. }
  assert (Lf : List.length (file_energies v0 v2 (Z.to_nat n)) = Z.to_nat n) by (unfold file_energies; rewrite map_length, seq_length; reflexivity).
  destruct (is012 type) eqn:K.
  - apply (source_profile_ok F le R src d lr lg bg len liz lwi x0 x1 x2 x3 x4 x5 x6 x7 n (file_energies v0 v2 (Z.to_nat n)) sig nelem zs ws dens type ts4 s K Lz ltac:(congruence) Hn Lf H').
  - apply (names_ok F le R src d lr lg bg len liz lwi x0 x1 x2 x3 x4 x5 x6 x7 n (file_energies v0 v2 (Z.to_nat n)) sig nelem zs ws dens type ts4 s K Lz ltac:(congruence) Hn Lf H').
Qed.

(** ** From the start *)
Definition headb src d lr lg (bg : @block T) xs sig nelem : blocks :=
  srcblk src d lr xs 0 NULL :: dblk d sig 0 (#0)%num nelem NULL NULL (#0)%num NULL :: (lr, [Vptr (Some lg)]) :: (lg, bg) :: [].
Lemma give_up_ok F le (R : blocks) src d lr lg bg xs sig nelem n msg s : List.length xs = 8 -> n = 1 ->
  hs F ((le, [Vptr NULL]) :: headb src d lr lg bg xs sig nelem ++ R) s ->
  okU F le R (FDone (Some POLYCAP_ERROR_IO) None)
     (bind (set_error (Some le) POLYCAP_ERROR_IO (Some msg)) (fun _ => bind (source_free (Some src)) (fun _ => ret (NULL, n)))) s.
Proof.
  intros L8 Hn H _. apply wp_bind. change (set_error (Some le) POLYCAP_ERROR_IO (Some msg)) with (report_fn false (Some le) POLYCAP_ERROR_IO msg : M T unit).
  eapply hs_first_report; [exact H|]. clear H s. intros o t s H. apply wp_bind.
  eapply (hs_source_drop F src d lr lg bg xs 0%Z NULL sig 0%Z (#0)%num nelem NULL NULL (#0)%num NULL [] [] [] []
     ((le, [Vptr (Some o)]) :: (o, [Vint POLYCAP_ERROR_IO; Vptr (Some t)]) :: (t, [Vstr msg]) :: R)); [exact L8|constructor|constructor|constructor|constructor| |].
  - eapply hs_perm; [|exact H]. unfold headb. cbn [app]. perm.
  - clear H s. intros s H. apply wp_ret. exists o, t, msg. cbn [fst snd]. subst n. auto.
Qed.

Lemma tail_same type x0 x1 x2 x3 x4 x5 x6 x7 ens sig zs ws dens ts :
  need (read_profile fit pff type ts) (fun '(prof, ts) =>
        match prof with
        | None => FDone (report None POLYCAP_ERROR_INVALID_ARGUMENT) None
        | Some prof =>
            let '(_, n_cap, ts) := scan1 as_int (Some 0%Z) ts in
            need n_cap (fun n_cap => finish None (mkFS (mkSource x0 x1 x2 x3 x4 x5 x6 x7) ens sig n_cap (#0)%num zs ws dens prof))
        end) = tail_of type x0 x1 x2 x3 x4 x5 x6 x7 ens sig zs ws dens ts.
Proof.
  unfold tail_of. destruct (read_profile fit pff type ts) as [[[a|] ts']|]; cbn [need]; try reflexivity.
  unfold scan1, ncap_of. destruct ts' as [|t r]; [reflexivity|]. destruct (as_int t); reflexivity.
Qed.

Definition reading (ts : list token) : fres T :=
  read1 as_dbl (Some (#0)%num) None ts (fun sig ts =>
  read1 as_dbl (Some (#0)%num) None ts (fun d ts =>
  read2 (Some (#0)%num) (Some (#0)%num) None ts (fun x y ts =>
  read2 (Some (#0)%num) (Some (#0)%num) None ts (fun sx sy ts =>
  read2 (Some (#0)%num) (Some (#0)%num) None ts (fun hx hy ts =>
  read1 as_dbl (Some (#0)%num) None ts (fun pol ts =>
  read1 as_int (Some 0%Z) None ts (fun nelem ts =>
  need nelem (fun nelem => need sig (fun sig => need d (fun d => need x (fun x => need y (fun y => need sx (fun sx => need sy (fun sy =>
  need hx (fun hx => need hy (fun hy => need pol (fun pol => tables_of d x y sx sy hx hy pol sig nelem ts))))))))))))))))).
Lemma read1_ext {A} (get : token -> option A) o ts (k k' : option A -> list token -> fres T) :
  (forall v ts, k (Some v) ts = k' (Some v) ts) -> read1 get (Some o) None ts k = read1 get (Some o) None ts k'.
Proof. intros E. unfold read1, scan1. destruct ts as [|t r]; [apply E|]. destruct (get t); [apply E|reflexivity]. Qed.
Lemma read2_ext o o' ts (k k' : option T -> option T -> list token -> fres T) :
  (forall v w ts, k (Some v) (Some w) ts = k' (Some v) (Some w) ts) -> read2 (Some o) (Some o') None ts k = read2 (Some o) (Some o') None ts k'.
Proof.
  intros E. unfold read2, scan2, scan1. destruct ts as [|t r]; [apply E|]. destruct (as_dbl t); [|reflexivity]. cbn [Z.eqb Pos.eqb].
  destruct r as [|t2 r2]; [apply E|]. destruct (as_dbl t2); apply E.
Qed.
Lemma reading_source ts :
  (forall type x0 x1 x2 x3 x4 x5 x6 x7 ens sig zs ws dens ts, is012 type = false ->
     named_tail type x0 x1 x2 x3 x4 x5 x6 x7 ens sig zs ws dens ts = tail_of type x0 x1 x2 x3 x4 x5 x6 x7 ens sig zs ws dens ts) ->
  reading ts = source_from_file fit pff None ts.
Proof.
  intros NT. unfold reading, source_from_file.
  apply read1_ext. clear ts. intros sig ts. apply read1_ext. clear ts. intros x0 ts. apply read2_ext. clear ts. intros x1 x2 ts.
  apply read2_ext. clear ts. intros x3 x4 ts. apply read2_ext. clear ts. intros x5 x6 ts. apply read1_ext. clear ts. intros x7 ts.
  apply read1_ext. clear ts. intros nelem ts. cbn [need].
  unfold tables_of. destruct (read_elems (Z.to_nat nelem) ts) as [[[zs ws] ts1]|]; cbn [need]; [|reflexivity].
  unfold scan1 at 1 4. destruct ts1 as [|t r]; [|destruct (as_dbl t)];
  (destruct (read_dbl_vars 3 _) as [[[|v0 [|v1 [|v2 [|]]]] ts2]|]; cbn [need]; try reflexivity;
   destruct (ntoZ ((v1 - v0) / v2 + #1)%num) as [n|]; cbn [need]; [|reflexivity];
   destruct (n <? 0)%Z; [reflexivity|]; destruct (scan1 as_int None ts2) as [[? ?] ts3]; destruct (scan1 as_int None ts3) as [[? [type|]] ts4]; cbn [need]; [|reflexivity];
   destruct (is012 type) eqn:K; [|rewrite NT by exact K]; symmetry; apply tail_same).
Qed.

Lemma source_file_ok F le (R : blocks) ts s :
  hs F ((le, [Vptr NULL]) :: R) s ->
  okU F le R (reading ts) (source_new_from_file fit names_at disk (Some (Some ts)) (Some le)) s.
Proof.
  intros H. unfold source_new_from_file.
  eapply (okU_bind _ _ _ _ _ _ s (fun x s' => exists l, x = Some l /\ _)); [eapply hs_alloc; [exact H|]; intros l s' H'; exists l; split; [reflexivity|exact H']|].
  cbv beta. clear H s. intros x s (d & -> & H).
  eapply (okU_bind _ _ _ _ _ _ s (fun x s' => exists l, x = Some l /\ _)); [eapply hs_alloc; [exact H|]; intros l s' H'; exists l; split; [reflexivity|exact H']|].
  cbv beta. clear H s. intros x s (src & -> & H). unfold src_zero, desc_zero in H. cbn [repeat app] in H.
  eapply (okU_bind _ _ _ _ _ _ s (fun _ s' => _)); [eapply hs_store; [exact H|cbn; lia|]; cbn [set_nth]; intros s' H'; exact H'|].
  cbv beta. clear H s. intros _ s H.
  eapply (okU_bind _ _ _ _ _ _ s (fun x s' => exists lr lg bg, x = Some lr /\ hs F ((src, _) :: (lr, [Vptr (Some lg)]) :: (lg, bg) :: _) s')).
  { unfold rng_new. apply wp_bind. eapply hs_alloc; [exact H|]. clear H s. intros lr s H. apply wp_bind. eapply hs_malloc; [exact H|]. clear H s. intros lg s H.
    pull lr H. apply wp_bind. eapply hs_store; [exact H|cbn; lia|]. cbn [set_nth]. clear H s. intros s H.
    pull lg H. apply wp_bind. eapply hs_store; [exact H|cbn; lia|]. cbn [set_nth]. clear H s. intros s H. apply wp_ret. pull lr H. pull src H.
    exists lr, lg. eexists. split; [reflexivity|]. exact H. }
  cbv beta. clear H s. intros x s (lr & lg & bg & -> & H).
  eapply (okU_bind _ _ _ _ _ _ s (fun _ s' => _)); [eapply hs_store; [exact H|cbn; lia|]; cbn [set_nth]; intros s' H'; exact H'|].
  cbv beta. clear H s. intros _ s H.
  assert (H' : hs F ((le, [Vptr NULL]) :: headb src d lr lg bg [(#0); (#0); (#0); (#0); (#0); (#0); (#0); (#0)]%num (#0)%num 0 ++ R) s).
  { eapply hs_perm; [|exact H]. unfold headb, srcblk, dblk. cbn [List.map app]. perm. }
  clear H. rename H' into H. unfold reading.
  Local Ltac putrule d := let H := fresh in let HQ := fresh in intros H HQ; unfold headb, srcblk, dblk in H; cbn [List.map app] in H; pull d H;
    eapply hs_store; [exact H|cbn; lia|]; clear H; let s := fresh in intros s H; apply HQ; eapply hs_perm; [|exact H]; unfold headb, srcblk, dblk; cbn [List.map app set_nth]; perm.
  set (B := headb src d lr lg bg) in *.
  apply (read1_ok F le R as_dbl (fun v s => hs F ((le, [Vptr NULL]) :: B [(#0); (#0); (#0); (#0); (#0); (#0); (#0); (#0)]%num v 0%Z ++ R) s) _ (fun v => store (Some d) 0 (Vdbl v)));
    [reflexivity|intros v v' s0 Q; unfold B; putrule d|intros v s0 H0; eapply give_up_ok; [|lia|exact H0]; reflexivity| |exact H].
  clear H s ts. intros sig ts s H.
  apply (read1_ok F le R as_dbl (fun v s => hs F ((le, [Vptr NULL]) :: B [v; (#0); (#0); (#0); (#0); (#0); (#0); (#0)]%num sig 0%Z ++ R) s) _ (fun v => store (Some src) 2 (Vdbl v)));
    [reflexivity|intros v v' s0 Q; unfold B; putrule src|intros v s0 H0; eapply give_up_ok; [|lia|exact H0]; reflexivity| |exact H].
  clear H s ts. intros x0 ts s H.
  apply (read2_ok F le R (fun v w s => hs F ((le, [Vptr NULL]) :: B [x0; v; w; (#0); (#0); (#0); (#0); (#0)]%num sig 0%Z ++ R) s));
    [intros v w v' s0 Q; unfold B; putrule src|intros v w v' s0 Q; unfold B; putrule src|intros v w s0 H0; eapply give_up_ok; [|lia|exact H0]; reflexivity| |exact H].
  clear H s ts. intros x1 x2 ts s H.
  apply (read2_ok F le R (fun v w s => hs F ((le, [Vptr NULL]) :: B [x0; x1; x2; v; w; (#0); (#0); (#0)]%num sig 0%Z ++ R) s));
    [intros v w v' s0 Q; unfold B; putrule src|intros v w v' s0 Q; unfold B; putrule src|intros v w s0 H0; eapply give_up_ok; [|lia|exact H0]; reflexivity| |exact H].
  clear H s ts. intros x3 x4 ts s H.
  apply (read2_ok F le R (fun v w s => hs F ((le, [Vptr NULL]) :: B [x0; x1; x2; x3; x4; v; w; (#0)]%num sig 0%Z ++ R) s));
    [intros v w v' s0 Q; unfold B; putrule src|intros v w v' s0 Q; unfold B; putrule src|intros v w s0 H0; eapply give_up_ok; [|lia|exact H0]; reflexivity| |exact H].
  clear H s ts. intros x5 x6 ts s H.
  apply (read1_ok F le R as_dbl (fun v s => hs F ((le, [Vptr NULL]) :: B [x0; x1; x2; x3; x4; x5; x6; v]%num sig 0%Z ++ R) s) _ (fun v => store (Some src) 9 (Vdbl v)));
    [reflexivity|intros v v' s0 Q; unfold B; putrule src|intros v s0 H0; eapply give_up_ok; [|lia|exact H0]; reflexivity| |exact H].
  clear H s ts. intros x7 ts s H.
  apply (read1_ok F le R as_int (fun v s => hs F ((le, [Vptr NULL]) :: B [x0; x1; x2; x3; x4; x5; x6; x7]%num sig v ++ R) s) _ (fun v => store (Some d) 3 (Vint v)));
    [reflexivity|intros v v' s0 Q; unfold B; putrule d|intros v s0 H0; eapply give_up_ok; [|lia|exact H0]; reflexivity| |exact H].
  clear H s ts. intros nelem ts s H. cbn [need].
  apply (source_tables_ok F le R src d lr lg bg). exact H.
Qed.
End Proofs.

(** Files whose profile is given by its shape: the profile read from other files is chosen so
    that it does not matter. *)
Section Shapes.
Context {T : Type} {N : Num T}.
Local Notation blocks := (list (loc * @block T)).
Local Notation token := (token T).
Variable md : bool.
Variable fit : list (T * T) -> T * T * T.
Variable names_at : list token -> list Z * list Z * list Z * list token.
Variable disk : list Z -> option (list token).
Definition no_files : list token -> option (profile T) * list token := fun _ => (if md then Some (mkProfile 0 [] [] []) else None, []).
Lemma source_profile_any F le (R : blocks) x0 x1 x2 x3 x4 x5 x6 x7 (ens : list T) sig zs ws dens type ts m s :
  is012 type = false -> okU (fun _ _ _ _ _ => False) md F le R (tail_of no_files fit type x0 x1 x2 x3 x4 x5 x6 x7 ens sig zs ws dens ts) m s.
Proof.
  intros K. unfold tail_of, read_profile. fold (is012 type). rewrite K. unfold no_files, okU. destruct md; cbn [need]; [unfold finish; cbn [fs_prof p_cap]|]; discriminate.
Qed.
Lemma source_new_from_file_ok F le (R : blocks) ts s :
  hs F ((le, [Vptr NULL]) :: R) s ->
  okU (fun _ _ _ _ _ => False) md F le R (source_from_file fit no_files None ts) (source_new_from_file fit names_at disk (Some (Some ts)) (Some le)) s.
Proof.
  intros H. rewrite <- (reading_source no_files fit (tail_of no_files fit) ts) by reflexivity.
  apply source_file_ok; [|exact H]. intros. apply source_profile_any. assumption.
Qed.
End Shapes.
