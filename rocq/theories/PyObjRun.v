(** * Whole programs of constructors and deletions *)
From Coq Require Import ZArith List Bool Lia String Permutation.
From Verif Require Import Num Mem SpecHeap HeapLib ErrorModel ErrorProofs ProfileModel ProfileProofs Geometry ConsModel CapilModel DescProofs SrcProofs SepLib
  FlightRep FlightHeap FlightHeap2 FlightLaunch FlightLaunch2 PyModel PyResProofs PyResInv PyPhProofs SpecPyObj PyObjects PyObjHeap PyObjKeep PyObjCons PyObjProofs SpecFlight.
Import ListNotations.
Local Notation ret := Mem.ret.
Local Notation bind := Mem.bind.
Local Notation concat := (@List.concat _).

Section Run.
Context {T : Type} {N : Num T}.
Local Notation blocks := (list (loc * @block T)).
Implicit Types (s : st T) (F : loc -> option (@block T)).
Variable fit : list (T * T) -> T * T * T.
Variable x : tables T.
Hypothesis Law : forall y : T, neqb y (#1)%num = true -> nltb (#1)%num y = false.

Inductive rep : option pyobj -> option (thing T) -> blocks -> Prop :=
| rep_none : rep None None []
| rep_prof p lz lc le a : well_sized a -> rep (Some (PProfile (Some p))) (Some (AProfile a)) (profb p lz lc le a)
| rep_desc d liz lwi lp lz lc le open o : good_optic o -> rep (Some (PDescription (Some d))) (Some (ADescription o)) (descb d liz lwi lp lz lc le open o)
| rep_src p len lr lg d nums ens bg liz lwi lp lz lc le open o : List.length nums = 8 -> sized o ->
    rep (Some (PSource (Some p))) (Some (ASource o nums ens)) (srcb p len lr lg d nums ens bg ++ descb d liz lwi lp lz lc le open o).
Fixpoint reps (os : list (option pyobj)) (ts : list (option (thing T))) (Bs : list blocks) : Prop :=
  match os, ts, Bs with
  | [], [], [] => True
  | o :: os, t :: ts, B :: Bs => rep o t B /\ reps os ts Bs
  | _, _, _ => False
  end.

Lemma reps_nth : forall i os ts Bs, reps os ts Bs ->
  match nth_error os i with
  | Some o => exists t B, nth_error ts i = Some t /\ rep o t B /\ Permutation (concat Bs) (B ++ concat (set_nth Bs i [])) /\ reps (set_nth os i None) (set_nth ts i None) (set_nth Bs i [])
  | None => nth_error ts i = None /\ reps (set_nth os i None) (set_nth ts i None) Bs
  end.
Proof.
  induction i as [|i IH]; intros [|o os] [|t ts] [|B Bs] R; try contradiction; cbn [nth_error set_nth]; try (split; [reflexivity|exact I]).
  - destruct R as [R1 R2]. exists t, B. cbn [concat app reps]. repeat split; auto. constructor.
  - destruct R as [R1 R2]. specialize (IH os ts Bs R2). destruct (nth_error os i) as [o'|].
    + destruct IH as (t' & B' & E & R' & P & R3). exists t', B'. repeat split; auto. cbn [concat]. rewrite P. rewrite !app_assoc. apply Permutation_app_tail, Permutation_app_comm.
    + destruct IH as [E R3]. cbn [reps]. auto.
Qed.
Lemma reps_snoc : forall os ts Bs o t B, reps os ts Bs -> rep o t B -> reps (os ++ [o]) (ts ++ [t]) (Bs ++ [B]).
Proof. induction os as [|o' os IH]; intros [|t' ts] [|B' Bs] o t B R R'; try contradiction; cbn [app reps] in *; [auto|]. destruct R. auto. Qed.
Lemma concat_snoc (Bs : list blocks) B : Permutation (concat (Bs ++ [B])) (B ++ concat Bs).
Proof. rewrite concat_app. cbn [concat]. rewrite app_nil_r. apply Permutation_app_comm. Qed.

Definition next (ts : list (option (thing T))) (o : order T) (t : option (thing T)) :=
  match o with Delete i => set_nth ts i None | _ => ts ++ [t] end.
Definition after F e (ts' : list (option (thing T))) (n : nat) (Lost : blocks) (os' : list (option pyobj)) s' : Prop :=
  exists Bs' new v', List.length new = n /\ reps os' ts' Bs' /\ hs F ((e, [v']) :: concat Bs' ++ new ++ Lost) s'.

Lemma after_new F e v os ts Bs Lost o t (B : blocks) s : reps os ts Bs -> rep o t B -> hs F ((e, [v]) :: B ++ concat Bs ++ Lost) s ->
  after F e (ts ++ [t]) 0 Lost (os ++ [o]) s.
Proof.
  intros R R' H. exists (Bs ++ [B]), [], v. split; [reflexivity|]. split; [apply reps_snoc; auto|]. cbn [app]. eapply hs_perm; [|exact H].
  apply perm_skip. rewrite (concat_snoc Bs B). rewrite app_assoc. reflexivity.
Qed.
Lemma after_none F e v os ts Bs Lost s : reps os ts Bs -> hs F ((e, [v]) :: concat Bs ++ Lost) s -> after F e (ts ++ [None]) 0 Lost (os ++ [None]) s.
Proof. intros R H. eapply (after_new F e v os ts Bs Lost None None []); auto. constructor. Qed.

Lemma step_ok F e v os ts Bs Lost o r t n s : reps os ts Bs -> hs F ((e, [v]) :: concat Bs ++ Lost) s -> outcome fit x ts o = (r, t, n) ->
  wp (py_step fit x e os o) (fun ro s' => fst ro = r /\ after F e (next ts o t) n Lost (snd ro) s') s.
Proof.
  intros R H E. destruct o as [type len re_up re_down ri_up ri_down fd_up fd_down|ext cap z|i sig n_cap c dens|i d_source src_x src_y sigx sigy shx shy hp ens|i]; cbn [py_step outcome next] in *.
  - apply wp_bind. eapply wp_mono; [eapply py_profile_ok; exact H|]. clear H s. intros p s H. cbv beta in H. apply wp_ret.
    destruct (made_profile fit type len re_up re_down ri_up ri_down fd_up fd_down) as [a|]; injection E as <- <- <-.
    + destruct H as (l & lz & lc & le & v' & -> & Sz & H). cbn [made fst snd]. split; [reflexivity|]. eapply after_new; [exact R|constructor; exact Sz|exact H].
    + destruct H as (m & v' & -> & H). cbn [made fst snd]. split; [reflexivity|]. eapply after_none; eauto.
  - apply wp_bind. eapply wp_mono; [eapply py_arrays_ok; exact H|]. clear H s. intros p s H. cbv beta in H. apply wp_ret.
    destruct (_ && _ && _); injection E as <- <- <-.
    + destruct H as (l & lz & lc & le & v' & -> & Sz & H). cbn [made fst snd]. split; [reflexivity|]. eapply after_new; [exact R|constructor; exact Sz|exact H].
    + destruct H as (m & v' & -> & H). cbn [made fst snd]. split; [reflexivity|]. eapply after_none; eauto.
  - pose proof (reps_nth i os ts Bs R) as RN. destruct (nth_error os i) as [oi|].
    2: { destruct RN as [EN _]. rewrite EN in E. injection E as <- <- <-. apply wp_ret. cbn [fst snd]. split; [reflexivity|]. eapply after_none; eauto. }
    destruct RN as (ti & Bi & EN & Ri & P & _). rewrite EN in E. destruct Ri as [|p lz lc le a Wa|d liz lwi lp lz lc le open o Go|p len lr lg d nums ens bg liz lwi lp lz lc le open o L8 So];
      try (injection E as <- <- <-; apply wp_ret; cbn [fst snd]; split; [reflexivity|]; eapply after_none; eauto; fail).
    assert (HP : Permutation ((e, [v]) :: concat Bs ++ Lost) ((e, [v]) :: profb p lz lc le a ++ concat (set_nth Bs i []) ++ Lost)) by (apply perm_skip; rewrite P, app_assoc; reflexivity).
    apply wp_bind. eapply wp_mono; [eapply (py_description_ok x F e v p lz lc le a); [exact Wa|eapply hs_perm; [exact HP|exact H]]|].
    clear H s. intros rr s H. cbv beta in H. apply wp_ret.
    assert (Back : forall v' (A : blocks), Permutation ((e, [v']) :: A ++ profb p lz lc le a ++ concat (set_nth Bs i []) ++ Lost) ((e, [v']) :: A ++ concat Bs ++ Lost)).
    { intros v' A. apply perm_skip, Permutation_app_head. rewrite P, app_assoc. reflexivity. }
    destruct (elements_of x c) as [els|k].
    2: { injection E as <- <- <-. destruct H as (m & v' & -> & H). cbn [made fst snd]. split; [reflexivity|]. eapply after_none; [exact R|]. eapply hs_perm; [|exact H]. apply (Back v' []). }
    destruct (description_ok sig n_cap els dens) eqn:Ed; cbn [negb] in *.
    2: { injection E as <- <- <-. destruct H as (m & v' & -> & H). cbn [made fst snd]. split; [reflexivity|]. eapply after_none; [exact R|]. eapply hs_perm; [|exact H]. apply (Back v' []). }
    destruct (shape_ok a n_cap) eqn:Es; cbn [negb] in *.
    2: { injection E as <- <- <-. destruct H as (l & b & m & v' & -> & H). cbn [made fst snd]. split; [reflexivity|].
         exists (Bs ++ [[]]), [(l, b)], v'. split; [reflexivity|]. split; [apply reps_snoc; [exact R|constructor]|]. eapply hs_perm; [|exact H].
         apply perm_skip. rewrite concat_snoc, P. cbn [app]. rewrite <- app_assoc. apply Permutation_sym. rewrite app_assoc. rewrite <- (Permutation_middle (profb p lz lc le a ++ _)). rewrite <- app_assoc. reflexivity. }
    destruct (fractions_ok (List.map snd els)) eqn:Ef; cbn [negb] in *; injection E as <- <- <-.
    + destruct H as (d & liz & lwi & lp' & lz' & lc' & le' & open & v' & -> & H). cbn [made fst snd]. split; [reflexivity|].
      eapply (after_new F e v' os ts Bs Lost (Some (PDescription (Some d))) (Some (ADescription _)) (descb d liz lwi lp' lz' lc' le' open _)); [exact R|constructor; apply good_new; auto|].
      eapply hs_perm; [apply Back|exact H].
    + destruct H as (m & v' & -> & H). cbn [made fst snd]. split; [reflexivity|]. eapply after_none; [exact R|]. eapply hs_perm; [|exact H]. apply (Back v' []).
  - pose proof (reps_nth i os ts Bs R) as RN. destruct (nth_error os i) as [oi|].
    2: { destruct RN as [EN _]. rewrite EN in E. injection E as <- <- <-. apply wp_ret. cbn [fst snd]. split; [reflexivity|]. eapply after_none; eauto. }
    destruct RN as (ti & Bi & EN & Ri & P & _). rewrite EN in E. destruct Ri as [|p lz lc le a Wa|d liz lwi lp lz lc le open o Go|p len lr lg d nums ens' bg liz lwi lp lz lc le open o L8 So];
      try (injection E as <- <- <-; apply wp_ret; cbn [fst snd]; split; [reflexivity|]; eapply after_none; eauto; fail).
    assert (HP : Permutation ((e, [v]) :: concat Bs ++ Lost) ((e, [v]) :: descb d liz lwi lp lz lc le open o ++ concat (set_nth Bs i []) ++ Lost)) by (apply perm_skip; rewrite P, app_assoc; reflexivity).
    apply wp_bind. eapply wp_mono; [eapply (py_source_ok F e v d liz lwi lp lz lc le open o); [exact Go|eapply hs_perm; [exact HP|exact H]]|].
    clear H s. intros rr s H. cbv beta in H. apply wp_ret.
    assert (Back : forall v' (A : blocks), Permutation ((e, [v']) :: A ++ descb d liz lwi lp lz lc le open o ++ concat (set_nth Bs i []) ++ Lost) ((e, [v']) :: A ++ concat Bs ++ Lost)).
    { intros v' A. apply perm_skip, Permutation_app_head. rewrite P, app_assoc. reflexivity. }
    destruct (source_ok d_source src_x src_y hp ens); injection E as <- <- <-.
    + destruct H as (p & len & lr & lg & d' & liz' & lwi' & lp' & lz' & lc' & le' & open' & bg & v' & -> & H). cbn [made fst snd]. split; [reflexivity|].
      eapply after_new; [exact R| |eapply hs_perm; [apply Back|exact H]]. apply rep_src; [reflexivity|apply Go].
    + destruct H as (m & v' & -> & H). cbn [made fst snd]. split; [reflexivity|]. eapply after_none; [exact R|]. eapply hs_perm; [|exact H]. apply (Back v' []).
  - pose proof (reps_nth i os ts Bs R) as RN. destruct (nth_error os i) as [oi|].
    2: { destruct RN as [EN R2]. rewrite EN in E. injection E as <- <- <-. apply wp_ret. cbn [fst snd]. split; [reflexivity|]. exists Bs, [], v. auto. }
    destruct RN as (ti & Bi & EN & Ri & P & R2). rewrite EN in E.
    assert (HP : hs F (Bi ++ (e, [v]) :: concat (set_nth Bs i []) ++ Lost) s). { eapply hs_perm; [|exact H]. rewrite <- Permutation_middle. apply perm_skip. rewrite P, app_assoc. reflexivity. }
    assert (Done : forall s', hs F ((e, [v]) :: concat (set_nth Bs i []) ++ Lost) s' -> after F e (set_nth ts i None) 0 Lost (set_nth os i None) s').
    { intros s' H'. exists (set_nth Bs i []), [], v. auto. }
    clear H. rename HP into H.
    destruct Ri as [|p lz lc le a Wa|d liz lwi lp lz lc le open o Go|p len lr lg d nums ens' bg liz lwi lp lz lc le open o L8 So]; injection E as <- <- <-.
    + apply wp_ret. cbn [fst snd]. split; [reflexivity|]. auto.
    + cbn [py_dealloc]. apply wp_bind. eapply (hs_profile_free F p lz lc le); [exact H|]. intros s' H'. apply wp_ret. cbn [fst snd]. auto.
    + cbn [py_dealloc]. apply wp_bind. eapply (hs_description_free F d liz lwi lp lz lc le); [exact H|]. intros s' H'. apply wp_ret. cbn [fst snd]. auto.
    + cbn [py_dealloc]. apply wp_bind. eapply (hs_source_free F p len lr lg d nums ens' bg liz lwi lp lz lc le); [exact L8|rewrite <- app_assoc in H; exact H|]. intros s' H'. apply wp_ret. cbn [fst snd]. auto.
Qed.

Lemma run_ok F e : forall ops v os ts Bs Lost rs ts' n s, reps os ts Bs -> hs F ((e, [v]) :: concat Bs ++ Lost) s -> story fit x ops ts = (rs, ts', n) ->
  wp (py_run fit x e ops os) (fun ro s' => fst ro = rs /\ after F e ts' n Lost (snd ro) s') s.
Proof.
  induction ops as [|o ops IH]; intros v os ts Bs Lost rs ts' n s R H E; cbn [story py_run] in *.
  - injection E as <- <- <-. apply wp_ret. cbn [fst snd]. split; [reflexivity|]. exists Bs, [], v. auto.
  - destruct (outcome fit x ts o) as [[r t] k] eqn:Eo. fold (next ts o t) in E. destruct (story fit x ops (next ts o t)) as [[rs1 ts1] m] eqn:Er. injection E as <- <- <-.
    apply wp_bind. eapply wp_mono; [eapply step_ok; eauto|]. clear H s. intros [r' os'] s [<- (Bs' & new & v' & Ln & R' & H)]. cbn [fst snd] in *.
    apply wp_bind. eapply wp_mono; [eapply (IH v' os' _ Bs' (new ++ Lost)); eauto|]. clear H s. intros [rs2 os2] s [<- (Bs2 & new2 & v2 & Ln2 & R2 & H)]. apply wp_ret. cbn [fst snd] in *.
    split; [reflexivity|]. exists Bs2, (new2 ++ new), v2. rewrite app_length. split; [lia|]. split; [exact R2|]. rewrite <- app_assoc. exact H.
Qed.

(** ** The specification's view *)
Lemma rep_stands s o t (B : blocks) : rep o t B -> NoDup (map fst B) -> hold s B -> stands s o t (map fst B).
Proof.
  assert (Dd : forall d liz lwi lp lz lc le open (o : optic T), sized o -> NoDup (map fst (descb d liz lwi lp lz lc le open o)) -> hold s (descb d liz lwi lp lz lc le open o) -> optic_at s d [d; liz; lwi; lp; lz; lc; le] o).
  { intros d liz lwi lp lz lc le open o' So ND H. exists liz, lwi, lp, lz, lc, le, open. split; [reflexivity|]. unfold descb in H. rewrite !hold_cons in H. destruct H as (H1 & H2 & H3 & H4 & H5 & H6 & H7 & _).
    split; [unfold description_object, dbl_array, int_array; repeat split; auto|exact So]. }
  intros R ND H. destruct R as [|p lz lc le a Wa|d liz lwi lp lz lc le open o Go|p len lr lg d nums ens bg liz lwi lp lz lc le open o L8 So]; cbn [stands].
  - reflexivity.
  - exists lz, lc, le. split; [reflexivity|]. unfold profb in H. rewrite !hold_cons in H. destruct H as (H1 & H2 & H3 & H4 & _). split; [unfold profile_object, dbl_array; repeat split; auto|exact Wa].
  - apply (Dd d liz lwi lp lz lc le open o); auto. apply Go.
  - rewrite map_app in ND. apply nodup_app_inv in ND. destruct ND as (N1 & N2 & _). apply hold_app in H. destruct H as [H1 H2].
    exists len, lr, lg, d, [d; liz; lwi; lp; lz; lc; le]. split; [reflexivity|]. split; [|eapply Dd; eauto].
    unfold srcb in H1. rewrite !hold_cons in H1. destruct H1 as (A1 & A2 & A3 & A4 & _). unfold source_object, dbl_array. repeat split; eauto.
Qed.
Lemma reps_stand s : forall os ts Bs, reps os ts Bs -> NoDup (map fst (concat Bs)) -> hold s (concat Bs) -> stand s os ts (map (map fst) Bs).
Proof.
  induction os as [|o os IH]; intros [|t ts] [|B Bs] R ND H; try contradiction; cbn [stand map reps concat] in *; [exact I|].
  rewrite map_app in ND. apply nodup_app_inv in ND. destruct ND as (N1 & N2 & _). apply hold_app in H. destruct H as [H1 H2]. destruct R as [R1 R2]. split; [apply rep_stands; auto|auto].
Qed.

Lemma program_ok e v ops rs ts n s : wf s -> memory_available s -> mem s e = Some [v] -> story fit x ops [] = (rs, ts, n) ->
  exists s' os Ls lost, py_run fit x e ops [] s = Ok ((rs, os), s') /\ stand s' os ts Ls /\ List.length lost = n /\ NoDup (e :: concat Ls ++ lost) /\
    all_free s (concat Ls ++ lost) /\ (forall l, In l lost -> mem s' l <> None) /\ same_memory_except (e :: concat Ls ++ lost) s s' /\
    (wf s' /\ memory_available s' /\ exists v', mem s' e = Some [v']).
Proof.
  intros W A E ES. set (F := fun l => if Nat.eq_dec l e then None else mem s l).
  assert (H : hs F ((e, [v]) :: concat [] ++ []) s).
  { cbn [concat app]. split; [exact W|]. split; [exact A|]. split; [constructor; [intros []|constructor]|]. split; [|split].
    - intros l b [El|[]]. injection El as <- <-. exact E.
    - intros l Nl. unfold F. destruct (Nat.eq_dec l e) as [->|]; [exfalso; apply Nl; left; reflexivity|reflexivity].
    - intros l [<-|[]]. unfold F. cbn [fst]. destruct (Nat.eq_dec e e); congruence. }
  pose proof (run_ok F e ops v [] [] [] [] rs ts n s I H ES) as P. unfold wp in P. destruct (py_run fit x e ops [] s) as [[[rs' os] s']|] eqn:Er; [|contradiction].
  destruct P as [Ers (Bs & new & v' & Ln & R & H')]. cbn [fst snd] in *. subst rs'. rewrite app_nil_r in H'.
  exists s', os, (map (map fst) Bs), (map fst new).
  assert (EL : concat (map (map fst) Bs) ++ map fst new = map fst (concat Bs ++ new)) by (rewrite map_app, concat_map; reflexivity).
  split; [reflexivity|]. rewrite EL. pose proof (hs_distinct _ _ _ H') as ND. assert (ND' := ND). cbn [map fst] in ND. inversion ND as [|? ? X1 X2]; subst.
  assert (HH : hold s' (concat Bs ++ new)) by (intros l b J; eapply hs_in; [exact H'|right; exact J]).
  split. { rewrite map_app in X2. apply nodup_app_inv in X2. apply hold_app in HH. apply reps_stand; [exact R|apply X2|apply HH]. }
  split; [apply map_length|]. split; [exact ND'|].
  destruct H' as (W' & A' & _ & H1 & H2 & H3).
  split. { intros l I. specialize (H3 l (or_intror I)). unfold F in H3. destruct (Nat.eq_dec l e) as [->|]; [|exact H3]. exfalso. exact (X1 I). }
  split. { intros l I. apply in_map_iff in I. destruct I as [[l' b] [<- I]]. cbn [fst]. rewrite (HH l' b); [discriminate|]. apply in_or_app. right. exact I. }
  split. { intros l Nl. rewrite (H2 l Nl). unfold F. destruct (Nat.eq_dec l e) as [->|]; [exfalso; apply Nl; left; reflexivity|reflexivity]. }
  split; [exact W'|]. split; [exact A'|]. exists v'. apply H1. left. reflexivity.
Qed.
End Run.
