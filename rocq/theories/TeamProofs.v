(** * Interleavings of threads *)
From Coq Require Import ZArith List Bool Lia Permutation.
From Verif Require Import Num Geometry SpecPhoton RM CapilModel RunModel.
Import ListNotations.

Section ListFacts.
Context {A : Type}.

Lemma set_nth_length t (a : A) l : length (set_nth t a l) = length l.
Proof. revert t. induction l as [|b l IH]; intros [|t]; cbn; auto. Qed.
Lemma set_nth_same t (a : A) l : t < length l -> nth_error (set_nth t a l) t = Some a.
Proof. revert t. induction l as [|b l IH]; intros [|t] H; cbn in *; try lia; auto. apply IH. lia. Qed.
Lemma set_nth_other t u (a : A) l : t <> u -> nth_error (set_nth t a l) u = nth_error l u.
Proof. revert t u. induction l as [|b l IH]; intros [|t] [|u] H; cbn; auto; try lia. Qed.
Lemma set_nth_split t (a : A) l b : nth_error l t = Some b ->
  exists l1 l2, l = l1 ++ b :: l2 /\ length l1 = t /\ set_nth t a l = l1 ++ a :: l2.
Proof.
  revert t. induction l as [|c l IH]; intros [|t] H; cbn in *; try discriminate.
  - injection H as ->. exists [], l. auto.
  - destruct (IH t H) as (l1 & l2 & -> & L & E). exists (c :: l1), l2. cbn. rewrite E. auto.
Qed.
End ListFacts.

(** [tr] is an interleaving of the lists [ls]. *)
Inductive shuf {A} : list (list A) -> list A -> Prop :=
| shuf_nil ls : Forall (fun l => l = []) ls -> shuf ls []
| shuf_cons ls t a rest tr : nth_error ls t = Some (a :: rest) -> shuf (set_nth t rest ls) tr -> shuf ls (a :: tr).

Lemma concat_nil {A} (ls : list (list A)) : Forall (fun l => l = []) ls -> concat ls = [].
Proof. induction 1 as [|l ls -> _ IH]; cbn; auto. Qed.

Lemma shuf_perm {A} (ls : list (list A)) tr : shuf ls tr -> Permutation (concat ls) tr.
Proof.
  induction 1 as [ls H|ls t a rest tr H _ IH]; [rewrite concat_nil by auto; constructor|].
  destruct (set_nth_split t rest ls _ H) as (l1 & l2 & -> & _ & E). rewrite E in IH.
  rewrite concat_app in *. cbn in *. rewrite <- IH. symmetry. apply Permutation_middle.
Qed.

(** Pairwise concatenation. *)
Fixpoint zapp {A} (a b : list (list A)) : list (list A) :=
  match a, b with
  | x :: a, y :: b => (x ++ y) :: zapp a b
  | _, _ => []
  end.
Lemma zapp_length {A} (a b : list (list A)) : length a = length b -> length (zapp a b) = length a.
Proof. revert b. induction a as [|x a IH]; intros [|y b] H; cbn in *; auto; try lia. Qed.
Lemma zapp_nth {A} (a b : list (list A)) t : length a = length b ->
  nth_error (zapp a b) t = match nth_error a t, nth_error b t with Some x, Some y => Some (x ++ y) | _, _ => None end.
Proof.
  revert b t. induction a as [|x a IH]; intros [|y b] [|t] H; cbn in *; try lia; auto.
Qed.
Lemma zapp_set {A} (a b : list (list A)) t x y : length a = length b -> nth_error b t = Some y ->
  set_nth t (x ++ y) (zapp a b) = zapp (set_nth t x a) b.
Proof.
  revert b t. induction a as [|x' a IH]; intros [|y' b] [|t] H E; cbn in *; try discriminate; try lia; auto.
  - injection E as ->. reflexivity.
  - rewrite IH by (auto; lia). reflexivity.
Qed.

Section Team.
Context {T : Type} {N : Num T}.
Notation instr := (instr T). Notation action := (action T). Notation shared := (shared T).

Fixpoint run (tr : list action) (s : shared) : option shared :=
  match tr with
  | [] => Some s
  | a :: tr => match act a s with Some s => run tr s | None => None end
  end.

Lemma run_app tr1 tr2 s : run (tr1 ++ tr2) s = match run tr1 s with Some s => run tr2 s | None => None end.
Proof. revert s. induction tr1 as [|a tr1 IH]; intros s; cbn; auto. destruct (act a s); auto. Qed.

Lemma steps_none ths c : steps (ths, None) c -> c = (ths, None).
Proof. intros H. inversion H as [|? ? ? S]; subst; auto. inversion S. Qed.

(** A program that does not start with an action. *)
Definition waits (p : list instr) : Prop := match p with Act _ :: _ => False | _ => True end.

Lemma waits_act rests t p a : Forall waits rests -> nth_error rests t = Some (Act a :: p) -> False.
Proof. intros F E. apply nth_error_In in E. rewrite Forall_forall in F. exact (F _ E). Qed.

Lemma map_cons_zapp (segs : list (list action)) (rests rests' : list (list instr)) :
  length segs = length rests -> zapp (map (map Act) segs) rests = map (cons Barrier) rests' ->
  Forall (fun l => l = []) segs /\ rests = map (cons Barrier) rests'.
Proof.
  revert rests rests'. induction segs as [|g segs IH]; intros [|r rests] [|r' rests'] L E; cbn in *; try discriminate; try lia; auto.
  destruct g as [|a g]; cbn in E; [|discriminate]. injection E as -> E.
  destruct (IH _ _ (eq_add_S _ _ L) E) as [F ->]. auto.
Qed.

(** What an execution that starts with the action segments [segs], each followed by a
    barrier or nothing, can look like. *)
Lemma segment :
  forall c c', steps c c' -> forall segs rests s,
  c = (zapp (map (map Act) segs) rests, Some s) -> length segs = length rests -> Forall waits rests ->
  (exists dones segs' tr, segs = zapp dones segs' /\ length dones = length segs' /\ length segs' = length segs /\
     shuf dones tr /\ c' = (zapp (map (map Act) segs') rests, run tr s)) \/
  (exists tr s1 rests', shuf segs tr /\ run tr s = Some s1 /\ rests = map (cons Barrier) rests' /\
     rests' <> [] /\ steps (rests', Some s1) c').
Proof.
  intros c c' H. induction H as [c|c c1 c' S H IH]; intros segs rests s -> L F.
  - left. exists (map (fun _ => []) segs), segs, []. repeat split; try (rewrite map_length; auto).
    + clear. induction segs as [|g segs IH]; cbn; [auto|]. now rewrite <- IH.
    + constructor. clear. induction segs; constructor; auto.
  - inversion S as [t a rest ths s0 E E1 E2|rests' s0 Ne E1 E2]; subst.
    + rewrite zapp_nth in E by (rewrite map_length; auto).
      rewrite nth_error_map in E. destruct (nth_error segs t) as [g|] eqn:Eg; [|discriminate]. cbn in E.
      destruct (nth_error rests t) as [r|] eqn:Er; [|discriminate].
      destruct g as [|a' g]; cbn in E; injection E as E.
      { subst r. destruct (waits_act _ _ _ _ F Er). }
      subst a' rest.
      destruct (act a s) as [s1|] eqn:Ea.
      * specialize (IH (set_nth t g segs) rests s1).
        assert (Ez : set_nth t (map Act g ++ r) (zapp (map (map Act) segs) rests) = zapp (map (map Act) (set_nth t g segs)) rests).
        { rewrite zapp_set by (rewrite ?map_length; auto). f_equal. clear. revert t. induction segs as [|b l IH]; intros [|t]; cbn; auto. now rewrite IH. }
        rewrite Ez in IH. destruct (IH eq_refl) as [(dones & segs' & tr & E & Ld & Ls & Sh & Ec)|(tr & s2 & rests' & Sh & R & Er' & Ne & St)]; auto.
        { rewrite set_nth_length. auto. }
        -- left. rewrite set_nth_length in Ls.
           assert (Lt : t < length dones) by (rewrite Ld, Ls; apply nth_error_Some; rewrite Eg; discriminate).
           destruct (nth_error dones t) as [d|] eqn:Ed; [|apply nth_error_None in Ed; lia].
           exists (set_nth t (a :: d) dones), segs', (a :: tr).
           assert (Es : set_nth t d (set_nth t (a :: d) dones) = dones).
           { clear -Ed. revert t Ed. induction dones as [|b l IH]; intros [|t] E; cbn in *; try discriminate; [injection E as ->; auto|]. now rewrite IH. }
           repeat split.
           ++ assert (Lsd : nth_error (set_nth t g segs) t = Some g) by (apply set_nth_same; apply nth_error_Some; rewrite Eg; discriminate).
              rewrite E, zapp_nth, Ed in Lsd by auto. destruct (nth_error segs' t) as [g'|] eqn:Eg'; [|discriminate]. injection Lsd as Lsd.
              rewrite <- (zapp_set dones segs' t (a :: d) g') by auto. rewrite <- E. cbn [app]. rewrite Lsd.
              clear -Eg. revert t Eg. induction segs as [|b l IH]; intros [|t] E; cbn in *; try discriminate; [injection E as ->; auto|]. now rewrite <- IH.
           ++ rewrite set_nth_length. auto.
           ++ auto.
           ++ eapply shuf_cons; [apply set_nth_same; exact Lt|]. rewrite Es. exact Sh.
           ++ cbn. rewrite Ea. exact Ec.
        -- right. exists (a :: tr), s2, rests'. repeat split; auto.
           ++ eapply shuf_cons; [exact Eg|exact Sh].
           ++ cbn. rewrite Ea. exact R.
      * apply steps_none in H. subst c'. left.
        exists (set_nth t [a] (map (fun _ => []) segs)), (set_nth t g segs), [a].
        assert (Ez : set_nth t (map Act g ++ r) (zapp (map (map Act) segs) rests) = zapp (map (map Act) (set_nth t g segs)) rests).
        { rewrite zapp_set by (rewrite ?map_length; auto). f_equal. clear. revert t. induction segs as [|b l IH']; intros [|t]; cbn; auto. now rewrite IH'. }
        repeat split; rewrite ?set_nth_length, ?map_length; auto.
        -- clear -Eg. revert t Eg. induction segs as [|b l IH']; intros [|t] E; cbn in *; try discriminate.
           ++ injection E as ->. f_equal. clear. induction l as [|b l IH]; cbn; auto. now rewrite <- IH.
           ++ now rewrite <- IH'.
        -- eapply shuf_cons with (t := t); [apply set_nth_same; rewrite map_length; apply nth_error_Some; rewrite Eg; discriminate|].
           constructor. clear. revert t. induction segs as [|b l IH]; intros [|t]; cbn; constructor; auto. clear. induction l; constructor; auto.
        -- cbn. rewrite Ea. rewrite Ez. reflexivity.
    + symmetry in E1. apply map_cons_zapp in E1; [|auto]. destruct E1 as [Fs ->].
      right. exists [], s, rests'. repeat split; auto. constructor; auto.
Qed.

(** An execution of barrier-free programs to the end. *)
Lemma segment_last segs s ths s' :
  steps (map (map Act) segs, Some s) (ths, Some s') -> done ths -> exists tr, shuf segs tr /\ run tr s = Some s'.
Proof.
  intros H D.
  assert (Ez : map (map Act) segs = zapp (map (map Act) segs) (map (fun _ => @nil instr) segs)).
  { clear. induction segs as [|g segs IH]; cbn; auto. rewrite <- IH, app_nil_r. auto. }
  rewrite Ez in H.
  destruct (segment _ _ H segs (map (fun _ => []) segs) s eq_refl) as [(dones & segs' & tr & E & Ld & Ls & Sh & Ec)|(tr & s1 & rests' & Sh & R & Er & Ne & _)].
  - rewrite map_length; auto.
  - clear. induction segs; constructor; cbn; auto.
  - injection Ec as -> Er. exists tr. split; [|auto].
    assert (Fs : Forall (fun l => l = []) segs').
    { clear -D Ls. assert (L : length segs' = length (map (fun _ : list action => @nil instr) segs)) by (rewrite map_length; auto).
      remember (map (fun _ => []) segs) as z. clear Heqz Ls. revert z L D. induction segs' as [|g l IH]; intros [|y z] L D; cbn in *; try lia; constructor.
      - inversion D as [|? ? E1 D']; subst. destruct g; cbn in E1; [auto|discriminate].
      - inversion D; subst. eapply IH; [|eauto]. lia. }
    replace segs with dones; [exact Sh|]. rewrite E. clear -Fs Ld. revert dones Ld. induction Fs as [|g l -> _ IH]; intros [|d dones] Ld; cbn in *; try lia; auto.
    rewrite app_nil_r. f_equal. apply IH. lia.
  - destruct rests' as [|r rests']; [congruence|]. destruct segs as [|g segs]; cbn in Er; discriminate.
Qed.

(** An execution to the end passes the barrier. *)
Lemma segment_barrier segs rests s ths s' :
  length segs = length rests -> rests <> [] ->
  steps (zapp (map (map Act) segs) (map (cons Barrier) rests), Some s) (ths, Some s') -> done ths ->
  exists tr s1, shuf segs tr /\ run tr s = Some s1 /\ steps (rests, Some s1) (ths, Some s').
Proof.
  intros L Ne H D.
  destruct (segment _ _ H segs (map (cons Barrier) rests) s eq_refl) as [(dones & segs' & tr & E & Ld & Ls & Sh & Ec)|(tr & s1 & rests' & Sh & R & Er & Ne' & St)].
  - rewrite map_length; auto.
  - clear. induction rests; constructor; cbn; auto.
  - exfalso. injection Ec as -> Er. destruct rests as [|r rests]; [congruence|]. destruct segs' as [|g segs']; cbn in *; [lia|].
    inversion D as [|? ? E1 D']; subst. destruct g; discriminate.
  - exists tr, s1. repeat split; auto. assert (rests' = rests); [|subst; auto].
    clear -Er. revert rests' Er. induction rests as [|r l IH]; intros [|r' l'] E; cbn in *; try discriminate; auto.
    injection E as -> E. now rewrite (IH _ E).
Qed.

End Team.
