(** * From the vocabulary of SpecFlight.v to lists of blocks and back *)
From Coq Require Import ZArith List Bool Lia String Permutation.
From Verif Require Import Num Mem SpecHeap HeapLib ErrorModel ProfileModel Geometry SpecPhoton ConsModel H5Model RM CapilModel TraceModel LaunchModel PhotProofs SrcProofs RMLogic LenProofs SepLib FlightMem FlightRep FlightPure FlightHeap FlightHeap2 FlightSim FlightLaunch FlightLaunch2 SpecFlight.
Import ListNotations.

Section Conv.
Context {T : Type} {N : Num T}.
Local Notation blocks := (list (loc * @block T)).
Implicit Types s : st T.

(** Everything but the blocks [A]. *)
Definition without (A : list loc) s : loc -> option (@block T) := fun l => if in_dec Nat.eq_dec l A then None else mem s l.
Definition holds s (L : blocks) : Prop := forall l b, In (l, b) L -> mem s l = Some b.

Lemma hs_intro s (L : blocks) : wf s -> memory_available s -> NoDup (map fst L) -> holds s L -> hs (without (map fst L) s) L s.
Proof.
  intros W A ND H. split; [auto|]. split; [auto|]. split; [auto|]. split; [exact H|]. split; intros l I; unfold without; destruct (in_dec _ _ _); tauto.
Qed.
Lemma without_in A s l : In l A -> without A s l = None.
Proof. intros I. unfold without. destruct (in_dec _ _ _); tauto. Qed.
Lemma without_nin A s l : ~ In l A -> without A s l = mem s l.
Proof. intros I. unfold without. destruct (in_dec _ _ _); tauto. Qed.

Lemma holds_app s (L L' : blocks) : holds s (L ++ L') <-> holds s L /\ holds s L'.
Proof. unfold holds. split; [intros H; split; intros l b I; apply H, in_or_app; auto|]. intros [H H'] l b I. apply in_app_or in I. destruct I; auto. Qed.
Lemma holds_cons s l b (L : blocks) : holds s ((l, b) :: L) <-> mem s l = Some b /\ holds s L.
Proof. unfold holds. split; [intros H; split; [apply H; left; reflexivity|intros; apply H; right; auto]|]. intros [H H'] l' b' [E|I]; [congruence|auto]. Qed.
Lemma holds_nil s : holds s [].
Proof. intros l b []. Qed.

Lemma leakb_fst : forall ls (ds : list (leak_data T)), List.length ls = List.length ds -> map fst (leakb ls ds) = leak_blocks ls.
Proof. induction ls as [|[l w] ls IH]; intros [|d ds] E; cbn in E; try discriminate; [reflexivity|]. cbn. unfold leak_blocks in IH. rewrite IH by lia. reflexivity. Qed.
Lemma leakb_holds s : forall ls ds, List.length ls = List.length ds -> (holds s (leakb ls ds) <-> Forall2 (fun lw d => leak_object s (fst lw) (snd lw) d) ls ds).
Proof.
  induction ls as [|[l w] ls IH]; intros [|d ds] E; cbn in E; try discriminate; [split; [constructor|intros _; apply holds_nil]|].
  cbn [leakb fst snd]. rewrite !holds_cons, IH by lia. split.
  - intros (A & B & C). constructor; auto. split; auto.
  - intros H. inversion H as [|? ? ? ? [A B] C]; subst. auto.
Qed.

Lemma lks_holds s X ls ds : List.length ls = List.length ds -> (holds s (lks X ls ds) <-> opt_leaks s (lkp X ds) (Z.of_nat (List.length ds)) ls ds).
Proof.
  intros E. unfold opt_leaks. destruct ds as [|d ds]; cbn [lks lkp].
  - destruct ls; [|discriminate]. split; [intros _; split; auto|intros _; apply holds_nil].
  - rewrite holds_cons, leakb_holds by exact E. unfold leak_array, arrb. rewrite E. tauto.
Qed.
Lemma lks_fst X ls (ds : list (leak_data T)) : List.length ls = List.length ds -> map fst (lks X ls ds) = plocs (lkp X ds) ++ leak_blocks ls.
Proof. intros E. destruct ds as [|d ds]; cbn [lks lkp]; [destruct ls; [reflexivity|discriminate]|]. cbn [map fst plocs app]. rewrite leakb_fst by exact E. reflexivity. Qed.

Definition places (K : keys) (ph : photon T) : leak_places := mkPlaces (lkp (kX K) (ph_ext ph)) (kxl K) (lkp (kI K) (ph_int ph)) (kil K).
Definition unplace (L : leak_places) : keys :=
  {| kE := 0; kW := 0; kA := 0; kS := 0; kX := match lx L with Some l => l | None => 0 end; kxl := lxs L; kI := match li L with Some l => l | None => 0 end; kil := lis L |}.

Lemma restb_fst p d src n K ph : kok K ph -> map fst (restb p d src n K ph) = p :: places_blocks (places K ph).
Proof. intros [A B]. unfold restb, leaksb. cbn [map fst]. rewrite map_app, !lks_fst by auto. unfold places_blocks, places. cbn [lx lxs li lis]. rewrite !app_assoc. reflexivity. Qed.
Lemma restb_holds s p d src n K ph : kok K ph -> NoDup (p :: places_blocks (places K ph)) -> at_rest ph -> holds s (restb p d src n K ph) -> photon_at s p d src n (places K ph) ph.
Proof.
  intros [A B] ND R H. unfold restb, leaksb in H. rewrite holds_cons, holds_app in H. destruct H as (H1 & H2 & H3). apply lks_holds in H2; [|auto]. apply lks_holds in H3; [|auto].
  split; [exact H1|]. split; [exact H2|]. split; [exact H3|]. split; [|split; [|split; [exact ND|exact R]]]; cbn [places lx li]; [destruct (ph_ext ph)|destruct (ph_int ph)]; cbn [lkp]; split; congruence.
Qed.

Lemma photon_restb s p d src n L ph : photon_at s p d src n L ph -> kok (unplace L) ph /\ places (unplace L) ph = L /\ at_rest ph /\ holds s (restb p d src n (unplace L) ph).
Proof.
  intros (H1 & H2 & H3 & H4 & H5 & ND & R). destruct L as [X ls I is]. cbn [lx lxs li lis] in *.
  assert (E1 : List.length ls = List.length (ph_ext ph)) by (destruct H2 as [H2 _]; lia). assert (E2 : List.length is = List.length (ph_int ph)) by (destruct H3 as [H3 _]; lia).
  assert (P1 : lkp (match X with Some l => l | None => 0 end) (ph_ext ph) = X). { destruct X as [l|], (ph_ext ph); cbn; auto; [destruct H4 as [_ H4]; discriminate (H4 eq_refl)|destruct H4 as [H4 _]; discriminate (H4 eq_refl)]. }
  assert (P2 : lkp (match I with Some l => l | None => 0 end) (ph_int ph) = I). { destruct I as [l|], (ph_int ph); cbn; auto; [destruct H5 as [_ H5]; discriminate (H5 eq_refl)|destruct H5 as [H5 _]; discriminate (H5 eq_refl)]. }
  split; [split; auto|]. split; [unfold places, unplace; cbn [kX kI kxl kil lx li lxs lis]; rewrite P1, P2; reflexivity|]. split; [exact R|].
  unfold restb, rblock, leaksb, unplace. cbn [kX kI kxl kil lx li lxs lis]. rewrite holds_cons, holds_app, !lks_holds, P1, P2 by auto. auto.
Qed.

Lemma optic_descb s d D o : optic_at s d D o -> exists liz lwi lp lz lc le open, sized o /\ D = map fst (descb d liz lwi lp lz lc le open o) /\ holds s (descb d liz lwi lp lz lc le open o) /\ NoDup D.
Proof.
  intros (liz & lwi & lp & lz & lc & le & open & -> & (H1 & H2 & H3 & H4 & H5 & H6 & H7 & ND) & S). exists liz, lwi, lp, lz, lc, le, open.
  split; [exact S|]. split; [reflexivity|]. split; [|exact ND]. unfold descb. rewrite !holds_cons. repeat (split; [assumption|]). apply holds_nil.
Qed.

Lemma errs_at s err e EB : errs err e EB -> holds s EB -> NoDup (map fst EB) -> error_at s err e (map fst EB).
Proof.
  destruct err as [l|]; cbn [errs error_at]; [|intros -> _ _; reflexivity]. destruct e as [c|].
  - intros (o & t & m & ->) H ND. exists o, t, m. rewrite !holds_cons in H. destruct H as (A & B & C & _). cbn in ND. inversion ND as [|? ? X Y]; subst. inversion Y as [|? ? X' Y']; subst.
    split; [reflexivity|]. split; [exact A|]. split; [exact B|]. split; [exact C|]. intros ->. apply X'. cbn. auto.
  - intros -> H _. rewrite holds_cons in H. destruct H as [H _]. auto.
Qed.
Lemma error_errs s err e E : error_at s err e E -> exists EB, errs err e EB /\ E = map fst EB /\ holds s EB.
Proof.
  destruct err as [l|]; cbn [errs error_at]; [|intros ->; exists []; repeat split; apply holds_nil]. destruct e as [c|].
  - intros (x & t & m & -> & A & B & C & D). exists [(l, [Vptr (Some x)]); (x, [Vint c; Vptr (Some t)]); (t, [Vstr m])]. split; [eauto|]. split; [reflexivity|]. rewrite !holds_cons. repeat (split; [assumption|]). apply holds_nil.
  - intros [-> A]. exists [(l, [Vptr NULL])]. split; [auto|]. split; [reflexivity|]. rewrite holds_cons. split; [exact A|apply holds_nil].
Qed.

Lemma lostb_fst : forall ls (ds : list (leak_data T)), List.length ls = List.length ds -> map fst (lostb ls ds) = map fst ls.
Proof. induction ls as [|[l w] ls IH]; intros [|d ds] E; cbn in E; try discriminate; [reflexivity|]. cbn. rewrite IH by lia. reflexivity. Qed.
Lemma lost_fst K (ph : photon T) : kok K ph -> map fst (lost K ph) = leak_objects (places K ph).
Proof. intros [A B]. unfold lost. rewrite map_app, !lostb_fst by auto. reflexivity. Qed.
Lemma lostb_in : forall ls (ds : list (leak_data T)) lb, In lb (lostb ls ds) -> In lb (leakb ls ds).
Proof. induction ls as [|[l w] ls IH]; intros [|d ds] lb; cbn; try tauto. intros [<-|H]; auto. Qed.
Lemma lks_lost X ls (ds : list (leak_data T)) lb : In lb (lostb ls ds) -> In lb (lks X ls ds).
Proof. intros H. pose proof (lostb_in _ _ _ H) as H'. destruct ds as [|d ds]; cbn [lks]; [destruct ls; destruct H|]. right. exact H'. Qed.
Lemma lost_in K (ph : photon T) lb : In lb (lost K ph) -> In lb (leaksb K ph).
Proof. unfold lost, leaksb. rewrite !in_app_iff. intros [H|H]; [left|right]; eapply lks_lost; eauto. Qed.

Lemma wp_run {A} (m : M T A) Q s : wp m Q s -> exists a s', m s = Ok (a, s') /\ Q a s'.
Proof. unfold wp. destruct (m s) as [[a s']|]; [eauto|contradiction]. Qed.
End Conv.
