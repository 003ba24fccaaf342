(** * Simulations: outcomes of jobs, closed form of the result *)
From Coq Require Import Reals ZArith List Bool Lia Lra Permutation.
From Verif Require Import Num Geometry SpecPhoton RM CapilModel TraceModel LaunchModel SourceModel RunModel
  TeamProofs RunProofs EffectProofs FinalProofs SpecRun PropLaunch.
Import ListNotations.

Section Jobs.
Context {T : Type} {N : Num T}.

(** The outcome of one attempt of a simulation. *)
Definition attempt_ok (x : xraylib T) (o : optic T) (s : source_nums T) (en : list T) junk lc (y : attempt T * Z) : Prop :=
  (exists fuel rs rs', attempt_run x o s en junk lc fuel rs None = Ret (Some (fst y, rs'), None)) /\
  classify o (fst y) None = Ret (snd y, None).
Definition job_ok (x : xraylib T) (o : optic T) (s : source_nums T) (en : list T) junk lc (l : list (attempt T * Z)) : Prop :=
  Forall (attempt_ok x o s en junk lc) l /\
  exists fs a i, l = fs ++ [(a, i)] /\ again i = false /\ Forall (fun y => again (snd y) = true) fs.

Lemma attempt_slot x o s en junk lc fuel rs r e : attempt_run x o s en junk lc fuel rs None = Ret (r, e) -> e = None.
Proof.
  unfold attempt_run, bind, rd, quiet, fresh_photon. intros K.
  destruct (nth_error _ 0); [|discriminate]. destruct (nth_error (p_ext _) 0); [|discriminate]. unfold ret in K; cbv beta iota in K.
  destruct (draw_photon _ _ _ _ _) as [[d rs1]|]; [|injection K; auto].
  destruct (orb _ _); [discriminate|]. unfold ret in K; cbv beta iota in K. destruct (launch _ _ _ _ _ _ _ _ _) as [[[[c p] w] e1]| |]; try discriminate.
  destruct w; [injection K; auto|discriminate].
Qed.

Lemma classify_slot (o : optic T) a r e : classify o a None = Ret (r, e) -> e = None.
Proof.
  unfold classify, bind, rd, quiet. intros K. destruct (Z.eqb _ 1); [|injection K; auto].
  destruct (nth_error _ _); [|discriminate]. destruct (nth_error (p_ext _) _); [|discriminate]. cbn in K.
  destruct (neqb _ _); [injection K; auto|]. destruct (within_e _ _ _) as [[w e1]| |]; try discriminate. injection K; auto.
Qed.

Lemma job_run_ok x o s en junk lc fuel n : forall rs l rs' e,
  job_run n x o s en junk lc fuel rs None = Ret (Some (l, rs'), e) -> e = None /\ job_ok x o s en junk lc l.
Proof.
  induction n as [|n IH]; intros rs l rs' e K; cbn [job_run] in K; [discriminate|].
  unfold bind at 1 in K. destruct (attempt_run x o s en junk lc fuel rs None) as [[[[a rs1]|] e1]| |] eqn:Ka; try discriminate.
  pose proof (attempt_slot _ _ _ _ _ _ _ _ _ _ Ka) as E. subst e1.
  unfold bind at 1 in K. destruct (classify o a None) as [[i e2]| |] eqn:Kc; try discriminate.
  pose proof (classify_slot _ _ _ _ Kc) as E. subst e2.
  assert (Ok : attempt_ok x o s en junk lc (a, i)) by (split; [exists fuel, rs, rs1; auto|auto]).
  destruct (again i) eqn:Eg.
  - unfold bind in K. destruct (job_run n x o s en junk lc fuel rs1 None) as [[[[l1 rs2]|] e3]| |] eqn:Kj; try discriminate.
    injection K as <- <- <-. destruct (IH _ _ _ _ Kj) as (-> & F & fs & a' & i' & -> & G1 & G2).
    split; [auto|]. split; [constructor; auto|]. exists ((a, i) :: fs), a', i'. auto.
  - injection K as <- <- <-. split; [auto|]. split; [constructor; auto|]. exists [], a, i. auto.
Qed.

Lemma jobs_run_ok x o s en junk lc fuel n m : forall rs ls e,
  jobs_run n x o s en junk lc fuel rs m None = Ret (Some ls, e) -> e = None /\ length ls = m /\ Forall (job_ok x o s en junk lc) ls.
Proof.
  induction m as [|m IH]; intros rs ls e K; cbn [jobs_run] in K; [injection K as <- <-; auto|].
  unfold bind in K. destruct (job_run n x o s en junk lc fuel rs None) as [[[[l rs1]|] e1]| |] eqn:Kj; try discriminate.
  destruct (job_run_ok _ _ _ _ _ _ _ _ _ _ _ _ Kj) as (-> & Ok).
  destruct (jobs_run n x o s en junk lc fuel rs1 m None) as [[[ls1|] e2]| |] eqn:Kr; try discriminate.
  injection K as <- <-. destruct (IH _ _ _ Kr) as (-> & L & F). cbn. auto.
Qed.

Lemma within_codes r (c : vec3 T) : In (within_pc_boundary r c) [0; 1; -1]%Z.
Proof. unfold within_pc_boundary. repeat destruct (nltb _ _); repeat destruct (nleb _ _); cbn; auto. Qed.

Lemma attempt_inv x o s en junk lc fuel rs a rs' e :
  attempt_run x o s en junk lc fuel rs None = Ret (Some (a, rs'), e) ->
  exists d rs1 ph e', vz (dr_start d) = nofZ 0 /\
    ph_start ph = dr_start d /\ ph_amu ph = None /\ at_src a = dr_src d /\
    rs1 = rs' /\
    launch x o junk fuel ph (Some en) false lc None = Ret (at_code a, at_ph a, Some (at_w a), e').
Proof.
  unfold attempt_run, bind, rd, quiet, fresh_photon. intros K.
  destruct (nth_error _ 0); [|discriminate]. destruct (nth_error (p_ext _) 0) as [ex0|]; [|discriminate]. unfold ret in K; cbv beta iota in K.
  destruct (draw_photon _ _ _ _ _) as [[d rs1]|] eqn:Ed; [|discriminate].
  destruct (orb _ _); [discriminate|]. unfold ret in K; cbv beta iota in K.
  match type of K with context [launch x o junk fuel ?p] => set (ph := p) in * end.
  destruct (launch _ _ _ _ _ _ _ _ _) as [[[[c p] w] e1]| |] eqn:Kl; try discriminate.
  destruct w as [w|]; [|discriminate]. injection K as <- <- <-.
  exists d, rs1, ph, e1. split; [|unfold ph; cbn [ph_start ph_amu at_src at_code at_ph at_w]; repeat split; auto; exact Kl].
  clear Kl ph.
  unfold draw_photon, draw_ray in Ed. destruct rs as [|r1 [|r2 [|r3 rs]]]; try discriminate.
  destruct (orb _ _).
  - destruct (draw_entrance _ _ _ _) as [[[xx yy] rs2]|]; [|discriminate]. destruct rs2; [discriminate|]. injection Ed as <- <-. auto.
  - destruct rs as [|r4 [|r5 rs]]; try discriminate. destruct rs; [discriminate|]. injection Ed as <- <-. auto.
Qed.

(** The transmitted attempt ends with code 1, iesc 1. *)
Lemma attempt_again x o s en junk lc y : attempt_ok x o s en junk lc y ->
  again (snd y) = false -> snd y = 1%Z /\ at_code (fst y) = 1%Z.
Proof.
  intros ((fuel & rs & rs' & Ka) & Kc) Ag. destruct y as [a i]. cbn [fst snd] in *.
  destruct (attempt_inv _ _ _ _ _ _ _ _ _ _ _ Ka) as (d & rs1 & ph & e' & _ & _ & _ & _ & _ & Kl).
  destruct (C91_codes _ _ _ _ _ _ _ _ _ _ _ _ _ Kl) as (Codes & _).
  unfold classify in Kc. destruct (Z.eqb_spec (at_code a) 1) as [E|E].
  - split; [|auto]. unfold bind, rd in Kc. destruct (nth_error _ _); [|discriminate]. destruct (nth_error (p_ext _) _); [|discriminate]. cbn in Kc.
    destruct (neqb _ _).
    + injection Kc as <-. destruct (nltb _ _); [discriminate|auto].
    + unfold quiet, within_e, bind in Kc.
      match type of Kc with context [within_pc_boundary ?r ?v] => pose proof (within_codes r v) as Hw; set (wr := within_pc_boundary r v) in * end.
      destruct (nleb _ _); cbn in Kc; injection Kc as <-; clear -Hw Ag; cbn in Hw; destruct Hw as [<-|[<-|[<-|[]]]]; cbn in *; auto; discriminate.
  - injection Kc as <-. exfalso. cbn in Codes. unfold again in Ag. destruct Codes as [H|[H|[H|[H|[H|[]]]]]]; rewrite <- H in Ag; try discriminate Ag; apply E; auto.
Qed.

Lemma again_not1 i : again i = true -> Z.eqb i 1 = false.
Proof. intros H. destruct (Z.eqb_spec i 1) as [->|]; auto. Qed.

Lemma job_exit x o s en junk lc l : job_ok x o s en junk lc l ->
  exists fs a, l = fs ++ [(a, 1%Z)] /\ at_code a = 1%Z /\ Forall (fun y => again (snd y) = true) fs /\
    length (filter (tallied CExit) l) = 1.
Proof.
  intros (F & fs & a & i & -> & Ag & Fs). apply Forall_app in F. destruct F as [_ F]. inversion F as [|? ? Oa _]; subst.
  destruct (attempt_again _ _ _ _ _ _ _ Oa Ag) as [E1 E2]. cbn in E1, E2. subst i. exists fs, a. repeat split; auto.
  rewrite filter_app, app_length. cbn. replace (length (filter (tallied CExit) fs)) with 0; [auto|].
  clear -Fs. induction Fs as [|y fs H _ IH]; cbn; auto. rewrite (again_not1 _ H). auto.
Qed.

Lemma simulation_jobs x o src en junk lc n dist streams jobs b r :
  simulation x o src en junk lc n dist streams jobs b r ->
  forall j, j < n -> job_ok x o src en junk lc (jobs j).
Proof.
  intros (Hn & Pd & Ls & Hj & _) j Lj.
  assert (Ij : In j (concat dist)) by (eapply Permutation_in; [apply Permutation_sym; exact Pd|]; apply in_seq; lia).
  apply in_concat in Ij. destruct Ij as (js & Ijs & Ij). destruct (In_nth_error _ _ Ijs) as (t & Et).
  destruct (nth_error streams t) as [rs|] eqn:Er.
  2:{ apply nth_error_None in Er. assert (t < length dist) by (apply nth_error_Some; congruence). lia. }
  destruct (Hj t js rs Et Er) as (k & fuel & K). apply jobs_run_ok in K. destruct K as (_ & _ & F).
  rewrite Forall_forall in F. apply F. apply in_map. auto.
Qed.

End Jobs.

Section Closed.
Context {T : Type} {N : Num T}.
Implicit Types (jobs : nat -> list (attempt T * Z)).

Lemma flat_map_copies ls (sel : action T -> list (leak_data T)) jobs dist copies :
  (forall js, sel (t_copy jobs js) = t_leaks ls jobs js) ->
  Permutation (map (t_copy jobs) dist) copies ->
  Permutation (flat_map (fun j => job_leaks ls (jobs j)) (concat dist)) (flat_map sel copies).
Proof.
  intros Hs P. rewrite <- (Permutation_flat_map sel P). clear P.
  induction dist as [|js dist IH]; cbn; auto. rewrite flat_map_app, Hs. apply Permutation_app; auto. 
Qed.

Lemma filter_length_perm {A} (f : A -> bool) l l' : Permutation l l' -> length (filter f l) = length (filter f l').
Proof. induction 1; cbn; repeat (destruct (f _); cbn); lia. Qed.

(** Shared memory at the end, whatever the schedule. *)
Lemma core o lc ne jobs dist progs ths s n :
  1 <= n -> Permutation (concat dist) (seq 0 n) ->
  threads_run o lc ne 0 jobs dist None = Ret (progs, None) ->
  steps (progs, Some (shared0 ne)) (ths, Some s) -> done ths ->
  exists z sumw, zmax_of o = Some z /\
    (forall j, j < n -> length (job_w ne (jobs j)) = ne /\ jobs j <> []) /\
    (forall c, total c (length dist) s = Z.of_nat (length (filter (tallied c) (launched jobs n)))) /\
    sh_irefl s = fold_right Z.add 0%Z (map (fun j => job_refl (jobs j)) (seq 0 n)) /\
    (forall j a i before, j < n -> rev (jobs j) = (a, i) :: before ->
       forall f e, In (AStore f j e) (stores z j a (job_w ne (jobs j))) -> sh_img s f j = Some e) /\
    (forall f j, ~ (j < n /\ In f (fields ne)) -> sh_img s f j = None) /\
    Permutation (map (t_w ne jobs) dist) sumw /\ sh_sumw s = fold_left vec_add sumw (repeat (nofZ 0) ne) /\
    (exists el il,
       Permutation (if lc then flat_map (job_leaks ph_ext) (map jobs (seq 0 n)) else []) el /\ sh_ext s = map Some el /\ sh_iext s = Z.of_nat (length el) /\
       Permutation (if lc then flat_map (job_leaks ph_int) (map jobs (seq 0 n)) else []) il /\ sh_int s = map Some il /\ sh_iint s = Z.of_nat (length il)).
Proof.
  intros Hn Pd Kt St D.
  assert (Nd : concat dist <> []).
  { intros E. rewrite E in Pd. apply Permutation_length in Pd. rewrite seq_length in Pd. cbn in Pd. lia. }
  destruct (threads_run_spec _ _ _ _ _ _ _ _ _ Kt) as (_ & _ & Fw & _).
  destruct (final_state _ _ _ _ _ _ _ _ _ Nd Kt St D) as (z & tr & s1 & Ez & Pt & R & Hs).
  assert (Fe : Forall early tr).
  { eapply Permutation_Forall; [exact Pt|]. apply early_acts. }
  destruct (early_run tr (shared0 ne) Fe) as (s1' & R' & H1 & H2 & H3 & H4 & H5 & H6 & H7 & H8 & H9 & H10 & H11 & H12).
  rewrite R in R'. injection R' as <-.
  (* the parts that the leak phase does not touch *)
  assert (Rest : sh_cnt s = sh_cnt s1 /\ sh_img s = sh_img s1 /\ sh_irefl s = sh_irefl s1 /\ sh_sumw s = sh_sumw s1 /\
     (exists el il,
       Permutation (if lc then flat_map (job_leaks ph_ext) (map jobs (seq 0 n)) else []) el /\ sh_ext s = map Some el /\ sh_iext s = Z.of_nat (length el) /\
       Permutation (if lc then flat_map (job_leaks ph_int) (map jobs (seq 0 n)) else []) il /\ sh_int s = map Some il /\ sh_iint s = Z.of_nat (length il))).
  { destruct lc.
    - destruct Hs as (copies & s2 & s3 & Pc & A & Rc & ->).
      cbn in A. rewrite H6 in A. cbn in A. injection A as <-.
      pose proof (flat_map_copies ph_ext c_ext jobs dist copies (fun _ => eq_refl) Pc) as Pe.
      pose proof (flat_map_copies ph_int c_int jobs dist copies (fun _ => eq_refl) Pc) as Pi.
      destruct (segs_leaks z ne jobs dist 0) as [L1 L2].
      rewrite (zsum_perm _ _ _ Pt) in L1; rewrite (zsum_perm _ _ _ Pt) in L2. rewrite L1 in H4. rewrite L2 in H5. cbn in H4, H5.
      assert (Fc : Forall is_copy copies).
      { eapply Permutation_Forall; [exact Pc|]. clear. induction dist; constructor; cbn; auto. }
      match type of Rc with TeamProofs.run _ ?s2 = _ =>
        destruct (copy_run copies s2 [] [] (Z.to_nat (sh_iext s1)) (Z.to_nat (sh_iint s1)) Fc) as (s3' & R3 & G1 & G2 & G3 & G4 & G5 & G6 & G7 & G8) end; cbn; auto.
      { rewrite H4, Nat2Z.id. rewrite (Permutation_length Pe). auto. }
      { rewrite H5, Nat2Z.id. rewrite (Permutation_length Pi). auto. }
      rewrite Rc in R3. injection R3 as <-. cbn in *. spl; auto.
      exists (flat_map c_ext copies), (flat_map c_int copies).
      rewrite H4, Nat2Z.id, (Permutation_length Pe), Nat.sub_diag, app_nil_r in G7.
      rewrite H5, Nat2Z.id, (Permutation_length Pi), Nat.sub_diag, app_nil_r in G8.
      assert (Q : forall ls, Permutation (flat_map (job_leaks ls) (map jobs (seq 0 n))) (flat_map (fun j => job_leaks ls (jobs j)) (concat dist))).
      { intros ls. rewrite (Permutation_flat_map _ Pd). clear. induction (seq 0 n); cbn; auto. apply Permutation_app; auto. }
      spl; auto.
      + rewrite (Q ph_ext). auto.
      + rewrite G5, H4, (Permutation_length Pe). auto.
      + rewrite (Q ph_int). auto.
      + rewrite G6, H5, (Permutation_length Pi). auto.
    - subst s. spl; auto. exists [], []. rewrite H4, H5, H7, H9.
      destruct (segs_noleaks z ne jobs dist 0) as [L1 L2]. rewrite (zsum_perm _ _ _ Pt) in L1; rewrite (zsum_perm _ _ _ Pt) in L2. rewrite L1, L2. cbn. spl; auto. }
  destruct Rest as (E1 & E2 & E3 & E4 & Leaks).
  assert (Fj : forall j, j < n -> length (job_w ne (jobs j)) = ne /\ jobs j <> []).
  { intros j Lj. rewrite Forall_forall in Fw. apply Fw. eapply Permutation_in; [apply Permutation_sym; exact Pd|]. apply in_seq. lia. }
  assert (Pl : Permutation (flat_map (fun j => map (fun f => (f, j)) (fields ne)) (seq 0 n)) (flat_map locs tr)).
  { rewrite <- (Permutation_flat_map locs Pt), locs_segs by auto. apply Permutation_flat_map. symmetry. auto. }
  exists z, (flat_map sums tr). spl; auto.
  - intros c. rewrite (total_spec c (length dist) tr s).
    + f_equal. rewrite <- (filter_length_perm (is_c c) _ _ Pt), segs_tally.
      rewrite (nsum_perm _ _ _ Pd). unfold launched. clear. induction (seq 0 n) as [|j l IH]; cbn; auto.
      rewrite filter_app, app_length, <- IH. reflexivity.
    + eapply Permutation_Forall; [exact Pt|]. apply segs_tids. lia.
    + intros t. rewrite E1, H1. cbn. lia.
  - rewrite E3, H2. cbn. rewrite <- (zsum_perm _ _ _ Pt), segs_refls. clear -Pd. induction Pd; cbn; lia.
  - intros j a i before Lj Er f e Ie. rewrite E2. apply H12.
    + eapply Permutation_NoDup; [exact Pl|]. apply locs_nodup, seq_NoDup.
    + eapply Permutation_in; [exact Pt|]. eapply stores_in_segs; eauto. eapply Permutation_in; [apply Permutation_sym; exact Pd|]. apply in_seq. lia.
  - intros f j Hf. rewrite E2, H11; [auto|]. intros I. apply Hf. apply (Permutation_in _ (Permutation_sym Pl)) in I.
    apply in_flat_map in I. destruct I as (k & Ik & I). apply in_map_iff in I. destruct I as (f' & E & If). injection E as -> ->. apply in_seq in Ik. split; [lia|auto].
  - rewrite <- (segs_sums z lc ne jobs dist 0). apply Permutation_flat_map. auto.
  - rewrite E4, H3. auto.
Qed.
End Closed.
