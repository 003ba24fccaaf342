(** * The threads of a simulation: leak arrays and effects *)
From Coq Require Import ZArith List Bool Lia Permutation.
From Verif Require Import Num Geometry SpecPhoton RM CapilModel TraceModel LaunchModel RunModel TeamProofs.
Import ListNotations.

Ltac spl := repeat match goal with |- _ /\ _ => split end.

Section Bufs.
Context {T : Type} {N : Num T}.
Notation leak := (leak_data T).

(** The array holds exactly these records. *)
Definition holds (b : leakbuf T) (ls : list leak) : Prop :=
  lb_n b = length ls /\ exists m, lb_cells b = map Some ls ++ repeat None m.

Lemma holds_empty : holds lb_empty [].
Proof. split; [auto|]. exists O. auto. Qed.

Lemma put_app {A} (l1 l2 : list A) b a : put (l1 ++ b :: l2) (length l1) a = Some (l1 ++ a :: l2).
Proof. induction l1 as [|c l1 IH]; cbn; auto. rewrite IH. auto. Qed.

Lemma put_all_app {A} (src l1 : list A) m : length src <= m ->
  put_all (map Some l1 ++ repeat None m) (length l1) src = Some (map Some (l1 ++ src) ++ repeat None (m - length src)).
Proof.
  revert l1 m. induction src as [|a src IH]; intros l1 m L; cbn [put_all length].
  - rewrite app_nil_r, Nat.sub_0_r. auto.
  - destruct m as [|m]; cbn in L; [lia|]. cbn [repeat].
    rewrite <- (map_length Some l1) at 1. rewrite put_app.
    specialize (IH (l1 ++ [a]) m). rewrite app_length in IH. cbn in IH. rewrite Nat.add_1_r in IH.
    replace (map Some l1 ++ Some a :: repeat None m) with (map Some (l1 ++ [a]) ++ repeat None m)
      by (rewrite map_app, <- app_assoc; auto).
    rewrite IH by lia. rewrite <- app_assoc. reflexivity.
Qed.

Lemma grow_ge size n : size <= grow size n /\ n <= grow size n.
Proof.
  unfold grow. destruct (Nat.ltb_spec size n); [|lia]. destruct (Nat.eqb_spec size 0); [lia|].
  destruct (Nat.ltb_spec (size * 2) n); lia.
Qed.

Lemma lb_append_holds b ls src e : holds b ls ->
  exists b', lb_append b src e = Ret (b', e) /\ holds b' (ls ++ src).
Proof.
  intros (Hn & m & Hc). unfold lb_append. rewrite Hn, Hc.
  set (size := grow _ _). destruct (grow_ge (length (map Some ls ++ repeat None m)) (length ls + length src)) as [G1 G2].
  fold size in G1, G2. rewrite <- app_assoc, <- repeat_app.
  rewrite app_length, map_length, repeat_length in G1.
  rewrite app_length, map_length, repeat_length.
  replace (length ls + length src - length src) with (length ls) by lia.
  rewrite put_all_app by lia. eexists. split; [reflexivity|].
  split; cbn; [now rewrite app_length|]. eexists. reflexivity.
Qed.

Lemma lb_append_inv b ls src e b' e' : holds b ls -> lb_append b src e = Ret (b', e') -> holds b' (ls ++ src) /\ e' = e.
Proof. intros H K. destruct (lb_append_holds b ls src e H) as (b2 & E & H2). rewrite E in K. injection K as <- <-. auto. Qed.

Lemma read_all_map {A} (ls : list A) rest e : read_all (length ls) (map Some ls ++ rest) e = Ret (ls, e).
Proof. revert e. induction ls as [|a ls IH]; intros e; cbn; auto. unfold bind. rewrite IH. reflexivity. Qed.

Lemma read_all_holds b ls e : holds b ls -> read_all (lb_n b) (lb_cells b) e = Ret (ls, e).
Proof. intros (-> & m & ->). apply read_all_map. Qed.

Lemma read_all_inv {A} n (l : list (option A)) e r e' : read_all n l e = Ret (r, e') ->
  length r = n /\ e' = e /\ firstn n l = map Some r.
Proof.
  revert l e r e'. induction n as [|n IH]; intros l e r e' K; cbn in K; [injection K as <- <-; auto|].
  destruct l as [|[a|] l]; try discriminate. unfold bind in K. destruct (read_all n l e) as [[r1 e1]| |] eqn:E; try discriminate.
  injection K as <- <-. destruct (IH _ _ _ _ E) as (L & -> & F). cbn. rewrite F. auto.
Qed.

Lemma holds_nil_match b : holds b [] -> holds lb_empty [] /\ holds b [].
Proof. intros. split; auto. apply holds_empty. Qed.
End Bufs.

(** ** One thread *)
Section Thread.
Context {T : Type} {N : Num T}.
Notation leak := (leak_data T).
Implicit Types (l : list (attempt T * Z)) (a : attempt T).

(** The leaks that an attempt that was not transmitted leaves to a later one. *)
Definition left_over (ls : photon T -> list leak) (x : attempt T * Z) : list leak :=
  if (Z.eqb (snd x) 0 || Z.eqb (snd x) 2)%bool then ls (at_ph (fst x)) else [].
(** All leaks recorded for one job. *)
Definition job_leaks (ls : photon T -> list leak) l : list leak :=
  match rev l with [] => [] | (a, _) :: before => ls (at_ph a) ++ flat_map (left_over ls) (rev before) end.

Definition counts (tid : nat) l : list (action T) := flat_map (fun x => count_actions tid (fst x) (snd x)) l.

Lemma failed_run_spec lc tid l : forall lo e acts lo' e' E I,
  failed_run lc tid lo l e = Ret (acts, lo', e') -> holds (lo_etmp lo) E -> holds (lo_itmp lo) I ->
  e' = e /\ acts = counts tid l /\ lo_w lo' = lo_w lo /\ lo_ext lo' = lo_ext lo /\ lo_int lo' = lo_int lo /\
  holds (lo_etmp lo') (if lc then E ++ flat_map (left_over ph_ext) l else E) /\
  holds (lo_itmp lo') (if lc then I ++ flat_map (left_over ph_int) l else I).
Proof.
  induction l as [|[a iesc] l IH]; intros lo e acts lo' e' E I K HE HI.
  - cbn in K. injection K as <- <- <-. cbn. rewrite !app_nil_r. destruct lc; auto 10.
  - cbn [failed_run] in K. unfold bind in K.
    destruct (keep_leaks lc lo a iesc e) as [[lo1 e1]| |] eqn:Kl; try discriminate.
    destruct (failed_run lc tid lo1 l e1) as [[[acts1 lo2] e2]| |] eqn:Kf; try discriminate. cbn in K. injection K as <- <- <-.
    assert (HH : e1 = e /\ lo_w lo1 = lo_w lo /\ lo_ext lo1 = lo_ext lo /\ lo_int lo1 = lo_int lo /\
        holds (lo_etmp lo1) (if lc then E ++ left_over ph_ext (a, iesc) else E) /\
        holds (lo_itmp lo1) (if lc then I ++ left_over ph_int (a, iesc) else I)).
    { unfold keep_leaks in Kl. unfold left_over. cbn [fst snd]. destruct lc; cbn [andb] in Kl; [|injection Kl as <- <-; auto 10].
      destruct (orb _ _) eqn:Eo; [|injection Kl as <- <-; rewrite !app_nil_r; auto 10].
      unfold bind in Kl. destruct (lb_append (lo_etmp lo) _ e) as [[b1 e3]| |] eqn:L1; try discriminate.
      destruct (lb_append (lo_itmp lo) _ e3) as [[b2 e4]| |] eqn:L2; try discriminate. injection Kl as <- <-.
      destruct (lb_append_inv _ _ _ _ _ _ HE L1) as [H1 ->]. destruct (lb_append_inv _ _ _ _ _ _ HI L2) as [H2 ->]. cbn. auto 10. }
    destruct HH as (-> & E1 & E2 & E3 & H1 & H2).
    destruct (IH _ _ _ _ _ _ _ Kf H1 H2) as (-> & -> & F1 & F2 & F3 & F4 & F5).
    spl; try congruence; auto; cbn [flat_map counts].
    + destruct lc; rewrite ?app_assoc; auto.
    + destruct lc; rewrite ?app_assoc; auto.
Qed.

(** The stores of a transmitted photon. *)
Definition stores (z : T) (j : nat) a (w : list T) : list (action T) :=
  start_actions j a ++
  match exit_actions (mkOptic (mkProfile 0 [z] [] []) 0%Z z z [] []) j a w None with Ret (ex, _) => ex | _ => [] end.

Definition zmax_of (o : optic T) : option T := nth_error (p_z (o_prof o)) (p_nmax (o_prof o)).

Lemma exit_actions_spec o j a w e ex e' : exit_actions o j a w e = Ret (ex, e') ->
  exists z, zmax_of o = Some z /\ e' = e /\ stores z j a w = start_actions j a ++ ex.
Proof.
  unfold exit_actions, bind, rd, zmax_of, stores. intros K.
  destruct (nth_error _ _) as [z|] eqn:E; [|discriminate]. cbn in K. injection K as <- <-.
  exists z. spl; auto.
Qed.

Lemma exited_run_spec o lc ne tid j lo a iesc e acts lo' e' E I Et It :
  exited_run o lc ne tid j lo a iesc e = Ret (acts, lo', e') ->
  holds (lo_ext lo) E -> holds (lo_int lo) I -> holds (lo_etmp lo) Et -> holds (lo_itmp lo) It ->
  exists z w, zmax_of o = Some z /\ length w = ne /\ firstn ne (at_w a) = map Some w /\ e' = e /\
    acts = count_actions tid a iesc ++ stores z j a w ++ [ARefl (ph_irefl (at_ph a))] /\
    lo_w lo' = vec_add (lo_w lo) w /\
    holds (lo_ext lo') (if lc then E ++ ph_ext (at_ph a) ++ Et else E) /\
    holds (lo_int lo') (if lc then I ++ ph_int (at_ph a) ++ It else I) /\
    holds (lo_etmp lo') (if lc then [] else Et) /\ holds (lo_itmp lo') (if lc then [] else It).
Proof.
  intros K HE HI HEt HIt. unfold exited_run in K. unfold bind at 1 in K.
  destruct lc.
  - unfold bind at 1 in K. rewrite (read_all_holds _ _ _ HEt) in K. unfold bind at 1 in K. rewrite (read_all_holds _ _ _ HIt) in K.
    cbn [ret] in K. unfold ret in K. unfold bind at 1 in K.
    destruct (read_all ne (at_w a) e) as [[w e1]| |] eqn:Kw; try discriminate.
    destruct (read_all_inv _ _ _ _ _ Kw) as (Lw & -> & Fw).
    unfold bind at 1 in K. destruct (exit_actions o j a w e) as [[ex e2]| |] eqn:Kx; try discriminate.
    destruct (exit_actions_spec _ _ _ _ _ _ _ Kx) as (z & Ez & -> & Est).
    cbn [lo_w lo_ext lo_int lo_etmp lo_itmp] in K.
    unfold bind in K. destruct (lb_append (lo_ext lo) _ e) as [[b1 e3]| |] eqn:L1; try discriminate.
    destruct (lb_append (lo_int lo) _ e3) as [[b2 e4]| |] eqn:L2; try discriminate. injection K as <- <- <-.
    destruct (lb_append_inv _ _ _ _ _ _ HE L1) as [H1 ->]. destruct (lb_append_inv _ _ _ _ _ _ HI L2) as [H2 ->].
    exists z, w. cbn [lo_w lo_ext lo_int lo_etmp lo_itmp]. rewrite Est, <- app_assoc. spl; auto; [destruct Et; [apply HEt|apply holds_empty]|destruct It; [apply HIt|apply holds_empty]].
  - unfold ret in K. unfold bind at 1 in K.
    destruct (read_all ne (at_w a) e) as [[w e1]| |] eqn:Kw; try discriminate.
    destruct (read_all_inv _ _ _ _ _ Kw) as (Lw & -> & Fw).
    unfold bind at 1 in K. destruct (exit_actions o j a w e) as [[ex e2]| |] eqn:Kx; try discriminate.
    destruct (exit_actions_spec _ _ _ _ _ _ _ Kx) as (z & Ez & -> & Est).
    unfold bind in K. injection K as <- <- <-. exists z, w. cbn [lo_w lo_ext lo_int lo_etmp lo_itmp]. rewrite Est, <- app_assoc. spl; auto.
Qed.

(** The weights of the transmitted photon of a job. *)
Definition job_w (ne : nat) l : list T :=
  match rev l with [] => [] | (a, _) :: _ => flat_map (fun x => match x with Some v => [v] | None => [] end) (firstn ne (at_w a)) end.
Definition job_acts (z : T) (ne tid j : nat) l : list (action T) :=
  match rev l with
  | [] => []
  | (a, _) :: _ => counts tid l ++ stores z j a (job_w ne l) ++ [ARefl (ph_irefl (at_ph a))]
  end.

Lemma flat_map_some (w : list T) : flat_map (fun x => match x with Some v => [v] | None => [] end) (map Some w) = w.
Proof. induction w as [|a w IH]; cbn; congruence. Qed.

Lemma body_run_spec o lc ne tid j lo l e acts lo' e' E I :
  body_run o lc ne tid j lo l e = Ret (acts, lo', e') ->
  holds (lo_ext lo) E -> holds (lo_int lo) I -> holds (lo_etmp lo) [] -> holds (lo_itmp lo) [] ->
  exists z, zmax_of o = Some z /\ e' = e /\ acts = job_acts z ne tid j l /\ length (job_w ne l) = ne /\ l <> [] /\
    lo_w lo' = vec_add (lo_w lo) (job_w ne l) /\
    holds (lo_ext lo') (if lc then E ++ job_leaks ph_ext l else E) /\
    holds (lo_int lo') (if lc then I ++ job_leaks ph_int l else I) /\
    holds (lo_etmp lo') [] /\ holds (lo_itmp lo') [].
Proof.
  intros K HE HI HEt HIt. unfold body_run in K. unfold job_acts, job_leaks, job_w.
  assert (Er : rev (rev l) = l) by apply rev_involutive.
  destruct (rev l) as [|[a iesc] before]; [discriminate|]. cbn in Er.
  unfold bind in K. destruct (failed_run lc tid lo (rev before) e) as [[[acts1 lo1] e1]| |] eqn:Kf; try discriminate.
  destruct (exited_run o lc ne tid j lo1 a iesc e1) as [[[acts2 lo2] e2]| |] eqn:Kx; try discriminate. injection K as <- <- <-.
  destruct (failed_run_spec _ _ _ _ _ _ _ _ _ _ Kf HEt HIt) as (-> & -> & F1 & F2 & F3 & F4 & F5).
  rewrite <- F2 in HE. rewrite <- F3 in HI.
  destruct (exited_run_spec _ _ _ _ _ _ _ _ _ _ _ _ _ _ _ _ Kx HE HI F4 F5) as (z & w & Ez & Lw & Fw & -> & -> & G1 & G2 & G3 & G4 & G5).
  exists z. rewrite Fw, flat_map_some, Lw. spl; auto; try (destruct lc; assumption).
  - rewrite <- Er. unfold counts. rewrite flat_map_app. cbn [flat_map]. rewrite app_nil_r, <- !app_assoc. reflexivity.
  - rewrite <- Er. intros E0. destruct (app_cons_not_nil _ _ _ (eq_sym E0)).
  - rewrite G1, F1. auto.
Qed.

Lemma loop_run_spec o lc ne tid jobs js : forall lo e acts lo' e' E I,
  loop_run o lc ne tid jobs lo js e = Ret (acts, lo', e') ->
  holds (lo_ext lo) E -> holds (lo_int lo) I -> holds (lo_etmp lo) [] -> holds (lo_itmp lo) [] ->
  e' = e /\
  (forall z, zmax_of o = Some z -> acts = flat_map (fun j => job_acts z ne tid j (jobs j)) js) /\
  (js <> [] -> zmax_of o <> None) /\ (js = [] -> acts = []) /\
  Forall (fun j => length (job_w ne (jobs j)) = ne /\ jobs j <> []) js /\
  lo_w lo' = fold_left vec_add (map (fun j => job_w ne (jobs j)) js) (lo_w lo) /\
  holds (lo_ext lo') (if lc then E ++ flat_map (fun j => job_leaks ph_ext (jobs j)) js else E) /\
  holds (lo_int lo') (if lc then I ++ flat_map (fun j => job_leaks ph_int (jobs j)) js else I).
Proof.
  induction js as [|j js IH]; intros lo e acts lo' e' E I K HE HI HEt HIt.
  - cbn in K. injection K as <- <- <-. cbn. rewrite !app_nil_r. destruct lc; spl; auto; congruence.
  - cbn [loop_run] in K. unfold bind in K.
    destruct (body_run o lc ne tid j lo (jobs j) e) as [[[acts1 lo1] e1]| |] eqn:Kb; try discriminate.
    destruct (loop_run o lc ne tid jobs lo1 js e1) as [[[acts2 lo2] e2]| |] eqn:Kl; try discriminate. injection K as <- <- <-.
    destruct (body_run_spec _ _ _ _ _ _ _ _ _ _ _ _ _ Kb HE HI HEt HIt) as (z & Ez & -> & -> & Lw & Nj & G1 & G2 & G3 & G4 & G5).
    destruct (IH _ _ _ _ _ _ _ Kl G2 G3 G4 G5) as (-> & A1 & A2 & A3 & A4 & A5 & A6 & A7).
    split; [auto|]. split; [|split; [|split; [|split; [|split; [|split]]]]].
    + intros z' Ez'. rewrite Ez in Ez'. injection Ez' as <-. cbn. rewrite (A1 z Ez). auto.
    + congruence.
    + discriminate.
    + constructor; auto.
    + cbn. rewrite A5, G1. auto.
    + cbn. destruct lc; rewrite ?app_assoc; auto.
    + cbn. destruct lc; rewrite ?app_assoc; auto.
Qed.

(** The programs of the team. *)
Definition t_acts (z : T) ne jobs tid js := flat_map (fun j => job_acts z ne tid j (jobs j)) js.
Definition t_w ne (jobs : nat -> list (attempt T * Z)) js : list T :=
  fold_left vec_add (map (fun j => job_w ne (jobs j)) js) (repeat (nofZ 0) ne).
Definition t_leaks (ls : photon T -> list leak) (jobs : nat -> list (attempt T * Z)) js := flat_map (fun j => job_leaks ls (jobs j)) js.
Definition t_sum (lc : bool) ne jobs js : action T :=
  ASum (t_w ne jobs js)
    (if lc then Some (Z.of_nat (length (t_leaks ph_ext jobs js)), Z.of_nat (length (t_leaks ph_int jobs js))) else None).
Definition t_copy jobs js : action T := ACopy (t_leaks ph_ext jobs js) (t_leaks ph_int jobs js).

Lemma thread_run_spec o lc ne tid jobs js e p e' :
  thread_run o lc ne tid jobs js e = Ret (p, e') ->
  e' = e /\ (js <> [] -> zmax_of o <> None) /\
  Forall (fun j => length (job_w ne (jobs j)) = ne /\ jobs j <> []) js /\
  forall z, (zmax_of o = Some z \/ js = []) ->
  p = map Act (t_acts z ne jobs tid js ++ [t_sum lc ne jobs js]) ++
      (if lc then [Barrier; Act ASingle; Barrier; Act (t_copy jobs js)] else []).
Proof.
  intros K. unfold thread_run in K. unfold bind at 1 in K.
  destruct (loop_run o lc ne tid jobs (locals0 ne) js e) as [[[acts lo] e1]| |] eqn:Kl; try discriminate.
  destruct (loop_run_spec _ _ _ _ _ _ _ _ _ _ _ [] [] Kl holds_empty holds_empty holds_empty holds_empty)
    as (-> & A1 & A2 & A3 & A4 & A5 & A6 & A7). cbn [app] in A6, A7.
  assert (Ea : forall z, zmax_of o = Some z \/ js = [] -> acts = t_acts z ne jobs tid js).
  { intros z [Ez| ->]; [apply A1; auto|]. rewrite A3; auto. }
  destruct lc.
  - unfold bind in K. rewrite (read_all_holds _ _ _ A6), (read_all_holds _ _ _ A7) in K. injection K as <- <-.
    split; [auto|]. split; [auto|]. split; [auto|]. intros z Hz. rewrite (Ea z Hz), map_app, <- app_assoc. cbn.
    destruct A6 as (-> & _). destruct A7 as (-> & _). unfold t_sum, t_w. rewrite A5. reflexivity.
  - injection K as <- <-. split; [auto|]. split; [auto|]. split; [auto|]. intros z Hz. rewrite (Ea z Hz), map_app, app_nil_r. cbn.
    unfold t_sum, t_w. rewrite A5. reflexivity.
Qed.

Fixpoint segs_of (z : T) lc ne jobs tid (dist : list (list nat)) : list (list (action T)) :=
  match dist with
  | [] => []
  | js :: dist => (t_acts z ne jobs tid js ++ [t_sum lc ne jobs js]) :: segs_of z lc ne jobs (S tid) dist
  end.

Lemma segs_of_length z lc ne jobs tid dist : length (segs_of z lc ne jobs tid dist) = length dist.
Proof. revert tid. induction dist as [|js dist IH]; intros; cbn; auto. Qed.

Lemma threads_run_spec o lc ne jobs dist : forall tid e ps e',
  threads_run o lc ne tid jobs dist e = Ret (ps, e') ->
  e' = e /\ (concat dist <> [] -> zmax_of o <> None) /\
  Forall (fun j => length (job_w ne (jobs j)) = ne /\ jobs j <> []) (concat dist) /\
  forall z, (zmax_of o = Some z \/ concat dist = []) ->
  ps = zapp (map (map Act) (segs_of z lc ne jobs tid dist))
            (map (fun js => if lc then [Barrier; Act ASingle; Barrier; Act (t_copy jobs js)] else []) dist).
Proof.
  induction dist as [|js dist IH]; intros tid e ps e' K; cbn [threads_run] in K.
  - injection K as <- <-. cbn. spl; auto; congruence.
  - unfold bind in K. destruct (thread_run o lc ne tid jobs js e) as [[p e1]| |] eqn:Kt; try discriminate.
    destruct (threads_run o lc ne (S tid) jobs dist e1) as [[ps1 e2]| |] eqn:Kd; try discriminate. injection K as <- <-.
    destruct (thread_run_spec _ _ _ _ _ _ _ _ _ Kt) as (-> & B1 & B2 & B3).
    destruct (IH _ _ _ _ Kd) as (-> & C1 & C2 & C3). split; [auto|]. split; [|split].
    + intros Ne. destruct js as [|j js]; cbn in Ne; auto. apply B1. discriminate.
    + cbn. apply Forall_app. auto.
    + intros z Hz. cbn. rewrite (B3 z), (C3 z); auto.
      * destruct Hz as [Hz|Hz]; auto. right. cbn in Hz. apply app_eq_nil in Hz. tauto.
      * destruct Hz as [Hz|Hz]; auto. right. cbn in Hz. apply app_eq_nil in Hz. tauto.
Qed.

End Thread.
