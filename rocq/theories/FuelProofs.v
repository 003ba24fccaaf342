(** * The step budget of the model does not influence what a call returns

    [grows m m']: whenever [m] ends within its budget, [m'] ends in the same way. *)
From Coq Require Import ZArith List Bool Lia.
From Verif Require Import Num Geometry SpecPhoton RM CapilModel TraceModel LaunchModel SourceModel RunModel.
Import ListNotations.

Section Grow.
Definition grows {A} (m m' : RM A) : Prop := forall e, m e = Fuel \/ m' e = m e.
Lemma grows_refl {A} (m : RM A) : grows m m.
Proof. intros e. right. reflexivity. Qed.
Lemma grows_nofuel {A} (m : RM A) : grows nofuel m.
Proof. intros e. left. reflexivity. Qed.
Lemma grows_bind {A B} (m m' : RM A) (f f' : A -> RM B) : grows m m' -> (forall a, grows (f a) (f' a)) -> grows (bind m f) (bind m' f').
Proof.
  intros H G e. unfold bind. destruct (H e) as [E|E]; rewrite E; [left; reflexivity|]. destruct (m e) as [[a e1]| |]; [apply G|right; reflexivity|right; reflexivity].
Qed.
Lemma grows_quiet {A} (m m' : RM A) : grows m m' -> grows (quiet m) (quiet m').
Proof.
  intros H e. unfold quiet. destruct (H None) as [E|E]; rewrite E; [left; reflexivity|]. right; reflexivity.
Qed.
Lemma grows_ret {A} (m m' : RM A) e a e' : grows m m' -> m e = Ret (a, e') -> m' e = Ret (a, e').
Proof. intros H K. destruct (H e) as [E|E]; congruence. Qed.
End Grow.

Ltac grow := repeat match goal with
  | |- grows ?m ?m => apply grows_refl
  | |- grows nofuel _ => apply grows_nofuel
  | |- grows (bind _ _) (bind _ _) => apply grows_bind; [|intros ?]
  | |- grows (quiet _) (quiet _) => apply grows_quiet
  | |- grows (if ?b then _ else _) _ => destruct b
  | |- grows (match ?b with _ => _ end) _ => destruct b
  end.

Section Fuel.
Context {T : Type} {N : Num T}.
Definition tgrows (tr tr' : tracer (T := T)) : Prop := forall ix ph axes, grows (tr ix ph axes) (tr' ix ph axes).

Lemma wall_walk_grows (o : optic T) ph nsh zmax q r n : forall m dist zid, n <= m ->
  grows (wall_walk o ph nsh zmax q r n dist zid) (wall_walk o ph nsh zmax q r m dist zid).
Proof.
  induction n as [|n IH]; intros m dist zid L; cbn [wall_walk]; [apply grows_nofuel|].
  destruct m as [|m]; [lia|]. cbn [wall_walk]. grow. apply IH. lia.
Qed.

Lemma wall_hex_grows (o : optic T) ph nsh zmax n : forall m dist zid q r inter, n <= m ->
  grows (wall_hex o ph nsh zmax n dist zid q r inter) (wall_hex o ph nsh zmax m dist zid q r inter).
Proof.
  induction n as [|n IH]; intros m dist zid q r inter L; [apply grows_nofuel|].
  destruct m as [|m]; [lia|]. cbn [wall_hex]. apply grows_bind; [apply wall_walk_grows; lia|intros w]. grow. apply IH. lia.
Qed.

Lemma trace_wall_grows (o : optic T) ph n m : n <= m -> grows (trace_wall n o ph) (trace_wall m o ph).
Proof. intros L. unfold trace_wall. grow. apply wall_hex_grows. exact L. Qed.

Lemma trace_many_grows tr tr' : tgrows tr tr' -> forall axes n iesc ix ph, grows (trace_many tr axes n iesc ix ph) (trace_many tr' axes n iesc ix ph).
Proof.
  intros H axes n. induction n as [|n IH]; intros iesc ix ph; cbn [trace_many]; [apply grows_refl|]. apply grows_bind; [apply H|intros [[c i] p]]. grow. apply IH.
Qed.

Lemma reflect_leaks_grows x tr tr' (o : optic T) ph wl wt dt r q : tgrows tr tr' -> grows (reflect_leaks x tr o ph wl wt dt r q) (reflect_leaks x tr' o ph wl wt dt r q).
Proof. intros H. unfold reflect_leaks. grow. apply trace_many_grows. exact H. Qed.

Lemma reflect_grows x tr tr' n m (o : optic T) ph sn ev0 lc : tgrows tr tr' -> n <= m -> grows (reflect x tr n o ph sn ev0 lc) (reflect x tr' m o ph sn ev0 lc).
Proof.
  intros H L. unfold reflect. destruct (nltb _ _); [apply grows_refl|]. apply grows_bind; [destruct lc; [apply trace_wall_grows; exact L|apply grows_refl]|intros a].
  grow. all: apply reflect_leaks_grows; exact H.
Qed.

Lemma trace_body_grows (f f' : photon T -> vec3 T -> RM (Z * photon T)) o junk : (forall ph sn, grows (f ph sn) (f' ph sn)) -> tgrows (trace_body f o junk) (trace_body f' o junk).
Proof. intros H ix ph axes. unfold trace_body. grow. apply H. Qed.

Lemma trace_grows x (o : optic T) junk lc n : forall m, n <= m -> tgrows (trace x o junk lc n) (trace x o junk lc m).
Proof.
  induction n as [|n IH]; intros m L; [intros ix ph axes; apply grows_nofuel|]. destruct m as [|m]; [lia|]. cbn [trace].
  apply trace_body_grows. intros ph sn. apply reflect_grows; [apply IH; lia|exact L].
Qed.

Lemma launch_wall_grows x (o : optic T) junk lc n m ph : n <= m -> grows (launch_wall x o junk lc n ph) (launch_wall x o junk lc m ph).
Proof.
  intros L. unfold launch_wall. apply grows_bind; [apply trace_wall_grows; exact L|intros a]. grow. apply trace_many_grows, trace_grows. exact L.
Qed.

Lemma launch_grows x (o : optic T) junk n m ph en w lc : n <= m -> grows (launch x o junk n ph en w lc) (launch x o junk m ph en w lc).
Proof.
  intros L. unfold launch. grow.
  - apply reflect_grows; [apply trace_grows; exact L|exact L].
  - apply launch_wall_grows. exact L.
  - apply trace_many_grows, trace_grows. exact L.
Qed.

Lemma attempt_grows x o s en junk lc n m (rs : list T) : n <= m -> grows (attempt_run x o s en junk lc n rs) (attempt_run x o s en junk lc m rs).
Proof. intros L. unfold attempt_run. grow. apply launch_grows. exact L. Qed.

Lemma job_grows x o s en junk lc n m k : forall k' (rs : list T), n <= m -> k <= k' -> grows (job_run k x o s en junk lc n rs) (job_run k' x o s en junk lc m rs).
Proof.
  induction k as [|k IH]; intros k' rs L L'; [apply grows_nofuel|]. destruct k' as [|k']; [lia|]. cbn [job_run].
  apply grows_bind; [apply attempt_grows; exact L|intros a]. grow. apply IH; lia.
Qed.

Lemma jobs_grows x o s en junk lc n m k k' c : forall (rs : list T), n <= m -> k <= k' -> grows (jobs_run k x o s en junk lc n rs c) (jobs_run k' x o s en junk lc m rs c).
Proof.
  induction c as [|c IH]; intros rs L L'; cbn [jobs_run]; [apply grows_refl|]. apply grows_bind; [apply job_grows; assumption|intros a]. grow. apply IH; assumption.
Qed.

(** Two calls that both end have the same outcome, whatever their budgets. *)
Lemma launch_once x (o : optic T) junk n m ph en w lc e r r' : launch x o junk n ph en w lc e = Ret r -> launch x o junk m ph en w lc e = Ret r' -> r = r'.
Proof.
  intros E E'. destruct r as [r e1], r' as [r' e2]. pose proof (grows_ret _ _ _ _ _ (launch_grows x o junk n (Nat.max n m) ph en w lc ltac:(lia)) E) as H.
  pose proof (grows_ret _ _ _ _ _ (launch_grows x o junk m (Nat.max n m) ph en w lc ltac:(lia)) E') as H'. congruence.
Qed.

Lemma launch_never_both x (o : optic T) junk n m ph en w lc e r : launch x o junk n ph en w lc e = Ret r -> launch x o junk m ph en w lc e <> Ub.
Proof.
  intros E E'. destruct r as [r e1]. pose proof (grows_ret _ _ _ _ _ (launch_grows x o junk n (Nat.max n m) ph en w lc ltac:(lia)) E) as H.
  destruct (launch_grows x o junk m (Nat.max n m) ph en w lc ltac:(lia) e) as [K|K]; congruence.
Qed.


End Fuel.
