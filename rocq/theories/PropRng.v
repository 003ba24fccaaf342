(** * Property theorems: new random generators (C139, C140)

    For every request to the operating system's answer [w : machine] (RngModel.v): what
    /dev/urandom delivers, or that it cannot be opened, and the clock. *)
From Coq Require Import ZArith List Bool Lia.
From Verif Require Import Num Mem SpecHeap ErrorModel ProfileModel Geometry ConsModel RngModel SpecRng.
Import ListNotations.
Local Notation ret := Mem.ret.
Local Notation bind := Mem.bind.

Section Any.
Context {T : Type}.
Implicit Types (s : st T).

Lemma seeded sd s : wf s -> memory_available s -> wp (rng_new_with_seed sd) (fun r s' => generator_created (u64 sd) r s s' /\ wf s' /\ memory_available s') s.
Proof.
  intros W A. unfold wp, rng_new_with_seed, bind, malloc, alloc, store. rewrite A. cbn [orc cnt nxt mem]. rewrite A. cbn [orc cnt nxt mem].
  assert (E1 : Nat.eqb (nxt s) (S (nxt s)) = false) by (apply Nat.eqb_neq; lia). assert (E2 : Nat.eqb (S (nxt s)) (nxt s) = false) by (apply Nat.eqb_neq; lia).
  unfold upd. repeat (rewrite ?E1, ?E2, ?Nat.eqb_refl; cbn [repeat List.length Nat.ltb Nat.leb mem nxt orc cnt set_nth]).
  split; [|split].
  - exists (nxt s), (S (nxt s)). split; [reflexivity|]. split; [split; [|split]|split; [|split]]; cbn [mem].
    + rewrite E1, Nat.eqb_refl. reflexivity.
    + rewrite Nat.eqb_refl. reflexivity.
    + lia.
    + apply W. lia.
    + apply W. lia.
    + intros l Hl. cbn [mem]. cbn [In] in Hl. rewrite !(proj2 (Nat.eqb_neq l _)) by (intros ->; tauto). reflexivity.
  - intros l Hl. cbn [mem nxt] in *. rewrite !(proj2 (Nat.eqb_neq l _)) by lia. apply W. lia.
  - exact A.
Qed.

Lemma little_endian_number bs : 8 <= List.length bs -> little_endian (firstn 8 bs) = number_of_bytes bs.
Proof.
  intros H. do 8 (destruct bs as [|? bs]; [cbn in H; lia|]). unfold number_of_bytes. cbn [firstn little_endian seq map nth fold_right Z.of_nat Pos.of_succ_nat Pos.succ].
  change (2 ^ (8 * 0))%Z with 1%Z. change (2 ^ (8 * 1))%Z with 256%Z. change (2 ^ (8 * 2))%Z with 65536%Z. change (2 ^ (8 * 3))%Z with 16777216%Z.
  change (2 ^ (8 * 4))%Z with 4294967296%Z. change (2 ^ (8 * 5))%Z with 1099511627776%Z. change (2 ^ (8 * 6))%Z with 281474976710656%Z. change (2 ^ (8 * 7))%Z with 72057594037927936%Z. ring.
Qed.

Lemma number_range bs : eight_bytes bs -> (0 <= number_of_bytes bs < 2 ^ 64)%Z.
Proof.
  intros [L B]. do 8 (destruct bs as [|? bs]; [cbn in L; lia|]). unfold number_of_bytes. cbn [seq map nth fold_right Z.of_nat Pos.of_succ_nat Pos.succ].
  change (2 ^ (8 * 0))%Z with 1%Z. change (2 ^ (8 * 1))%Z with 256%Z. change (2 ^ (8 * 2))%Z with 65536%Z. change (2 ^ (8 * 3))%Z with 16777216%Z.
  change (2 ^ (8 * 4))%Z with 4294967296%Z. change (2 ^ (8 * 5))%Z with 1099511627776%Z. change (2 ^ (8 * 6))%Z with 281474976710656%Z. change (2 ^ (8 * 7))%Z with 72057594037927936%Z. change (2 ^ 64)%Z with 18446744073709551616%Z.
  pose proof (B z) as H0. pose proof (B z0) as H1. pose proof (B z1) as H2. pose proof (B z2) as H3. pose proof (B z3) as H4. pose proof (B z4) as H5. pose proof (B z5) as H6. pose proof (B z6) as H7.
  cbn [In] in *. specialize (H0 ltac:(tauto)). specialize (H1 ltac:(tauto)). specialize (H2 ltac:(tauto)). specialize (H3 ltac:(tauto)). specialize (H4 ltac:(tauto)). specialize (H5 ltac:(tauto)). specialize (H6 ltac:(tauto)). specialize (H7 ltac:(tauto)). lia.
Qed.

(** C139: a generator is created with the given seed; *)
Theorem C139_given_seed :
  forall seed s, wf s -> memory_available s -> (0 <= seed < 2 ^ 64)%Z ->
    wp (rng_new_with_seed seed) (fun r s' => generator_created seed r s s') s.
Proof.
  intros seed s W A H. pose proof (seeded seed s W A) as G. unfold wp in *. destruct (rng_new_with_seed seed s) as [[r s']|]; [|exact G].
  unfold u64 in G. rewrite Z.mod_small in G by lia. tauto.
Qed.

(** with the number read from /dev/urandom if it can be opened and delivers eight bytes, *)
Theorem C139_device_partial :
  forall bs sec usec s, wf s -> memory_available s -> eight_bytes bs ->
    wp (rng_new_from (mkMachine (Some bs) sec usec))
       (fun r s' => snd r = 0 /\ generator_created (number_of_bytes bs) (fst r) s s') s.
Proof.
  intros bs sec usec s W A E. unfold rng_new_from, seed_read. cbn [urandom]. destruct E as [E B]. rewrite (proj2 (Nat.leb_le 8 _) E).
  unfold bind, Mem.ret. pose proof (seeded (little_endian (firstn 8 bs)) s W A) as G. unfold wp in *. destruct (rng_new_with_seed (little_endian (firstn 8 bs)) s) as [[r s']|]; [|exact G].
  cbn [fst snd]. split; [reflexivity|]. unfold u64 in G. rewrite little_endian_number in G by exact E.
  rewrite Z.mod_small in G by (apply number_range; split; assumption). tauto.
Qed.

(** and with a number below the microseconds of the clock if it cannot be opened and they are not 0. *)
Theorem C139_clock_partial :
  forall sec usec s, wf s -> memory_available s -> (0 <= sec)%Z -> (0 < usec < 1000000)%Z ->
    wp (rng_new_from (mkMachine None sec usec))
       (fun r s' => snd r = 0 /\ exists seed, (0 <= seed < usec)%Z /\ (usec | sec - seed)%Z /\ generator_created seed (fst r) s s') s.
Proof.
  intros sec usec s W A Hs Hu. unfold rng_new_from, long_rem. cbn [urandom tv_sec tv_usec]. rewrite (proj2 (Z.eqb_neq usec 0)) by lia.
  unfold bind, Mem.ret. pose proof (seeded (Z.rem sec usec) s W A) as G. unfold wp in *. destruct (rng_new_with_seed (Z.rem sec usec) s) as [[r s']|]; [|exact G].
  cbn [fst snd]. split; [reflexivity|]. pose proof (Z.rem_bound_pos sec usec Hs ltac:(lia)) as R. exists (Z.rem sec usec). split; [exact R|]. split.
  - exists (Z.quot sec usec). pose proof (Z.quot_rem sec usec ltac:(lia)). lia.
  - unfold u64 in G. rewrite Z.mod_small in G by lia. tauto.
Qed.

(** C139 is refuted as stated: at a full second without the device, and when the device delivers
    too little, the behaviour is undefined; *)
Theorem C139_full_second_refuted :
  forall sec s, rng_new_from (mkMachine None sec 0) s = UB.
Proof. reflexivity. Qed.

Theorem C139_short_read_refuted :
  forall bs sec usec s, List.length bs < 8 -> rng_new_from (mkMachine (Some bs) sec usec) s = UB.
Proof.
  intros bs sec usec s H. unfold rng_new_from, seed_read. cbn [urandom]. rewrite (proj2 (Nat.leb_gt 8 _) H). reflexivity.
Qed.

(** and without memory for one of its two parts, whatever the seed. *)
Theorem C139_memory_refuted :
  forall seed s, orc s (cnt s) = false \/ orc s (S (cnt s)) = false -> rng_new_with_seed seed s = UB.
Proof.
  intros seed s [H|H]; unfold rng_new_with_seed, bind, alloc.
  - rewrite H. unfold malloc, alloc. cbn [orc cnt nxt mem]. destruct (orc s (S (cnt s))); reflexivity.
  - destruct (orc s (cnt s)); unfold malloc, alloc; cbn [orc cnt nxt mem]; rewrite H; cbn [mem]; [|reflexivity].
    unfold store. cbn [mem]. unfold upd. rewrite Nat.eqb_refl. reflexivity.
Qed.

(** Two generators made in the same microsecond without the device have the same seed. *)
Theorem C139_same_clock :
  forall sec usec s1 s2 r1 s1' r2 s2' l1 l2 g1 g2 a b, 
    rng_new_from (mkMachine None sec usec) s1 = Ok (r1, s1') -> rng_new_from (mkMachine None sec usec) s2 = Ok (r2, s2') ->
    wf s1 -> wf s2 -> memory_available s1 -> memory_available s2 ->
    fst r1 = Some l1 -> fst r2 = Some l2 -> generator s1' l1 g1 a -> generator s2' l2 g2 b -> a = b.
Proof.
  intros sec usec s1 s2 r1 s1' r2 s2' l1 l2 g1 g2 a b E1 E2 W1 W2 A1 A2 F1 F2 G1 G2.
  unfold rng_new_from, long_rem in E1, E2. cbn [urandom tv_sec tv_usec] in E1, E2. destruct (Z.eqb usec 0); [discriminate|].
  unfold bind, Mem.ret in E1, E2. pose proof (seeded (Z.rem sec usec) s1 W1 A1) as H1. pose proof (seeded (Z.rem sec usec) s2 W2 A2) as H2. unfold wp in H1, H2.
  destruct (rng_new_with_seed (Z.rem sec usec) s1) as [[q1 t1]|]; [|discriminate]. destruct (rng_new_with_seed (Z.rem sec usec) s2) as [[q2 t2]|]; [|discriminate].
  injection E1 as <- <-. injection E2 as <- <-. cbn [fst] in *.
  destruct H1 as [(k1 & h1 & K1 & (M1 & N1 & _) & _) _]. destruct H2 as [(k2 & h2 & K2 & (M2 & N2 & _) & _) _].
  rewrite K1 in F1. rewrite K2 in F2. injection F1 as ->. injection F2 as ->.
  destruct G1 as (P1 & Q1 & _). destruct G2 as (P2 & Q2 & _). rewrite P1 in M1. rewrite P2 in M2. injection M1 as ->. injection M2 as ->. rewrite Q1 in N1. rewrite Q2 in N2. congruence.
Qed.

(** ** C140: the Python class Rng *)

(** A generator with the seed the caller gave; *)
Theorem C140_seed :
  forall w seed s, wf s -> memory_available s -> (0 <= seed < 2 ^ 64)%Z ->
    wp (py_rng_new w (SeedInt seed)) (fun o s' => exists r, o = RngObject r /\ generator_created seed r s s') s.
Proof.
  intros w seed s W A H. unfold py_rng_new. rewrite (proj2 (Z.leb_le 0 seed)) by lia. rewrite (proj2 (Z.ltb_lt seed _)) by lia. cbn [andb].
  pose proof (C139_given_seed seed s W A H) as G. unfold wp, bind, Mem.ret in *. destruct (rng_new_with_seed seed s) as [[r s']|]; [|exact G]. exists r. auto.
Qed.

(** an exception, and nothing done, for a number that is not an unsigned long and for what is no number; *)
Theorem C140_exceptions :
  forall w seed s, (forall z, seed = SeedInt z -> ~ (0 <= z < 2 ^ 64)%Z) -> seed <> SeedNone ->
    wp (py_rng_new w seed) (fun o s' => o = (match seed with SeedInt _ => RngOverflowError | _ => RngTypeError end) /\ s' = s) s.
Proof.
  intros w seed s H N. destruct seed as [|z|]; [contradiction| |split; reflexivity]. specialize (H z eq_refl). unfold py_rng_new.
  destruct (Z.leb_spec 0 z); destruct (Z.ltb_spec z (2 ^ 64)); cbn [andb]; try (split; reflexivity). lia.
Qed.

(** deleting the object gives back what its creation took. *)
Theorem C140_deleted :
  forall seed r s s', generator_created seed r s s' ->
    wp (py_rng_dealloc (RngObject r)) (fun _ s'' => same_memory s s'') s'.
Proof.
  intros seed r s s' (l & g & -> & (G1 & G2 & Ne) & F1 & F2 & S1). unfold py_rng_dealloc, rng_free, load_ptr, load, bind, Mem.ret, wp.
  rewrite G1. cbn [nth_error]. unfold free. rewrite G2. cbn [mem nxt orc cnt]. unfold upd. rewrite (proj2 (Nat.eqb_neq l g) Ne). rewrite G1. intros x. cbn [mem].
  destruct (Nat.eqb_spec x l) as [->|Nl]; [symmetry; exact F1|]. destruct (Nat.eqb_spec x g) as [->|Ng]; [symmetry; exact F2|]. apply S1. intros [E|[E|[]]]; auto.
Qed.

End Any.

(** The hypotheses can be met: a device that delivers the bytes 1 to 8; a clock. *)
Definition empty_memory : st Z := mkSt (fun _ => None) 0 (fun _ => true) 0.
Example C139_met : wf empty_memory /\ memory_available empty_memory /\ eight_bytes [1; 2; 3; 4; 5; 6; 7; 8]%Z /\ number_of_bytes [1; 2; 3; 4; 5; 6; 7; 8]%Z = 578437695752307201%Z.
Proof. split; [intros l _; reflexivity|]. split; [intros n; reflexivity|]. split; [|reflexivity]. split; [cbn; lia|]. cbn. intros b H. lia. Qed.

Example C139_clock_met : exists s', rng_new_from (mkMachine None 1700000000 123456) empty_memory = Ok ((Some 0, 0), s') /\ generator s' 0 1 10880%Z.
Proof. eexists. split; [reflexivity|]. split; [reflexivity|]. split; [reflexivity|discriminate]. Qed.

Example C140_met : exists s', py_rng_new (mkMachine None 0 0) (SeedInt 20000) empty_memory = Ok (RngObject (Some 0), s') /\ generator s' 0 1 20000%Z.
Proof. eexists. split; [reflexivity|]. split; [reflexivity|]. split; [reflexivity|discriminate]. Qed.

Print Assumptions C139_given_seed.
Print Assumptions C139_device_partial.
Print Assumptions C139_clock_partial.
Print Assumptions C139_full_second_refuted.
Print Assumptions C139_short_read_refuted.
Print Assumptions C139_memory_refuted.
Print Assumptions C139_same_clock.
Print Assumptions C140_seed.
Print Assumptions C140_exceptions.
Print Assumptions C140_deleted.
