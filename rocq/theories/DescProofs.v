(** * Proofs about polycap_description_new / free (heap level) *)
From Coq Require Import ZArith List Bool Lia String FunctionalExtensionality.
From Verif Require Import Num Mem SpecHeap ErrorModel ErrorProofs ProfileModel ProfileProofs Geometry ConsModel HeapLib.
Import ListNotations.

Section Desc.
Context {T : Type} {N : Num T}.
Implicit Types s : st T.

(** What the weight check does to the list of fractions: the array afterwards and
    whether it was accepted. *)
Fixpoint percent (ws : list T) (sum : T) : list T * option T :=
  match ws with
  | [] => ([], Some sum)
  | w :: ws =>
      let y := (w / #100)%num in
      if nltb y (#0)%num then (y :: ws, None)
      else let '(r, o) := percent ws (sum + y)%num in (y :: r, o)
  end.
Definition sum_of (ws : list T) : T := fold_left nadd ws (#0)%num.
Definition norm_weights (ws : list T) : list T * bool :=
  if nltb (#1)%num (sum_of ws) then
    let '(r, o) := percent ws (#0)%num in
    (r, match o with None => false | Some sum => neqb sum (#1)%num end)
  else (ws, neqb (sum_of ws) (#1)%num).

Lemma percent_length ws : forall a, List.length (fst (percent ws a)) = List.length ws.
Proof.
  induction ws as [|w ws IH]; intros a; cbn; auto. destruct (nltb _ _); cbn; auto.
  specialize (IH (a + w / #100)%num). destruct (percent ws _). cbn in *. lia.
Qed.
Lemma norm_weights_length ws : List.length (fst (norm_weights ws)) = List.length ws.
Proof.
  unfold norm_weights. destruct (nltb _ _); auto. pose proof (percent_length ws (#0)%num).
  destruct (percent ws _). exact H.
Qed.

Lemma wp_sum_loop l (all : list T) : forall n pre rest a (Q : T -> st T -> Prop) s,
  all = pre ++ rest -> n = List.length rest ->
  mem s l = Some (List.map Vdbl all) ->
  Q (fold_left nadd rest a) s -> wp (sum_loop n (List.length pre) (Some l) a) Q s.
Proof.
  induction n as [|n IH]; intros pre rest a Q s E En Hl HQ; destruct rest as [|x rest]; cbn in En; try lia.
  - apply wp_ret. exact HQ.
  - cbn [sum_loop]. apply wp_bind. eapply wp_load_dbl; [exact Hl | |].
    + rewrite E, map_app, nth_error_app2; rewrite map_length; [|lia]. rewrite Nat.sub_diag. reflexivity.
    + specialize (IH (pre ++ [x]) rest (a + x)%num Q s). rewrite app_length in IH. cbn in IH.
      replace (S (List.length pre)) with (List.length pre + 1) by lia. apply IH; auto; try lia.
      now rewrite <- app_assoc.
Qed.

Definition some_report err c s1 s' : Prop :=
  wf s' /\ orc s' = orc s1 /\ nxt s1 <= nxt s' /\
  (forall l b, mem s1 l = Some b -> err <> Some l -> mem s' l = Some b) /\
  exists m, error_reported err c m s1 s'.

Definition put s l (ws : list T) : st T := setmem s (upd (mem s) l (Some (List.map Vdbl ws))).

Lemma wf_put s l ws : wf s -> mem s l <> None -> wf (put s l ws).
Proof.
  intros Hwf Hl x Hx. cbn in *. rewrite upd_other; [apply Hwf, Hx|]. intros ->. apply Hl, Hwf, Hx.
Qed.

Lemma wp_percent_loop l err : forall rest n pre a (Q : option T -> st T -> Prop) s,
  n = List.length rest -> wf s -> err <> Some l -> legal_err s err ->
  (forall r k, percent rest a = (r, None) -> err <> None -> orc s k = true) ->
  mem s l = Some (List.map Vdbl (pre ++ rest)) ->
  (forall r o, percent rest a = (r, Some o) -> Q (Some o) (put s l (pre ++ r))) ->
  (forall r s', percent rest a = (r, None) ->
     some_report err POLYCAP_ERROR_INVALID_ARGUMENT (put s l (pre ++ r)) s' -> Q None s') ->
  wp (percent_loop n (List.length pre) (Some l) a err) Q s.
Proof.
  induction rest as [|x rest IH]; intros n pre a Q s En Hwf Hne Hle Ho Hl HQ1 HQ2; subst n; cbn [List.length percent_loop].
  - apply wp_ret. specialize (HQ1 [] a eq_refl). unfold put in HQ1. rewrite app_nil_r in *.
    rewrite upd_id in HQ1 by auto. now rewrite setmem_id in HQ1.
  - assert (Hn : nth_error (List.map Vdbl (pre ++ x :: rest)) (List.length pre) = Some (Vdbl x)).
    { rewrite map_app, nth_error_app2; rewrite map_length; [|lia]. rewrite Nat.sub_diag. reflexivity. }
    set (y := (x / #100)%num) in *.
    assert (E1 : set_nth (List.map Vdbl (pre ++ x :: rest)) (List.length pre) (Vdbl y) = List.map Vdbl (pre ++ y :: rest)).
    { rewrite !map_app. cbn [List.map]. rewrite <- (map_length (@Vdbl T) pre). apply set_nth_app. }
    apply wp_bind. eapply wp_load_dbl; [exact Hl|exact Hn|].
    apply wp_bind. eapply wp_store; [exact Hl| rewrite map_length, app_length; cbn; lia |].
    fold y. rewrite E1.
    change (mkSt (upd (mem s) l (Some (List.map Vdbl (pre ++ y :: rest)))) (nxt s) (orc s) (cnt s))
      with (put s l (pre ++ y :: rest)).
    assert (Wf1 : wf (put s l (pre ++ y :: rest))) by (apply wf_put; auto; congruence).
    assert (Hl1 : mem (put s l (pre ++ y :: rest)) l = Some (List.map Vdbl (pre ++ y :: rest)))
      by (cbn; now rewrite upd_same).
    assert (Le1 : legal_err (put s l (pre ++ y :: rest)) err).
    { destruct err as [e|]; [|exact I]. destruct Hle as [q Hq]. exists q. unfold slot_holds in *. cbn.
      rewrite upd_other by congruence. exact Hq. }
    apply wp_bind. eapply wp_load_dbl; [exact Hl1| |].
    { rewrite map_app, nth_error_app2; rewrite map_length; [|lia]. rewrite Nat.sub_diag. reflexivity. }
    cbn [percent] in HQ1, HQ2, Ho. fold y in HQ1, HQ2, Ho.
    destruct (nltb y (#0)%num) eqn:Ey.
    + apply wp_bind.
      apply (wp_report true err POLYCAP_ERROR_INVALID_ARGUMENT); auto.
      * intros He. cbn. split; eapply Ho; eauto.
      * intros s' W O Nx P R. apply wp_ret. eapply HQ2; [reflexivity|].
        repeat split; auto. eauto.
    + specialize (IH (List.length rest) (pre ++ [y]) (a + y)%num Q (put s l (pre ++ y :: rest)) eq_refl Wf1 Hne Le1).
      rewrite app_length in IH. cbn [List.length] in IH.
      replace (List.length pre + 1) with (S (List.length pre)) in IH by lia. apply IH.
      * intros r k Er He. cbn [orc put setmem]. rewrite Er in Ho. eapply Ho; eauto.
      * rewrite <- app_assoc. exact Hl1.
      * intros r o Er. rewrite <- app_assoc. cbn [app]. unfold put, setmem. cbn. rewrite upd_shadow.
        destruct (percent rest (a + y)%num) as [r' o'] eqn:E2. injection Er as -> ->. eapply HQ1. reflexivity.
      * intros r s' Er. rewrite <- app_assoc. cbn [app]. unfold put, setmem. cbn. rewrite upd_shadow.
        destruct (percent rest (a + y)%num) as [r' o'] eqn:E2. injection Er as -> ->. eapply HQ2. reflexivity.
Qed.

Lemma wp_check_weight l err ws (Q : unit -> st T -> Prop) s :
  wf s -> err <> Some l -> legal_err s err -> (forall k, snd (norm_weights ws) = false -> err <> None -> orc s k = true) ->
  mem s l = Some (List.map Vdbl ws) ->
  (snd (norm_weights ws) = true -> Q tt (put s l (fst (norm_weights ws)))) ->
  (forall s', snd (norm_weights ws) = false ->
     some_report err POLYCAP_ERROR_INVALID_ARGUMENT (put s l (fst (norm_weights ws))) s' -> Q tt s') ->
  wp (check_weight (List.length ws) (Some l) err) Q s.
Proof.
  intros Hwf Hne Hle Ho Hl HQ1 HQ2. unfold check_weight. apply wp_bind.
  apply (wp_sum_loop l ws (List.length ws) [] ws); auto. fold (sum_of ws).
  apply wp_bind. unfold norm_weights in *. destruct (nltb (#1)%num (sum_of ws)) eqn:E1.
  - apply (wp_percent_loop l err ws (List.length ws) []); auto.
    + intros r k Er He. rewrite Er in Ho. cbn in Ho. auto.
    + intros r o Er. rewrite Er in *. cbn [fst snd app] in *.
      destruct (neqb o (#1)%num) eqn:Eo.
      * apply wp_ret. auto.
      * assert (Wf1 : wf (put s l r)) by (apply wf_put; auto; congruence).
        apply (wp_report true err POLYCAP_ERROR_INVALID_ARGUMENT); auto.
        -- destruct err as [e|]; [|exact I]. destruct Hle as [q Hq]. exists q. unfold slot_holds in *. cbn.
           rewrite upd_other by congruence. exact Hq.
        -- intros He. cbn. split; apply Ho; auto.
        -- intros s' W O Nx P R. apply HQ2; auto. repeat split; auto. eauto.
    + intros r s' Er. rewrite Er in *. cbn [fst snd app] in *. intros R. apply wp_ret. auto.
  - apply wp_ret. cbn [fst snd] in *.
    assert (E : put s l ws = s) by (unfold put; rewrite upd_id by auto; apply setmem_id). rewrite E in *.
    destruct (neqb (sum_of ws) (#1)%num) eqn:Eo.
    + apply wp_ret. auto.
    + apply (wp_report true err POLYCAP_ERROR_INVALID_ARGUMENT); auto.
      intros s' W O Nx P R. apply HQ2; auto. repeat split; auto. eauto.
Qed.

(** ** Validation of a profile in memory *)

Lemma wp_validate_heap q qz qc qe n zs cs es n_cap v err (Q : Z -> st T -> Prop) s :
  mem s q = Some [Vint n; Vptr (Some qz); Vptr (Some qc); Vptr (Some qe)] ->
  dbl_array s qz zs -> dbl_array s qc cs -> dbl_array s qe es ->
  (0 <= n)%Z -> List.length zs = Z.to_nat (n + 1) -> List.length cs = Z.to_nat (n + 1) -> List.length es = Z.to_nat (n + 1) ->
  profile_validate (mkProfile (Z.to_nat n) zs cs es) n_cap = Some v ->
  (v <> -1 -> Q v s)%Z ->
  (v = -1 -> wp (bind (set_error_literal err POLYCAP_ERROR_INVALID_ARGUMENT
               (Some "polycap_photon_within_pc_boundary: polycap_radius must be greater than 0"%string)) (fun _ => ret (-1)%Z)) Q s)%Z ->
  wp (validate_heap (Some q) n_cap err) Q s.
Proof.
  intros Hq Az Ac Ae Hn Lz Lc Le Hv HQ1 HQ2. unfold validate_heap.
  repeat (apply wp_bind; first [eapply wp_load_int; [exact Hq|reflexivity|] | eapply wp_load_ptr; [exact Hq|reflexivity|]]).
  apply wp_bind. eapply wp_read_all; [exact Az|auto|].
  apply wp_bind. eapply wp_read_all; [exact Ac|auto|].
  apply wp_bind. eapply wp_read_all; [exact Ae|auto|].
  rewrite Hv. destruct (Z.eqb_spec v (-1)) as [->|Hne].
  - auto.
  - apply wp_bind, wp_ret, wp_ret. auto.
Qed.

(** ** Second half of polycap_description_new *)

Lemma fresh_ne s l b x : wf s -> mem s l = Some b -> nxt s <= x -> l <> x.
Proof. intros W H Hx ->. rewrite (W _ Hx) in H. discriminate. Qed.

Lemma dp_to_validate d f0 f1 f2 f3 f4 f5 f6 f7 diz dwi p lz lc le n zs cs es n_cap err (Q : ptr -> st T -> Prop) s :
  wf s -> allocs_succeed 4 s ->
  mem s d = Some [f0; f1; f2; f3; f4; f5; f6; f7] ->
  mem s p = Some [Vint n; Vptr (Some lz); Vptr (Some lc); Vptr (Some le)] ->
  dbl_array s lz zs -> dbl_array s lc cs -> dbl_array s le es ->
  d <> p -> d <> lz -> d <> lc -> d <> le ->
  (0 <= n)%Z -> List.length zs = Z.to_nat (n + 1) -> List.length cs = Z.to_nat (n + 1) -> List.length es = Z.to_nat (n + 1) ->
  (forall q qz qc qe s',
     q = nxt s -> qz = S (nxt s) -> qc = S (S (nxt s)) -> qe = S (S (S (nxt s))) ->
     s' = mkSt (upd (upd (upd (upd (upd (mem s)
            d (Some [f0; f1; Vdbl (open_area_num n_cap (nth 0 cs (#0)%num) (nth 0 es (#0)%num)); f3; f4; f5; f6; Vptr (Some q)]))
            q (Some [Vint n; Vptr (Some qz); Vptr (Some qc); Vptr (Some qe)]))
            qz (Some (List.map Vdbl zs))) qc (Some (List.map Vdbl cs))) qe (Some (List.map Vdbl es)))
          (4 + nxt s) (orc s) (4 + cnt s) ->
     wp (bind (validate_heap (Some q) n_cap err) (fun v => 
         if negb (Z.eqb v 1) then
                    bind (clear_error err) (fun _ =>
                    bind (invalid err "polycap_description_new: description->profile is faulty. Some capillary coordinates are outside of the external radius.")
                    (fun _ => bind (free diz) (fun _ => bind (free dwi) (fun _ => bind (free (Some qc)) (fun _ => bind (free (Some qz)) 
                    (fun _ => bind (free (Some q)) (fun _ => bind (free (Some d)) (fun _ => ret NULL)))))))) else ret (Some d))) Q s') ->
  wp (description_profile (Some d) diz dwi (Some p) n_cap err) Q s.
Proof.
  intros Hwf Ho Hd Hp Az Ac Ae d1 d2 d3 d4 Hn Lz Lc Le HQ. unfold dbl_array in *.
  pose proof (Ho 0 ltac:(lia)) as O0. pose proof (Ho 1 ltac:(lia)) as O1.
  pose proof (Ho 2 ltac:(lia)) as O2. pose proof (Ho 3 ltac:(lia)) as O3.
  replace (cnt s + 0) with (cnt s) in O0 by lia. replace (cnt s + 1) with (S (cnt s)) in O1 by lia.
  replace (cnt s + 2) with (S (S (cnt s))) in O2 by lia. replace (cnt s + 3) with (S (S (S (cnt s)))) in O3 by lia.
  pose proof (live_lt _ _ _ Hwf Hd). pose proof (live_lt _ _ _ Hwf Hp).
  pose proof (live_lt _ _ _ Hwf Az). pose proof (live_lt _ _ _ Hwf Ac). pose proof (live_lt _ _ _ Hwf Ae).
  unfold description_profile. repeat (wstep; try congruence).
  eapply wp_copy_points with (zs := zs) (cs := cs) (es := es); auto.
  - repeat constructor; cbn; lia.
  - cbn. intros l [<-|[<-|[<-|[]]]]; lia.
  - cbn [mem]. upd_simpl. reflexivity.
  - cbn [mem]. upd_simpl. reflexivity.
  - cbn [mem]. upd_simpl. reflexivity.
  - unfold dbl_array; cbn [mem]. upd_simpl. assumption.
  - unfold dbl_array; cbn [mem]. upd_simpl. assumption.
  - unfold dbl_array; cbn [mem]. upd_simpl. assumption.
  - destruct cs as [|c0 cs']; [cbn in Lc; lia|]. destruct es as [|e0 es']; [cbn in Le; lia|].
    cbn [setmem mem nxt orc cnt nth].
    unfold setmem. do 6 wstep.
    eapply HQ; try reflexivity. f_equal.
    extensionality x. unfold upd.
    repeat match goal with |- context [Nat.eqb x ?a] => destruct (Nat.eqb_spec x a); try lia end; try reflexivity; try congruence.
Qed.

(** ** The argument checks *)

Lemma wp_reject (c : bool) err m (k : M T ptr) (Q : ptr -> st T -> Prop) s :
  (c = true -> wp (bind (report_fn true err POLYCAP_ERROR_INVALID_ARGUMENT m) (fun _ => ret NULL)) Q s) ->
  (c = false -> wp k Q s) ->
  wp (reject_if c err m k) Q s.
Proof. unfold reject_if. destruct c; auto. Qed.

Definition iz_in_range (z : Z) : bool := negb (Z.ltb z 1 || Z.ltb 111 z).

Lemma wp_iz_loop l (all : list Z) : forall rest n pre (Q : bool -> st T -> Prop) s,
  n <= List.length rest -> all = pre ++ rest ->
  int_array s l all ->
  Q (forallb iz_in_range (firstn n rest)) s -> wp (iz_loop n (List.length pre) (Some l)) Q s.
Proof.
  induction rest as [|x rest IH]; intros n pre Q s En E Hl HQ.
  - destruct n; [|cbn in En; lia]. apply wp_ret. exact HQ.
  - destruct n as [|n]; [apply wp_ret; exact HQ|]. cbn [iz_loop].
    apply wp_bind. eapply wp_load_int; [exact Hl | |].
    { rewrite E, map_app, nth_error_app2; rewrite map_length; [|lia]. rewrite Nat.sub_diag. reflexivity. }
    cbn [firstn forallb] in HQ. unfold iz_in_range at 1 in HQ.
    destruct (Z.ltb x 1 || Z.ltb 111 x); cbn [negb andb] in HQ.
    + apply wp_ret. exact HQ.
    + specialize (IH n (pre ++ [x]) Q s). rewrite app_length in IH. cbn [List.length] in IH, En.
      replace (S (List.length pre)) with (List.length pre + 1) by lia. apply IH; auto; try lia.
      now rewrite <- app_assoc.
Qed.

Definition desc_args_ok (sig : T) (n_cap : Z) (izs : list Z) (dens : T) : Prop :=
  nltb sig (#0)%num = false /\ (1 < n_cap)%Z /\ 1 <= List.length izs /\
  nleb dens (#0)%num = false /\ forallb iz_in_range izs = true.

(** The rejected calls: NULL array, or a value out of range. *)
Lemma dn_badarg p sig n_cap nelem iz wi dens err (izs : list Z) s :
  wf s -> legal_err s err -> (err <> None -> orc s (cnt s) = true /\ orc s (S (cnt s)) = true) ->
  (forall l, iz = Some l -> int_array s l izs /\ nelem <= List.length izs) ->
  (nltb sig (#0)%num = true \/ (n_cap <= 1)%Z \/ nelem < 1 \/ iz = None \/ wi = None \/
   nleb dens (#0)%num = true \/ forallb iz_in_range (firstn nelem izs) = false) ->
  wp (description_new p sig n_cap nelem iz wi dens err)
     (fun r s' => r = None /\ exists m, error_reported err POLYCAP_ERROR_INVALID_ARGUMENT m s s') s.
Proof.
  intros Hwf Hle Ho Hiz Hbad.
  assert (R : forall m, wp (bind (report_fn true err POLYCAP_ERROR_INVALID_ARGUMENT m) (fun _ => ret NULL))
    (fun r s' => r = None /\ exists m, error_reported err POLYCAP_ERROR_INVALID_ARGUMENT m s s') s).
  { intros m. apply wp_bind. apply wp_report; auto. intros. apply wp_ret. eauto. }
  unfold description_new.
  apply wp_reject; [auto|intros B1]. apply wp_reject; [auto|intros B2]. apply wp_reject; [auto|intros B3].
  apply wp_reject; [auto|intros B4]. apply wp_reject; [auto|intros B5]. apply wp_reject; [auto|intros B6].
  destruct iz as [l|]; [|discriminate]. destruct wi as [w|]; [|discriminate].
  destruct (Hiz l eq_refl) as [A L].
  apply wp_bind. apply (wp_iz_loop l izs izs nelem []); auto.
  apply wp_reject; [auto|intros B7]. exfalso.
  apply Z.leb_gt in B2. apply Nat.ltb_ge in B3.
  destruct Hbad as [H|[H|[H|[H|[H|[H|H]]]]]]; try congruence; try lia.
  rewrite H in B7. discriminate.
Qed.

(** ** polycap_description_new up to the copy of the profile *)
Lemma dn_to_profile p sig n_cap nelem liz lwi (izs : list Z) (wis : list T) dens err (Q : ptr -> st T -> Prop) s :
  wf s -> legal_err s err -> allocs_succeed 3 s -> (forall k, snd (norm_weights wis) = false -> err <> None -> orc s k = true) ->
  int_array s liz izs -> dbl_array s lwi wis ->
  nelem = List.length izs -> nelem = List.length wis -> desc_args_ok sig n_cap izs dens ->
  (forall d diz dwi s1,
     d = nxt s -> diz = S (nxt s) -> dwi = S (S (nxt s)) ->
     s1 = mkSt (upd (upd (upd (mem s)
            d (Some [Vdbl sig; Vint n_cap; Vdbl (#0)%num; Vint (Z.of_nat nelem); Vptr (Some diz); Vptr (Some dwi);
                     Vdbl dens; Vptr NULL]))
            diz (Some (List.map Vint izs))) dwi (Some (List.map Vdbl (fst (norm_weights wis)))))
          (3 + nxt s) (orc s) (3 + cnt s) ->
     wf s1 /\ legal_err s1 err /\ err <> Some dwi ->
     (snd (norm_weights wis) = true -> wp (description_profile (Some d) (Some diz) (Some dwi) p n_cap err) Q s1) /\
     (snd (norm_weights wis) = false -> forall s2, some_report err POLYCAP_ERROR_INVALID_ARGUMENT s1 s2 ->
        wp (description_profile (Some d) (Some diz) (Some dwi) p n_cap err) Q s2)) ->
  wp (description_new p sig n_cap nelem (Some liz) (Some lwi) dens err) Q s.
Proof.
  intros Hwf Hle Ho Herr Aiz Awi En Ew (B1 & B2 & B3 & B4 & B5) HQ.
  pose proof (Ho 0 ltac:(lia)) as O0. pose proof (Ho 1 ltac:(lia)) as O1. pose proof (Ho 2 ltac:(lia)) as O2.
  replace (cnt s + 0) with (cnt s) in O0 by lia. replace (cnt s + 1) with (S (cnt s)) in O1 by lia.
  replace (cnt s + 2) with (S (S (cnt s))) in O2 by lia.
  pose proof (live_lt _ _ _ Hwf Aiz). pose proof (live_lt _ _ _ Hwf Awi).
  unfold description_new.
  apply wp_reject; [congruence|intros _]. apply wp_reject; [intros H1; apply Z.leb_le in H1; lia|intros _].
  apply wp_reject; [intros H1; apply Nat.ltb_lt in H1; lia|intros _].
  apply wp_reject; [discriminate|intros _]. apply wp_reject; [discriminate|intros _].
  apply wp_reject; [congruence|intros _].
  apply wp_bind. apply (wp_iz_loop liz izs izs nelem []); auto; [lia|].
  rewrite En at 1. rewrite firstn_all, B5. apply wp_reject; [discriminate|intros _].
  repeat (wstep; try congruence).
  eapply wp_copy_elems with (izs := izs) (wis := wis); auto; try lia.
  { cbn [mem]. upd_simpl. reflexivity. }
  { cbn [mem]. upd_simpl. reflexivity. }
  { unfold int_array; cbn [mem]; upd_simpl; assumption. }
  { unfold dbl_array; cbn [mem]; upd_simpl; assumption. }
  unfold setmem. cbn [mem nxt orc cnt].
  apply wp_bind. rewrite Ew at 1.
  assert (HE : forall l, nxt s <= l -> err <> Some l).
  { intros l Hl ->. destruct Hle as [q Hq]. pose proof (live_lt _ _ _ Hwf Hq). lia. }
  match goal with |- wp _ _ ?s0 => set (s0' := s0) end.
  assert (E : put s0' (S (S (nxt s))) (fst (norm_weights wis)) =
     mkSt (upd (upd (upd (mem s)
            (nxt s) (Some [Vdbl sig; Vint n_cap; Vdbl (#0)%num; Vint (Z.of_nat nelem); Vptr (Some (S (nxt s))); Vptr (Some (S (S (nxt s))));
                     Vdbl dens; Vptr NULL]))
            (S (nxt s)) (Some (List.map Vint izs))) (S (S (nxt s))) (Some (List.map Vdbl (fst (norm_weights wis)))))
          (3 + nxt s) (orc s) (3 + cnt s)).
  { unfold s0', put, setmem. cbn [mem nxt orc cnt]. f_equal. extensionality x. unfold upd.
    repeat match goal with |- context [Nat.eqb x ?a] => destruct (Nat.eqb_spec x a); try lia end; try reflexivity; try congruence. }
  assert (Wf0 : wf s0').
  { intros x Hx. cbn in *. upd_simpl. apply Hwf. lia. }
  assert (Wf1 : wf (put s0' (S (S (nxt s))) (fst (norm_weights wis)))).
  { apply wf_put; auto. cbn. upd_simpl. discriminate. }
  assert (Hle0 : legal_err s0' err).
  { destruct err as [e|]; [|exact I]. destruct Hle as [q Hq]. exists q. unfold slot_holds in *. cbn [mem s0'].
    pose proof (live_lt _ _ _ Hwf Hq). subst s0'. cbn [mem]. upd_simpl. exact Hq. }
  assert (Hle1 : legal_err (put s0' (S (S (nxt s))) (fst (norm_weights wis))) err).
  { destruct err as [e|]; [|exact I]. destruct Hle as [q Hq]. exists q. unfold slot_holds in *.
    pose proof (live_lt _ _ _ Hwf Hq). subst s0'. unfold put, setmem. cbn [mem]. upd_simpl. exact Hq. }
  pose proof (HQ (nxt s) (S (nxt s)) (S (S (nxt s))) _ eq_refl eq_refl eq_refl E
                (conj Wf1 (conj Hle1 (HE (S (S (nxt s))) ltac:(lia))))) as [G1 G2].
  apply wp_check_weight; auto.
  subst s0'. cbn [mem]. upd_simpl. reflexivity.
Qed.

(** ** Complete runs *)

(** Everything in order: a description in seven new blocks. *)
Lemma dn_ok p lz lc le n zs cs es sig n_cap nelem liz lwi (izs : list Z) (wis : list T) dens err s :
  wf s -> legal_err s err -> allocs_succeed 7 s ->
  int_array s liz izs -> dbl_array s lwi wis ->
  nelem = List.length izs -> nelem = List.length wis -> desc_args_ok sig n_cap izs dens ->
  mem s p = Some [Vint n; Vptr (Some lz); Vptr (Some lc); Vptr (Some le)] ->
  dbl_array s lz zs -> dbl_array s lc cs -> dbl_array s le es ->
  (0 <= n)%Z -> List.length zs = Z.to_nat (n + 1) -> List.length cs = Z.to_nat (n + 1) -> List.length es = Z.to_nat (n + 1) ->
  snd (norm_weights wis) = true ->
  profile_validate (mkProfile (Z.to_nat n) zs cs es) n_cap = Some 1%Z ->
  wp (description_new (Some p) sig n_cap nelem (Some liz) (Some lwi) dens err)
    (fun r s' => wf s' /\ orc s' = orc s /\ cnt s' = 7 + cnt s /\ exists d liz' lwi' lp' lz' lc' le', r = Some d /\
       description_object s' d liz' lwi' lp' lz' lc' le' sig n_cap
         (open_area_num n_cap (nth 0 cs (#0)%num) (nth 0 es (#0)%num)) izs (fst (norm_weights wis)) dens n zs cs es /\
       all_free s [d; liz'; lwi'; lp'; lz'; lc'; le'] /\
       same_memory_except [d; liz'; lwi'; lp'; lz'; lc'; le'] s s') s.
Proof.
  intros Hwf Hle Ho Aiz Awi En Ew Ok Hp Az Ac Ae Hn Lz Lc Le Hnw Hv.
  pose proof (live_lt _ _ _ Hwf Hp). pose proof (live_lt _ _ _ Hwf Az).
  pose proof (live_lt _ _ _ Hwf Ac). pose proof (live_lt _ _ _ Hwf Ae).
  apply dn_to_profile with (izs := izs) (wis := wis); auto.
  { intros k Hk. apply Ho. lia. }
  { congruence. }
  intros d diz dwi s1 Ed Ediz Edwi Es1 (Wf1 & Hle1 & Hne). split; [intros _|congruence].
  apply dp_to_validate with (f0 := Vdbl sig) (f1 := Vint n_cap) (f2 := Vdbl (#0)%num) (f3 := Vint (Z.of_nat nelem))
      (f4 := Vptr (Some diz)) (f5 := Vptr (Some dwi)) (f6 := Vdbl dens) (f7 := Vptr NULL)
      (lz := lz) (lc := lc) (le := le) (n := n) (zs := zs) (cs := cs) (es := es); auto; try lia.
  { intros k Hk. subst s1. cbn [orc cnt]. replace (3 + cnt s + k) with (cnt s + (3 + k)) by lia. apply Ho. lia. }
  { subst s1 d diz dwi. cbn [mem]. upd_simpl. reflexivity. }
  { subst s1 d diz dwi. cbn [mem]. upd_simpl. assumption. }
  { subst s1 d diz dwi. unfold dbl_array. cbn [mem]. upd_simpl. assumption. }
  { subst s1 d diz dwi. unfold dbl_array. cbn [mem]. upd_simpl. assumption. }
  { subst s1 d diz dwi. unfold dbl_array. cbn [mem]. upd_simpl. assumption. }
  intros q qz qc qe s' Eq Eqz Eqc Eqe Es'.
  apply wp_bind. 
  assert (M1 : mem s' q = Some [Vint n; Vptr (Some qz); Vptr (Some qc); Vptr (Some qe)]) by (subst s'; cbn [mem]; upd_simpl; reflexivity).
  assert (M2 : dbl_array s' qz zs) by (subst s'; unfold dbl_array; cbn [mem]; upd_simpl; reflexivity).
  assert (M3 : dbl_array s' qc cs) by (subst s'; unfold dbl_array; cbn [mem]; upd_simpl; reflexivity).
  assert (M4 : dbl_array s' qe es) by (subst s'; unfold dbl_array; cbn [mem]; upd_simpl; reflexivity).
  apply (wp_validate_heap q qz qc qe n zs cs es n_cap 1%Z); auto; [|discriminate].
  intros _. cbn [negb Z.eqb Pos.eqb]. apply wp_ret.
  split. { intros x Hx. subst s' s1. cbn [mem nxt] in *. upd_simpl. apply Hwf. lia. }
  split; [subst s' s1; reflexivity|]. split; [subst s' s1; cbn [cnt]; lia|].
  exists d, diz, dwi, q, qz, qc, qe. split; [reflexivity|].
  assert (X : nxt s1 = 3 + nxt s) by (subst s1; reflexivity).
  split; [|split].
  - split; [|split; [|split; [|split; [|split; [|split; [|split]]]]]]; auto.
    + subst s' d diz dwi. cbn [mem]. upd_simpl. now rewrite En.
    + subst s' s1 d diz dwi. unfold int_array. cbn [mem] in *. upd_simpl. reflexivity.
    + subst s' s1 d diz dwi. unfold dbl_array. cbn [mem] in *. upd_simpl. reflexivity.
    + repeat constructor; cbn; lia.
  - intros l Hl. apply Hwf. cbn in Hl. lia.
  - intros l Hl. cbn in Hl. subst s' s1 d diz dwi. cbn [mem] in *. upd_simpl. reflexivity.
Qed.

(** polycap_description_free gives all seven blocks back and touches nothing else. *)
Lemma description_free_spec d liz lwi lp lz lc le sig n_cap oa izs wis dens n zs cs es (Q : unit -> st T -> Prop) s :
  description_object s d liz lwi lp lz lc le sig n_cap oa izs wis dens n zs cs es ->
  (forall s', nxt s' = nxt s -> orc s' = orc s -> cnt s' = cnt s ->
     (forall l, In l [d; liz; lwi; lp; lz; lc; le] -> mem s' l = None) ->
     same_memory_except [d; liz; lwi; lp; lz; lc; le] s s' -> Q tt s') ->
  wp (description_free (Some d)) Q s.
Proof.
  intros (Hd & Hiz & Hwi & Hp & Hz & Hc & He & ND) HQ. unfold dbl_array, int_array in *.
  assert (ND' : NoDup [lp; lz; lc; le]) by (do 3 (inversion ND as [|? ? ? ND']; subst; clear ND; rename ND' into ND); exact ND).
  inversion ND as [|? ? h1 ND1]; subst. inversion ND1 as [|? ? h2 ND2]; subst.
  inversion ND2 as [|? ? h3 ND3]; subst. clear ND ND1 ND2 ND3. cbn [In] in h1, h2, h3.
  assert (d1 : d <> liz /\ d <> lwi /\ d <> lp /\ d <> lz /\ d <> lc /\ d <> le) by (repeat split; intro; subst; tauto).
  assert (d2 : liz <> lwi /\ liz <> lp /\ liz <> lz /\ liz <> lc /\ liz <> le) by (repeat split; intro; subst; tauto).
  assert (d3 : lwi <> lp /\ lwi <> lz /\ lwi <> lc /\ lwi <> le) by (repeat split; intro; subst; tauto).
  clear h1 h2 h3. destruct d1 as (? & ? & ? & ? & ? & ?), d2 as (? & ? & ? & ? & ?), d3 as (? & ? & ? & ?).
  unfold description_free. wstep. wstep. wstep.
  eapply profile_free_spec with (n := n) (zs := zs) (caps := cs) (exts := es); [split; [exact Hp|auto]|].
  intros s1 Nx Or Cn F1 F2.
  assert (X : forall l, l <> lp -> l <> lz -> l <> lc -> l <> le -> mem s1 l = mem s l).
  { intros l a b c e. apply F2. cbn. intuition congruence. }
  unfold free_if.
  apply wp_bind. eapply wp_load_ptr; [rewrite X by auto; exact Hd|reflexivity|].
  apply wp_bind. eapply wp_free; [rewrite X by auto; exact Hiz|].
  apply wp_bind. eapply wp_load_ptr; [cbn [mem]; rewrite upd_other by auto; rewrite X by auto; exact Hd|reflexivity|].
  apply wp_bind. eapply wp_free; [cbn [mem]; rewrite upd_other by auto; rewrite X by auto; exact Hwi|].
  eapply wp_free; [cbn [mem]; rewrite !upd_other by auto; rewrite X by auto; exact Hd|].
  apply HQ; cbn [mem nxt orc cnt]; auto.
  - intros l Hl. unfold upd.
    destruct (Nat.eqb_spec l d); auto. destruct (Nat.eqb_spec l lwi); auto. destruct (Nat.eqb_spec l liz); auto.
    apply F1. cbn in *. intuition congruence.
  - intros l Hl. cbn [mem]. cbn in Hl.
    rewrite !upd_other by (intro; subst; tauto). apply F2. cbn. tauto.
Qed.

(** The weight check fails, everything else is in order: an object is returned and
    the error is in the caller's variable. *)
Lemma dn_bad_weights p lz lc le n zs cs es sig n_cap nelem liz lwi (izs : list Z) (wis : list T) dens e s :
  wf s -> memory_available s -> slot_holds s e NULL ->
  int_array s liz izs -> dbl_array s lwi wis ->
  nelem = List.length izs -> nelem = List.length wis -> desc_args_ok sig n_cap izs dens ->
  mem s p = Some [Vint n; Vptr (Some lz); Vptr (Some lc); Vptr (Some le)] ->
  dbl_array s lz zs -> dbl_array s lc cs -> dbl_array s le es ->
  (0 <= n)%Z -> List.length zs = Z.to_nat (n + 1) -> List.length cs = Z.to_nat (n + 1) -> List.length es = Z.to_nat (n + 1) ->
  snd (norm_weights wis) = false ->
  profile_validate (mkProfile (Z.to_nat n) zs cs es) n_cap = Some 1%Z ->
  wp (description_new (Some p) sig n_cap nelem (Some liz) (Some lwi) dens (Some e))
    (fun r s' => exists d liz' lwi' lp' lz' lc' le' x t m, r = Some d /\
       description_object s' d liz' lwi' lp' lz' lc' le' sig n_cap
         (open_area_num n_cap (nth 0 cs (#0)%num) (nth 0 es (#0)%num)) izs (fst (norm_weights wis)) dens n zs cs es /\
       slot_holds s' e (Some x) /\ error_object s' x t POLYCAP_ERROR_INVALID_ARGUMENT m) s.
Proof.
  intros Hwf Ho Hsl Aiz Awi En Ew Ok Hp Az Ac Ae Hn Lz Lc Le Hnw Hv.
  pose proof (live_lt _ _ _ Hwf Hp). pose proof (live_lt _ _ _ Hwf Az).
  pose proof (live_lt _ _ _ Hwf Ac). pose proof (live_lt _ _ _ Hwf Ae). pose proof (live_lt _ _ _ Hwf Hsl).
  unfold dbl_array in Az, Ac, Ae. unfold slot_holds in Hsl.
  assert (NE : e <> p /\ e <> lz /\ e <> lc /\ e <> le).
  { repeat split; intros ->; rewrite Hsl in *; try congruence.
    - destruct zs; cbn in Az; [|destruct zs]; congruence.
    - destruct cs; cbn in Ac; [|destruct cs]; congruence.
    - destruct es; cbn in Ae; [|destruct es]; congruence. }
  destruct NE as (n1 & n2 & n3 & n4).
  apply dn_to_profile with (izs := izs) (wis := wis); auto.
  { exists NULL. exact Hsl. }
  { intros k Hk. apply Ho. }
  intros d diz dwi s1 Ed Ediz Edwi Es1 (Wf1 & Hle1 & Hne). split; [congruence|intros _].
  intros s2 (Wf2 & Or2 & Nx2 & Pr & m & Rp & _).
  assert (X : nxt s1 = 3 + nxt s) by (subst s1; reflexivity).
  assert (O1 : orc s1 = orc s) by (subst s1; reflexivity).
  assert (Sl1 : slot_holds s1 e NULL) by (unfold slot_holds; subst s1 d diz dwi; cbn [mem]; upd_simpl; exact Hsl).
  destruct (Rp Sl1) as (x & t & R1 & R2 & R3 & R4 & R5). destruct R2 as (R2a & R2b & R2c). unfold slot_holds in R1.
  pose proof (live_lt _ _ _ Wf2 R1). pose proof (live_lt _ _ _ Wf2 R2a). pose proof (live_lt _ _ _ Wf2 R2b).
  assert (M1 : mem s1 d = Some [Vdbl sig; Vint n_cap; Vdbl (#0)%num; Vint (Z.of_nat nelem); Vptr (Some diz); Vptr (Some dwi);
                     Vdbl dens; Vptr NULL]) by (subst s1 d diz dwi; cbn [mem]; upd_simpl; reflexivity).
  assert (M2 : mem s1 diz = Some (List.map Vint izs)) by (subst s1 d diz dwi; cbn [mem]; upd_simpl; reflexivity).
  assert (M3 : mem s1 dwi = Some (List.map Vdbl (fst (norm_weights wis)))) by (subst s1 d diz dwi; cbn [mem]; upd_simpl; reflexivity).
  assert (M4 : mem s1 p = mem s p) by (subst s1 d diz dwi; cbn [mem]; upd_simpl; reflexivity).
  assert (M5 : mem s1 lz = mem s lz) by (subst s1 d diz dwi; cbn [mem]; upd_simpl; reflexivity).
  assert (M6 : mem s1 lc = mem s lc) by (subst s1 d diz dwi; cbn [mem]; upd_simpl; reflexivity).
  assert (M7 : mem s1 le = mem s le) by (subst s1 d diz dwi; cbn [mem]; upd_simpl; reflexivity).
  rewrite Hp in M4. rewrite Az in M5. rewrite Ac in M6. rewrite Ae in M7.
  apply Pr in M1; [|intros Q; injection Q; lia]. apply Pr in M2; [|intros Q; injection Q; lia].
  apply Pr in M3; [|intros Q; injection Q; lia]. apply Pr in M4; [|congruence].
  apply Pr in M5; [|congruence]. apply Pr in M6; [|congruence]. apply Pr in M7; [|congruence].
  pose proof (live_lt _ _ _ Wf2 M1). pose proof (live_lt _ _ _ Wf2 M2). pose proof (live_lt _ _ _ Wf2 M3).
  assert (Dx : x <> d /\ t <> d).
  { split; intros ->; rewrite M1 in *; congruence. }
  eapply dp_to_validate with (n := n) (zs := zs) (cs := cs) (es := es); try eassumption; try lia.
  { intros k Hk. rewrite Or2, O1. apply Ho. }
  intros q qz qc qe s' Eq Eqz Eqc Eqe Es'.
  apply wp_bind.
  assert (A1 : mem s' q = Some [Vint n; Vptr (Some qz); Vptr (Some qc); Vptr (Some qe)]) by (subst s'; cbn [mem]; upd_simpl; reflexivity).
  assert (A2 : dbl_array s' qz zs) by (subst s'; unfold dbl_array; cbn [mem]; upd_simpl; reflexivity).
  assert (A3 : dbl_array s' qc cs) by (subst s'; unfold dbl_array; cbn [mem]; upd_simpl; reflexivity).
  assert (A4 : dbl_array s' qe es) by (subst s'; unfold dbl_array; cbn [mem]; upd_simpl; reflexivity).
  apply (wp_validate_heap q qz qc qe n zs cs es n_cap 1%Z); auto; [|discriminate].
  intros _. cbn [negb Z.eqb Pos.eqb]. apply wp_ret.
  exists d, diz, dwi, q, qz, qc, qe, x, t, m. split; [reflexivity|]. split; [|split].
  - split; [|split; [|split; [|split; [|split; [|split; [|split]]]]]]; auto.
    + subst s'. cbn [mem]. upd_simpl. now rewrite En.
    + subst s'. unfold int_array. cbn [mem] in *. upd_simpl. exact M2.
    + subst s'. unfold dbl_array. cbn [mem] in *. upd_simpl. exact M3.
    + repeat constructor; cbn; lia.
  - subst s'. unfold slot_holds. cbn [mem]. upd_simpl. exact R1.
  - split; [|split; [|exact R2c]]; subst s'; cbn [mem]; upd_simpl; assumption.
Qed.

(** The profile is refused (weights fine): NULL, an INVALID_ARGUMENT error, and the
    copied ext array stays allocated: with no error argument, the only difference in
    memory is that block. *)
Lemma dn_bad_profile_leak p lz lc le n zs cs es sig n_cap nelem liz lwi (izs : list Z) (wis : list T) dens v s :
  wf s -> memory_available s ->
  int_array s liz izs -> dbl_array s lwi wis ->
  nelem = List.length izs -> nelem = List.length wis -> desc_args_ok sig n_cap izs dens ->
  mem s p = Some [Vint n; Vptr (Some lz); Vptr (Some lc); Vptr (Some le)] ->
  dbl_array s lz zs -> dbl_array s lc cs -> dbl_array s le es ->
  (0 <= n)%Z -> List.length zs = Z.to_nat (n + 1) -> List.length cs = Z.to_nat (n + 1) -> List.length es = Z.to_nat (n + 1) ->
  profile_validate (mkProfile (Z.to_nat n) zs cs es) n_cap = Some v -> v <> 1%Z ->
  wp (description_new (Some p) sig n_cap nelem (Some liz) (Some lwi) dens NULL)
    (fun r s' => r = None /\ exists leaked, mem s leaked = None /\ dbl_array s' leaked es /\
       same_memory_except [leaked] s s') s.
Proof.
  intros Hwf Ho Aiz Awi En Ew Ok Hp Az Ac Ae Hn Lz Lc Le Hv Hv1.
  pose proof (live_lt _ _ _ Hwf Hp). pose proof (live_lt _ _ _ Hwf Az).
  pose proof (live_lt _ _ _ Hwf Ac). pose proof (live_lt _ _ _ Hwf Ae).
  unfold dbl_array in Az, Ac, Ae.
  apply dn_to_profile with (izs := izs) (wis := wis); auto.
  { exact I. }
  { intros k Hk. apply Ho. }
  intros d diz dwi s1 Ed Ediz Edwi Es1 (Wf1 & Hle1 & Hne).
  assert (X : nxt s1 = 3 + nxt s) by (subst s1; reflexivity).
  assert (O1 : orc s1 = orc s) by (subst s1; reflexivity).
  assert (M1 : mem s1 d = Some [Vdbl sig; Vint n_cap; Vdbl (#0)%num; Vint (Z.of_nat nelem); Vptr (Some diz); Vptr (Some dwi);
                     Vdbl dens; Vptr NULL]) by (subst s1 d diz dwi; cbn [mem]; upd_simpl; reflexivity).
  assert (M2 : mem s1 diz = Some (List.map Vint izs)) by (subst s1 d diz dwi; cbn [mem]; upd_simpl; reflexivity).
  assert (M3 : mem s1 dwi = Some (List.map Vdbl (fst (norm_weights wis)))) by (subst s1 d diz dwi; cbn [mem]; upd_simpl; reflexivity).
  assert (M4 : mem s1 p = mem s p) by (subst s1 d diz dwi; cbn [mem]; upd_simpl; reflexivity).
  assert (M5 : mem s1 lz = mem s lz) by (subst s1 d diz dwi; cbn [mem]; upd_simpl; reflexivity).
  assert (M6 : mem s1 lc = mem s lc) by (subst s1 d diz dwi; cbn [mem]; upd_simpl; reflexivity).
  assert (M7 : mem s1 le = mem s le) by (subst s1 d diz dwi; cbn [mem]; upd_simpl; reflexivity).
  assert (M8 : forall l, l <> d -> l <> diz -> l <> dwi -> mem s1 l = mem s l)
    by (intros l ? ? ?; subst s1 d diz dwi; cbn [mem]; rewrite !upd_other by auto; reflexivity).
  clear Es1.
  rewrite Hp in M4. rewrite Az in M5. rewrite Ac in M6. rewrite Ae in M7.
  assert (Main : forall s2, wf s2 -> orc s2 = orc s -> nxt s1 <= nxt s2 -> (forall l, mem s2 l = mem s1 l) ->
    wp (description_profile (Some d) (Some diz) (Some dwi) (Some p) n_cap NULL)
      (fun r s' => r = None /\ exists leaked, mem s leaked = None /\ dbl_array s' leaked es /\
       same_memory_except [leaked] s s') s2).
  { intros s2 Wf2 Or2 Nx2 E2.
    eapply dp_to_validate with (n := n) (zs := zs) (cs := cs) (es := es); unfold dbl_array; rewrite ?E2; try eassumption; try lia.
    { intros k Hk. rewrite Or2. apply Ho. }
    intros q qz qc qe s' Eq Eqz Eqc Eqe Es'.
    apply wp_bind.
    assert (A1 : mem s' q = Some [Vint n; Vptr (Some qz); Vptr (Some qc); Vptr (Some qe)]) by (subst s'; cbn [mem]; upd_simpl; reflexivity).
    assert (A2 : mem s' qz = Some (List.map Vdbl zs)) by (subst s'; unfold dbl_array; cbn [mem]; upd_simpl; reflexivity).
    assert (A3 : mem s' qc = Some (List.map Vdbl cs)) by (subst s'; unfold dbl_array; cbn [mem]; upd_simpl; reflexivity).
    assert (A4 : mem s' qe = Some (List.map Vdbl es)) by (subst s'; unfold dbl_array; cbn [mem]; upd_simpl; reflexivity).
    assert (A5 : mem s' diz = Some (List.map Vint izs)) by (subst s'; cbn [mem]; upd_simpl; rewrite E2; assumption).
    assert (A6 : mem s' dwi = Some (List.map Vdbl (fst (norm_weights wis)))) by (subst s'; cbn [mem]; upd_simpl; rewrite E2; assumption).
    assert (A7 : exists b, mem s' d = Some b) by (subst s'; cbn [mem]; upd_simpl; eauto).
    destruct A7 as [b7 A7].
    assert (A8 : forall l, ~ In l [d; q; qz; qc; qe] -> mem s' l = mem s1 l).
    { intros l Hl. cbn in Hl. rewrite <- E2. subst s'. cbn [mem]. rewrite !upd_other by (intro; subst; tauto). reflexivity. }
    apply (wp_validate_heap q qz qc qe n zs cs es n_cap v); auto.
    - intros _. destruct (Z.eqb_spec v 1); [contradiction|]. cbn [negb].
      apply wp_bind, wp_ret. apply wp_bind, wp_ret.
      repeat wstep.
      split; [reflexivity|]. exists qe. split; [apply Hwf; lia|]. split.
      + unfold dbl_array. cbn [mem]. upd_simpl. assumption.
      + intros l Hl. cbn in Hl. cbn [mem]. unfold upd.
        repeat match goal with |- context [Nat.eqb l ?a] => destruct (Nat.eqb_spec l a) end; subst; try (symmetry; apply Hwf; lia).
        rewrite A8 by (cbn; intuition). apply M8; auto.
    - intros Ev. apply wp_bind, wp_ret, wp_ret. cbn [negb Z.eqb Pos.eqb].
      apply wp_bind, wp_ret. apply wp_bind, wp_ret.
      repeat wstep.
      split; [reflexivity|]. exists qe. split; [apply Hwf; lia|]. split.
      + unfold dbl_array. cbn [mem]. upd_simpl. assumption.
      + intros l Hl. cbn in Hl. cbn [mem]. unfold upd.
        repeat match goal with |- context [Nat.eqb l ?a] => destruct (Nat.eqb_spec l a) end; subst; try (symmetry; apply Hwf; lia).
        rewrite A8 by (cbn; intuition). apply M8; auto. }
  split; intros _.
  - apply Main; auto.
  - intros s2 (Wf2 & Or2 & Nx2 & _ & m & Rp). apply Main; auto. congruence.
Qed.

End Desc.
