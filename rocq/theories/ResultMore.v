(** * Proofs about the result object: refusals, get_data, release *)
From Coq Require Import ZArith List Bool Lia String FunctionalExtensionality.
From Verif Require Import Num Mem SpecHeap ErrorModel ErrorProofs ProfileModel ProfileProofs Geometry ConsModel HeapLib
  DescProofs SpecPhoton PhotProofs SrcProofs ResultModel SpecResult ResultProofs.
Import ListNotations.

Section More.
Context {T : Type} {N : Num T}.
Implicit Types s : st T.

(** Each getter, as a function of the result object and the error slot only. *)
Definition getters (nsp nxp nep o1 o2 o3 o4 o5 o6 : ptr) : list (ptr -> eslot -> M T bool) :=
  [fun eff err => get_start_data eff nsp nxp o1 o2 o3 o4 err;
   fun eff err => get_exit_data eff nxp o1 o2 o3 o4 o5 nep o6 err;
   fun eff err => get_extleak_data eff o1 nxp err;
   fun eff err => get_intleak_data eff o1 nxp err].

Lemma refuse_now err msg k s : wf s -> legal_err s err -> report_fits err s ->
  wp (refuse true err msg k) (fun ok s' => ok = false /\ failed err POLYCAP_ERROR_INVALID_ARGUMENT [] s s') s.
Proof.
  intros W Le Rf. apply (wp_refuse _ _ _ _ [] s); [discriminate|]. intros _.
  split; [exact W|]. split; [exact Le|]. split; [exact Rf|]. split; [auto|]. split; [intros e _ []|]. auto.
Qed.

Lemma getters_null_eff nsp nxp nep o1 o2 o3 o4 o5 o6 err s : wf s -> legal_err s err -> report_fits err s ->
  Forall (fun g => wp (g NULL err) (fun ok s' => ok = false /\ failed err POLYCAP_ERROR_INVALID_ARGUMENT [] s s') s)
    (getters nsp nxp nep o1 o2 o3 o4 o5 o6).
Proof. intros W Le Rf. repeat constructor; apply refuse_now; auto. Qed.

Lemma get_data_null_eff nep o1 o2 err s : wf s -> legal_err s err -> report_fits err s ->
  wp (get_data NULL nep o1 o2 err) (fun ok s' => ok = false /\ failed err POLYCAP_ERROR_INVALID_ARGUMENT [] s s') s.
Proof. intros W Le Rf. apply refuse_now; auto. Qed.

Lemma getters_null_images nsp nxp nep o1 o2 o3 o4 o5 o6 err s eff k pen peff src : wf s -> legal_err s err -> report_fits err s ->
  mem s eff = Some [Vint k; Vptr pen; Vptr peff; Vptr NULL; Vptr src] ->
  Forall (fun g => wp (g (Some eff) err) (fun ok s' => ok = false /\ failed err POLYCAP_ERROR_INVALID_ARGUMENT [] s s') s)
    (getters nsp nxp nep o1 o2 o3 o4 o5 o6).
Proof.
  intros W Le Rf E.
  repeat constructor; (apply wp_refuse_no; [reflexivity|]; apply wp_bind; eapply wp_load_ptr; [exact E|reflexivity|]; apply refuse_now; auto).
Qed.

(** ** Nothing was simulated / transmitted / leaked *)
Lemma start_none nsp nxp o1 o2 o3 o4 err s eff im pen peff src p1 p2 p3 r :
  wf s -> legal_err s err -> report_fits err s -> result_object s eff im pen peff src p1 p2 p3 r ->
  variable s nsp -> variable s nxp -> nsp <> nxp -> err <> Some nsp -> err <> Some nxp ->
  ~ In nsp (result_blocks eff im pen peff p1 p2 p3) ->
  q_started r = 0%Z \/ q_rows r = [] ->
  wp (get_start_data (Some eff) (Some nsp) (Some nxp) o1 o2 o3 o4 err)
     (fun ok s' => ok = false /\ failed err POLYCAP_ERROR_INVALID_ARGUMENT [nsp; nxp] s s') s.
Proof.
  intros W Le Rf R [v1 V1] [v2 V2] Hd X1 X2 Hb Hz. destruct R as (_ & R2 & R3 & _).
  assert (Him : nsp <> im). { intros ->. apply Hb. unfold result_blocks. apply in_or_app. cbn. auto. }
  pose proof (live_lt _ _ _ W V1). pose proof (live_lt _ _ _ W V2).
  unfold get_start_data. cbn [is_null].
  apply wp_refuse_no; [reflexivity|]. apply wp_bind. eapply wp_load_ptr; [exact R2|reflexivity|].
  apply wp_refuse_no; [reflexivity|]. apply wp_bind. eapply wp_load_int; [exact R3|reflexivity|].
  apply wp_bind. eapply wp_store; [exact V1|cbn; lia|]. cbn [set_nth].
  apply (wp_refuse _ _ _ _ [nsp; nxp] s).
  - intros Hs. apply Z.eqb_neq in Hs. destruct Hz as [Hz|Hz]; [contradiction|].
    apply wp_bind. eapply wp_load_int; [cbn [mem]; rewrite upd_other by auto; exact R3|reflexivity|].
    apply wp_bind. eapply wp_store; [cbn [mem]; rewrite upd_other by auto; exact V2|cbn; lia|]. cbn [set_nth mem nxt orc cnt].
    rewrite Hz. cbn [List.length]. apply (wp_refuse _ _ _ _ [nsp; nxp] s); [discriminate|]. intros _.
    split. { intros l Hl. cbn [mem nxt] in *. rewrite !upd_other by lia. apply W, Hl. }
    split; [exact Le|]. split; [exact Rf|]. split.
    { intros l x Hl Hn. nin_split Hn. cbn [mem]. rewrite !upd_other by assumption. exact Hl. }
    split; [|auto]. intros e E [->|[->|[]]]; congruence.
  - intros _. split. { intros l Hl. cbn [mem nxt] in *. rewrite !upd_other by lia. apply W, Hl. }
    split; [exact Le|]. split; [exact Rf|]. split.
    { intros l x Hl Hn. nin_split Hn. cbn [mem]. rewrite !upd_other by assumption. exact Hl. }
    split; [|auto]. intros e E [->|[->|[]]]; congruence.
Qed.

Lemma leak_none inn ic id iw ir ie lp np err s eff im b pen peff src k :
  wf s -> legal_err s err -> report_fits err s ->
  mem s eff = Some [Vint k; Vptr pen; Vptr peff; Vptr (Some im); Vptr src] -> mem s im = Some b -> nth_error b inn = Some (Vint 0) ->
  variable s lp -> variable s np -> lp <> np -> err <> Some lp -> err <> Some np ->
  wp (get_leak_data inn ic id iw ir ie (Some eff) (Some lp) (Some np) err)
     (fun ok s' => ok = false /\ mem s' np = Some [Vint 0] /\ mem s' lp = Some [Vptr NULL] /\
        failed err POLYCAP_ERROR_INVALID_ARGUMENT [lp; np] s s') s.
Proof.
  intros W Le Rf R2 R3 Hz [v1 V1] [v2 V2] Hd X1 X2.
  pose proof (live_lt _ _ _ W V1). pose proof (live_lt _ _ _ W V2).
  unfold get_leak_data. cbn [is_null].
  apply wp_refuse_no; [reflexivity|]. apply wp_bind. eapply wp_load_ptr; [exact R2|reflexivity|].
  apply wp_refuse_no; [reflexivity|]. apply wp_bind. eapply wp_load_int; [exact R3|exact Hz|].
  apply wp_bind. eapply wp_store; [exact V2|cbn; lia|]. cbn [set_nth].
  cbn [Z.eqb]. apply wp_bind. eapply wp_store; [cbn [mem]; rewrite upd_other by auto; exact V1|cbn; lia|]. cbn [set_nth mem nxt orc cnt].
  unfold refuse. apply wp_bind.
  apply (wp_report true err POLYCAP_ERROR_INVALID_ARGUMENT).
  - intros l Hl. cbn [mem nxt] in *. rewrite !upd_other by lia. apply W, Hl.
  - destruct err as [e|]; [|exact I]. destruct Le as [p Hp]. exists p. unfold slot_holds in *. cbn [mem].
    rewrite !upd_other by congruence. exact Hp.
  - exact Rf.
  - intros s' W' O' N' K' R. apply wp_ret. split; [reflexivity|].
    split. { apply K'; [cbn [mem]; rewrite upd_other by auto; apply upd_same|exact X2]. }
    split. { apply K'; [cbn [mem]; apply upd_same|exact X1]. }
    eapply failed_from; [| |exact Le|exact K'|exact R].
    + intros l x Hl Hn. nin_split Hn. cbn [mem]. rewrite !upd_other by assumption. exact Hl.
    + intros e E [->|[->|[]]]; congruence.
Qed.

(** ** Energies and efficiencies *)
Lemma begins_fresh s p (l : list T) d bd (Q : unit -> st T -> Prop) :
  begins s p (List.map Vdbl l) -> mem s d = Some bd -> List.length bd = List.length l -> (p = NULL -> l <> []) ->
  Q tt (mkSt (upd (mem s) d (Some (List.map Vdbl l))) (nxt s) (orc s) (cnt s)) ->
  wp (memcpy (Some d) p (List.length l)) Q s.
Proof.
  intros B E L Hn HQ. destruct p as [p|].
  - destruct B as [more B]. eapply wp_memcpy; [exact E|exact B|lia|rewrite app_length, map_length; lia|].
    replace (firstn (List.length l) (List.map Vdbl l ++ more) ++ skipn (List.length l) bd) with (@List.map T (val T) Vdbl l); [exact HQ|].
    rewrite firstn_app, map_length, Nat.sub_diag. cbn [firstn]. rewrite <- L, skipn_all, !app_nil_r.
    rewrite L. rewrite firstn_all2; [reflexivity|rewrite map_length; lia].
  - exfalso. cbn in B. destruct l; [apply (Hn eq_refl); reflexivity|discriminate].
Qed.

Lemma get_data_ok np o1 o2 err s eff im pen peff src p1 p2 p3 r :
  wf s -> result_object s eff im pen peff src p1 p2 p3 r ->
  (forall l, In l [np; o1; o2] -> variable s l /\ ~ In l (result_blocks eff im pen peff p1 p2 p3)) -> NoDup [np; o1; o2] ->
  q_energies r <> [] -> orc s (cnt s) = true -> orc s (S (cnt s)) = true ->
  wp (get_data (Some eff) (Some np) (Some o1) (Some o2) err)
     (fun ok s' => ok = true /\ mem s' np = Some [Vint (Z.of_nat (List.length (q_energies r)))] /\
        exists l1 l2, mem s' o1 = Some [Vptr (Some l1)] /\ mem s' o2 = Some [Vptr (Some l2)] /\ l1 <> l2 /\
          dbl_array s' l1 (q_energies r) /\ dbl_array s' l2 (q_effs r) /\ all_free s [l1; l2] /\
          same_memory_except ([l1; l2] ++ [np; o1; o2]) s s') s.
Proof.
  intros W R Hv ND Hne O1 O2. pose proof (RB_old s eff im pen peff src p1 p2 p3 r W R) as RO.
  destruct R as ((Rl & _) & R2 & R3 & R4 & R5 & _).
  destruct (Hv np) as [[v1 V1] B1]; [cbn; auto|]. destruct (Hv o1) as [[v2 V2] B2]; [cbn; auto|]. destruct (Hv o2) as [[v3 V3] B3]; [cbn; auto|].
  pose proof (live_lt _ _ _ W V1). pose proof (live_lt _ _ _ W V2). pose proof (live_lt _ _ _ W V3).
  inversion ND as [|? ? n1 ND1]; subst. inversion ND1 as [|? ? n2 ND2]; subst. nin_split n1. nin_split n2. clear ND ND1 ND2 n1 n2.
  assert (RE : In eff (result_blocks eff im pen peff p1 p2 p3)) by (unfold result_blocks; apply in_or_app; cbn; auto).
  assert (Xe : np <> eff /\ o1 <> eff /\ o2 <> eff) by (repeat split; intros ->; contradiction). destruct Xe as (Xe1 & Xe2 & Xe3).
  pose proof (RO _ RE) as Le.
  assert (RP1 : forall l, pen = Some l -> In l (result_blocks eff im pen peff p1 p2 p3)).
  { intros l ->. unfold result_blocks. apply in_or_app. left. cbn. auto. }
  assert (RP2 : forall l, peff = Some l -> In l (result_blocks eff im pen peff p1 p2 p3)).
  { intros l ->. unfold result_blocks. apply in_or_app. left. cbn. apply in_or_app. right. cbn. auto. }
  unfold get_data. cbn [is_null].
  apply wp_refuse_no; [reflexivity|]. apply wp_bind. eapply wp_load_int; [exact R2|reflexivity|].
  apply wp_bind. eapply wp_store; [exact V1|cbn; lia|]. cbn [set_nth].
  rewrite Nat2Z.id. apply wp_bind.
  apply wp_bind. unfold malloc. apply wp_alloc; cbn [orc cnt mem nxt]; intros Or; [|congruence].
  apply wp_bind. eapply wp_store; [cbn [mem]; rewrite !upd_other by qlia || assumption; lk|cbn; lia|]. cbn [set_nth mem nxt orc cnt].
  apply wp_bind. eapply wp_load_ptr; [lk|reflexivity|].
  eapply begins_fresh; [|lk|apply repeat_length|congruence|].
  { destruct pen as [l|]; [|exact R4]. destruct R4 as [more R4]. exists more. pose proof (RP1 l eq_refl) as Hl. pose proof (RO l Hl).
    assert (np <> l /\ o1 <> l) by (split; intros ->; contradiction).
    cbn [mem]. rewrite !upd_other by (first [qlia | apply not_eq_sym; tauto]). exact R4. }
  cbn [mem nxt orc cnt].
  apply wp_bind. apply wp_bind. unfold malloc. apply wp_alloc; cbn [orc cnt mem nxt]; intros Or2; [|congruence].
  apply wp_bind. eapply wp_store; [lk|cbn; lia|]. cbn [set_nth mem nxt orc cnt].
  apply wp_bind. eapply wp_load_ptr; [lk|reflexivity|].
  rewrite <- Rl.
  eapply begins_fresh; [|lk|apply repeat_length| |].
  { destruct peff as [l|]; [|exact R5]. destruct R5 as [more R5]. exists more. pose proof (RP2 l eq_refl) as Hl. pose proof (RO l Hl).
    assert (np <> l /\ o1 <> l /\ o2 <> l) by (repeat split; intros ->; contradiction).
    cbn [mem]. rewrite !upd_other by (first [qlia | apply not_eq_sym; tauto]). exact R5. }
  { intros _ E. rewrite E in Rl. destruct (q_energies r); [congruence|discriminate]. }
  apply wp_ret. cbn [mem nxt orc cnt]. split; [reflexivity|]. split; [lk|].
  exists (nxt s), (S (nxt s)). split; [lk|]. split; [lk|]. split; [lia|].
  split; [unfold dbl_array; lk|]. split; [unfold dbl_array; lk|].
  split; [intros l Hl; apply W; cbn in Hl; lia|].
  intros l Hl. cbn [app] in Hl. nin_split Hl. lk.
Qed.

(** An unchecked allocation. *)
Lemma get_data_oom np o1 o2 err s eff im pen peff src p1 p2 p3 r :
  wf s -> result_object s eff im pen peff src p1 p2 p3 r ->
  (forall l, In l [np; o1; o2] -> variable s l /\ ~ In l (result_blocks eff im pen peff p1 p2 p3)) ->
  orc s (cnt s) = false ->
  get_data (Some eff) (Some np) (Some o1) (Some o2) err s = UB.
Proof.
  intros W R Hv O1. pose proof (RB_old s eff im pen peff src p1 p2 p3 r W R) as RO.
  destruct R as ((Rl & _) & R2 & R3 & R4 & R5 & _).
  destruct (Hv np) as [[v1 V1] B1]; [cbn; auto|]. destruct (Hv o1) as [[v2 V2] B2]; [cbn; auto|].
  assert (RE : In eff (result_blocks eff im pen peff p1 p2 p3)) by (unfold result_blocks; apply in_or_app; cbn; auto).
  assert (Xe : np <> eff /\ o1 <> eff) by (repeat split; intros ->; contradiction). destruct Xe as (Xe1 & Xe2).
  unfold get_data. cbn [is_null refuse].
  eapply bind_ub; [eapply wp_load_int; [exact R2|reflexivity|split; reflexivity]|].
  eapply bind_ub; [eapply wp_store; [exact V1|cbn; lia|split; reflexivity]|]. cbn [set_nth].
  apply bind_ub0.
  eapply bind_ub; [unfold malloc; apply wp_alloc; cbn [orc cnt mem nxt]; intros Or; [congruence|split; reflexivity]|]. cbn [mem nxt orc cnt].
  assert (E : exists v, upd (mem s) np (Some [Vint (Z.of_nat (List.length (q_energies r)))]) o1 = Some [v]).
  { unfold upd. destruct (Nat.eqb o1 np); eauto. }
  destruct E as [v E].
  eapply bind_ub; [eapply wp_store; [exact E|cbn; lia|split; reflexivity]|].
  eapply bind_ub; [eapply wp_load_ptr; [cbn [mem]; rewrite !upd_other by auto; exact R2|reflexivity|split; reflexivity]|].
  reflexivity.
Qed.

(** ** Release *)
Lemma wp_free_fields im b fs : forall ps s (Q : unit -> st T -> Prop),
  mem s im = Some b -> Forall2 (fun f p => nth_error b f = Some (Vptr p)) fs ps -> Forall (opt_block s) ps ->
  NoDup (List.concat (List.map plocs ps)) -> ~ In im (List.concat (List.map plocs ps)) ->
  (forall s', nxt s' = nxt s -> all_free s' (List.concat (List.map plocs ps)) ->
     same_memory_except (List.concat (List.map plocs ps)) s s' -> Q tt s') ->
  wp (free_fields (Some im) fs) Q s.
Proof.
  induction fs as [|f fs IH]; intros ps s Q Hb F O ND Hi HQ.
  - inversion F; subst. apply wp_ret. apply HQ; [reflexivity|intros l []|intros l _; reflexivity].
  - inversion F as [|? p ? ps' Hp F']; subst. cbn [free_fields List.map List.concat] in *.
    inversion O as [|? ? O1 O2]; subst. apply wp_bind. eapply wp_load_ptr; [exact Hb|exact Hp|].
    apply wp_bind. apply wp_free_if; [exact O1|]. intros s1 N1 _ _ Fr1 S1.
    assert (Dj : forall l, In l (plocs p) -> ~ In l (List.concat (List.map plocs ps'))).
    { intros l H1 H2. destruct p as [x|]; [|destruct H1]. destruct H1 as [->|[]]. cbn in ND. inversion ND; contradiction. }
    assert (ND' : NoDup (List.concat (List.map plocs ps'))).
    { destruct p; cbn in ND; [inversion ND; assumption|exact ND]. }
    assert (Hi1 : ~ In im (plocs p)) by (intros H; apply Hi, in_or_app; auto).
    assert (Hi2 : ~ In im (List.concat (List.map plocs ps'))) by (intros H; apply Hi, in_or_app; auto).
    apply (IH ps' s1); auto.
    + rewrite S1; auto.
    + rewrite Forall_forall in *. intros q Hq. specialize (O2 q Hq). destruct q as [l|]; [|exact I]. cbn in *.
      rewrite S1; [exact O2|]. intros H. apply (Dj l H). apply in_concat. exists [l]. split; [|cbn; auto].
      apply in_map_iff. exists (Some l). auto.
    + intros s2 N2 Fr2 S2. apply HQ; [congruence| |].
      * intros l Hl. apply in_app_or in Hl. destruct Hl as [Hl|Hl]; [|apply Fr2, Hl].
        rewrite S2 by (apply Dj, Hl). apply Fr1, Hl.
      * intros l Hl. apply not_in_app in Hl. destruct Hl as [H1 H2]. rewrite S2 by exact H2. apply S1, H1.
Qed.

Lemma fields_ptrs (p1 p2 p3 : list ptr) a b c d : List.length p1 = 18 -> List.length p2 = 7 -> List.length p3 = 9 ->
  Forall2 (fun f p => nth_error (a :: b :: List.map (@Vptr T) p1 ++ c :: List.map Vptr p2 ++ d :: List.map Vptr p3) f = Some (Vptr p))
    image_fields (p1 ++ p2 ++ p3).
Proof.
  intros L1 L2 L3.
  do 19 (destruct p1 as [|? p1]; [try discriminate L1|try discriminate L1]); cbn in L1.
  do 8 (destruct p2 as [|? p2]; [try discriminate L2|try discriminate L2]).
  do 10 (destruct p3 as [|? p3]; [try discriminate L3|try discriminate L3]).
  cbn. repeat constructor.
Qed.

Lemma efficiencies_free_ok s eff im pen peff src p1 p2 p3 r :
  result_object s eff im pen peff src p1 p2 p3 r -> NoDup (result_blocks eff im pen peff p1 p2 p3) ->
  wp (efficiencies_free (Some eff))
     (fun _ s' => all_free s' (result_blocks eff im pen peff p1 p2 p3) /\
        same_memory_except (result_blocks eff im pen peff p1 p2 p3) s s') s.
Proof.
  intros R ND. pose proof (lens s eff im pen peff src p1 p2 p3 r R) as (L1 & L2 & L3).
  assert (LV : forall l, In l (result_blocks eff im pen peff p1 p2 p3) -> exists b, mem s l = Some b).
  { intros l Hl. eapply (RB_live s eff im pen peff src p1 p2 p3 r); eauto. }
  destruct R as (_ & R2 & R3 & _). unfold result_blocks in *.
  set (ps := p1 ++ p2 ++ p3) in *. set (C := List.concat (List.map plocs ps)) in *.
  cbn [List.map List.concat] in *. fold C in ND, LV |- *.
  assert (OB : forall p, In p (pen :: peff :: ps) -> opt_block s p).
  { intros p Hp. destruct p as [l|]; [|exact I]. cbn. destruct (LV l) as [b Hb]; [|congruence].
    apply in_or_app. left. change (In l (List.concat (List.map plocs (pen :: peff :: ps)))). eapply in_plocs; eauto. }
  rewrite <- !app_assoc in *.
  unfold efficiencies_free.
  apply wp_bind. eapply wp_load_ptr; [exact R2|reflexivity|].
  apply wp_bind. apply wp_free_if; [apply OB; cbn; auto|]. intros s1 _ _ _ Fr1 S1.
  assert (D1 : forall l, In l (plocs pen) -> ~ In l (plocs peff ++ C ++ [im; eff])).
  { intros l H1 H2. destruct pen as [x|]; [|destruct H1]. destruct H1 as [->|[]]. cbn in ND. inversion ND; contradiction. }
  assert (ND1 : NoDup (plocs peff ++ C ++ [im; eff])).
  { destruct pen; cbn in ND; [inversion ND; assumption|exact ND]. }
  assert (D2 : forall l, In l (plocs peff) -> ~ In l (C ++ [im; eff])).
  { intros l H1 H2. destruct peff as [x|]; [|destruct H1]. destruct H1 as [->|[]]. cbn in ND1. inversion ND1; contradiction. }
  assert (ND2 : NoDup (C ++ [im; eff])).
  { destruct peff; cbn in ND1; [inversion ND1; assumption|exact ND1]. }
  assert (K1 : forall l, In l (plocs peff ++ C ++ [im; eff]) -> mem s1 l = mem s l).
  { intros l Hl. apply S1. intros H. exact (D1 l H Hl). }
  assert (I1 : In eff (C ++ [im; eff])) by (apply in_or_app; cbn; auto).
  assert (I2 : In im (C ++ [im; eff])) by (apply in_or_app; cbn; auto).
  apply wp_bind. eapply wp_load_ptr; [rewrite K1 by (apply in_or_app; auto); exact R2|reflexivity|].
  apply wp_bind. apply wp_free_if.
  { pose proof (OB peff ltac:(cbn; auto)) as O. destruct peff as [l|]; [|exact I]. cbn in *. rewrite K1 by (cbn; auto). exact O. }
  intros s2 _ _ _ Fr2 S2.
  assert (K2 : forall l, In l (C ++ [im; eff]) -> mem s2 l = mem s l).
  { intros l Hl. rewrite S2 by (intros H; exact (D2 l H Hl)). apply K1, in_or_app. auto. }
  apply wp_bind. eapply wp_load_ptr; [rewrite K2 by exact I1; exact R2|reflexivity|].
  apply wp_bind. unfold images_free. apply wp_bind.
  assert (NC : NoDup C /\ ~ In im C /\ ~ In eff C /\ im <> eff).
  { clear - ND2. induction C as [|x C IH]; cbn in *.
    - inversion ND2 as [|? ? A B]; subst. cbn in A. split; [constructor|]. repeat split; auto. 
    - inversion ND2 as [|? ? A B]; subst. destruct (IH B) as (X1 & X2 & X3 & X4).
      rewrite in_app_iff in A. cbn in A. split; [constructor; tauto|]. repeat split; auto; intros [->|H]; tauto. }
  destruct NC as (NC & Hi & He & Hie).
  eapply (wp_free_fields im _ image_fields ps); [rewrite K2 by exact I2; exact R3|apply fields_ptrs; assumption| |exact NC|exact Hi|].
  { rewrite Forall_forall. intros p Hp. pose proof (OB p ltac:(cbn; auto)) as O. destruct p as [l|]; [|exact I]. cbn in *.
    rewrite K2; [exact O|]. apply in_or_app. left. eapply in_plocs; eauto. }
  fold C. intros s3 _ Fr3 S3.
  eapply wp_free; [rewrite S3 by exact Hi; rewrite K2 by exact I2; exact R3|].
  eapply wp_free; [cbn [mem]; rewrite upd_other by auto; rewrite S3 by exact He; rewrite K2 by exact I1; exact R2|].
  cbn [mem nxt orc cnt]. 
  assert (FM : forall l, l <> eff -> l <> im -> upd (upd (mem s3) im None) eff None l = mem s3 l).
  { intros l X1 X2. rewrite !upd_other by assumption. reflexivity. }
  assert (FE : upd (upd (mem s3) im None) eff None eff = None) by apply upd_same.
  assert (FI : upd (upd (mem s3) im None) eff None im = None) by (rewrite upd_other by auto; apply upd_same).
  split.
  - intros l Hl. cbn [mem].
    destruct (Nat.eq_dec l eff) as [->|X1]; [exact FE|]. destruct (Nat.eq_dec l im) as [->|X2]; [exact FI|].
    rewrite FM by assumption.
    apply in_app_or in Hl. destruct Hl as [Hl|Hl].
    { rewrite S3. rewrite S2. apply Fr1, Hl.
      - intros H. apply (D1 l Hl), in_or_app. auto.
      - intros H. apply (D1 l Hl), in_or_app. right. apply in_or_app. auto. }
    apply in_app_or in Hl. destruct Hl as [Hl|Hl].
    { rewrite S3; [apply Fr2, Hl|]. intros H. apply (D2 l Hl), in_or_app. auto. }
    apply in_app_or in Hl. destruct Hl as [Hl|[<-|[<-|[]]]]; [apply Fr3, Hl|contradiction|contradiction].
  - intros l Hl. cbn [mem]. apply not_in_app in Hl. destruct Hl as [H1 Hl]. apply not_in_app in Hl. destruct Hl as [H2 Hl].
    apply not_in_app in Hl. destruct Hl as [H3 Hl]. nin_split Hl.
    rewrite FM by assumption. rewrite S3 by exact H3. rewrite S2 by exact H2. apply S1, H1.
Qed.

End More.
