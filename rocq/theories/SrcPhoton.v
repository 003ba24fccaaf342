(** * polycap_source_get_photon in memory *)
From Coq Require Import ZArith List Bool Lia String.
From Verif Require Import Num Mem SpecHeap SpecPhoton ErrorModel ErrorProofs ProfileModel ProfileProofs Geometry ConsModel HeapLib PhotProofs SourceModel.
Import ListNotations.

Section P.
Context {T : Type} {N : Num T}.
Implicit Types s : st T.

Definition nums_list (k : source_nums T) : list T :=
  [so_d k; so_x k; so_y k; so_sigx k; so_sigy k; so_shx k; so_shy k; so_pol k].

Definition source_ready s (p d q lc le : loc) (k : source_nums T) (n_cap : Z) (c0 e0 : T) (cs es : list T) : Prop :=
  (exists lr n len, mem s p = Some (Vptr (Some d) :: lr :: List.map Vdbl (nums_list k) ++ [n; len])) /\
  (exists a b c e g h, mem s d = Some [a; Vint n_cap; b; c; e; g; h; Vptr (Some q)]) /\
  (exists n lz, mem s q = Some [n; lz; Vptr (Some lc); Vptr (Some le)]) /\
  dbl_array s lc (c0 :: cs) /\ dbl_array s le (e0 :: es).

Lemma gp_reads p d q lc le k n_cap c0 e0 cs es rs err s (Q : option (ptr * list T) -> st T -> Prop) dr rs' :
  source_ready s p d q lc le k n_cap c0 e0 cs es ->
  draw_photon k n_cap c0 e0 rs = Some (dr, rs') ->
  wp (bind (photon_new (Some d) (dr_start dr) (dr_dir dr) (dr_elecv dr) err)
       (fun ph => bind (store_vec ph F_SRC (dr_src dr)) (fun _ => ret (Some (ph, rs'))))) Q s ->
  wp (source_get_photon (Some p) (Some rs) err) Q s.
Proof.
  intros ((lr & n & len & Mp) & (a & b & c & e & g & h & Md) & (n' & lz & Mq) & Ac & Ae) Dr H.
  unfold source_get_photon. unfold dbl_array in *. cbn [nums_list List.map app] in Mp, Ac, Ae.
  apply wp_bind. eapply wp_load_ptr; [exact Mp|reflexivity|].
  repeat (apply wp_bind; eapply wp_load_dbl; [exact Mp|reflexivity|]).
  apply wp_bind. eapply wp_load_int; [exact Md|reflexivity|].
  apply wp_bind. eapply wp_load_ptr; [exact Md|reflexivity|].
  apply wp_bind. eapply wp_load_ptr; [exact Mq|reflexivity|].
  apply wp_bind. eapply wp_load_ptr; [exact Mq|reflexivity|].
  apply wp_bind. eapply wp_load_dbl; [exact Ac|reflexivity|].
  apply wp_bind. eapply wp_load_dbl; [exact Ae|reflexivity|].
  replace (mkSource _ _ _ _ _ _ _ _) with k by (destruct k; reflexivity).
  rewrite Dr. exact H.
Qed.

Lemma gp_ok p d q lc le k n_cap c0 e0 cs es rs err s dr rs' :
  wf s -> orc s (cnt s) = true ->
  source_ready s p d q lc le k n_cap c0 e0 cs es ->
  draw_photon k n_cap c0 e0 rs = Some (dr, rs') ->
  nltb (vz (dr_start dr)) (#0)%num = false -> nltb (vz (dr_dir dr)) (#0)%num = false ->
  wp (source_get_photon (Some p) (Some rs) err)
     (fun r s' => exists ph, r = Some (Some ph, rs') /\ mem s ph = None /\
        mem s' ph = Some (photon_block (Some d) NULL NULL 0 0 (dr_start dr) (dr_dir dr) (dr_elecv dr)
                            (dr_start dr) (dr_dir dr) (dr_elecv dr) (dr_src dr) 0 NULL NULL NULL NULL 0 (#0)%num) /\
        same_memory_except [ph] s s') s.
Proof.
  intros W O R Dr B1 B2. eapply gp_reads; [exact R|exact Dr|].
  apply wp_bind. eapply wp_mono; [apply pn_ok; auto|]. cbn beta. intros r s' (W' & ph & -> & F & M & X).
  apply wp_bind. unfold store_vec. unfold photon_block, vcells in M. cbn [app] in M.
  repeat wstep. exists ph. split; [reflexivity|]. split; [exact F|]. split.
  - cbn [mem]. rewrite upd_same. unfold photon_block, vcells. reflexivity.
  - intros l Hl. pose proof (X l Hl) as E. nin_split Hl. cbn [mem]. rewrite !upd_other by assumption. exact E.
Qed.

(** The unchecked result: no memory for the photon. *)
Lemma gp_oom p d q lc le k n_cap c0 e0 cs es rs s dr rs' :
  orc s (cnt s) = false ->
  source_ready s p d q lc le k n_cap c0 e0 cs es ->
  draw_photon k n_cap c0 e0 rs = Some (dr, rs') ->
  nltb (vz (dr_start dr)) (#0)%num = false -> nltb (vz (dr_dir dr)) (#0)%num = false ->
  source_get_photon (Some p) (Some rs) None s = UB.
Proof.
  intros O ((lr & n & len & Mp) & (a & b & c & e & g & h & Md) & (n' & lz & Mq) & Ac & Ae) Dr B1 B2.
  unfold source_get_photon. unfold dbl_array in *. cbn [nums_list List.map app] in Mp, Ac, Ae.
  unfold load_ptr, load_dbl, load_int, load. unfold bind. rewrite Mp.
  cbn [nth_error ret]. repeat (rewrite ?Mp, ?Md, ?Mq, ?Ac, ?Ae; cbn [nth_error ret]).
  replace (mkSource _ _ _ _ _ _ _ _) with k by (destruct k; reflexivity).
  rewrite Dr. unfold photon_new, reject_if. cbn [is_null]. rewrite B1, B2. unfold bind, alloc. rewrite O. reflexivity.
Qed.

(** Missing arguments. *)
Lemma gp_null p rng err s : p = NULL \/ (exists d b, p = Some d /\ mem s d = Some (Vptr NULL :: b)) \/
    (rng = None /\ exists d dd b, p = Some d /\ mem s d = Some (Vptr (Some dd) :: b)) ->
  wf s -> legal_err s err -> (err <> None -> orc s (cnt s) = true /\ orc s (S (cnt s)) = true) ->
  wp (source_get_photon p rng err)
     (fun r s' => r = Some (NULL, []) /\ exists m, error_reported err POLYCAP_ERROR_INVALID_ARGUMENT m s s') s.
Proof.
  intros H W L O.
  assert (K : forall m, wp (bind (invalid err m) (fun _ => ret (Some (NULL, @nil T))))
     (fun r s' => r = Some (NULL, []) /\ exists m, error_reported err POLYCAP_ERROR_INVALID_ARGUMENT m s s') s).
  { intros m. apply wp_bind. unfold invalid. apply (wp_report true err POLYCAP_ERROR_INVALID_ARGUMENT m); auto.
    intros s2 _ _ _ _ R. apply wp_ret. split; [reflexivity|]. eauto. }
  destruct H as [->|[(d & b & -> & M)|(-> & d & dd & b & -> & M)]]; unfold source_get_photon; [apply K| |].
  - apply wp_bind. eapply wp_load_ptr; [exact M|reflexivity|]. apply K.
  - apply wp_bind. eapply wp_load_ptr; [exact M|reflexivity|]. apply K.
Qed.

End P.
