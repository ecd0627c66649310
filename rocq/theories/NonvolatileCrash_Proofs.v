(** The rest of the simulation: peeking, draining, locks, opening the file again, crashes. *)
From Verif Require Import Base Ring_Model Ring_Layout Ring_Proofs Nonvolatile_Model Nonvolatile_Spec Nonvolatile_Proofs.
Open Scope Z_scope.

Section Checksums.
Variable rcrc : list Z -> Z.
Variable hcrc : Z -> option Z -> option Z -> option Z -> Z.
Local Notation rel := (rel rcrc hcrc).
Local Notation sum_of := (sum_of rcrc).
Local Notation n_step := (n_step rcrc hcrc).

Ltac nr R := first [exact (nr_ci _ _ _ _ _ _ _ R) | exact (nr_tidy _ _ _ _ _ _ _ R) | exact (nr_len _ _ _ _ _ _ _ R) | exact (nr_ex _ _ _ _ _ _ _ R) | exact (nr_ow _ _ _ _ _ _ _ R) | exact (nr_hold _ _ _ _ _ _ _ R) | exact (nr_check _ _ _ _ _ _ _ R) | exact (nr_unread _ _ _ _ _ _ _ R) | exact (nr_gone _ _ _ _ _ _ _ R) | exact (nr_prod _ _ _ _ _ _ _ R) | exact (nr_wait _ _ _ _ _ _ _ R) | exact (nr_cons _ _ _ _ _ _ _ R) | exact (nr_sync _ _ _ _ _ _ _ R) | exact (nr_locks _ _ _ _ _ _ _ R) | exact (nr_shut _ _ _ _ _ _ _ R) | exact (nr_hcrc _ _ _ _ _ _ _ R)].

Lemma sim_peek : forall k n s U D, rel k n s U D ->
  step k sum_of s NPeek (snd (n_step n NPeek)) s /\ rel k (fst (n_step n NPeek)) s U D.
Proof.
  intros k n s U D R. cbn [Nonvolatile_Model.n_step fst snd]. split; [|exact R]. unfold n_peek.
  pose proof (nr_cons _ _ _ _ _ _ _ R) as C. pose proof (nr_unread _ _ _ _ _ _ _ R) as FU.
  assert (Hx: c_extra (n_c n) = k_extra k) by nr R. pose proof (k_extra_range k) as Hk.
  destruct (n_cons n) as [ [ [r|]|q]|].
  - destruct C as [C1 C2]. destruct U as [|h U]; [discriminate|]. injection C2 as ->. inversion FU as [|? x ? l He _]; subst.
    rewrite (stored_data _ _ _ (proj1 He)) by lia. eapply S_peek; eauto.
  - apply S_peek_none. unfold reading. rewrite C. discriminate.
  - destruct C as (j & C1 & C2 & C3 & C4). destruct j as [|j].
    + subst q. cbn. apply S_peek_none. unfold reading. rewrite C1. auto.
    + assert (Hlt: (j < length (q_unread s))%nat) by (rewrite <- (F2_length _ _ _ _ _ FU); lia).
      apply nth_error_Some in Hlt. destruct (nth_error (q_unread s) j) as [x|] eqn:En; [|congruence].
      destruct (nth_split_F2 _ _ _ _ _ _ _ FU En) as (r & U1 & U2 & EU & EL & He).
      assert (Eq: q = U1 ++ [r]).
      { rewrite C3, EU, firstn_app, <- EL. rewrite (firstn_all2 (n := S (length U1)) U1) by lia.
        replace (S (length U1) - length U1)%nat with 1%nat by lia. reflexivity. }
      rewrite Eq, rev_app_distr. cbn [rev app]. rewrite (stored_data _ _ _ (proj1 He)) by lia. eapply S_peek_ahead; eauto.
  - apply S_peek_none. unfold reading. rewrite C. auto.
Qed.

Lemma sim_drain : forall k n s U D, rel k n s U D ->
  step k sum_of s NWaitForDrain (snd (n_step n NWaitForDrain)) s /\ rel k (fst (n_step n NWaitForDrain)) s U D.
Proof.
  intros k n s U D R. cbn [Nonvolatile_Model.n_step]. unfold n_wait_for_drain, wait_for_drain.
  pose proof (nr_ci _ _ _ _ _ _ _ R) as I. pose proof (nr_unread _ _ _ _ _ _ _ R) as FU.
  assert (E: n_reading n || match c_nrs (n_c n) with Some _ => true | None => false end = match q_unread s with [] => false | _ => true end).
  { rewrite (ci_nrs _ _ _ I). destruct FU as [|r e U l He FU]; [|cbn; apply orb_true_r]. cbn [hd_start hd_error option_map]. rewrite orb_false_r.
    pose proof (nr_cons _ _ _ _ _ _ _ R) as C. unfold n_reading. destruct (n_cons n) as [ [ [r|]|q]|]; try reflexivity.
    - destruct C. discriminate.
    - destruct C as (j & _ & C & -> & _). destruct j; reflexivity. }
  rewrite E. destruct (q_unread s) as [|e l] eqn:Q; cbn [fst snd].
  - split.
    + pose proof (S_drain k sum_of s) as X. rewrite Q in X. exact X.
    + rewrite set_c_c. exact R.
  - split.
    + pose proof (S_drain k sum_of s) as X. rewrite Q in X. exact X.
    + apply rel_same'; auto. constructor; reflexivity.
Qed.

Lemma sim_lock : forall k n s U D, rel k n s U D ->
  step k sum_of s NLock (snd (n_step n NLock)) (set_qlocks (q_locks s + 1) (q_shut s) s) /\ rel k (fst (n_step n NLock)) (set_qlocks (q_locks s + 1) (q_shut s) s) U D.
Proof.
  intros k n s U D R. split; [apply S_lock|]. cbn [Nonvolatile_Model.n_step fst]. apply rel_same; auto.
  - constructor; reflexivity.
  - cbn. f_equal. nr R.
  - cbn. nr R.
Qed.
Lemma sim_unlock : forall k n s U D, rel k n s U D ->
  step k sum_of s NUnlock (snd (n_step n NUnlock)) (set_qlocks (q_locks s - 1) (q_shut s) s) /\ rel k (fst (n_step n NUnlock)) (set_qlocks (q_locks s - 1) (q_shut s) s) U D.
Proof.
  intros k n s U D R. split; [apply S_unlock|]. cbn [Nonvolatile_Model.n_step fst]. apply rel_same; auto.
  - constructor; reflexivity.
  - cbn. f_equal. nr R.
  - cbn. nr R.
Qed.
Lemma sim_shutdown : forall k n s U D, rel k n s U D ->
  step k sum_of s NShutdown (snd (n_step n NShutdown)) (set_qlocks (if q_shut s then q_locks s else q_locks s + 1) true s) /\
  rel k (fst (n_step n NShutdown)) (set_qlocks (if q_shut s then q_locks s else q_locks s + 1) true s) U D.
Proof.
  intros k n s U D R. split; [apply S_shutdown|]. cbn [Nonvolatile_Model.n_step fst]. unfold n_shutdown, shutdown_common.
  pose proof (nr_shut _ _ _ _ _ _ _ R) as H1. pose proof (nr_locks _ _ _ _ _ _ _ R) as H2. rewrite <- H1.
  destruct (c_shutdown (n_c n)) eqn:E; apply rel_same; auto; try apply same_refl.
  - constructor; reflexivity.
  - cbn. congruence.
Qed.

(** * Opening the file *)
(** Two files with the same content. *)
Record feq (f g : file) : Prop := {
  fe_len : fl_len f = fl_len g; fe_version : fl_version f = fl_version g; fe_size : fl_size f = fl_size g;
  fe_nws : fl_nws f = fl_nws g; fe_cws : fl_cws f = fl_cws g; fe_lwe : fl_lwe f = fl_lwe g; fe_nrs : fl_nrs f = fl_nrs g;
  fe_crc : fl_crc f = fl_crc g; fe_mem : forall i, fl_mem f i = fl_mem g i }.

Lemma usable_dec : forall k s, exists b, b = true <-> cursor_usable k sum_of s.
Proof.
  intros k s. unfold cursor_usable.
  assert (D: (Forall (shown k sum_of) (q_unread s)) \/ ~ (Forall (shown k sum_of) (q_unread s))).
  { induction (q_unread s) as [|e l IH]; [left; constructor|].
    assert (Dec: shown k sum_of e \/ ~ shown k sum_of e).
    { destruct (k_check k) eqn:Hc; [|left; unfold shown; congruence]. rewrite (shown_iff _ _ _ Hc). destruct (sum_of (e_data e) =? e_sum e); auto. }
    destruct Dec; [|right; intros X; inv X; contradiction]. destruct IH; [left; constructor; assumption|right; intros X; inv X; contradiction]. }
  destruct (k_ow k); [|exists false; split; [discriminate|intros (H & _); discriminate]].
  destruct (q_gone s) as [|g l]; [|exists false; split; [discriminate|intros (_ & _ & H); discriminate]].
  destruct D; [exists true; split; auto|exists false; split; [discriminate|tauto]].
Qed.

(** The parameters of the buffer. *)
Definition sized (k : config) (n : nbuf) : Prop :=
  c_len (n_c n) = k_cap k /\ c_ow (n_c n) = k_ow k /\ n_hold n = k_hold k /\ n_check n = k_check k.
Lemma rel_sized : forall k n s U D, rel k n s U D -> sized k n.
Proof. intros k n s U D R. unfold sized. splits; nr R. Qed.

Lemma reload_ok : forall k n n1 s1 U D f, sized k n -> 0 <= k_cap k -> rel k n1 s1 U D -> feq f (n_file n1) ->
  exists n' b U' D', n_reload hcrc n f = (n', NOpened false) /\ (b = true <-> cursor_usable k sum_of (abandon s1)) /\
    rel k n' (reopened b s1) U' D' /\ c_stats (n_c n') = c_stats (n_c n).
Proof.
  intros k n n1 s1 U D f (Z1 & Z2 & Z3 & Z4) Hcap R F. destruct F as [F1 F2 F3 F4 F5 F6 F7 F8 F9].
  cbn [n_file fl_len fl_version fl_size fl_nws fl_cws fl_lwe fl_nrs fl_crc fl_mem] in *.
  destruct (abandoned _ _ _ _ _ _ _ R) as (D' & A1 & A2 & A3 & A4 & A5 & A6 & A7 & A8 & A9 & A10 & A11 & A12).
  destruct (usable_dec k (abandon s1)) as (b & Hb).
  unfold n_reload, rb_open, n_open. rewrite Z1, Z2, Z3, Z4, F1, F2, F3.
  replace (k_cap k + header_size <? header_size) with false by (unfold header_size; lia).
  rewrite (nr_len _ _ _ _ _ _ _ R), !Z.eqb_refl. cbn [negb orb].
  rewrite F4, F5, F6, F7, F8, (nr_hcrc _ _ _ _ _ _ _ R), Z.eqb_refl. cbn [negb].
  replace (k_cap k + header_size - header_size) with (k_cap k) by lia.
  eexists _, b, U, D'. split; [reflexivity|]. split; [exact Hb|]. split; [|reflexivity].
  rewrite <- (nr_hcrc _ _ _ _ _ _ _ R).
  set (c1 := set_stats (c_stats (n_c n)) (common_new (fl_mem f) (k_cap k) (c_nws (n_c n1)) (c_cws (n_c n1)) (c_lwe (n_c n1)) (c_nrs (n_c n1)) (if k_check k then 4 else 0) (k_ow k) (c_hcrc (n_c n1)))).
  assert (Hex: c_extra c1 = c_extra (n_c n1)).
  { rewrite (nr_ex _ _ _ _ _ _ _ R). unfold k_extra. cbn. destruct (k_check k); reflexivity. }
  assert (Her: forall r e, erel (k_check k) (n_c n1) r e -> erel (k_check k) c1 r e).
  { intros r e He. apply (erel_same _ (set_mem (fl_mem f) (n_c n1))); [reflexivity|exact Hex|].
    apply erel_mem; [exact He|rewrite (nr_ex _ _ _ _ _ _ _ R); reflexivity|]. intros i _. apply F9. }
  unfold reopened. constructor; cbn [n_c n_prod n_cons n_hold n_check n_wait q_unread q_gone q_slot q_prod q_wait q_reader q_sync q_locks q_shut].
  - cbn [resv n_prod]. rewrite app_nil_r.
    assert (I1: cinv (set_mem (fl_mem f) (n_c n1)) U D') by (apply cinv_mem; [exact A1|]; intros; apply F9).
    constructor.
    + cbn. rewrite <- (nr_len _ _ _ _ _ _ _ R). exact (ci_len _ _ _ A1).
    + rewrite Hex. exact (ci_extra _ _ _ A1).
    + cbn. rewrite <- (nr_len _ _ _ _ _ _ _ R). exact (ci_layout _ _ _ A1).
    + exact (ci_nrs _ _ _ A1).
    + exact (ci_cws _ _ _ A1).
    + pose proof (ci_sizes _ _ _ I1) as Sz. eapply Forall_impl; [|exact Sz]. intros r [S1 S2]. unfold size_ok in *. rewrite Hex. split; assumption.
    + reflexivity.
  - exact A2.
  - reflexivity.
  - rewrite Hex. nr R.
  - reflexivity.
  - reflexivity.
  - reflexivity.
  - eapply F2_impl; [|exact A3]. auto.
  - eapply F2_impl; [|exact A4]. auto.
  - auto.
  - reflexivity.
  - reflexivity.
  - intros Hb1. apply Hb in Hb1. destruct Hb1 as (B1 & B2 & B3). splits; auto.
    + rewrite B3 in A4. inv A4. reflexivity.
    + unfold ahead. cbn. exact (ci_nrs _ _ _ A1).
    + discriminate.
  - reflexivity.
  - reflexivity.
  - cbn. nr R.
Qed.

Lemma feq_refl : forall f, feq f f.
Proof. intros f. constructor; reflexivity. Qed.

Lemma rel_cap : forall k n s U D, rel k n s U D -> 0 <= k_cap k.
Proof. intros k n s U D R. rewrite <- (nr_len _ _ _ _ _ _ _ R). pose proof (ci_len _ _ _ (nr_ci _ _ _ _ _ _ _ R)). lia. Qed.

Lemma sim_reopen : forall k n s U D, rel k n s U D ->
  exists s' U' D', step k sum_of s NReopen (snd (n_step n NReopen)) s' /\ rel k (fst (n_step n NReopen)) s' U' D' /\
    moved k (n_c n) (n_c (fst (n_step n NReopen))) s s'.
Proof.
  intros k n s U D R. destruct (reload_ok k n n s U D (n_file n) (rel_sized _ _ _ _ _ R) (rel_cap _ _ _ _ _ R) R (feq_refl _)) as (n' & b & U' & D' & E & Hb & R' & Hst).
  cbn [Nonvolatile_Model.n_step]. rewrite E. cbn [fst snd]. exists (reopened b s), U', D'. split; [apply S_reopen; exact Hb|]. split; [exact R'|].
  apply (moved_trans _ _ (n_c n) _ _ (abandon s)); [apply moved_abandon; eapply rel_gone; exact R|]. apply moved_fields; try reflexivity. rewrite Hst. reflexivity.
Qed.

(** A file that is refused is replaced by an empty one. *)
Lemma rel_init : forall k st n, 0 <= k_cap k < 2147483648 ->
  n = mkN (set_stats st (common_new (fun _ => 0) (k_cap k) 0 None None None (if k_check k then 4 else 0) (k_ow k) (hcrc 0 None None None))) None None (k_hold k) (k_check k) None ->
  forall s, q_unread s = [] -> q_gone s = [] -> q_slot s = None -> q_prod s = false -> q_wait s = None -> q_reader s = Nobody ->
  q_sync s = match k_ow k with OBlock => true | OYes => false end -> q_locks s = 0 -> q_shut s = false -> rel k n s [] [].
Proof.
  intros k st n Hc -> s H1 H2 H3 H4 H5 H6 H7 H8 H9.
  constructor; cbn [n_c n_prod n_cons n_hold n_check n_wait]; rewrite ?H1, ?H2, ?H3, ?H4, ?H5, ?H6, ?H8, ?H9; auto.
  - constructor; cbn; auto; try lia.
    + destruct (k_check k); lia.
    + apply layout_empty. lia.
  - cbn. unfold k_extra. destruct (k_check k); reflexivity.
  - rewrite H7. intros Hs. destruct (k_ow k) eqn:E; [|discriminate]. splits; auto; [|discriminate]. unfold ahead. rewrite H6. reflexivity.
Qed.

Definition lost_queue (k : config) (s : queue) : queue :=
  mkQ [] [] None (q_next s) false None Nobody (match k_ow k with OBlock => true | OYes => false end) 0 false
      (q_past s ++ map (pair Destroyed) (q_unread s ++ q_gone s ++ match q_slot s with Some (i, d) => [mkEntry i d 0 false] | None => [] end)).

Lemma reload_lost : forall k n f s, sized k n -> 0 <= k_cap k < 2147483648 -> fl_len f = k_cap k + header_size -> fl_version f = current_version ->
  fl_size f = k_cap k + header_size -> hcrc (fl_nws f) (fl_cws f) (fl_lwe f) (fl_nrs f) <> fl_crc f ->
  exists n', n_reload hcrc n f = (n', NOpened true) /\ rel k n' (lost_queue k s) [] [].
Proof.
  intros k n f s (Z1 & Z2 & Z3 & Z4) Hcap L1 L2 L3 Hn. unfold n_reload, rb_open, n_open.
  rewrite Z1, Z2, Z3, Z4, L1, L2, L3.
  replace (k_cap k + header_size <? header_size) with false by (unfold header_size; lia).
  rewrite !Z.eqb_refl. cbn [negb orb]. apply Z.eqb_neq in Hn. rewrite Hn. cbn [negb].
  unfold fresh_file. cbn [fl_nws fl_cws fl_lwe fl_nrs fl_crc fl_mem]. rewrite ?Z.eqb_refl. cbn [negb].
  replace (k_cap k + header_size - header_size) with (k_cap k) by lia.
  eexists. split; [reflexivity|]. eapply rel_init; try reflexivity. exact Hcap.
Qed.
End Checksums.
