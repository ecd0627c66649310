(** A flush returns, or everything stops. *)
From Verif Require Import Base Ring_Model Volatile_Model Volatile_Spec Nonvolatile_Model Nonvolatile_Spec Aggregate_Model Aggregate_Spec Aggregate_Proofs AggregateUse_Proofs AggregateLive_Proofs
  Delivery_Model Delivery_Spec Delivery_Proofs DeliveryLive_Proofs Freeze_Model Freeze_Spec.
From Verif Require NonvolatileClient_Spec Batching_Model Volatile_Proofs Ring_Proofs.
Open Scope Z_scope.

(** * The flush waits for the newest record *)
Definition target (v : vbuf) : Prop := c_wait (v_c v) = Some (c_cws (v_c v)).

Lemma drain_target v v' : v_step v VWaitForDrain = (v', OWait true) -> target v'.
Proof.
  cbn. unfold v_wait_for_drain, wait_for_drain. destruct (_ || _); cbn; intros E; inv E. reflexivity.
Qed.
Lemma register_target v v' out : v_step v VRegisterConsumer = (v', out) -> target v -> target v'.
Proof. cbn. unfold v_register_consumer. destruct (v_cons v); intros E; inv E; exact (fun H => H). Qed.
Lemma read_target cap v s U v' out : Volatile_Proofs.rel cap v s U -> v_step v (VStartRead true) = (v', out) -> target v -> target v'.
Proof.
  intros R E T. cbn in E. destruct (v_start_read v true) as [v1 r] eqn:Ev. inv E. unfold v_start_read in Ev.
  pose proof (Volatile_Proofs.r_ci _ _ _ _ R) as I. pose proof (Volatile_Proofs.r_ex _ _ _ _ R) as HX. destruct (v_cons v) as [k|]; [|inv Ev; exact T].
  unfold start_read in Ev. destruct k as [r0|]; [inv Ev; exact T|].
  rewrite (Ring_Proofs.ci_pending _ _ _ I) in Ev. cbn [rd_start] in Ev. rewrite (Ring_Proofs.ci_nrs _ _ _ I) in Ev. destruct U as [|h U].
  - cbn in Ev. destruct (c_shutdown (v_c v)); inv Ev; exact T.
  - cbn [Ring_Proofs.hd_start hd_error option_map] in Ev.
    assert (Hin: In h ((h :: U) ++ Volatile_Proofs.qranges (v_res v))) by (left; reflexivity).
    assert (Hn: c_nrs (v_c v) = Some (r_start h)) by (rewrite (Ring_Proofs.ci_nrs _ _ _ I); reflexivity).
    rewrite (Ring_Proofs.load_ok _ _ _ CursorNo h I Hin Hn) in Ev. cbn [r_size] in Ev. destruct (_ && _); inv Ev; exact T.
Qed.
Lemma finish_target cap v s U v' : Volatile_Proofs.rel cap v s U -> v_step v VFinishRead = (v', OFin (Ok false)) -> target v ->
  target v' /\ exists x y u, f_unread s = x :: y :: u.
Proof.
  intros R E T. cbn in E. destruct (v_finish_read v) as [v1 r] eqn:Ev. inv E. unfold v_finish_read in Ev. pose proof (Volatile_Proofs.r_reader _ _ _ _ R) as Hr.
  pose proof (Volatile_Proofs.r_ci _ _ _ _ R) as I. destruct (v_cons v) as [[r0|]|]; try discriminate. destruct Hr as [_ Hr]. destruct U as [|h U]; [discriminate|]. cbn in Hr. inv Hr.
  unfold finish_read_common, advance_next_read in Ev. cbn [v_set_cons v_c rd_start] in Ev. rewrite (Ring_Proofs.ci_nrs _ _ _ I) in Ev. cbn [Ring_Proofs.hd_start hd_error option_map] in Ev.
  unfold target in *. destruct (c_cws (v_c v)) as [w|] eqn:W; [|discriminate]. destruct (Z.eqb_spec (r_start r0) w) as [->|Nw]; cbn [negb] in Ev.
  - cbn in Ev. rewrite T, Z.eqb_refl in Ev. unfold maybe_do_total_data_loss_reset in Ev. cbn in Ev. rewrite (Ring_Proofs.ci_pending _ _ _ I) in Ev. discriminate.
  - assert (HU : exists u U', U = u :: U').
    { destruct U as [|u U]; [|eauto]. exfalso. apply Nw. pose proof (Ring_Proofs.ci_cws _ _ _ I) as C. rewrite W in C. cbn in C. congruence. }
    destruct HU as (u1 & U1 & ->). pose proof (Volatile_Proofs.r_unread _ _ _ _ R) as F. inversion F as [|? x ? l _ F2]; subst. inversion F2 as [|? y ? l2 _ F3]; subst.
    split; [|eauto]. apply Z.eqb_neq in Nw. rewrite Z.eqb_sym in Nw. destruct (add32 _ _) as [e|]; [|discriminate]. destruct (sub32 e 1) as [l0|]; [|discriminate].
    unfold maybe_do_total_data_loss_reset in Ev. destruct (match c_lwe (v_c v) with Some _ => _ | None => _ end); cbn in Ev; rewrite T, Nw in Ev; cbn in Ev; rewrite (Ring_Proofs.ci_pending _ _ _ I) in Ev; inv Ev; cbn; congruence.
Qed.

Section P.
Variable rcrc : list Z -> Z.
Variable hcrc : Z -> option Z -> option Z -> option Z -> Z.
Variable vcap : Z.
Variable k : config.
Hypothesis hold : k_hold k = true.
Hypothesis small : vcap < 4294967296.
Hypothesis block : k_ow k = OBlock.
Hypothesis fits : vcap + (k_extra k - 4) <= k_cap k.
Local Notation d_step := (d_step rcrc hcrc).
Local Notation thread_step := (thread_step rcrc hcrc).
Local Notation sdk_step := (sdk_step rcrc hcrc).
Local Notation sdk_run := (sdk_run rcrc hcrc).
Local Notation inv_ := (inv_ rcrc hcrc vcap k false).
Local Notation explains := (explains rcrc vcap k).
Local Notation live := (live rcrc hcrc vcap k).

(** The flush waits for all records in RAM. *)
Definition awaited (s : fifo) : Prop := exists m, In m (f_waits s) /\ forall y, In y (f_unread s) -> (rec_id y < m)%nat.
Definition held_inv (x : sdk) (s : fifo) : Prop := sdk_held x = true -> target (g_v (d_g (sdk_d x))) /\ awaited s /\ f_unread s <> [].

(** One step of the flush thread while the flush waits. *)
Lemma thread_held g s q s' q' : inv_ g s q -> explains s q (snd (thread_step g)) s' q' -> target (g_v g) -> awaited s -> f_unread s <> [] ->
  if wakes (snd (thread_step g)) then f_unread s' = [] else target (g_v (fst (thread_step g))) /\ awaited s' /\ f_unread s' <> [].
Proof.
  intros H X T A N. destruct (i_v _ _ _ _ _ _ _ _ H) as ((U & R) & _). revert X. unfold Aggregate_Model.thread_step.
  destruct (g_pos g) eqn:Hp; unfold on_v, on_n.
  - destruct (v_step (g_v g) VRegisterConsumer) as [v' out] eqn:E. cbn [fst snd wakes]. intros X. apply v_one in X. destruct X as [St ->].
    assert (T' : target v') by (eapply register_target; eassumption). assert (Q : f_unread s' = f_unread s /\ f_waits s' = f_waits s) by (inv St; auto). destruct Q as [Q1 Q2].
    unfold awaited. rewrite Q1, Q2. split; [destruct out; try exact T'; destruct r; exact T'|split; assumption].
  - destruct (n_step rcrc hcrc (g_n g) NRegisterProducer) as [n' out]. cbn [fst snd wakes]. intros X. apply n_one in X. destruct X as [_ ->].
    split; [destruct out; try exact T; destruct r; exact T|split; assumption].
  - cbn [fst snd wakes]. intros X. apply none in X. destruct X as [-> _]. split; [exact T|split; assumption].
  - destruct (v_step (g_v g) (VStartRead true)) as [v' out] eqn:E. cbn [fst snd wakes]. intros X. apply v_one in X. destruct X as [St ->].
    assert (T' : target v') by (eapply read_target; eassumption). assert (Q : f_unread s' = f_unread s /\ f_waits s' = f_waits s) by (inv St; auto). destruct Q as [Q1 Q2].
    unfold awaited. rewrite Q1, Q2. split; [destruct out; try exact T'; destruct r; try exact T'; destruct e; exact T'|split; assumption].
  - destruct (n_step rcrc hcrc (g_n g) (NReserve size true)) as [n' out]. cbn [fst snd wakes]. intros X. apply n_one in X. destruct X as [_ ->].
    split; [destruct out; try exact T; destruct r; try exact T; destruct e; exact T|split; assumption].
  - destruct (g_wake g).
    + destruct (n_step rcrc hcrc (g_n g) NResume) as [n' out]. cbn [fst snd wakes]. intros X. apply n_one in X. destruct X as [_ ->].
      split; [destruct out; try exact T; destruct r; try exact T; destruct e; exact T|split; assumption].
    + cbn [fst snd wakes]. intros X. apply none in X. destruct X as [-> _]. split; [exact T|split; assumption].
  - cbn [v_step]. destruct (v_peek (g_v g)) as [bs|] eqn:E; cbn [fst snd].
    + unfold on_n. destruct (n_step rcrc hcrc _ (NWrite 0 bs)) as [n' out]. cbn [fst snd wakes]. intros [V _]. cbn in V. inv V. match goal with R : Volatile_Spec.run _ _ [] _ _ |- _ => inv R end.
      match goal with R : Volatile_Spec.step _ _ _ _ _ |- _ => inv R end. split; [exact T|split; assumption].
    + cbn [wakes]. intros X. apply v_one in X. destruct X as [St ->]. inv St. split; [exact T|split; assumption].
  - destruct (n_step rcrc hcrc (g_n g) NCommit) as [n' out]. cbn [fst snd wakes]. intros X. apply n_one in X. destruct X as [_ ->].
    split; [destruct out; try exact T; destruct r; exact T|split; assumption].
  - destruct (v_step (g_v g) VFinishRead) as [v' out] eqn:E. cbn [fst snd wakes]. intros X. apply v_one in X. destruct X as [St ->].
    pose proof (i_pos _ _ _ _ _ _ _ _ H) as P. rewrite Hp in P. cbn [pos_inv] in P. destruct P as ((P & _) & _). inv St; try congruence. destruct A as (m & A1 & A2). destruct b.
    + match goal with Q : true = true -> _, B : f_unread s = _ |- _ => specialize (Q eq_refl); cbn; destruct l as [|y l]; [reflexivity|exfalso]; specialize (Q m y A1 (or_introl eq_refl)); rewrite B in A2; specialize (A2 y (or_intror (or_introl eq_refl))); lia end.
    + destruct (finish_target _ _ _ _ _ R E T) as (T' & x1 & y & u & Eu). match goal with B : f_unread s = x :: l |- _ => rewrite Eu in B; inv B end.
      split; [exact T'|]. split; [|cbn; discriminate]. exists m. split; [exact A1|]. intros z Hz. apply A2. rewrite Eu. right. exact Hz.
  - destruct (n_step rcrc hcrc (g_n g) NDropProducer) as [n' out]. cbn [fst snd wakes]. intros X. apply n_one in X. destruct X as [_ ->]. split; [exact T|split; assumption].
  - destruct (v_step (g_v g) VDropConsumer) as [v' out] eqn:E. cbn [fst snd wakes]. intros X. apply v_one in X. destruct X as [St ->].
    assert (T' : target v') by (cbn in E; inv E; exact T). assert (Q : f_unread s' = f_unread s /\ f_waits s' = f_waits s) by (inv St; auto). destruct Q as [Q1 Q2].
    unfold awaited. rewrite Q1, Q2. split; [exact T'|split; assumption].
  - cbn [fst snd wakes]. intros X. apply none in X. destruct X as [-> _]. split; [exact T|split; assumption].
Qed.

Lemma sdk_step_d x m x' c o : sdk_step x m = Some (x', c, o) -> d_step (sdk_d x) m = Some (sdk_d x', c, o).
Proof. unfold Freeze_Model.sdk_step. destruct (_ && _); [discriminate|]. destruct (d_step (sdk_d x) m) as [[[d c0] o0]|]; [|discriminate]. intros E. inv E. reflexivity. Qed.

Lemma held_step x s q m x' c o s' q' o0 : live (sdk_d x) s q o0 -> held_inv x s -> sdk_step x m = Some (x', c, o) -> explains s q c s' q' -> m <> Stop -> held_inv x' s'.
Proof.
  intros ((I & _) & _) H St X NS Hh. unfold Freeze_Model.sdk_step in St. destruct (sdk_held x && of_sdk m) eqn:B; [discriminate|].
  destruct (d_step (sdk_d x) m) as [[[d c1] o1]|] eqn:Sd; [|discriminate]. inv St. cbn [sdk_held] in Hh.
  destruct (sdk_held x) eqn:Hx.
  - destruct m; try discriminate B; [|congruence]. destruct a; try discriminate B. cbn in Sd. cbn [sdk_d].
    destruct (H Hx) as (T & A & N). pose proof (thread_held (d_g (sdk_d x)) s q s' q' I) as L. destruct (thread_step (d_g (sdk_d x))) as [g' c'] eqn:Et. inv Sd. cbn [fst snd d_g] in *.
    specialize (L X T A N). cbn in Hh. destruct (wakes c); [discriminate|exact L].
  - assert (F : m = World Flush \/ False) by (destruct m; try discriminate Hh; destruct a; try discriminate Hh; auto). destruct F as [->|[]].
    cbn [Delivery_Model.d_step Aggregate_Model.g_step] in Sd. unfold on_v in Sd. destruct (v_step (g_v (d_g (sdk_d x))) VWaitForDrain) as [v' out] eqn:E. inv Sd. cbn in Hh. destruct out; try discriminate. subst b.
    apply v_one in X. destruct X as [St ->]. inv St. split; [eapply drain_target; exact E|]. split; [|cbn; assumption]. exists k0. cbn. auto.
Qed.

Lemma thread_moves_d d : d_step d (World Thread) = Some (mkD (fst (thread_step (d_g d))) (d_w d), snd (thread_step (d_g d)), []).
Proof. cbn. destruct (thread_step (d_g d)). reflexivity. Qed.
Lemma thread_moves_x x : sdk_step x (World Thread) = Some (mkSdk (mkD (fst (thread_step (d_g (sdk_d x)))) (d_w (sdk_d x))) (sdk_held x && negb (wakes (snd (thread_step (d_g (sdk_d x)))))), snd (thread_step (d_g (sdk_d x))), []).
Proof. unfold Freeze_Model.sdk_step. cbn [of_sdk]. rewrite andb_false_r, thread_moves_d. reflexivity. Qed.

(** * A thread that waits in vain *)
Lemma stuck_frozen x : sdk_held x = true -> g_pos (d_g (sdk_d x)) = FWait -> g_wake (d_g (sdk_d x)) = false -> frozen rcrc hcrc x.
Proof.
  intros H P W. split; [exact H|]. intros ms. revert x H P W. induction ms as [|m ms IH]; intros x H P W x' c o R; cbn in R; [inv R; auto|].
  destruct (sdk_step x m) as [[[x1 c1] o1]|] eqn:St; [|discriminate]. destruct (sdk_run x1 ms) as [[[x2 c2] o2]|] eqn:Rr; [|discriminate]. inv R.
  assert (Q : c1 = [] /\ o1 = [] /\ sdk_held x1 = true /\ g_pos (d_g (sdk_d x1)) = FWait /\ g_wake (d_g (sdk_d x1)) = false).
  { destruct m as [[]| | | | | | | |]; try (unfold Freeze_Model.sdk_step in St; rewrite H in St; discriminate).
    - rewrite thread_moves_x in St. unfold Aggregate_Model.thread_step in St. rewrite P, W in St. cbn in St. rewrite H in St. inv St. cbn. auto.
    - unfold Freeze_Model.sdk_step in St. rewrite H in St. cbn in St. destruct (d_w (sdk_d x)); [|discriminate]. inv St. cbn. auto. }
  destruct Q as (-> & -> & H1 & P1 & W1). destruct (IH x1 H1 P1 W1 _ _ _ Rr) as (A & -> & ->). auto.
Qed.

(** * The flush thread alone *)
Lemma release_or_freeze n : forall x s q o, live (sdk_d x) s q o -> held_inv x s -> sdk_held x = true -> (2 * chores (d_g (sdk_d x)) s + (if g_wake (d_g (sdk_d x)) then 1 else 0) <= n)%nat ->
  exists i x' c' s' q', sdk_run x (flush_thread i) = Some (x', c', []) /\ explains s q c' s' q' /\ live (sdk_d x') s' q' o /\ all_of s' = all_of s /\ removed q' = removed q /\
    (sdk_held x' = false /\ f_unread s' = [] \/ sdk_held x' = true /\ g_pos (d_g (sdk_d x')) = FWait /\ g_wake (d_g (sdk_d x')) = false).
Proof.
  induction n as [|n IH]; intros x s q o L Hi Hx Le.
  { unfold chores in Le. exfalso. destruct (g_pos (d_g (sdk_d x))); cbn in Le; lia. }
  assert (L0 := L). destruct L0 as ((I & K & _) & (L1 & L2 & _) & _). destruct (Hi Hx) as (T & A & N).
  assert (Hal: ends (g_pos (d_g (sdk_d x))) = true -> False).
  { intros He. pose proof (h_exit _ _ _ _ _ (i_shut _ _ _ _ _ _ _ _ I) He fits) as B. rewrite (h_stop _ _ _ _ _ (i_shut _ _ _ _ _ _ _ _ I)), L1 in B. discriminate. }
  assert (C : (g_pos (d_g (sdk_d x)) = FWait /\ g_wake (d_g (sdk_d x)) = false) \/ can_move (d_g (sdk_d x)) s).
  { unfold can_move. destruct (g_pos (d_g (sdk_d x))); try (right; exact Logic.I); try (exfalso; apply Hal; reflexivity); try (right; exact N). destruct (g_wake (d_g (sdk_d x))); auto. }
  destruct C as [[C1 C2]|C].
  { exists 0%nat, x, [], s, q. split; [reflexivity|]. split; [split; constructor|]. auto 10. }
  destruct (live_step rcrc hcrc vcap k hold small block _ _ _ _ (World Thread) _ _ _ L Logic.I ltac:(discriminate) ltac:(discriminate) (thread_moves_d _)) as (s1 & q1 & X & L').
  rewrite app_nil_r in L'.
  destruct (thread_effect rcrc hcrc vcap k hold block fits _ _ _ _ _ I L1 X) as (E1 & _ & E3 & _). specialize (E3 C).
  pose proof (held_step x s q (World Thread) _ _ _ s1 q1 o L Hi (thread_moves_x x) X ltac:(discriminate)) as Hi'.
  pose proof (thread_held _ _ _ _ _ I X T A N) as TH.
  assert (Rm1 : removed q1 = removed q).
  { destruct (world_ops rcrc hcrc (d_g (sdk_d x)) Thread ltac:(discriminate)) as [[_ B]|B].
    - exfalso. apply Hal. rewrite B. reflexivity.
    - destruct X as [_ Xn]. exact (proj1 (proj2 (writer_run rcrc k block _ _ _ _ Xn B (gone_nil rcrc k _ K)))). }
  destruct (wakes (snd (thread_step (d_g (sdk_d x))))) eqn:Wk.
  { eexists 1%nat, _, _, s1, q1. unfold flush_thread. cbn [repeat Freeze_Model.sdk_run]. rewrite thread_moves_x, app_nil_r. cbn [app]. split; [reflexivity|]. split; [exact X|]. split; [exact L'|].
    split; [exact E1|]. split; [exact Rm1|]. left. cbn. rewrite Wk, andb_false_r. auto. }
  pose proof (thread_moves_x x) as St. rewrite Wk, Hx in St. rewrite Hx in Hi'. cbn [andb negb] in St, Hi'.
  remember (mkSdk (mkD (fst (thread_step (d_g (sdk_d x)))) (d_w (sdk_d x))) true) as x1 eqn:Ex1.
  assert (Lx : live (sdk_d x1) s1 q1 o) by (subst x1; exact L').
  destruct (IH x1 s1 q1 o Lx Hi') as (i & x' & c' & s' & q' & R & X' & Lv & Al & Rq & Fin); [subst x1; reflexivity| |].
  { subst x1. cbn [sdk_d d_g]. destruct E3 as [(M1 & M2 & _)|(M1 & M2 & M3 & _)].
    - destruct (g_wake (fst (thread_step (d_g (sdk_d x))))); [rewrite (M2 eq_refl) in Le|]; lia.
    - rewrite M1, M3. rewrite M2 in Le. lia. }
  exists (S i), x', (snd (thread_step (d_g (sdk_d x))) ++ c'), s', q'. unfold flush_thread in *. cbn [repeat Freeze_Model.sdk_run]. rewrite St, R. cbn [app].
  split; [reflexivity|]. split; [eapply explains_app; eassumption|]. split; [exact Lv|]. split; [congruence|]. split; [congruence|exact Fin].
Qed.

(** * Histories *)
Lemma run_held ms : forall x s q o x' c o', live (sdk_d x) s q o -> held_inv x s -> Forall move_ok ms -> ~ In Stop ms -> ~ In (World Shutdown) ms -> sdk_run x ms = Some (x', c, o') ->
  exists s' q', explains s q c s' q' /\ live (sdk_d x') s' q' (o ++ o') /\ held_inv x' s'.
Proof.
  induction ms as [|m ms IH]; intros x s q o x' c o' L H F N1 N2 R; cbn in R.
  - inv R. exists s, q. rewrite app_nil_r. split; [split; constructor|auto].
  - destruct (sdk_step x m) as [[[x1 c1] o1]|] eqn:St; [|discriminate]. destruct (sdk_run x1 ms) as [[[x2 c2] o2]|] eqn:Rr; [|discriminate]. inv R. inv F.
    assert (M1 : m <> Stop) by (intros ->; apply N1; left; reflexivity). assert (M2 : m <> World Shutdown) by (intros ->; apply N2; left; reflexivity).
    destruct (live_step rcrc hcrc vcap k hold small block _ _ _ _ m _ _ _ L ltac:(assumption) M1 M2 (sdk_step_d _ _ _ _ _ St)) as (s1 & q1 & X & L1).
    pose proof (held_step _ _ _ _ _ _ _ _ _ _ L H St X M1) as H1.
    destruct (IH x1 s1 q1 (o ++ o1) x' c2 o2 L1 H1) as (s' & q' & X' & L' & H'); [assumption|intros B; apply N1; right; exact B|intros B; apply N2; right; exact B|exact Rr|].
    exists s', q'. rewrite app_assoc. split; [eapply explains_app; eassumption|auto].
Qed.
End P.

(** * Room *)
Lemma total_app ex a b : Nonvolatile_Spec.total ex (a ++ b) = Nonvolatile_Spec.total ex a + Nonvolatile_Spec.total ex b.
Proof. induction a as [|d a IH]; [reflexivity|]. cbn [app Nonvolatile_Spec.total fold_right]. unfold Nonvolatile_Spec.total in *. rewrite IH. lia. Qed.
Lemma total_pos ex l : 0 <= ex -> 0 <= Nonvolatile_Spec.total ex l.
Proof. intros H. induction l as [|d l IH]; [cbn; lia|]. cbn [Nonvolatile_Spec.total fold_right]. unfold Nonvolatile_Spec.total, Nonvolatile_Spec.need in *. lia. Qed.
Lemma largest_app ex m a b : Nonvolatile_Spec.largest ex m (a ++ b) = Nonvolatile_Spec.largest ex (Nonvolatile_Spec.largest ex m b) a.
Proof. unfold Nonvolatile_Spec.largest. rewrite fold_right_app. reflexivity. Qed.
Lemma largest_cons ex m d l : Nonvolatile_Spec.largest ex m (d :: l) = Z.max (Nonvolatile_Spec.need ex d) (Nonvolatile_Spec.largest ex m l).
Proof. reflexivity. Qed.
Lemma largest_max ex m l : m <= Nonvolatile_Spec.largest ex m l.
Proof. induction l as [|d l IH]; [cbn; lia|]. rewrite largest_cons. lia. Qed.
Lemma largest_mono ex m m' l : m <= m' -> Nonvolatile_Spec.largest ex m l <= Nonvolatile_Spec.largest ex m' l.
Proof. intros H. induction l as [|d l IH]; [exact H|]. rewrite !largest_cons. lia. Qed.
(** Records that do not fit in together with those before: not all of them fit together. *)
Lemma short_unfit ex cap l d u : 0 <= ex -> cap < Nonvolatile_Spec.total ex l + (Z.of_nat (length d) + ex) + Nonvolatile_Spec.largest ex (Z.of_nat (length d) + ex) l ->
  ~ fits_together ex cap (l ++ d :: u).
Proof.
  intros He H F. unfold fits_together in F. rewrite total_app, largest_app in F. cbn [Nonvolatile_Spec.total Nonvolatile_Spec.largest fold_right] in F.
  fold (Nonvolatile_Spec.total ex u) in F. fold (Nonvolatile_Spec.largest ex 0 u) in F. pose proof (total_pos ex u He). unfold Nonvolatile_Spec.need in F at 1 2.
  pose proof (largest_mono ex (Z.of_nat (length d) + ex) (Z.max (Nonvolatile_Spec.need ex d) (Nonvolatile_Spec.largest ex 0 u)) l ltac:(unfold Nonvolatile_Spec.need; lia)). unfold Nonvolatile_Spec.need in *. lia.
Qed.
Lemma fits_drop ex cap a d l : 0 <= ex -> fits_together ex cap (a ++ d :: l) -> fits_together ex cap (a ++ l).
Proof.
  intros He. unfold fits_together. rewrite !total_app, !largest_app. cbn [Nonvolatile_Spec.total Nonvolatile_Spec.largest fold_right].
  fold (Nonvolatile_Spec.total ex l). fold (Nonvolatile_Spec.largest ex 0 l). intros F.
  pose proof (largest_mono ex (Nonvolatile_Spec.largest ex 0 l) (Z.max (Nonvolatile_Spec.need ex d) (Nonvolatile_Spec.largest ex 0 l)) a ltac:(lia)). unfold Nonvolatile_Spec.need in *. lia.
Qed.

Section Q.
Variable rcrc : list Z -> Z.
Variable hcrc : Z -> option Z -> option Z -> option Z -> Z.

Lemma flush_outcome mem vsize nsize check st g ms x c o : 0 <= vsize -> nsize - header_size < 2147483648 ->
  g_new hcrc None mem vsize nsize OBlock check st = Ok g -> (check = true -> vsize + 4 <= nsize - header_size) ->
  Forall move_ok ms -> ~ In Stop ms -> ~ In (World Shutdown) ms -> sdk_run rcrc hcrc (sdk_new g) ms = Some (x, c, o) -> sdk_held x = true ->
  exists s q, explains rcrc vsize (cfg nsize OBlock check) fifo_init (queue_init (cfg nsize OBlock check)) c s q /\
    exists i x' c' s' q', sdk_run rcrc hcrc x (flush_thread i) = Some (x', c', []) /\ explains rcrc vsize (cfg nsize OBlock check) s q c' s' q' /\
    (sdk_held x' = false /\ f_unread s' = [] /\ bytes_consumed s' = bytes_consumed s ++ map rec_data (f_unread s) \/
     frozen rcrc hcrc x' /\ (exists r u, f_unread s' = r :: u /\ Nonvolatile_Spec.short_of_room (cfg nsize OBlock check) (q_unread q') (Z.of_nat (length (rec_data r)))) /\
     ~ fits_together (k_extra (cfg nsize OBlock check)) (nsize - header_size) (map e_data (q_unread q) ++ map rec_data (f_unread s))).
Proof.
  intros H1 H2 E Hf F N1 N2 R Hx. destruct (dinv_new rcrc hcrc _ _ _ _ _ _ H1 H2 E) as [I0 Sm].
  assert (Ft: vsize + (k_extra (cfg nsize OBlock check) - 4) <= k_cap (cfg nsize OBlock check)).
  { unfold g_new in E. destruct (_ || _) eqn:G; [discriminate|]. apply orb_false_elim in G. destruct G as [G1 G2]. apply Z.ltb_ge in G1, G2.
    unfold k_extra. cbn. destruct check; [specialize (Hf eq_refl)|]; lia. }
  assert (L0 : live rcrc hcrc vsize (cfg nsize OBlock check) (d_new g) fifo_init (queue_init (cfg nsize OBlock check)) []).
  { split; [exact I0|]. split; [|split; intros []]. unfold g_new in E. destruct (_ || _); [discriminate|]. destruct (n_open _ _ _ _ _ _ _); inv E. split; [reflexivity|]. split; [discriminate|exact Logic.I]. }
  destruct (run_held rcrc hcrc vsize (cfg nsize OBlock check) eq_refl Sm eq_refl ms (sdk_new g) _ _ [] x c o L0 ltac:(discriminate) F N1 N2 R) as (s & q & X & L & Hi). cbn [app] in L.
  exists s, q. split; [exact X|].
  destruct (release_or_freeze rcrc hcrc vsize (cfg nsize OBlock check) eq_refl Sm eq_refl Ft _ x s q o L Hi Hx (le_n _)) as (i & x' & c' & s' & q' & R' & X' & L' & Al & Rq & Fin).
  exists i, x', c', s', q'. split; [exact R'|]. split; [exact X'|]. destruct Fin as [(A & B)|(A & P & W)].
  - left. split; [exact A|]. split; [exact B|]. change (bytes_consumed s ++ map rec_data (f_unread s)) with (all_of s). rewrite <- Al. unfold all_of. rewrite B, app_nil_r. reflexivity.
  - right. split; [apply stuck_frozen; assumption|]. assert (L1 := L'). destruct L1 as ((I & K & _) & (_ & L2 & _) & _). destruct (L2 P) as [B|(size & second & B1 & B2)]; [congruence|].
    pose proof (i_pos _ _ _ _ _ _ _ _ I) as Q. rewrite P in Q. cbn [pos_inv] in Q. destruct Q as ((_ & r & u & Q1 & sec & Q2) & _ & _ & Q3).
    rewrite B1 in Q2. inv Q2. split; [exists r, u; auto|].
    assert (He : 0 <= k_extra (cfg nsize OBlock check)) by (unfold k_extra; cbn; destruct check; lia).
    assert (L1 := L). destruct L1 as ((I1 & K1 & _) & _ & _ & NF).
    (* what is in the file and in RAM *)
    assert (D' : removed q' ++ map e_data (q_unread q') ++ map rec_data (f_unread s') = all_of s').
    { unfold same in Q3. rewrite (split_written q' (gone_nil _ _ _ K)) in Q3. unfold data in Q3. unfold all_of. rewrite <- Q3, app_assoc. reflexivity. }
    assert (D : removed q ++ map e_data (q_unread q) ++ map rec_data (f_unread s) = all_of s \/
      exists d l, map rec_data (f_unread s) = d :: l /\ removed q ++ map e_data (q_unread q) ++ l = all_of s).
    { destruct L as (Dv & _). destruct (dinv_spec rcrc hcrc _ _ _ _ _ _ Dv NF) as (Lk & Bw & _). destruct Lk as (_ & _ & _ & [Lk|(y & l & Eu & Lk)]).
      - left. rewrite app_assoc, <- Bw, Lk. reflexivity.
      - right. exists (rec_data y), (map rec_data l). split; [rewrite Eu; reflexivity|]. rewrite app_assoc, <- Bw, Lk. unfold all_of. rewrite Eu, <- app_assoc. reflexivity. }
    rewrite <- Al in D. rewrite <- D', Rq in D. rewrite Q1 in D. cbn [map] in D. destruct B2 as [_ B2]. cbn [k_cap cfg] in B2.
    pose proof (short_unfit _ _ _ (rec_data r) (map rec_data u) He B2) as Un. intros Fi. apply Un. destruct D as [D|(d & l & D1 & D2)].
    + apply app_inv_head in D. rewrite <- D. exact Fi.
    + apply app_inv_head in D2. rewrite <- D2. rewrite D1 in Fi. eapply fits_drop; eassumption.
Qed.
End Q.
