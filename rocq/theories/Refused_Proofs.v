(** Proofs about the counters of refused records. *)
From Verif Require Import Base Ring_Model IntrusiveQueue_Model Volatile_Model Volatile_Spec Volatile_Proofs Nonvolatile_Model Refused_Spec.
Open Scope Z_scope.

Definition turned (c : common) : Z * Z := (s_records_refused (c_stats c), s_bytes_refused (c_stats c)).
Definition more (p q : Z * Z) : Z * Z := (fst p + fst q, snd p + snd q).
Lemma more0 p : more p (0, 0) = p. Proof. destruct p. unfold more. cbn. f_equal; lia. Qed.
Lemma count_turned z c : turned (count_refused z c) = more (turned c) (1, z). Proof. reflexivity. Qed.

Lemma zero_turned c a c' : zero_extra_data c a = Some c' -> turned c' = turned c.
Proof. unfold zero_extra_data. destruct (slice_ok _ _ _); intros H; inv H. reflexivity. Qed.
Lemma fin_turned c r z c' d : finish_reservation c r z = Some (c', d) -> turned c' = turned c.
Proof.
  unfold finish_reservation. intros H. repeat dmatch_in H; inv H; unfold turned; cbn;
    match goal with X : zero_extra_data _ _ = Some _ |- _ => apply zero_turned in X; unfold turned in X; cbn in X; auto end.
Qed.
Lemma set_rd_turned cu v c : turned (set_rd_start cu v c) = turned c.
Proof. destruct cu; reflexivity. Qed.
Lemma advance_turned c z cu c' : advance_next_read c z cu = Some c' -> turned c' = turned c.
Proof. unfold advance_next_read. intros H. repeat dmatch_in H; inv H; rewrite ?set_rd_turned; auto; destruct cu; auto. Qed.
Lemma committed_turned c r : turned (advance_committed c r) = turned c.
Proof. unfold advance_committed. cbn. destruct (c_nrs c); cbn; destruct (c_cur c); auto. Qed.
Lemma start_reserve_turned c z c' r : start_reserve_common c z = (c', r) -> turned c' = more (turned c) (match r with Err InvalidArgument => (1, 0) | Err _ => (1, z) | _ => (0, 0) end).
Proof. unfold start_reserve_common. intros H. repeat dmatch_in H; inv H; rewrite ?more0; auto. Qed.

Section Cb.
Variable cb : common -> common.
Hypothesis cb_t : forall c, turned (cb c) = turned c.
Hypothesis cb_o : forall c, c_ow (cb c) = c_ow c.
Lemma reset_turned c : turned (total_data_loss_reset cb c) = turned c.
Proof. unfold total_data_loss_reset. rewrite cb_t. reflexivity. Qed.
Lemma loss_turned busy c : turned (on_total_data_loss cb busy c) = turned c.
Proof. unfold on_total_data_loss. destruct busy; [reflexivity|]. rewrite reset_turned. reflexivity. Qed.
Lemma maybe_turned busy c : turned (maybe_do_total_data_loss_reset cb busy c) = turned c.
Proof. unfold maybe_do_total_data_loss_reset. destruct (negb _); [reflexivity|]. destruct busy; [reflexivity|]. rewrite reset_turned. reflexivity. Qed.
Lemma loss_ow busy c : c_ow (on_total_data_loss cb busy c) = c_ow c.
Proof. unfold on_total_data_loss. destruct busy; [reflexivity|]. unfold total_data_loss_reset. rewrite cb_o. reflexivity. Qed.
Lemma maybe_ow busy c : c_ow (maybe_do_total_data_loss_reset cb busy c) = c_ow c.
Proof. unfold maybe_do_total_data_loss_reset. destruct (negb _); [reflexivity|]. destruct busy; [reflexivity|]. unfold total_data_loss_reset. rewrite cb_o. reflexivity. Qed.
Lemma zero_ow c a c' : zero_extra_data c a = Some c' -> c_ow c' = c_ow c.
Proof. unfold zero_extra_data. destruct (slice_ok _ _ _); intros H; inv H. reflexivity. Qed.
Lemma advance_ow c z cu c' : advance_next_read c z cu = Some c' -> c_ow c' = c_ow c.
Proof. unfold advance_next_read. intros H. repeat dmatch_in H; inv H; try reflexivity; destruct cu; reflexivity. Qed.
(** The loop that makes room counts a refusal when it meets damage. In an overwriting buffer that is the only way it fails. *)
Lemma due_turned fuel busy t block : forall c c' r, advance_due_to_write fuel cb busy c t block = (c', r) ->
  c_ow c' = c_ow c /\
  match r with
  | Err e => turned c' = more (turned c) (1, r_size (t_range t)) /\ e = Unavailable \/ c_ow c = OBlock /\ turned c' = turned c
  | _ => turned c' = turned c
  end.
Proof.
  induction fuel as [|fuel IH]; intros c c' r H; cbn [advance_due_to_write] in H; [inv H; auto|].
  destruct (c_nrs c); [|inv H; auto]. destruct (load_next_read_size c CursorNo) as [sz|e|]; [| |inv H; auto].
  - destruct (intersect_reservation _ _ _); [|inv H; auto]. destruct (c_ow c) eqn:Ow.
    + destruct (negb block); [inv H; auto|]. destruct (c_shutdown c); inv H; auto.
    + destruct (zero_extra_data _ _) as [c1|] eqn:E1; [|inv H; auto]. pose proof (zero_ow _ _ _ E1) as O1. apply zero_turned in E1. destruct (advance_next_read _ _ _) as [c2|] eqn:E2; [|inv H; split; [exact (eq_trans O1 Ow)|exact E1] ].
      pose proof (advance_ow _ _ _ _ E2) as O2. apply advance_turned in E2. apply IH in H as [H1 H2]. assert (O3 : c_ow c2 = OYes) by (rewrite O2, O1; exact Ow). assert (T3 : turned c2 = turned c) by (rewrite E2, E1; reflexivity).
      rewrite T3, O3 in H2. rewrite H1. auto.
  - inv H. split; [apply loss_ow|]. left. split; [|reflexivity]. rewrite count_turned, loss_turned. reflexivity.
Qed.
Lemma finish_turned busy c r c' d : finish_read_common cb busy c r = Some (c', d) -> turned c' = turned c.
Proof.
  unfold finish_read_common. intros H. destruct (advance_next_read c (r_size r) CursorNo) as [c1|] eqn:E; [|discriminate]. apply advance_turned in E.
  injection H as <- _. rewrite maybe_turned. match goal with |- turned (if ?b then _ else _) = _ => destruct b end; exact E.
Qed.
Lemma finish_ow busy c r c' d : finish_read_common cb busy c r = Some (c', d) -> c_ow c' = c_ow c.
Proof.
  unfold finish_read_common. intros H. destruct (advance_next_read c (r_size r) CursorNo) as [c1|] eqn:E; [|discriminate]. apply advance_ow in E.
  injection H as <- _. rewrite maybe_ow. match goal with |- c_ow (if ?b then _ else _) = _ => destruct b end; exact E.
Qed.
Lemma read_turned busy c block reserved cu c' r : start_read cb busy c block reserved cu = (c', r) -> turned c' = turned c /\ c_ow c' = c_ow c.
Proof.
  unfold start_read. intros H. destruct reserved; [inv H; auto|]. destruct (c_pending c) eqn:P; [inv H; auto|].
  assert (ND : forall c0, turned c0 = turned c /\ c_ow c0 = c_ow c -> forall c' r, no_data c0 block = (c', r) -> turned c' = turned c /\ c_ow c' = c_ow c).
  { intros c0 E0 c1 r1 H1. unfold no_data in H1. destruct block; inv H1; auto. }
  destruct (rd_start cu c); [|eapply ND; [|exact H]; auto].
  destruct (load_next_read_size c cu) as [sz|e|].
  - destruct cu.
    + destruct (_ && _); inv H; auto.
    + destruct (advance_next_read _ _ _) as [c1|] eqn:E; [|inv H; auto]. pose proof (advance_ow _ _ _ _ E) as Eo. apply advance_turned in E. destruct (_ && _); inv H; auto.
  - assert (X : turned (on_total_data_loss cb busy c) = turned c /\ c_ow (on_total_data_loss cb busy c) = c_ow c) by (split; [apply loss_turned|apply loss_ow]).
    destruct (c_pending (on_total_data_loss cb busy c)); [inv H; exact X|]. eapply ND; [exact X|exact H].
  - inv H. auto.
Qed.
End Cb.

(** * Volatile buffers *)
Lemma v_cb_t c : turned (v_cb c) = turned c. Proof. reflexivity. Qed.
Lemma v_cb_o c : c_ow (v_cb c) = c_ow c. Proof. reflexivity. Qed.
Lemma pop_turned fuel : forall c q c' q', v_pop_committed fuel c q = (c', q') -> turned c' = turned c.
Proof.
  induction fuel as [|fuel IH]; intros c q c' q' H; cbn [v_pop_committed] in H; [inv H; reflexivity|].
  repeat dmatch_in H; try (inv H; reflexivity). apply IH in H. rewrite H. apply committed_turned.
Qed.
Definition agrees (l : ledger) (v : vbuf) : Prop := forall p, match l_prod l p, v_prod v p with Some _, Some _ | None, None => True | _, _ => False end.
Lemma agrees_set l v v' p (x : option range) y : agrees l v -> v_prod v' = (fun q => if Nat.eqb q p then y else v_prod v q) -> match x, y with Some _, Some _ | None, None => True | _, _ => False end ->
  forall c, agrees (mkLedger (fun q => if Nat.eqb q p then x else l_prod l q) c) v'.
Proof. intros A E X c q. cbn. rewrite E. specialize (A q). destruct (Nat.eqb q p); auto. Qed.
Lemma agrees_same l v l' v' : agrees l v -> l_prod l' = l_prod l -> v_prod v' = v_prod v -> agrees l' v'.
Proof. intros A E1 E2 q. rewrite E1, E2. apply A. Qed.
Lemma v_step_turned v o v' out l : v_step v o = (v', out) -> agrees l v -> c_ow (v_c v) = OYes -> (forall p z b, o = VReserve p z b -> out <> ORange (Err Unavailable) /\ out <> ORange Panic) ->
  turned (v_c v') = more (turned (v_c v)) (v_refused l o out) /\ agrees (ledger_step l o out) v'.
Proof.
  intros H A Ow NU.
  assert (SAME : turned (v_c v') = turned (v_c v) -> v_refused l o out = (0, 0) -> turned (v_c v') = more (turned (v_c v)) (v_refused l o out)) by (intros -> ->; rewrite more0; reflexivity).
  destruct o; cbn [v_step] in H.
  - destruct (v_reserve v p size block) as [v1 r] eqn:E. inv H. destruct (NU _ _ _ eq_refl) as [NU1 NU2]. unfold v_reserve in E. pose proof (A p) as Ap.
    assert (FAIL : forall e, r = Err e -> turned (v_c v') = more (turned (v_c v)) (match v_prod v p with Some _ => (0, 0) | None => (1, match e with InvalidArgument => 0 | _ => size end) end) -> v_prod v' = v_prod v ->
       turned (v_c v') = more (turned (v_c v)) (v_refused l (VReserve p size block) (ORange r)) /\ agrees (ledger_step l (VReserve p size block) (ORange r)) v').
    { intros e -> T P. split; [|eapply agrees_same; [exact A|reflexivity|exact P] ]. rewrite T. cbn. destruct (l_prod l p), (v_prod v p); try contradiction; reflexivity. }
    destruct (v_prod v p) eqn:Ep; [inv E; eapply FAIL; [reflexivity|rewrite more0; reflexivity|reflexivity]|].
    destruct (start_reserve_common (v_c v) size) as [c1 r1] eqn:E1. assert (Ow1 : c_ow c1 = OYes) by (unfold start_reserve_common in E1; repeat dmatch_in E1; inv E1; exact Ow). apply start_reserve_turned in E1.
    destruct r1 as [actual|e|]; [|inv E; eapply FAIL; [reflexivity|destruct e; exact E1|reflexivity]|inv E; exfalso; apply NU2; reflexivity]. rewrite more0 in E1.
    destruct (calculate_next_write_start _ _); [|inv E; exfalso; apply NU2; reflexivity].
    destruct (match v_read_reservation v with Some _ => _ | None => _ end); [inv E; eapply FAIL; [reflexivity|cbn [v_set_c v_c]; rewrite count_turned, E1; reflexivity|reflexivity]|].
    destruct (match iq_front _ with Some _ => _ | None => _ end); [inv E; eapply FAIL; [reflexivity|cbn [v_set_c v_c]; rewrite count_turned, E1; reflexivity|reflexivity]|].
    destruct (advance_due_to_write _ _ _ _ _ _) as [c2 r2] eqn:E2. apply (due_turned _ v_cb_t v_cb_o) in E2 as [O2 E2]. destruct r2 as [u|e|]; [| |inv E; exfalso; apply NU2; reflexivity].
    2:{ inv E. destruct E2 as [ [_ ->]|[X _] ]; [exfalso; apply NU1; reflexivity|congruence]. }
    match type of E with context [finish_reservation ?c _ _] => assert (E3 : turned c = turned (v_c v)) by (rewrite <- E1, <- E2; destruct (t_lwe t); reflexivity); destruct (finish_reservation c _ _) as [ [c3 d]|] eqn:E4 end.
    + apply fin_turned in E4. destruct (iq_emplace_back _ _) as [qq aa]. inv E. cbn [v_refused ledger_step]. split; [rewrite more0; cbn [v_set_prod v_c]; congruence|]. eapply (agrees_set l v); [exact A|reflexivity|exact I].
    + inv E. exfalso. apply NU2. reflexivity.
  - inv H. split; [apply SAME; [|reflexivity]; unfold v_write; repeat dmatch; reflexivity|]. eapply agrees_same; [exact A|reflexivity|]. unfold v_write. repeat dmatch; reflexivity.
  - destruct (v_commit v p) as [v1 r] eqn:E. inv H. unfold v_commit in E. destruct (v_prod v p); [|inv E; split; [apply SAME; reflexivity|exact A] ].
    destruct (iq_map_mut _ _ _) as [q1 [r1|] ]; [|inv E; split; [apply SAME; reflexivity|exact A] ]. destruct (v_pop_committed _ _ _) as [c1 q2] eqn:E1. apply pop_turned in E1. inv E.
    split; [apply SAME; [exact E1|reflexivity]|]. eapply (agrees_set l v); [exact A|reflexivity|exact I].
  - inv H. split; [apply SAME; reflexivity|]. eapply (agrees_set l v); [exact A|reflexivity|exact I].
  - unfold v_register_consumer in H. destruct (v_cons v); inv H; (split; [apply SAME; reflexivity|exact A]).
  - inv H. split; [apply SAME; reflexivity|exact A].
  - destruct (v_start_read v block) as [v1 r] eqn:E. inv H. unfold v_start_read in E. destruct (v_cons v) as [ex|]; [|inv E; split; [apply SAME; reflexivity|exact A] ].
    destruct (start_read _ _ _ _ _ _) as [c1 r1] eqn:E1. apply (read_turned _ v_cb_t v_cb_o) in E1 as [E1 _].
    destruct r1; inv E; (split; [apply SAME; [exact E1|reflexivity]|exact A]).
  - inv H. split; [apply SAME; reflexivity|exact A].
  - destruct (v_finish_read v) as [v1 r] eqn:E. inv H. unfold v_finish_read in E. destruct (v_cons v) as [ [r1|]|]; try (inv E; split; [apply SAME; reflexivity|exact A]).
    destruct (finish_read_common _ _ _ _) as [ [c1 d]|] eqn:E1; [|inv E; split; [apply SAME; reflexivity|exact A] ]. apply (finish_turned _ v_cb_t) in E1. inv E. split; [apply SAME; [exact E1|reflexivity]|exact A].
  - unfold v_wait_for_drain, wait_for_drain in H. destruct (_ || _); inv H; (split; [apply SAME; reflexivity|exact A]).
  - inv H. split; [apply SAME; reflexivity|exact A].
  - inv H. split; [apply SAME; reflexivity|exact A].
  - inv H. unfold v_shutdown, shutdown_common. destruct (c_shutdown _); (split; [rewrite more0; reflexivity|exact A]).
Qed.
Lemma v_refused_run cap ops : forall v s U l v' outs, rel cap v s U -> history s -> agrees l v -> c_ow (v_c v) = OYes -> Forall vop_ok ops -> v_run v ops = (v', outs) ->
  turned (v_c v') = more (turned (v_c v)) (v_refusals l ops outs).
Proof.
  induction ops as [|o ops IH]; intros v s U l v' outs R Hi A Ow Fo E; cbn [v_run] in E; [inv E; cbn; rewrite more0; reflexivity|].
  inv Fo. destruct (v_step v o) as [v1 out] eqn:E1. destruct (v_run v1 ops) as [v2 outs2] eqn:E2. inv E. cbn [v_refusals].
  destruct (sim_step cap v s U o v1 out R Hi H1 E1) as (s1 & U1 & S1 & R1).
  destruct (v_step_turned v o v1 out l E1 A Ow) as [T1 A1].
  { intros p z b ->. inv S1; split; discriminate. }
  assert (O1 : c_ow (v_c v1) = OYes) by exact (r_ow _ _ _ _ R1).
  assert (H1' : history s1) by (eapply history_step; eassumption).
  pose proof (IH v1 s1 U1 _ _ _ R1 H1' A1 O1 H2 E2) as T2. rewrite T2, T1. destruct (v_refused l o out), (v_refusals (ledger_step l o out) ops outs2). unfold more. cbn. f_equal; lia.
Qed.

(** * Non-volatile buffers *)
Section N.
Variable rcrc : list Z -> Z.
Variable hcrc : Z -> option Z -> option Z -> option Z -> Z.
Definition told_off (c : common) : Z := s_records_refused (c_stats c).
Lemma turned_off c c' : turned c' = turned c -> told_off c' = told_off c.
Proof. unfold turned, told_off. intros H. congruence. Qed.
Lemma n_cb_t c : turned (n_cb hcrc c) = turned c. Proof. reflexivity. Qed.
Lemma n_cb_o c : c_ow (n_cb hcrc c) = c_ow c. Proof. reflexivity. Qed.
Definition holding (n : nbuf) : bool := match n_prod n with Some (Some _) => true | _ => false end.
Definition counts (d : Z) (h' : bool) (n n' : nbuf) : Prop := told_off (n_c n') = told_off (n_c n) + d /\ c_ow (n_c n') = c_ow (n_c n) /\ holding n' = h'.
Definition toll (r : res range) : Z := match r with Err (WouldBlock | Aborted) => 0 | Err _ => 1 | _ => 0 end.
Lemma fin_ow c r z c' d : finish_reservation c r z = Some (c', d) -> c_ow c' = c_ow c.
Proof.
  unfold finish_reservation. intros H. repeat dmatch_in H; inv H; cbn; match goal with X : zero_extra_data _ _ = Some _ |- _ => apply zero_ow in X; exact X end.
Qed.
Definition waiting_ok (n : nbuf) : Prop := match n_wait n with Some _ => holding n = false | None => True end.
Lemma tail_counts n t z block n' r : n_reserve_tail hcrc n t z block = (n', r) -> holding n = false -> c_ow (n_c n) = OYes ->
  (r = Panic /\ counts 0 false n n' \/ counts (toll r) (match r with Ok _ => true | _ => false end) n n') /\ waiting_ok n'.
Proof.
  unfold n_reserve_tail. intros H Hh Ow. destruct (advance_due_to_write _ _ _ _ _ _) as [c1 r1] eqn:E. apply (due_turned _ n_cb_t n_cb_o) in E as [O1 E]. unfold counts.
  destruct r1 as [u|e|].
  - match type of H with context [finish_reservation ?c _ _] => assert (E3 : turned c = turned (n_c n) /\ c_ow c = c_ow (n_c n)) by (rewrite <- E, <- O1; destruct (t_lwe t); auto); destruct (finish_reservation c _ _) as [ [c3 d]|] eqn:E4 end; destruct E3 as [E3 O3].
    + pose proof (fin_ow _ _ _ _ _ E4) as O4. apply fin_turned in E4. inv H. split; [right; split; [rewrite Z.add_0_r; apply turned_off; etransitivity; [exact E4|exact E3]|]; split; [exact (eq_trans O4 O3)|reflexivity]|exact I].
    + inv H. split; [left; split; [reflexivity|]; split; [cbn; rewrite Z.add_0_r; apply turned_off; exact E3|]; split; [exact O3|exact Hh]|exact I].
  - destruct E as [ [T ->]|[X _] ]; [|congruence]. inv H. split; [right; split; [unfold told_off, turned, more in *; cbn in *; congruence|]; split; [exact O1|exact Hh]|exact I].
  - inv H. split; [left; split; [reflexivity|]; split; [cbn; rewrite Z.add_0_r; apply turned_off; exact E|]; split; [exact O1|exact Hh]|exact I].
Qed.
Lemma loop_counts n t z block n' r : n_reserve_loop hcrc n t z block = (n', r) -> holding n = false -> c_ow (n_c n) = OYes ->
  (r = Panic /\ counts 0 false n n' \/ counts (toll r) (match r with Ok _ => true | _ => false end) n n') /\ waiting_ok n'.
Proof.
  unfold n_reserve_loop. intros H Hh Ow. destruct (match n_read_reservation n with Some _ => _ | None => _ end); [|eapply tail_counts; eassumption].
  destruct (n_hold n); inv H; (split; [right; split; [unfold told_off; cbn; lia|split; [reflexivity|exact Hh] ]|]); [exact Hh|exact I].
Qed.
Lemma corrupted_turned c : turned (count_corrupted c) = turned c /\ c_ow (count_corrupted c) = c_ow c. Proof. split; reflexivity. Qed.
Lemma header_turned c : turned (write_header_crc hcrc c) = turned c /\ c_ow (write_header_crc hcrc c) = c_ow c. Proof. split; reflexivity. Qed.
Lemma consumer_turned fuel check busy block reserved cu : forall c c' r,
  consumer_start_read rcrc hcrc fuel check busy c block reserved cu = (c', r) -> turned c' = turned c /\ c_ow c' = c_ow c.
Proof.
  revert reserved. induction fuel as [|fuel IH]; intros reserved c c' r H; cbn [consumer_start_read] in H; [inv H; auto|].
  destruct (start_read _ _ _ _ _ _) as [c1 r1] eqn:E. apply (read_turned _ n_cb_t n_cb_o) in E as [E O]. destruct r1 as [r0|e0|]; try (inv H; auto; fail).
  destruct check; [|inv H; auto]. destruct cu.
  - destruct (zero_extra_data c1 (r_start r0)) as [c2|] eqn:E2; [|inv H; auto]. pose proof (zero_ow _ _ _ E2) as O2. apply zero_turned in E2. destruct (_ =? _); [inv H; split; congruence|].
    destruct (finish_read_common _ _ _ _) as [ [c3 d]|] eqn:E3; [|inv H; destruct (corrupted_turned c2); split; congruence]. pose proof (finish_ow _ n_cb_o _ _ _ _ _ E3) as O3. apply (finish_turned _ n_cb_t) in E3. apply IH in H as [H1 H2].
    destruct (corrupted_turned c2), (header_turned c3). split; congruence.
  - destruct (_ =? _); [inv H; auto|]. apply IH in H as [H1 H2]. destruct (corrupted_turned c1). split; congruence.
Qed.
Lemma reload_counts n f n' out : n_reload hcrc n f = (n', out) -> match out with NOpened _ => counts 0 false n n' /\ n_wait n' = None | _ => n' = n end.
Proof.
  assert (X : forall f n1, n_open hcrc f (c_len (n_c n) + header_size) (c_ow (n_c n)) (n_hold n) (n_check n) (c_stats (n_c n)) = Ok n1 -> counts 0 false n n1 /\ n_wait n1 = None).
  { intros f0 n1 H. unfold n_open in H. destruct (_ <? header_size); [discriminate|]. match type of H with match ?x with _ => _ end = _ => destruct x end; try discriminate. destruct (negb _); [discriminate|]. inv H.
    split; [|reflexivity]. split; [unfold told_off; cbn; lia|]. split; reflexivity. }
  unfold n_reload, rb_open. intros H. destruct (n_open hcrc (Some f) _ _ _ _ _) as [n1|e|] eqn:E; [inv H; eapply X; exact E| |inv H; reflexivity].
  destruct e; try (inv H; reflexivity). destruct (n_open hcrc None _ _ _ _ _) as [n1|e|] eqn:E1; inv H; try reflexivity. eapply X; exact E1.
Qed.
Lemma n_step_counts n o n' out : n_step rcrc hcrc n o = (n', out) -> c_ow (n_c n) = OYes -> waiting_ok n -> out <> NRange Panic ->
  counts (n_refused (holding n) o out) (n_holds (holding n) o out) n n' /\ waiting_ok n'.
Proof.
  intros H Ow W NP.
  assert (SAME : forall h, turned (n_c n') = turned (n_c n) -> c_ow (n_c n') = c_ow (n_c n) -> holding n' = h -> counts 0 h n n') by (intros h A B C; split; [rewrite Z.add_0_r; apply turned_off; exact A|auto]).
  assert (NONE : n' = n -> counts 0 (holding n) n n' /\ waiting_ok n') by (intros ->; split; [split; [lia|auto]|exact W]).
  destruct o; cbn [n_step] in H.
  - destruct (n_prod n) as [pr|] eqn:Ep; [|inv H; apply NONE; reflexivity]. destruct (n_wait n) eqn:Ew; [inv H; apply NONE; reflexivity|].
    destruct (n_reserve hcrc n size block) as [n1 r] eqn:E. inv H. unfold n_reserve in E. rewrite Ep in E.
    destruct pr as [q|].
    { inv E. assert (Hh : holding n' = true) by (unfold holding; rewrite Ep; reflexivity). cbn. rewrite Hh. split; [split; [lia|auto]|exact W]. }
    assert (Hh : holding n = false) by (unfold holding; rewrite Ep; reflexivity). rewrite Hh.
    destruct (start_reserve_common (n_c n) size) as [c1 r1] eqn:E1. assert (O1 : c_ow c1 = OYes) by (unfold start_reserve_common in E1; repeat dmatch_in E1; inv E1; exact Ow).
    assert (NB : r1 <> Err WouldBlock /\ r1 <> Err Aborted) by (unfold start_reserve_common in E1; repeat dmatch_in E1; inv E1; split; discriminate).
    apply start_reserve_turned in E1.
    destruct r1 as [actual|e|]; [| |inv E; exfalso; apply NP; reflexivity].
    + rewrite more0 in E1. destruct (calculate_next_write_start _ _); [|inv E; exfalso; apply NP; reflexivity]. apply loop_counts in E as [ [ [-> _]|C] W1]; auto; [exfalso; apply NP; reflexivity|].
      split; [|exact W1]. destruct C as (C1 & C2 & C3). cbn [n_set_c n_c] in *. split; [rewrite C1; rewrite (turned_off _ _ E1); destruct r as [a|e|]; [|destruct e|]; reflexivity|]. split; [congruence|]. rewrite C3. destruct r as [a|e|]; [|destruct e|]; reflexivity.
    + inv E. destruct NB as [NB1 NB2]. split; [|unfold waiting_ok; cbn; rewrite Ew; exact I]. split; [|split; [cbn; congruence|exact Hh] ].
      unfold told_off, turned, more in *. cbn [n_set_c n_c] in *. destruct e; cbn in *; try congruence; exfalso; auto.
  - destruct (n_wait n) as [w|] eqn:Ew; [|inv H; apply NONE; reflexivity]. unfold waiting_ok in W. rewrite Ew in W. rewrite W. destruct (n_resume hcrc n w) as [n1 r] eqn:E. inv H. unfold n_resume in E.
    destruct (c_shutdown _); [inv E; split; [apply SAME; auto|exact I]|].
    assert (C : (r = Panic /\ counts 0 false n n' \/ counts (toll r) (match r with Ok _ => true | _ => false end) n n') /\ waiting_ok n') by (destruct (w_second w); [eapply tail_counts|eapply loop_counts]; eassumption).
    destruct C as [ [ [-> _]|C] W1]; [exfalso; apply NP; reflexivity|]. split; [|exact W1]. destruct r as [a|e|]; [|destruct e|]; exact C.
  - destruct (n_prod n) as [pr|] eqn:Ep; [|inv H; apply NONE; reflexivity]. destruct (n_wait n) eqn:Ew; [inv H; apply NONE; reflexivity|].
    inv H. split; [apply SAME; unfold n_write; repeat dmatch; reflexivity|]. unfold waiting_ok. replace (n_wait (n_write n off bs)) with (n_wait n) by (unfold n_write; rewrite Ep; repeat dmatch; reflexivity). rewrite Ew. exact I.
  - destruct (n_prod n) as [pr|] eqn:Ep; [|inv H; apply NONE; reflexivity]. destruct (n_wait n) eqn:Ew; [inv H; apply NONE; reflexivity|].
    destruct (n_commit rcrc hcrc n) as [n1 r] eqn:E. inv H. unfold n_commit in E. rewrite Ep in E. destruct pr as [q|]; [|inv E; apply NONE; reflexivity].
    match type of E with match ?x with _ => _ end = _ => destruct x as [c1|] eqn:E1 end; [|inv E; apply NONE; reflexivity].
    inv E. split; [|unfold waiting_ok; cbn; rewrite Ew; exact I].
    assert (X : turned c1 = turned (n_c n) /\ c_ow c1 = c_ow (n_c n)).
    { assert (Y : c_ow (advance_committed (n_c n) q) = c_ow (n_c n)) by (unfold advance_committed; cbn; destruct (c_nrs (n_c n)); cbn; destruct (c_cur (n_c n)); reflexivity).
      pose proof (committed_turned (n_c n) q) as Z. destruct (n_check n); [destruct (_ && _); [|discriminate]|]; inv E1; auto. }
    destruct X as [X1 X2]. apply SAME; [| |reflexivity].
    + change (turned (maybe_do_total_data_loss_reset (n_cb hcrc) (n_busy (n_set_prod (Some None) n)) c1) = turned (n_c n)). rewrite (maybe_turned _ n_cb_t). exact X1.
    + change (c_ow (maybe_do_total_data_loss_reset (n_cb hcrc) (n_busy (n_set_prod (Some None) n)) c1) = c_ow (n_c n)). rewrite (maybe_ow _ n_cb_o). exact X2.
  - unfold n_register_producer in H. destruct (n_prod n) eqn:Ep; inv H; [apply NONE; reflexivity|]. split; [apply SAME; auto; unfold holding; rewrite Ep; reflexivity|]. unfold waiting_ok. cbn. destruct (n_wait n); exact I || reflexivity.
  - destruct (n_prod n) eqn:Ep; [|inv H; apply NONE; reflexivity]. destruct (n_wait n) eqn:Ew; inv H; [apply NONE; reflexivity|]. split; [apply SAME; auto|]. unfold waiting_ok. cbn. rewrite Ew. exact I.
  - unfold n_register_consumer in H. destruct (n_cons n); inv H; [apply NONE; reflexivity|]. split; [apply SAME; auto|exact W].
  - unfold n_register_cursor in H. destruct (n_cons n); [inv H; apply NONE; reflexivity|]. rewrite Ow in H. inv H. apply NONE; reflexivity.
  - destruct (n_cons n); inv H; [|apply NONE; reflexivity]. split; [apply SAME; auto|exact W].
  - destruct (n_cons n) as [k|]; [|inv H; apply NONE; reflexivity]. destruct (n_start_read rcrc hcrc n k block) as [n1 r] eqn:E. inv H. unfold n_start_read, n_start_read_fuel in E.
    destruct k; destruct (consumer_start_read _ _ _ _ _ _ _ _ _) as [c1 r1] eqn:E1; apply consumer_turned in E1 as [E1 O1]; destruct r1; inv E; (split; [apply SAME; auto|exact W]).
  - inv H. apply NONE. reflexivity.
  - destruct (n_cons n) as [ [e|q]|]; try (inv H; apply NONE; reflexivity). destruct (n_finish_read hcrc n e) as [n1 r] eqn:E. inv H. unfold n_finish_read in E. destruct e as [r1|]; [|inv E; apply NONE; reflexivity].
    destruct (finish_read_common _ _ _ _) as [ [c1 d]|] eqn:E1; [|inv E; split; [apply SAME; auto|exact W] ]. pose proof (finish_ow _ n_cb_o _ _ _ _ _ E1) as O1. apply (finish_turned _ n_cb_t) in E1. inv E. split; [apply SAME; auto|exact W].
  - destruct (n_cons n) as [ [e|q]|]; try (inv H; apply NONE; reflexivity). destruct (n_advance hcrc n q) as [n1 r] eqn:E. inv H. unfold n_advance in E. destruct q as [|r1 q]; [inv E; apply NONE; reflexivity|].
    destruct (finish_read_common _ _ _ _) as [ [c1 d]|] eqn:E1; [|inv E; split; [apply SAME; auto|exact W] ]. pose proof (finish_ow _ n_cb_o _ _ _ _ _ E1) as O1. apply (finish_turned _ n_cb_t) in E1. inv E. split; [apply SAME; auto|exact W].
  - unfold n_wait_for_drain, wait_for_drain in H. destruct (_ || _); inv H; (split; [apply SAME; auto|exact W]).
  - inv H. split; [apply SAME; auto|exact W].
  - inv H. split; [apply SAME; auto|exact W].
  - inv H. unfold n_shutdown, shutdown_common. split; [|exact W]. destruct (c_shutdown (n_c n)); (split; [unfold told_off; cbn; lia|split; reflexivity]).
  - apply reload_counts in H. destruct out; try (apply NONE; exact H). destruct H as [H1 H2]. split; [exact H1|]. unfold waiting_ok. rewrite H2. exact I.
  - apply reload_counts in H. destruct out; try (apply NONE; exact H). destruct H as [H1 H2]. split; [exact H1|]. unfold waiting_ok. rewrite H2. exact I.
Qed.
Lemma n_refused_run l : forall n n' outs, n_run rcrc hcrc n l = (n', outs) -> c_ow (n_c n) = OYes -> waiting_ok n -> Forall (fun out => out <> NRange Panic) outs ->
  s_records_refused (c_stats (n_c n')) = s_records_refused (c_stats (n_c n)) + n_refusals (holding n) l outs.
Proof.
  induction l as [|o l IH]; intros n n' outs E Ow W F; cbn [n_run] in E; [inv E; cbn; lia|].
  destruct (n_step rcrc hcrc n o) as [n1 out] eqn:E1. destruct (n_run rcrc hcrc n1 l) as [n2 outs2] eqn:E2. inv E. inv F. cbn [n_refusals].
  destruct (n_step_counts n o n1 out E1 Ow W H1) as [(C1 & C2 & C3) W1]. rewrite (IH _ _ _ E2); auto; [|congruence]. unfold told_off in C1. rewrite C1, C3. lia.
Qed.
End N.
Lemma v_refused_new mem cap ops v outs : 0 <= cap < 2147483648 -> Forall vop_ok ops -> v_run (v_new mem cap) ops = (v, outs) ->
  (s_records_refused (c_stats (v_c v)), s_bytes_refused (c_stats (v_c v))) = v_refusals ledger0 ops outs.
Proof.
  intros Hc Fo E. pose proof (v_refused_run cap ops (v_new mem cap) fifo_init [] ledger0 v outs (rel_init mem cap Hc) history_init) as H.
  change (turned (v_c v) = v_refusals ledger0 ops outs). rewrite H; auto; [|intros p; exact I]. unfold turned, more. cbn. destruct (v_refusals ledger0 ops outs) as [a b]. reflexivity.
Qed.
Lemma n_refused_open rcrc hcrc f size hold check st n l n' outs : n_open hcrc f size OYes hold check st = Ok n -> n_run rcrc hcrc n l = (n', outs) -> Forall (fun out => out <> NRange Panic) outs ->
  s_records_refused (c_stats (n_c n')) = s_records_refused st + n_refusals false l outs.
Proof.
  intros E R F. unfold n_open in E. destruct (size <? header_size); [discriminate|]. match type of E with match ?x with _ => _ end = _ => destruct x end; try discriminate. destruct (negb _); [discriminate|]. inv E.
  rewrite (n_refused_run rcrc hcrc l _ _ _ R); auto. exact I.
Qed.
