(** Proofs about asynchronous reads. *)
From Verif Require Import Base Ring_Model IntrusiveQueue_Model Volatile_Model Nonvolatile_Model AsyncRead_Model.
Open Scope Z_scope.

(** * The channel *)
Lemma zero_readable c a c' : zero_extra_data c a = Some c' -> c_readable c' = c_readable c.
Proof. unfold zero_extra_data. destruct (slice_ok _ _ _); intros H; inv H. reflexivity. Qed.
Lemma zero_pending c a c' : zero_extra_data c a = Some c' -> c_pending c' = c_pending c.
Proof. unfold zero_extra_data. destruct (slice_ok _ _ _); intros H; inv H. reflexivity. Qed.
Lemma finish_reservation_readable c r z c' d : finish_reservation c r z = Some (c', d) -> c_readable c' = c_readable c.
Proof.
  unfold finish_reservation. intros H. repeat dmatch_in H; inv H; cbn; try (erewrite zero_readable by eassumption; reflexivity).
Qed.
Lemma finish_reservation_pending c r z c' d : finish_reservation c r z = Some (c', d) -> c_pending c' = c_pending c.
Proof.
  unfold finish_reservation. intros H. repeat dmatch_in H; inv H; cbn; try (erewrite zero_pending by eassumption; reflexivity).
Qed.
Lemma set_rd_readable cu v c : c_readable (set_rd_start cu v c) = c_readable c.
Proof. destruct cu; reflexivity. Qed.
Lemma set_rd_pending cu v c : c_pending (set_rd_start cu v c) = c_pending c.
Proof. destruct cu; reflexivity. Qed.
Lemma advance_readable c z cu c' : advance_next_read c z cu = Some c' -> c_readable c' = c_readable c /\ c_pending c' = c_pending c.
Proof. unfold advance_next_read. intros H. repeat dmatch_in H; inv H; rewrite ?set_rd_readable, ?set_rd_pending; auto; destruct cu; auto. Qed.
Lemma start_reserve_readable c z c' r : start_reserve_common c z = (c', r) -> c_readable c' = c_readable c /\ c_pending c' = c_pending c.
Proof. unfold start_reserve_common. intros H. repeat dmatch_in H; inv H; auto. Qed.
Lemma committed_readable c r : c_readable (advance_committed c r) = c_readable c /\ c_pending (advance_committed c r) = c_pending c.
Proof. unfold advance_committed. cbn. destruct (c_nrs c); cbn; destruct (c_cur c); auto. Qed.
Lemma reset_readable cb c : (forall c, c_readable (cb c) = c_readable c) -> c_readable (total_data_loss_reset cb c) = c_readable c.
Proof. intros H. unfold total_data_loss_reset. rewrite H. reflexivity. Qed.
Lemma reset_pending cb c : (forall c, c_pending (cb c) = c_pending c) -> c_pending (total_data_loss_reset cb c) = c_pending c.
Proof. intros H. unfold total_data_loss_reset. rewrite H. reflexivity. Qed.

Section Cb.
Variable cb : common -> common.
Hypothesis cb_r : forall c, c_readable (cb c) = c_readable c.
Hypothesis cb_p : forall c, c_pending (cb c) = c_pending c.
Lemma loss_readable busy c : c_readable (on_total_data_loss cb busy c) = c_readable c.
Proof. unfold on_total_data_loss. destruct busy; [reflexivity|]. rewrite reset_readable; auto. Qed.
Lemma loss_pending busy c : c_pending (on_total_data_loss cb busy c) = if busy then true else c_pending c.
Proof. unfold on_total_data_loss. destruct busy; [reflexivity|]. rewrite reset_pending; auto. Qed.
Lemma maybe_readable busy c : c_readable (maybe_do_total_data_loss_reset cb busy c) = c_readable c.
Proof. unfold maybe_do_total_data_loss_reset. destruct (negb _); [reflexivity|]. destruct busy; [reflexivity|]. rewrite reset_readable; auto. Qed.
Lemma maybe_pending busy c : c_pending (maybe_do_total_data_loss_reset cb busy c) = c_pending c && busy.
Proof. unfold maybe_do_total_data_loss_reset. destruct (c_pending c) eqn:E; cbn; [|auto]. destruct busy; [auto|]. rewrite reset_pending; auto. Qed.
Lemma due_readable fuel busy t block : forall c c' r, advance_due_to_write fuel cb busy c t block = (c', r) -> c_readable c' = c_readable c.
Proof.
  induction fuel as [|fuel IH]; intros c c' r H; cbn [advance_due_to_write] in H; [inv H; reflexivity|].
  repeat dmatch_in H; try (inv H; cbn; rewrite ?loss_readable; auto; fail).
  - apply IH in H. rewrite H. match goal with A : advance_next_read _ _ _ = Some _ |- _ => destruct (advance_readable _ _ _ _ A) as [-> _] end.
    erewrite zero_readable by eassumption. reflexivity.
  - inv H. erewrite zero_readable by eassumption. reflexivity.
Qed.
Lemma due_pending fuel t block : forall c c' r, advance_due_to_write fuel cb true c t block = (c', r) -> c_pending c = true -> c_pending c' = true.
Proof.
  induction fuel as [|fuel IH]; intros c c' r H P; cbn [advance_due_to_write] in H; [inv H; auto|].
  repeat dmatch_in H; try (inv H; cbn; rewrite ?loss_pending; auto; fail).
  - apply IH in H; auto. match goal with A : advance_next_read _ _ _ = Some _ |- _ => destruct (advance_readable _ _ _ _ A) as [_ ->] end.
    erewrite zero_pending by eassumption. exact P.
  - inv H. erewrite zero_pending by eassumption. exact P.
Qed.
Lemma finish_read_readable busy c r c' d : finish_read_common cb busy c r = Some (c', d) -> c_readable c' = c_readable c.
Proof.
  unfold finish_read_common. intros H. destruct (advance_next_read c (r_size r) CursorNo) as [c1|] eqn:E; [|discriminate]. destruct (advance_readable _ _ _ _ E) as [Er _].
  injection H as <- _. rewrite maybe_readable. match goal with |- c_readable (if ?b then _ else _) = _ => destruct b end; exact Er.
Qed.
(** Only a non-blocking call that finds nothing, without a reset pending, sends. *)
Definition told (c : common) (block : bool) (c' : common) (r : res range) : bool :=
  match r with Err Unavailable => if block then c_readable c else if c_pending c' then c_readable c else false | _ => c_readable c end.
Lemma start_read_readable busy c block reserved cu c' r : start_read cb busy c block reserved cu = (c', r) -> c_readable c' = told c block c' r.
Proof.
  unfold start_read, told. intros H. destruct reserved; [inv H; reflexivity|]. destruct (c_pending c) eqn:P; [inv H; rewrite P; destruct block; reflexivity|].
  assert (ND : forall c0, c_readable c0 = c_readable c -> c_pending c0 = false -> forall c' r, no_data c0 block = (c', r) -> c_readable c' = told c block c' r).
  { intros c0 E0 P0 c1 r1 H1. unfold no_data in H1. unfold told. destruct block; inv H1; [destruct (c_shutdown c1); auto|]. cbn. rewrite P0. reflexivity. }
  destruct (rd_start cu c); [|apply (ND c eq_refl P _ _ H)].
  destruct (load_next_read_size c cu) as [sz|e|].
  - destruct cu.
    + destruct (_ && _); inv H; reflexivity.
    + destruct (advance_next_read _ _ _) as [c1|] eqn:E; [|inv H; reflexivity]. destruct (advance_readable _ _ _ _ E) as [Er _]. destruct (_ && _); inv H; exact Er.
  - destruct (c_pending (on_total_data_loss cb busy c)) eqn:P1.
    + inv H. rewrite loss_readable, P1. destruct block; reflexivity.
    + eapply ND; [| |exact H]; [apply loss_readable|exact P1].
  - inv H. reflexivity.
Qed.
End Cb.

Lemma v_cb_r c : c_readable (v_cb c) = c_readable c. Proof. reflexivity. Qed.
Lemma v_cb_p c : c_pending (v_cb c) = c_pending c. Proof. reflexivity. Qed.
Lemma n_cb_r hcrc c : c_readable (n_cb hcrc c) = c_readable c. Proof. reflexivity. Qed.
Lemma n_cb_p hcrc c : c_pending (n_cb hcrc c) = c_pending c. Proof. reflexivity. Qed.

(** ** Volatile buffers *)
Lemma pop_readable fuel : forall c q c' q', v_pop_committed fuel c q = (c', q') -> c_readable c' = c_readable c.
Proof.
  induction fuel as [|fuel IH]; intros c q c' q' H; cbn [v_pop_committed] in H; [inv H; reflexivity|].
  repeat dmatch_in H; try (inv H; reflexivity). apply IH in H. rewrite H. apply committed_readable.
Qed.
Definition v_tells (v : vbuf) (o : vop) (out : vout) (v' : vbuf) : bool :=
  match o, out with
  | VCommit _, ORes (Ok _) => true
  | VStartRead false, ORange (Err Unavailable) => if c_pending (v_c v') then c_readable (v_c v) else false
  | _, _ => c_readable (v_c v)
  end.
Lemma v_step_readable v o v' out : v_step v o = (v', out) -> c_readable (v_c v') = v_tells v o out v'.
Proof.
  intros H. unfold v_tells. destruct o; cbn [v_step] in H.
  - destruct (v_reserve v p size block) as [v1 r] eqn:E. inv H. unfold v_reserve in E.
    assert (G : c_readable (v_c v') = c_readable (v_c v)); [|destruct r; auto].
    destruct (v_prod v p); [inv E; reflexivity|]. destruct (start_reserve_common (v_c v) size) as [c1 r1] eqn:E1. apply start_reserve_readable in E1 as [E1 _].
    destruct r1; try (inv E; exact E1). destruct (calculate_next_write_start _ _); [|inv E; exact E1].
    destruct (match v_read_reservation v with Some _ => _ | None => _ end); [inv E; exact E1|]. destruct (match iq_front _ with Some _ => _ | None => _ end); [inv E; exact E1|].
    destruct (advance_due_to_write _ _ _ _ _ _) as [c2 r2] eqn:E2. apply (due_readable _ v_cb_r) in E2. rewrite E1 in E2. destruct r2; try (inv E; exact E2).
    match type of E with context [finish_reservation ?c _ _] => assert (E3 : c_readable c = c_readable (v_c v)) by (destruct (t_lwe t); exact E2); destruct (finish_reservation c _ _) as [ [c3 d]|] eqn:E4 end.
    + apply finish_reservation_readable in E4. destruct (iq_emplace_back _ _) as [qq aa]. inv E. cbn. congruence.
    + inv E. exact E3.
  - inv H. unfold v_write. repeat dmatch; reflexivity.
  - destruct (v_commit v p) as [v1 r] eqn:E. inv H. unfold v_commit in E. destruct (v_prod v p); [|inv E; reflexivity].
    destruct (iq_map_mut _ _ _) as [q1 [r1|]]; [|inv E; reflexivity]. destruct (v_pop_committed _ _ _) as [c1 q2] eqn:E1. apply pop_readable in E1. inv E. exact E1.
  - inv H. reflexivity.
  - unfold v_register_consumer in H. destruct (v_cons v); inv H; reflexivity.
  - inv H. reflexivity.
  - destruct (v_start_read v block) as [v1 r] eqn:E. inv H. unfold v_start_read in E. destruct (v_cons v) as [ex|]; [|inv E; destruct block; reflexivity].
    destruct (start_read _ _ _ _ _ _) as [c1 r1] eqn:E1. apply (start_read_readable _ v_cb_r) in E1. unfold told in E1.
    destruct r1; inv E; cbn [v_set_c v_set_cons v_c]; rewrite E1; [destruct block; reflexivity| |destruct block; reflexivity]. destruct e, block; reflexivity.
  - inv H. reflexivity.
  - destruct (v_finish_read v) as [v1 r] eqn:E. inv H. unfold v_finish_read in E. destruct (v_cons v) as [ [r1|]|]; try (inv E; reflexivity).
    destruct (finish_read_common _ _ _ _) as [ [c1 d]|] eqn:E1; [|inv E; reflexivity]. apply (finish_read_readable _ v_cb_r) in E1. inv E. exact E1.
  - unfold v_wait_for_drain, wait_for_drain in H. destruct (_ || _); inv H; reflexivity.
  - inv H. reflexivity.
  - inv H. reflexivity.
  - inv H. unfold v_shutdown, shutdown_common. destruct (c_shutdown _); reflexivity.
Qed.

(** ** Non-volatile buffers *)
Section N.
Variable rcrc : list Z -> Z.
Variable hcrc : Z -> option Z -> option Z -> option Z -> Z.
Lemma consumer_readable fuel check busy block reserved cu : forall c c' r,
  consumer_start_read rcrc hcrc fuel check busy c block reserved cu = (c', r) -> c_readable c' = told c block c' r.
Proof.
  revert reserved. induction fuel as [|fuel IH]; intros reserved c c' r H; cbn [consumer_start_read] in H; [inv H; reflexivity|].
  destruct (start_read _ _ _ _ _ _) as [c1 r1] eqn:E. apply (start_read_readable _ (n_cb_r hcrc)) in E. destruct r1 as [r0|e0|]; try (inv H; exact E). cbn [told] in E.
  destruct check; [|inv H; exact E]. destruct cu.
  - destruct (zero_extra_data c1 (r_start r0)) as [c2|] eqn:E2; [|inv H; exact E]. apply zero_readable in E2. destruct (_ =? _); [inv H; cbn; congruence|].
    destruct (finish_read_common _ _ _ _) as [ [c3 d]|] eqn:E3; [|inv H; cbn; congruence]. apply (finish_read_readable _ (n_cb_r hcrc)) in E3. apply IH in H. rewrite H.
    unfold told. assert (X : c_readable (write_header_crc hcrc c3) = c_readable c) by (cbn in *; congruence). rewrite X. reflexivity.
  - destruct (_ =? _); [inv H; cbn; congruence|]. apply IH in H. rewrite H. unfold told. assert (X : c_readable (count_corrupted c1) = c_readable c) by (cbn in *; congruence). rewrite X. reflexivity.
Qed.
Definition n_tells (n : nbuf) (o : nop) (out : nout) (n' : nbuf) : bool :=
  match o, out with
  | NCommit, NRes (Ok _) => true
  | NStartRead false, NRange (Err Unavailable) => if c_pending (n_c n') then c_readable (n_c n) else false
  | (NReopen | NCrash _ _), NOpened _ => true
  | _, _ => c_readable (n_c n)
  end.
Lemma tail_readable n t z block n' r : n_reserve_tail hcrc n t z block = (n', r) -> c_readable (n_c n') = c_readable (n_c n).
Proof.
  unfold n_reserve_tail. intros H. destruct (advance_due_to_write _ _ _ _ _ _) as [c1 r1] eqn:E. apply (due_readable _ (n_cb_r hcrc)) in E.
  destruct r1 as [u|e|]; [|destruct e; inv H; exact E|inv H; exact E].
  match type of H with context [finish_reservation ?c _ _] => assert (E3 : c_readable c = c_readable (n_c n)) by (destruct (t_lwe t); exact E); destruct (finish_reservation c _ _) as [ [c3 d]|] eqn:E4 end.
  - apply finish_reservation_readable in E4. inv H. cbn. congruence.
  - inv H. exact E3.
Qed.
Lemma loop_readable n t z block n' r : n_reserve_loop hcrc n t z block = (n', r) -> c_readable (n_c n') = c_readable (n_c n).
Proof.
  unfold n_reserve_loop. intros H. destruct (match n_read_reservation n with Some _ => _ | None => _ end); [destruct (n_hold n); inv H; reflexivity|]. eapply tail_readable. exact H.
Qed.
Lemma opened_readable f z ow hold check st n d : rb_open hcrc f z ow hold check st = (Ok n, d) -> c_readable (n_c n) = true.
Proof.
  assert (X : forall f, n_open hcrc f z ow hold check st = Ok n -> c_readable (n_c n) = true).
  { intros f0 H. unfold n_open in H. destruct (z <? header_size); [discriminate|]. match type of H with match ?x with _ => _ end = _ => destruct x end; try discriminate. destruct (negb _); [discriminate|]. inv H. reflexivity. }
  unfold rb_open. intros H. destruct (n_open hcrc f z ow hold check st) as [n1|e|] eqn:E; [injection H as <- _; eapply X; exact E| |discriminate].
  destruct e; try discriminate. injection H as H _. eapply X. exact H.
Qed.
Lemma reload_readable n f n' out : n_reload hcrc n f = (n', out) -> c_readable (n_c n') = match out with NOpened _ => true | _ => c_readable (n_c n) end.
Proof. unfold n_reload. intros H. destruct (rb_open _ _ _ _ _ _ _) as [ [n1|e|] d] eqn:E; inv H; auto. eapply opened_readable. exact E. Qed.
Lemma n_step_readable n o n' out : n_step rcrc hcrc n o = (n', out) -> c_readable (n_c n') = n_tells n o out n'.
Proof.
  intros H. unfold n_tells. destruct o; cbn [n_step] in H.
  - destruct (n_prod n), (n_wait n); try (inv H; reflexivity). destruct (n_reserve hcrc n size block) as [n1 r] eqn:E. inv H. unfold n_reserve in E.
    destruct (n_prod n) as [ [q|]|]; [inv E; reflexivity| |].
    all: destruct (start_reserve_common (n_c n) size) as [c1 r1] eqn:E1; apply start_reserve_readable in E1 as [E1 _]; destruct r1; try (inv E; exact E1);
      destruct (calculate_next_write_start _ _); [|inv E; exact E1]; apply loop_readable in E; cbn in E; congruence.
  - destruct (n_wait n); [|inv H; reflexivity]. destruct (n_resume hcrc n w) as [n1 r] eqn:E. inv H. unfold n_resume in E.
    destruct (c_shutdown _); [inv E; reflexivity|]. destruct (w_second w); [eapply tail_readable|eapply loop_readable]; exact E.
  - destruct (n_prod n) eqn:Ep, (n_wait n); try (inv H; reflexivity). inv H. unfold n_write. rewrite Ep. repeat dmatch; reflexivity.
  - destruct (n_prod n) eqn:Ep, (n_wait n); try (inv H; reflexivity). destruct (n_commit rcrc hcrc n) as [n1 r] eqn:E. inv H. unfold n_commit in E. rewrite Ep in E.
    destruct o; [|inv E; reflexivity].
    match type of E with match ?x with _ => _ end = _ => destruct x as [c1|] eqn:E1 end; [|inv E; reflexivity].
    inv E. cbn [n_set_c n_c write_header_crc set_hcrc c_readable]. change (c_readable (maybe_do_total_data_loss_reset (n_cb hcrc) (n_busy (n_set_prod (Some None) n)) c1) = true). rewrite maybe_readable by apply n_cb_r.
    destruct (n_check n); [destruct (_ && _); [|discriminate]|]; inv E1; reflexivity.
  - destruct (n_register_producer n) as [n1 r] eqn:E. inv H. unfold n_register_producer in E. destruct (n_prod n); inv E; reflexivity.
  - destruct (n_prod n), (n_wait n); inv H; reflexivity.
  - destruct (n_register_consumer n) as [n1 r] eqn:E. inv H. unfold n_register_consumer in E. destruct (n_cons n); inv E; reflexivity.
  - destruct (n_register_cursor n) as [n1 r] eqn:E. inv H. unfold n_register_cursor in E. destruct (n_cons n); [inv E; reflexivity|]. destruct (c_ow _); inv E; reflexivity.
  - destruct (n_cons n); inv H; reflexivity.
  - destruct (n_cons n) as [k|]; [|inv H; destruct block; reflexivity]. destruct (n_start_read rcrc hcrc n k block) as [n1 r] eqn:E. inv H. unfold n_start_read, n_start_read_fuel in E.
    destruct k; destruct (consumer_start_read _ _ _ _ _ _ _ _ _) as [c1 r1] eqn:E1; apply consumer_readable in E1; unfold told in E1;
      destruct r1; inv E; cbn [n_set_c n_set_cons n_c]; rewrite E1; try (destruct block; reflexivity); destruct e, block; reflexivity.
  - inv H. reflexivity.
  - destruct (n_cons n) as [ [e|q]|]; try (inv H; reflexivity). destruct (n_finish_read hcrc n e) as [n1 r] eqn:E. inv H. unfold n_finish_read in E. destruct e as [r1|]; [|inv E; reflexivity].
    destruct (finish_read_common _ _ _ _) as [ [c1 d]|] eqn:E1; [|inv E; reflexivity]. apply (finish_read_readable _ (n_cb_r hcrc)) in E1. inv E. exact E1.
  - destruct (n_cons n) as [ [e|q]|]; try (inv H; reflexivity). destruct (n_advance hcrc n q) as [n1 r] eqn:E. inv H. unfold n_advance in E. destruct q as [|r1 q]; [inv E; reflexivity|].
    destruct (finish_read_common _ _ _ _) as [ [c1 d]|] eqn:E1; [|inv E; reflexivity]. apply (finish_read_readable _ (n_cb_r hcrc)) in E1. inv E. exact E1.
  - unfold n_wait_for_drain, wait_for_drain in H. destruct (_ || _); inv H; reflexivity.
  - inv H. reflexivity.
  - inv H. reflexivity.
  - inv H. unfold n_shutdown, shutdown_common. destruct (c_shutdown _); reflexivity.
  - apply reload_readable in H. rewrite H. destruct out; reflexivity.
  - apply reload_readable in H. rewrite H. destruct out; reflexivity.
Qed.
End N.

(** * The reader *)
Section Generic.
Context {B O R S : Type}.
Variable g : ring B O R.
Variable ok : O -> Prop.
Variable rel : B -> S -> Prop.
Variable spec : S -> O -> R -> S -> Prop.
Variables nothing none idle : S -> Prop.
Variable good : S -> R -> Prop.
Hypothesis ok_try : ok (rg_try g).
Hypothesis Hstep : forall b s o b' r, rel b s -> ok o -> rg_step g b o = (b', r) ->
  exists s', spec s o r s' /\ rel b' s' /\ (rg_sent g o r b' = false -> nothing s -> nothing s') /\ (o = rg_try g -> rg_verdict g r = Again -> nothing s').
Hypothesis Hread : forall b s, rel b s -> rg_readable g b = false -> nothing s.
Hypothesis Hnone : forall b s b' r, rel b s -> idle s -> none s -> rg_step g b (rg_try g) = (b', r) ->
  rg_verdict g r = Again /\ rg_sent g (rg_try g) r b' = true /\ rg_readable g b' = false.
Hypothesis Hsome : forall b s b' r, rel b s -> idle s -> ~ none s -> rg_step g b (rg_try g) = (b', r) -> rg_verdict g r = Returned /\ good s r.
Hypothesis Hnothing : forall s, nothing s -> none s.

Fixpoint steps (s : S) (l : list (O * R)) (s' : S) : Prop :=
  match l with [] => s' = s | (o, r) :: l => exists s1, spec s o r s1 /\ steps s1 l s' end.
Lemma steps_app l1 : forall l2 s s1 s2, steps s l1 s1 -> steps s1 l2 s2 -> steps s (l1 ++ l2) s2.
Proof.
  induction l1 as [|[o r] l1 IH]; intros l2 s s1 s2 H1 H2; cbn in *; [subst; exact H2|]. destruct H1 as (s0 & A & Hb). exists s0. split; [exact A|]. eapply IH; eassumption.
Qed.
Definition ok_h (h : happening O) : Prop := match h with Other o | Own o => ok o | _ => True end.
Definition fine (st : reader_state B) (s : S) : Prop := rel (rs_buf st) s /\ match rs_at st with Awaiting false => nothing s | _ => True end.

Lemma gen_step st s h st' calls : fine st s -> ok_h h -> reader_step g st h = (st', calls) -> exists s', steps s calls s' /\ fine st' s'.
Proof using ok_try Hstep Hread.
  intros [Hr Hp] Ho E. destruct h as [o|o| | |]; cbn [reader_step ok_h] in *.
  - destruct (rg_own g o); [inv E; exists s; split; [reflexivity|split; auto]|]. destruct (rg_step g (rs_buf st) o) as [b r] eqn:Eb. inv E.
    destruct (Hstep _ _ _ _ _ Hr Ho Eb) as (s' & H1 & H2 & H3 & _). exists s'. split; [exists s'; split; [exact H1|reflexivity]|]. split; [exact H2|]. cbn.
    destruct (rs_at st) as [|f|f|f]; cbn; auto. destruct f; cbn; auto. destruct (rg_sent g o r b) eqn:Es; auto.
  - destruct (rs_at st) eqn:Ea; try (inv E; exists s; split; [reflexivity|split; [exact Hr|rewrite Ea; exact Hp] ]). destruct (rg_own g o); [|inv E; exists s; split; [reflexivity|split; [exact Hr|rewrite Ea; exact Hp] ] ].
    destruct (rg_step g (rs_buf st) o) as [b r] eqn:Eb. inv E. destruct (Hstep _ _ _ _ _ Hr Ho Eb) as (s' & H1 & H2 & _). exists s'. split; [exists s'; split; [exact H1|reflexivity]|]. split; [exact H2|exact Logic.I].
  - exists s. destruct (rs_at st) eqn:Ea; inv E; (split; [reflexivity|]); split; cbn; auto; rewrite ?Ea; auto.
  - destruct (rs_at st) as [|f|f|f] eqn:Ea.
    + inv E. exists s. split; [reflexivity|]. split; [exact Hr|rewrite Ea; exact Hp].
    + inv E. exists s. split; [reflexivity|]. split; [exact Hr|]. cbn. destruct (rg_readable g (rs_buf st)) eqn:Er; [exact Logic.I|]. destruct (if rg_marks g then false else f); [exact Logic.I|]. eapply Hread; eassumption.
    + destruct (rg_step g (rs_buf st) (rg_try g)) as [b r] eqn:Eb. inv E. destruct (Hstep _ _ _ _ _ Hr ok_try Eb) as (s' & H1 & H2 & _ & H4). exists s'. split; [exists s'; split; [exact H1|reflexivity]|].
      split; [exact H2|]. cbn. destruct (rg_verdict g r) eqn:Ev; [exact Logic.I|]. destruct (rg_retries g); [exact Logic.I|]. destruct (f || _); [exact Logic.I|]. apply H4; auto.
    + inv E. exists s. split; [reflexivity|]. destruct f; split; cbn; auto. rewrite Ea. exact Hp.
  - exists s. destruct (rs_at st) eqn:Ea; inv E; (split; [reflexivity|]); split; cbn; auto; rewrite ?Ea; auto.
Qed.
Lemma gen_run l : forall st s st' calls, fine st s -> Forall ok_h l -> reader_run g st l = (st', calls) -> exists s', steps s calls s' /\ fine st' s'.
Proof using ok_try Hstep Hread.
  induction l as [|h l IH]; intros st s st' calls F Ho E; cbn [reader_run] in E.
  - inv E. exists s. split; [reflexivity|exact F].
  - inv Ho. destruct (reader_step g st h) as [st1 c1] eqn:E1. destruct (reader_run g st1 l) as [st2 c2] eqn:E2. inv E.
    destruct (gen_step _ _ _ _ _ F H1 E1) as (s1 & S1 & F1). destruct (IH _ _ _ _ F1 H2 E2) as (s2 & S2 & F2). exists s2. split; [eapply steps_app; eassumption|exact F2].
Qed.

(** What the reader does alone. *)
Lemma poll_some st s : fine st s -> idle s -> ~ none s -> rs_at st <> Away ->
  exists k st' r, (k <= 3)%nat /\ reader_run g st (repeat Poll k) = (st', [(rg_try g, r)]) /\ rs_at st' = Away /\ good s r.
Proof using Hread Hsome Hnothing.
  intros [Hr Hp] Hi Hn Ha. assert (Rd : rg_readable g (rs_buf st) = true) by (destruct (rg_readable g (rs_buf st)) eqn:E; [reflexivity|exfalso; apply Hn, Hnothing; eapply Hread; eassumption]).
  destruct (rg_step g (rs_buf st) (rg_try g)) as [b r] eqn:Eb. destruct (Hsome _ _ _ _ Hr Hi Hn Eb) as [Hv Hg].
  assert (T1 : forall f since, reader_run g (mkReader (rs_buf st) since (Trying f)) (repeat Poll 1) = (mkReader b (since || rg_sent g (rg_try g) r b) Away, [(rg_try g, r)])).
  { intros f since. cbn [repeat reader_run reader_step rs_at rs_buf rs_since]. rewrite Eb, Hv. reflexivity. }
  assert (T2 : forall f since, reader_run g (mkReader (rs_buf st) since (Top f)) (repeat Poll 2) = (mkReader b (since || rg_sent g (rg_try g) r b) Away, [(rg_try g, r)])).
  { intros f since. change (repeat Poll 2) with (@Poll O :: repeat Poll 1). cbn [reader_run reader_step rs_at rs_buf rs_since]. rewrite Rd. fold (@reader_run B O R g). rewrite T1. reflexivity. }
  destruct st as [b0 since at0]. cbn [rs_buf rs_at rs_since] in *. destruct at0 as [|f|f|f]; [contradiction| | |].
  - exists 2%nat, (mkReader b (since || rg_sent g (rg_try g) r b) Away), r. splits; auto.
  - exists 1%nat, (mkReader b (since || rg_sent g (rg_try g) r b) Away), r. splits; auto.
  - destruct f; [|exfalso; apply Hn, Hnothing; exact Hp]. exists 3%nat, (mkReader b (since || rg_sent g (rg_try g) r b) Away), r. splits; auto.
    change (repeat Poll 3) with (@Poll O :: repeat Poll 2). cbn [reader_run reader_step rs_at rs_buf rs_since]. fold (@reader_run B O R g). rewrite T2. reflexivity.
Qed.
Definition parks (st : reader_state B) (m : nat) : Prop := exists k st' calls, (k <= m)%nat /\ reader_run g st (repeat Poll k) = (st', calls) /\ rs_at st' = Awaiting false.
Lemma parks_next st m st1 c1 : reader_step g st Poll = (st1, c1) -> parks st1 m -> parks st (1 + m).
Proof using Type.
  intros E (k & st' & calls & H1 & H2 & H3). exists (1 + k)%nat, st', (c1 ++ calls). splits; [lia| |exact H3]. cbn [repeat Nat.add reader_run]. rewrite E. fold (@reader_run B O R g). rewrite H2. reflexivity.
Qed.
Lemma parks_more st m m' : (m <= m')%nat -> parks st m -> parks st m'.
Proof using Type. intros L (k & st' & calls & H1 & H2 & H3). exists k, st', calls. splits; auto. lia. Qed.
Lemma poll_dark st : rg_readable g (rs_buf st) = false -> (forall f, rs_at st = Top f -> parks st 3) /\ (rs_at st = Awaiting true -> parks st 2).
Proof using Type.
  intros Rd. clear - Rd. destruct st as [b since at0]. cbn [rs_buf rs_at] in *.
  assert (A0 : parks (mkReader b since (Awaiting false)) 0) by (exists 0%nat; eexists; eexists; splits; [lia|reflexivity|reflexivity]).
  assert (T0 : parks (mkReader b since (Top false)) 1).
  { eapply (parks_next _ 0); [cbn [reader_step rs_at rs_buf rs_since]; rewrite Rd; reflexivity|]. destruct (rg_marks g); exact A0. }
  assert (A1 : parks (mkReader b since (Awaiting true)) 2) by (eapply (parks_next _ 1); [reflexivity|exact T0]).
  split; [|intros ->; exact A1]. intros f ->. eapply (parks_next _ 2); [cbn [reader_step rs_at rs_buf rs_since]; rewrite Rd; reflexivity|].
  destruct (if rg_marks g then false else f); [exact A1|]. eapply parks_more; [|exact A0]. lia.
Qed.
Lemma poll_none st s : fine st s -> idle s -> none s -> rs_at st <> Away -> parks st 6.
Proof using Hnone.
  clear ok_try Hstep Hread Hsome Hnothing spec good. intros [Hr Hp] Hi Hn Ha. destruct st as [b0 since at0]. cbn [rs_buf rs_at rs_since] in *.
  destruct (rg_step g b0 (rg_try g)) as [b r] eqn:Eb. destruct (Hnone _ _ _ _ Hr Hi Hn Eb) as (Hv & Hs & Hd).
  assert (T : forall f, parks (mkReader b0 since (Trying f)) 4).
  { intros f. eapply (parks_next _ 3); [cbn [reader_step rs_at rs_buf rs_since]; rewrite Eb, Hv, Hs; reflexivity|]. rewrite !Bool.orb_true_r.
    destruct (rg_retries g).
    - destruct (poll_dark (mkReader b true (Top true)) Hd) as [P _]. eapply P. reflexivity.
    - destruct (poll_dark (mkReader b true (Awaiting true)) Hd) as [_ P]. eapply parks_more; [|apply P; reflexivity]. lia. }
  assert (Tp : forall f, parks (mkReader b0 since (Top f)) 5).
  { intros f. destruct (rg_readable g b0) eqn:Rd.
    - eapply (parks_next _ 4); [cbn [reader_step rs_at rs_buf rs_since]; rewrite Rd; reflexivity|]. apply T.
    - destruct (poll_dark (mkReader b0 since (Top f)) Rd) as [P _]. eapply parks_more; [|eapply P; reflexivity]. lia. }
  destruct at0 as [|f|f|f]; [contradiction| | |].
  - eapply parks_more; [|apply Tp]. lia.
  - eapply parks_more; [|apply T]. lia.
  - destruct f; [eapply (parks_next _ 5); [reflexivity|apply Tp]|]. exists 0%nat. eexists. eexists. splits; [lia|reflexivity|reflexivity].
Qed.
End Generic.
