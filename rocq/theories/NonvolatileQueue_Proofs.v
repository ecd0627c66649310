(** Facts about the specification of non-volatile buffers: order, and what the entries look like. *)
From Verif Require Import Base Ring_Model Nonvolatile_Model Nonvolatile_Spec Nonvolatile_Proofs.
Open Scope Z_scope.

Section Spec.
Variable k : config.
Variable sum : list Z -> Z.
Hypothesis sum_range : forall d, 0 <= sum d < U32.

(** * Order *)
Definition well (s : queue) : Prop :=
  in_order s /\ (q_unread s = [] -> q_gone s = []) /\ (q_wait s <> None -> q_slot s = None).

Lemma map_pair_ids : forall f l, map (fun p : fate * entry => e_id (snd p)) (map (pair f) l) = map e_id l.
Proof. intros f l. rewrite map_map. reflexivity. Qed.

Lemma leave_order : forall f lost u u' s, well s -> q_unread s = lost ++ u -> map e_id u' = map e_id u -> well (leave (map (pair f) lost) u' s).
Proof.
  intros f lost u u' s (O & G & W) Q E. unfold leave. destruct u' as [|e u'].
  - symmetry in E. apply map_eq_nil in E. subst u. rewrite app_nil_r in Q. unfold well, in_order in *. cbn [q_past q_unread q_gone q_slot q_next q_wait map app slot_ids] in *. splits; auto.
    rewrite !map_app, !map_pair_ids. rewrite Q in O. rewrite <- O, <- !app_assoc. reflexivity.
  - unfold well, in_order in *. cbn [q_past q_unread q_gone q_slot q_next q_wait slot_ids] in *. splits; auto; [|discriminate].
    rewrite map_app, map_pair_ids, E. rewrite Q, map_app in O. rewrite <- O, <- !app_assoc. reflexivity.
Qed.

Lemma take_order : forall d s, well s -> q_slot s = None -> well (set_qwait None (take_slot d s)).
Proof.
  intros d s (O & G & W) Q. unfold well, in_order, set_qwait, take_slot in *. cbn [q_past q_unread q_gone q_slot q_next q_wait slot_ids] in *. splits; auto; [|congruence].
  rewrite seq_S. unfold slot_ids in *. cbn [q_slot]. rewrite Q in O. rewrite app_nil_r in O. rewrite <- O, <- !app_assoc. reflexivity.
Qed.

Lemma wait_order : forall w s, well s -> (w <> None -> q_slot s = None) -> well (set_qwait w s).
Proof. intros w s (O & G & W) H. unfold well, in_order, slot_ids, set_qwait in *. cbn in *. auto. Qed.

Lemma attempt_order : forall s size block second out s', well s -> q_slot s = None -> attempt k s size block second out s' -> well s'.
Proof.
  intros s size block second out s' H Q A. destruct A as [a init lost kept E1 E2 E3 E4|E1 E2 E3 E4|E1 E2 E3 E4|E1 E2 E3|E1 E2 E3 E4|E1 E2 E3 E4]; try (apply wait_order; auto; fail).
  apply take_order; [eapply leave_order; eauto|]. unfold leave. destruct kept; exact Q.
Qed.

Lemma abandon_order : forall s, well s -> well (abandon s).
Proof.
  intros s H. destruct H as (O & G & W). unfold abandon. destruct (q_slot s) as [ [i d]|] eqn:Q; [|unfold well; auto].
  destruct (q_unread s) as [|e u] eqn:Qu; unfold well, in_order, slot_ids in *; cbn [q_past q_unread q_gone q_slot q_next q_wait] in *; rewrite ?Q, ?Qu in *.
  - rewrite (G eq_refl) in O. splits; auto. rewrite map_app. rewrite <- O. cbn. rewrite !app_nil_r. reflexivity.
  - splits; auto; [|discriminate]. rewrite map_app, app_nil_r. cbn [map e_id]. exact O.
Qed.

Lemma reopened_order : forall b s, well s -> well (reopened b s).
Proof.
  intros b s H. apply abandon_order in H. unfold reopened. destruct H as (O & G & W). unfold well, in_order, slot_ids in *.
  cbn [q_past q_unread q_gone q_slot q_next q_wait] in *. splits; auto.
  assert (E: q_slot (abandon s) = None).
  { unfold abandon. destruct (q_slot s) as [ [i d]|] eqn:Q; [destruct (q_unread s); reflexivity|exact Q]. }
  rewrite E in O. exact O.
Qed.

Lemma fields_order : forall s s', q_unread s' = q_unread s -> q_gone s' = q_gone s -> q_slot s' = q_slot s -> q_next s' = q_next s ->
  q_wait s' = q_wait s -> q_past s' = q_past s -> well s -> well s'.
Proof. intros s s' H1 H2 H3 H4 H5 H6 H. unfold well, in_order, slot_ids in *. rewrite H1, H2, H3, H4, H5, H6. exact H. Qed.

Lemma leave_keep : forall e e' l s, well s -> q_unread s = e :: l -> e_id e' = e_id e -> well (leave [] (e' :: l) s).
Proof. intros e e' l s H Q E. apply (leave_order Skipped [] (e :: l) (e' :: l) s H Q). cbn. rewrite E. reflexivity. Qed.

Lemma step_order : forall s o out s', step k sum s o out s' -> well s -> well s'.
Proof.
  intros s o out s' H. induction H; intros HW; try exact HW; try (eapply fields_order; [..|exact HW]; reflexivity; fail).
  - eapply attempt_order; eauto.
  - eapply attempt_order; eauto. destruct HW as (_ & _ & W). apply W. congruence.
  - apply wait_order; auto. congruence.
  - destruct (_ && _); [|exact HW]. destruct HW as (O & G & W). unfold well, in_order, slot_ids, set_slot in *. cbn in *. rewrite H0 in *. splits; auto.
    intros Hw. specialize (W Hw). discriminate.
  - destruct HW as (O & G & W). unfold well, in_order, slot_ids in *. cbn [q_past q_unread q_gone q_slot q_next q_wait] in *. rewrite H0 in *. splits; auto; try congruence.
    + rewrite !map_app. cbn [map e_id app]. rewrite app_nil_r. exact O.
  - apply abandon_order in HW. eapply fields_order; [..|exact HW]; reflexivity.
  - eapply fields_order; [..|eapply (leave_order Skipped skip (x :: l) (dim k x :: l)); [exact HW|exact H0|]]; try reflexivity.
    unfold dim. destruct (k_check k); reflexivity.
  - eapply leave_order; [exact HW|symmetry; apply app_nil_r|reflexivity].
  - eapply fields_order; [..|eapply (leave_order Consumed [x] l l); [exact HW|exact H0|reflexivity] ]; reflexivity.
  - eapply fields_order; [..|eapply (leave_order Consumed [x] l l); [exact HW|exact H0|reflexivity] ]; reflexivity.
  - apply reopened_order. exact HW.
  - apply reopened_order. auto.
  - apply reopened_order.
    assert (HL: well (leave (map (pair Skipped) skip) u' s)).
    { eapply leave_order; [exact HW|eassumption|]. destruct H2 as [->|(_ & e & e' & r & -> & -> & T & _)]; [reflexivity|]. cbn. rewrite T. reflexivity. }
    destruct HL as (O & G & W). subst s1. unfold well, in_order, slot_ids, set_slot in *. cbn [q_past q_unread q_gone q_slot q_next q_wait] in *.
    assert (E: q_slot (leave (map (pair Skipped) skip) u' s) = q_slot s) by (unfold leave; destruct u'; reflexivity).
    rewrite E in *. destruct (q_slot s) as [ [i d]|]; destruct slot as [ [i' d']|]; try contradiction; splits; auto.
    + destruct H4 as [-> _]. exact O.
    + intros Hw. specialize (W Hw). discriminate.
  - destruct HW as (O & G & W). unfold well, in_order, slot_ids in *. cbn [q_past q_unread q_gone q_slot q_next q_wait map app]. splits; auto.
    rewrite map_app, map_pair_ids, !map_app. rewrite app_nil_r, <- O. destruct (q_slot s) as [ [i d]|]; reflexivity.
Qed.

Lemma run_order : forall s l outs s', run k sum s l outs s' -> well s -> well s'.
Proof. intros s l outs s' H. induction H; intros HW; [exact HW|]. apply IHrun. eapply step_order; eauto. Qed.
Lemma init_order : well (queue_init k).
Proof. unfold well, in_order, queue_init. cbn. splits; auto. Qed.

(** * Entries *)
Definition cleared (j : nat) (x : Z) : Z := from_bytes (repeat 0 j ++ skipn j (to_bytes x)).
Definition entry_ok (e : entry) : Prop :=
  (exists j, (j <= 4)%nat /\ e_sum e = cleared j (sum (e_data e))) /\ (e_done e = false -> e_sum e = 0).
Definition entries_ok (s : queue) : Prop := Forall entry_ok (q_unread s ++ q_gone s) /\ Forall (fun e => e_done e = false) (q_gone s).

Lemma cleared_4 : forall x, cleared 4 x = 0.
Proof. reflexivity. Qed.
Lemma cleared_0 : forall x, 0 <= x < U32 -> cleared 0 x = x.
Proof. intros x H. unfold cleared. cbn [repeat app skipn]. apply Ring_Proofs.from_to_bytes. exact H. Qed.
Lemma to_cleared : forall i x, (i <= 4)%nat -> to_bytes (cleared i x) = repeat 0 i ++ skipn i (to_bytes x).
Proof.
  intros i x Hi. unfold cleared. apply to_from_bytes.
  - rewrite app_length, repeat_length, skipn_length. unfold to_bytes. cbn [length]. lia.
  - apply Forall_app. split.
    + apply Forall_forall. intros z Hz. apply repeat_spec in Hz. lia.
    + pose proof (to_bytes_range x) as R. rewrite Forall_forall in *. intros z Hz. apply R. rewrite <- (firstn_skipn i). apply in_or_app. right. exact Hz.
Qed.
Lemma cleared_twice : forall i j x, (i <= 4)%nat -> (j <= 4)%nat -> cleared j (cleared i x) = cleared (Nat.max i j) x.
Proof.
  intros i j x Hi Hj. unfold cleared at 1. rewrite to_cleared by exact Hi. unfold cleared.
  destruct i as [|[|[|[|[|i]]]]]; try lia; destruct j as [|[|[|[|[|j]]]]]; try lia; reflexivity.
Qed.
Lemma cleared_shown : forall i j x, (i <= 4)%nat -> (j <= 4)%nat -> 0 <= x < U32 -> cleared (Nat.max i j) x = x -> cleared i x = x.
Proof.
  intros i j x Hi Hj Hx H.
  assert (E: repeat 0 (Nat.max i j) ++ skipn (Nat.max i j) (to_bytes x) = to_bytes x) by (rewrite <- to_cleared by lia; rewrite H; reflexivity).
  rewrite <- (cleared_0 x Hx) at 2. unfold cleared. f_equal.
  unfold to_bytes in *. destruct i as [|[|[|[|[|i]]]]]; try lia; destruct j as [|[|[|[|[|j]]]]]; try lia; cbn [Nat.max repeat app skipn] in *; try reflexivity; injection E; intros; congruence.
Qed.

Lemma torn_ok : forall e e', entry_ok e -> torn e e' -> entry_ok e' /\ (k_check k = true -> shown k sum e' -> shown k sum e).
Proof.
  intros e e' [(i & Hi & E) D] (T1 & T2 & T3 & j & Hj & T4). fold (cleared j (e_sum e)) in T4.
  assert (E': e_sum e' = cleared (Nat.max i j) (sum (e_data e'))) by (rewrite T4, E, T2; apply cleared_twice; assumption).
  split; [split|].
  - exists (Nat.max i j). split; [lia|exact E'].
  - rewrite T3. intros Hd. rewrite T4, (D Hd). unfold cleared. destruct j as [|[|[|[|[|j]]]]]; try lia; reflexivity.
  - intros Hc Hs _. specialize (Hs Hc). rewrite E', T2 in Hs. rewrite E. eapply cleared_shown; eauto.
Qed.
Lemma dim_ok : forall e, entry_ok e -> entry_ok (dim k e).
Proof.
  intros e H. unfold dim. destruct (k_check k); [|exact H]. split; cbn; [|reflexivity]. exists 4%nat. split; [lia|]. symmetry. apply cleared_4.
Qed.
Lemma new_ok : forall i d, entry_ok (mkEntry i d (sum d) true).
Proof. intros i d. split; cbn; [|discriminate]. exists 0%nat. split; [lia|]. symmetry. apply cleared_0. apply sum_range. Qed.
Lemma gone_ok : forall i d, entry_ok (mkEntry i d 0 false).
Proof. intros i d. split; cbn; [|reflexivity]. exists 4%nat. split; [lia|reflexivity]. Qed.

Lemma leave_entries : forall fs lost u u' s, entries_ok s -> q_unread s = lost ++ u -> (Forall entry_ok u -> Forall entry_ok u') -> entries_ok (leave fs u' s).
Proof.
  intros fs lost u u' s [E G] Q H. rewrite Q, <- app_assoc in E. apply Forall_app in E. destruct E as [_ E]. apply Forall_app in E. destruct E as [E1 E2].
  unfold leave. destruct u'; split; cbn; auto. apply (Forall_app entry_ok (_ :: _)). auto.
Qed.
Lemma fields_entries : forall s s', q_unread s' = q_unread s -> q_gone s' = q_gone s -> entries_ok s -> entries_ok s'.
Proof. intros s s' H1 H2 H. unfold entries_ok in *. rewrite H1, H2. exact H. Qed.
Lemma abandon_entries : forall s, entries_ok s -> entries_ok (abandon s).
Proof.
  intros s [E G]. unfold abandon. destruct (q_slot s) as [ [i d]|] eqn:Q; [|split; assumption]. destruct (q_unread s) as [|e u] eqn:Qu; split; cbn; auto.
  - rewrite app_comm_cons, app_assoc. apply Forall_app. split; [exact E|]. constructor; [apply gone_ok|constructor].
  - apply Forall_app. split; [exact G|]. constructor; [reflexivity|constructor].
Qed.
Lemma reopened_entries : forall b s, entries_ok s -> entries_ok (reopened b s).
Proof. intros b s H. apply abandon_entries in H. exact H. Qed.

Lemma attempt_entries : forall s size block second out s', entries_ok s -> attempt k s size block second out s' -> entries_ok s'.
Proof.
  intros s size block second out s' H A. destruct A as [a init lost kept E1 E2 E3 E4|E1 E2 E3 E4|E1 E2 E3 E4|E1 E2 E3|E1 E2 E3 E4|E1 E2 E3 E4]; try exact H.
  apply (fields_entries (leave (map (pair Overwritten) lost) kept s)); try reflexivity. eapply leave_entries; eauto.
Qed.

Lemma step_entries : forall s o out s', step k sum s o out s' -> entries_ok s -> entries_ok s'.
Proof.
  intros s o out s' H. induction H; intros HE; try exact HE; try (eapply fields_entries; [..|exact HE]; reflexivity; fail).
  - eapply attempt_entries; eauto.
  - eapply attempt_entries; eauto.
  - destruct (_ && _); exact HE.
  - destruct HE as [E G]. split; cbn; [|constructor]. rewrite app_nil_r, app_assoc. apply Forall_app. split; [exact E|]. constructor; [apply new_ok|constructor].
  - apply abandon_entries in HE. exact HE.
  - eapply fields_entries; [reflexivity|reflexivity|]. eapply (leave_entries _ skip (x :: l)); [exact HE|exact H0|]. intros F. inv F. constructor; [apply dim_ok|]; assumption.
  - eapply (leave_entries _ (q_unread s) []); [exact HE|symmetry; apply app_nil_r|auto].
  - eapply fields_entries; [reflexivity|reflexivity|]. eapply (leave_entries _ [x] l); [exact HE|exact H0|auto].
  - eapply fields_entries; [reflexivity|reflexivity|]. eapply (leave_entries _ [x] l); [exact HE|exact H0|auto].
  - apply reopened_entries. exact HE.
  - apply reopened_entries. auto.
  - apply reopened_entries. subst s1. apply (fields_entries (leave (map (pair Skipped) skip) u' s)); try reflexivity.
    eapply leave_entries; [exact HE|eassumption|]. intros F. destruct H2 as [->|(_ & e & e' & r & -> & -> & T)]; [exact F|]. inv F. constructor; [|assumption].
    eapply torn_ok; eassumption.
  - split; cbn; constructor.
Qed.
Lemma run_entries : forall s l outs s', run k sum s l outs s' -> entries_ok s -> entries_ok s'.
Proof. intros s l outs s' H. induction H; intros HW; [exact HW|]. apply IHrun. eapply step_entries; eauto. Qed.
Lemma init_entries : entries_ok (queue_init k).
Proof. split; constructor. Qed.

(** With record checksums, a record that is shown was committed, or its checksum is 0. *)
Lemma shown_done : forall e, k_check k = true -> entry_ok e -> shown k sum e -> e_done e = true \/ sum (e_data e) = 0.
Proof. intros e Hc [_ D] Hs. destruct (e_done e); [auto|]. right. rewrite <- (Hs Hc). auto. Qed.

(** A regular reader stays one, unless a cursor is registered. *)
Definition no_cursor (s : queue) : Prop := forall n, q_reader s <> Cursor n.
Lemma leave_reader : forall fs u s, q_reader (leave fs u s) = q_reader s.
Proof. intros. unfold leave. destruct u; reflexivity. Qed.
Lemma abandon_reader : forall s, q_reader (abandon s) = q_reader s.
Proof. intros s. unfold abandon. destruct (q_slot s) as [ [i d]|]; [destruct (q_unread s)|]; reflexivity. Qed.
Lemma attempt_reader : forall s size block second out s', attempt k s size block second out s' -> q_reader s' = q_reader s.
Proof. intros s size block second out s' A. destruct A; cbn; rewrite ?leave_reader; reflexivity. Qed.
Lemma step_no_cursor : forall s o out s', step k sum s o out s' -> o <> NRegisterCursor -> no_cursor s -> no_cursor s'.
Proof.
  intros s o out s' H Ho N n. pose proof (N n) as Nn. destruct H; try exact Nn; try congruence; cbn; try congruence;
    try (erewrite attempt_reader by eassumption; exact Nn); rewrite ?leave_reader, ?abandon_reader; auto; try congruence.
  destruct (_ && _); exact Nn.
Qed.
End Spec.
