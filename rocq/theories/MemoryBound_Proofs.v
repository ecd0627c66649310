From Verif Require Import Base MemoryBound_Model MemoryBound_Spec.

Section Proofs.
Context {T : Type} (size : T -> N) (cc mc : N).
Local Notation total := (total size).
Local Notation step := (step size cc mc).
Local Notation run := (run size cc mc).

Definition fl_total (l : list (nat * pc T)) : N := total (map (fun e => pc_msg (snd e)) l).
Definition granted (p : pc T) : bool := match p with Reserved _ | VoidCount _ | VoidClosed _ => true | VoidSize _ => false end.
Definition gr_total (l : list (nat * pc T)) : N := total (map (fun e => pc_msg (snd e)) (filter (fun e => granted (snd e)) l)).
Definition opt_total (o : option T) : N := match o with Some m => size m | None => 0%N end.

Lemma total_app : forall a b, total (a ++ b) = (total a + total b)%N.
Proof. induction a as [|x a IH]; intros b; cbn; [reflexivity|]. rewrite IH. lia. Qed.

Lemma remove_total : forall t l p, lookup t l = Some p ->
  fl_total l = (size (pc_msg p) + fl_total (remove t l))%N /\
  gr_total l = ((if granted p then size (pc_msg p) else 0) + gr_total (remove t l))%N.
Proof.
  intros t l p. induction l as [|[u q] l IH]; intros E; cbn in E; [discriminate|].
  destruct (Nat.eqb u t) eqn:Eu.
  - inv E. unfold fl_total, gr_total. cbn. rewrite Eu. split; [reflexivity|]. destruct (granted p); reflexivity.
  - destruct (IH E) as [I1 I2]. unfold fl_total, gr_total in *. cbn. rewrite Eu. cbn. split; [lia|]. destruct (granted q); cbn; lia.
Qed.

Lemma gr_le_fl : forall l, (gr_total l <= fl_total l)%N.
Proof. unfold gr_total, fl_total. induction l as [|[u p] l IH]; cbn; [lia|]. destruct (granted p); cbn; lia. Qed.

Lemma remove_in : forall t (l : list (nat * pc T)) e, In e (remove t l) -> In e l.
Proof.
  intros t l e. induction l as [|[u q] l IH]; intros H; [exact H|]. cbn in H. destruct (Nat.eqb u t); [right; exact H|].
  destruct H as [<-|H]; [left; reflexivity|right; auto].
Qed.

(** What was accepted: received, being received, queued (nothing else while the receiver is alive). *)
Record inv (c : chan T) (acc rcv : list T) : Prop := {
  i_usage : ch_closed c = false -> ch_usage c = (total (ch_queue c) + fl_total (ch_flight c) + opt_total (ch_recv c))%N;
  i_usage_closed : (fl_total (ch_flight c) + opt_total (ch_recv c) <= ch_usage c)%N;
  i_mem : (total (ch_queue c) + gr_total (ch_flight c) + opt_total (ch_recv c) <= mc)%N;
  i_gr : (gr_total (ch_flight c) <= fl_total (ch_flight c))%N;
  i_count : (N.of_nat (length (ch_queue c)) <= cc)%N;
  i_fifo : exists dropped, acc = rcv ++ match ch_recv c with Some m => [m] | None => [] end ++ ch_queue c ++ dropped /\
            (ch_closed c = false -> dropped = []);
  i_closed : ch_closed c = true -> ch_queue c = [] }.

Lemma inv_init : inv chan_new [] [].
Proof. constructor; cbn; try lia; auto. exists []. auto. Qed.

Lemma accepted_app : forall a b : list (event T), accepted (a ++ b) = accepted a ++ accepted b.
Proof. induction a as [|e a IH]; intros b; [reflexivity|]. destruct e; cbn; rewrite IH; reflexivity. Qed.
Lemma received_app : forall a b : list (event T), received (a ++ b) = received a ++ received b.
Proof. induction a as [|e a IH]; intros b; [reflexivity|]. destruct e; cbn; rewrite IH; reflexivity. Qed.

Lemma step_inv : forall c acc rcv o c' ev, inv c acc rcv -> step c o = (c', ev) -> inv c' (acc ++ accepted ev) (rcv ++ received ev).
Proof.
  intros c acc rcv o c' ev I E. destruct I as [I1 I2 I3 I4 I5 I6 I7]. destruct c as [q us cl fl rc]. cbn in *.
  assert (Same: inv (mkChan q us cl fl rc) (acc ++ accepted []) (rcv ++ received [])).
  { cbn. rewrite !app_nil_r. constructor; cbn; auto. }
  destruct o as [t m|t| | |]; cbn [MemoryBound_Model.step ch_queue ch_usage ch_closed ch_flight ch_recv] in E.
  - destruct (lookup t fl) as [p|] eqn:El; [inv E; exact Same|]. cbn zeta in E. inv E. cbn. rewrite !app_nil_r.
    destruct (mc <? us + size m)%N eqn:Em; [apply N.ltb_lt in Em|apply N.ltb_ge in Em];
      constructor; cbn; unfold fl_total, gr_total in *; cbn; auto; try lia;
      try (intros Hc; specialize (I1 Hc); lia).
    destruct cl; [|specialize (I1 eq_refl); lia]. rewrite (I7 eq_refl) in *. cbn in *. lia.
  - destruct (lookup t fl) as [p|] eqn:El; [|inv E; exact Same].
    destruct (remove_total _ _ _ El) as [Ef Eg]. pose proof (gr_le_fl (remove t fl)) as Egl.
    destruct p as [m|m|m|m]; cbn [pc_msg granted] in *; unfold fl_total, gr_total in *.
    + cbn zeta in E. destruct cl.
      * inv E. cbn. rewrite !app_nil_r. constructor; cbn; unfold fl_total, gr_total in *; cbn; auto; try lia; try discriminate.
      * destruct (cc <=? N.of_nat (length q))%N eqn:Ec; inv E; cbn.
        -- rewrite !app_nil_r. constructor; cbn; unfold fl_total, gr_total in *; cbn; auto; try lia; try (intros _; specialize (I1 eq_refl); lia).
        -- apply N.leb_gt in Ec. rewrite app_nil_r. specialize (I1 eq_refl). constructor; cbn; try discriminate.
           ++ intros _. rewrite total_app. cbn. lia.
           ++ lia.
           ++ rewrite total_app. cbn. lia.
           ++ lia.
           ++ rewrite app_length. cbn. lia.
           ++ destruct I6 as (d & Hd & Hd2). rewrite (Hd2 eq_refl), !app_nil_r in Hd. exists []. rewrite app_nil_r. split; [|auto].
              rewrite Hd. rewrite <- !app_assoc. reflexivity.
    + inv E. cbn. rewrite !app_nil_r. constructor; cbn; auto; try lia; try (intros Hc; specialize (I1 Hc); lia).
    + inv E. cbn. rewrite !app_nil_r. constructor; cbn; auto; try lia; try (intros Hc; specialize (I1 Hc); lia).
    + inv E. cbn. rewrite !app_nil_r. constructor; cbn; auto; try lia; try (intros Hc; specialize (I1 Hc); lia).
  - destruct rc as [m|]; [inv E; exact Same|]. destruct cl; [inv E; exact Same|]. destruct q as [|m q]; [inv E; exact Same|].
    inv E. cbn in *. rewrite !app_nil_r. specialize (I1 eq_refl). constructor; cbn; auto; try lia; try discriminate.
  - destruct rc as [m|]; [|inv E; exact Same]. inv E. cbn in *. rewrite app_nil_r. constructor; cbn; auto; try lia; try (intros Hc; specialize (I1 Hc); lia).
    destruct I6 as (d & -> & Hd). exists d. rewrite <- app_assoc. auto.
  - destruct rc as [m|]; [inv E; exact Same|]. inv E. cbn in *. rewrite !app_nil_r. constructor; cbn; auto; try lia; try discriminate.
    destruct I6 as (d & -> & Hd). exists (q ++ d). split; [reflexivity|discriminate].
Qed.

Lemma run_inv : forall l c acc rcv c' ev, inv c acc rcv -> run c l = (c', ev) -> inv c' (acc ++ accepted ev) (rcv ++ received ev).
Proof.
  induction l as [|o l IH]; intros c acc rcv c' ev I E; cbn [MemoryBound_Model.run] in E.
  - inv E. cbn. rewrite !app_nil_r. exact I.
  - destruct (step c o) as [c1 e1] eqn:E1. destruct (run c1 l) as [c2 e2] eqn:E2. inv E.
    rewrite accepted_app, received_app, !app_assoc. eapply IH; [|exact E2]. eapply step_inv; eassumption.
Qed.

Lemma channel_bounded : forall l c ev, run chan_new l = (c, ev) ->
  (total (ch_queue c) <= mc)%N /\ (N.of_nat (length (ch_queue c)) <= cc)%N.
Proof.
  intros l c ev E. pose proof (run_inv _ _ _ _ _ _ inv_init E) as I. split; [pose proof (i_mem _ _ _ I); lia|exact (i_count _ _ _ I)].
Qed.

Lemma channel_fifo : forall l c ev, run chan_new l = (c, ev) ->
  (exists rest, accepted ev = received ev ++ rest) /\
  (ch_closed c = false -> accepted ev = received ev ++ match ch_recv c with Some m => [m] | None => [] end ++ ch_queue c).
Proof.
  intros l c ev E. pose proof (run_inv _ _ _ _ _ _ inv_init E) as I. cbn in I. destruct (i_fifo _ _ _ I) as (d & Hd & Hc). split.
  - eexists. exact Hd.
  - intros H. rewrite (Hc H), app_nil_r in Hd. exact Hd.
Qed.

Lemma channel_usage : forall l c ev, run chan_new l = (c, ev) -> quiet c -> ch_closed c = false -> ch_usage c = total (ch_queue c).
Proof.
  intros l c ev E [H1 H2] H3. pose proof (run_inv _ _ _ _ _ _ inv_init E) as I. rewrite (i_usage _ _ _ I H3), H1, H2. cbn. lia.
Qed.

(** When nothing else is in progress, a send is refused for memory exactly when the message does not fit. *)
Lemma channel_refusal : forall l c ev t m, run chan_new l = (c, ev) -> quiet c -> ch_closed c = false ->
  forall c' ev', run c [Start t m; Continue t] = (c', ev') ->
  (In (FullSize t m) ev' <-> (mc < total (ch_queue c) + size m)%N) /\
  (In (Accepted t m) ev' <-> (total (ch_queue c) + size m <= mc /\ N.of_nat (length (ch_queue c)) < cc)%N).
Proof.
  intros l c ev t m E Q Hc c' ev' E2. pose proof (channel_usage _ _ _ E Q Hc) as HU. destruct Q as [Q1 Q2].
  cbn [MemoryBound_Model.run MemoryBound_Model.step] in E2. rewrite Q1 in E2. cbn [lookup] in E2. cbn zeta in E2.
  cbn [ch_queue ch_usage ch_closed ch_flight ch_recv lookup] in E2. rewrite Nat.eqb_refl in E2.
  rewrite HU in E2. destruct (mc <? total (ch_queue c) + size m)%N eqn:Em.
  - inv E2. apply N.ltb_lt in Em. cbn. split; [split; auto|]. split; [intros [H|[] ]; discriminate|lia].
  - apply N.ltb_ge in Em. rewrite Hc in E2.
    destruct (cc <=? N.of_nat (length (ch_queue c)))%N eqn:Ec; inv E2; cbn.
    + apply N.leb_le in Ec. split; split; intros H; try contradiction; lia.
    + apply N.leb_gt in Ec. split; split; intros H; try lia; auto. destruct H as [H|[] ]. discriminate.
Qed.

(** In general a refusal means that the queued messages, the sends in progress, the receive in progress and the message together exceed the
    capacity. *)
Lemma channel_refusal_any : forall l c ev t m c' ev', run chan_new l = (c, ev) -> ch_closed c = false ->
  lookup t (ch_flight c) = None -> step c (Start t m) = (c', ev') -> lookup t (ch_flight c') = Some (VoidSize m) ->
  (mc < total (ch_queue c) + fl_total (ch_flight c) + opt_total (ch_recv c) + size m)%N.
Proof.
  intros l c ev t m c' ev' E Hc Hl E1 Hv. pose proof (run_inv _ _ _ _ _ _ inv_init E) as I. rewrite <- (i_usage _ _ _ I Hc).
  cbn [MemoryBound_Model.step] in E1. rewrite Hl in E1. cbn zeta in E1. inv E1. cbn in Hv. rewrite Nat.eqb_refl in Hv.
  destruct (mc <? ch_usage c + size m)%N eqn:Em; [apply N.ltb_lt in Em; exact Em|discriminate].
Qed.
End Proofs.
