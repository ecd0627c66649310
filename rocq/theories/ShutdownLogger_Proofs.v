(** Proofs about the shutdown of the logger. *)
From Verif Require Import Base Shutdown_Model Shutdown_Spec Shutdown_Proofs.

(** The history of the channel behind the logger. *)
Record Link (l : list op) (g : logger) : Prop := {
  k_run : exists e, run watch_new l = Some (g_watch g, e);
  k_alive : forall i, known i (w_rx (g_watch g)) = true <-> In i (g_alive g);
  k_trigger : g_trigger g = w_trigger (g_watch g);
  k_wait : g_wait g = w_closing (g_watch g);
  k_handle : w_handles (g_watch g) = if g_handle g then 1 else 0;
  k_nodup : NoDup (g_alive g) }.

Lemma link_snoc l w e o w' a : run watch_new l = Some (w, e) -> step w o = Some (w', a) -> exists e', run watch_new (l ++ [o]) = Some (w', e').
Proof. intros R S1. rewrite run_snoc, R, S1. eauto. Qed.

Lemma run_app l1 : forall w l2 w1 e1 w2 e2, run w l1 = Some (w1, e1) -> run w1 l2 = Some (w2, e2) -> run w (l1 ++ l2) = Some (w2, e1 ++ e2).
Proof.
  induction l1 as [|o l1 IH]; intros w l2 w1 e1 w2 e2 A B; simpl in *.
  - inv A. auto.
  - destruct (step w o) as [[x a]|]; [|discriminate]. destruct (run x l1) as [[y f]|] eqn:R; [|discriminate]. inv A.
    rewrite (IH _ _ _ _ _ _ R B). destruct a; reflexivity.
Qed.

Lemma link_build m g : build m = Some g -> exists l, Link l g.
Proof.
  intros H. unfold build in H.
  destruct (run watch_new (MakeHandle :: map MakeByHandle ([1; 2] ++ (if m then [3] else [])))) as [[w e]|] eqn:R; [|discriminate].
  inv H. eexists. constructor; simpl; [eexists; exact R| | | | |]; destruct m; vm_compute in R; inv R; simpl; auto.
  - intros i. rewrite !known_cons. simpl. split; [intros [X|[X|[X|X]]]; auto; discriminate|intuition].
  - intros i. rewrite !known_cons. simpl. split; [intros [X|[X|X]]; auto; discriminate|intuition].
  - repeat constructor; simpl; intuition congruence.
  - repeat constructor; simpl; intuition congruence.
Qed.

(** Dropping a list of receivers. *)
Lemma run_drops l : forall w, NoDup l -> (forall i, In i l -> known i (w_rx w) = true) ->
  exists w', run w (map DropRx l) = Some (w', []) /\ (forall i, known i (w_rx w') = true <-> known i (w_rx w) = true /\ ~ In i l) /\
    w_trigger w' = w_trigger w /\ w_closing w' = w_closing w /\ w_handles w' = w_handles w /\ w_pending w' = w_pending w.
Proof.
  induction l as [|i l IH]; intros w N K; simpl.
  - exists w. splits; auto. intros i. tauto.
  - rewrite (K i) by (left; auto). inv N.
    destruct (IH (with_rx w (drop_rx i (w_rx w)))) as (w' & R & A & B); auto.
    { intros j J. simpl. apply known_drop. split; [apply K; right; auto|]. intros ->. contradiction. }
    exists w'. rewrite R. splits; try tauto.
    + intros j. rewrite A. simpl. rewrite known_drop. intuition congruence.
Qed.

Lemma link_step l g t o g' t' e : Link l g -> lstep g t o = Some (g', t', e) -> exists l', Link (l ++ l') g'.
Proof.
  intros [(x & R) KA KT KW KH ND] S1.
  pose proof (inv_run _ _ _ R) as HI.
  destruct o as [|b| | |i|i|]; unfold lstep in S1.
  - destruct (g_handle g && negb (g_started g)) eqn:C; [|discriminate].
    destruct (step (g_watch g) (MakeByHandle 0)) as [[w a]|] eqn:E; [|discriminate]. inv S1.
    exists [MakeByHandle 0]. destruct (link_snoc _ _ _ _ _ _ R E) as (e' & R').
    simpl in E. destruct (negb (w_handles (g_watch g) =? 0) && negb (known 0 (w_rx (g_watch g)))) eqn:Heqb; [|discriminate]. inv E. apply andb_true_iff in C. destruct C as [C1 C2]. rewrite C1 in *.
    apply andb_true_iff in Heqb. destruct Heqb as [H1 H2]. apply negb_true_iff in H2.
    constructor; simpl; eauto.
    + intros i. rewrite known_cons. simpl. rewrite KA. tauto.
    + constructor; auto. intros X. apply KA in X. congruence.
  - destruct (g_trigger g) eqn:T.
    + destruct (step (g_watch g) (if b then Request else DropTrigger)) as [[w a]|] eqn:E; [|discriminate]. inv S1.
      exists [if b then Request else DropTrigger]. destruct (link_snoc _ _ _ _ _ _ R E) as (e' & R').
      assert (CC : w_closing (g_watch g) = false).
      { destruct (w_closing (g_watch g)) eqn:C; auto. apply (i_closing _ _ HI) in C. symmetry in KT. apply (i_trigger _ _ HI) in KT. tauto. }
      destruct b; simpl in E; rewrite <- KT in E; inv E; constructor; simpl; eauto; try congruence.
    + inv S1. exists []. rewrite app_nil_r. constructor; eauto; congruence.
  - destruct (g_wait g) eqn:W; [|discriminate].
    destruct (step (g_watch g) Return) as [[w a]|] eqn:E; [|discriminate]. inv S1.
    eexists [_]. destruct (link_snoc _ _ _ _ _ _ R E) as (e' & R').
    simpl in E. destruct (w_rx (g_watch g)) eqn:X; [|discriminate]. rewrite <- KW in E. inv E.
    constructor; simpl; eauto.
  - destruct (g_trigger g) eqn:T.
    + destruct (step (g_watch g) DropTrigger) as [[w a]|] eqn:E; [|discriminate]. inv S1.
      eexists [_]. destruct (link_snoc _ _ _ _ _ _ R E) as (e' & R').
      simpl in E; rewrite <- KT in E; inv E; constructor; simpl; eauto; try congruence.
    + inv S1. exists []. rewrite app_nil_r. constructor; eauto; congruence.
  - destruct (step (g_watch g) (Poll i)) as [[w a]|] eqn:E; [|discriminate].
    destruct (link_snoc _ _ _ _ _ _ R E) as (e' & R').
    assert (L' : Link (l ++ [Poll i]) (mkLogger w (g_trigger g) (g_alive g) (g_handle g) (g_started g) (g_wait g))).
    { simpl in E. destruct (get i (w_rx (g_watch g))); [|discriminate].
      constructor; simpl; eauto; repeat (dmatch_in E; try discriminate); inv E; simpl; auto; intros j; rewrite known_set; auto. }
    exists [Poll i]. destruct a as [[]|]; inv S1; auto.
  - destruct (existsb (Nat.eqb i) t && existsb (Nat.eqb i) (g_alive g)) eqn:Heqb; [|discriminate]. apply andb_true_iff in Heqb. destruct Heqb as [H1 H2].
    assert (IA : In i (g_alive g)). { apply existsb_exists in H2. destruct H2 as (y & A & B). apply Nat.eqb_eq in B. subst. auto. }
    destruct (run (g_watch g) (DropRx i :: (if i =? 0 then [DropHandle] else []))) as [[w a]|] eqn:E; [|discriminate]. inv S1.
    exists (DropRx i :: (if i =? 0 then [DropHandle] else [])).
    pose proof (run_app _ _ _ _ _ _ _ R E) as R'.
    assert (FA : forall w', w_rx w' = drop_rx i (w_rx (g_watch g)) -> forall j, known j (w_rx w') = true <-> In j (filter (fun j => negb (i =? j)) (g_alive g))).
    { intros w' -> j. rewrite known_drop, filter_In, KA, negb_true_iff, Nat.eqb_neq. tauto. }
    assert (NF : NoDup (filter (fun j : nat => negb (i =? j)) (g_alive g))) by (apply NoDup_filter; auto).
    destruct (i =? 0) eqn:Z; simpl in E; (destruct (known i (w_rx (g_watch g))); [|discriminate]).
    + destruct (w_handles (g_watch g)) eqn:HH; simpl in E; rewrite HH in E; simpl in E; [discriminate|].
      inv E. constructor; simpl; eauto.
      * intros j. eapply (FA (with_rx (g_watch g) (drop_rx i (w_rx (g_watch g))))). reflexivity.
      * destruct (g_handle g); simpl in *; inv KH; auto.
    + inv E. constructor; simpl; eauto.
      * intros j. eapply (FA (with_rx (g_watch g) (drop_rx i (w_rx (g_watch g))))). reflexivity.
      * rewrite andb_true_r. auto.
  - destruct (run (g_watch g) (map DropRx (g_alive g) ++ (if g_handle g then [DropHandle] else []))) as [[w a]|] eqn:E; [|discriminate]. inv S1.
    eexists. pose proof (run_app _ _ _ _ _ _ _ R E) as R'.
    destruct (run_drops (g_alive g) (g_watch g) ND) as (w1 & R1 & A1 & A2 & A3 & A4 & A5). { intros i I1. apply KA; auto. }
    assert (E2 : run (g_watch g) (map DropRx (g_alive g) ++ (if g_handle g then [DropHandle] else [])) =
       Some (if g_handle g then mkWatch (w_pending w1) (w_version w1) (w_trigger w1) (w_closing w1) 0 (w_rx w1) else w1, [])).
    { destruct (g_handle g).
      - eapply run_app with (e1 := []) (e2 := []); [exact R1|]. simpl. rewrite A4, KH. reflexivity.
      - rewrite app_nil_r. auto. }
    rewrite E in E2. inv E2.
    constructor; simpl; eauto.
    + intros i. split; [|intros []]. intros K. assert (K' : known i (w_rx w1) = true) by (destruct (g_handle g); auto).
      apply A1 in K'. destruct K' as [B C]. apply KA in B. contradiction.
    + destruct (g_handle g); simpl; congruence.
    + destruct (g_handle g); simpl; congruence.
    + destruct (g_handle g); simpl; auto. lia.
    + constructor.
Qed.

Lemma lrun_app a : forall g t b, lrun g t (a ++ b) =
  match lrun g t a with
  | Some (g1, t1, e1) => match lrun g1 t1 b with Some (g2, t2, e2) => Some (g2, t2, e1 ++ e2) | None => None end
  | None => None
  end.
Proof.
  induction a as [|o a IH]; intros g t b; simpl.
  - destruct (lrun g t b) as [[[? ?] ?]|]; reflexivity.
  - destruct (lstep g t o) as [[[g1 t1] e1]|]; [|reflexivity]. rewrite IH.
    destruct (lrun g1 t1 a) as [[[g2 t2] e2]|]; [|reflexivity].
    destruct (lrun g2 t2 b) as [[[g3 t3] e3]|]; [|reflexivity]. rewrite app_assoc. reflexivity.
Qed.

(** What is alive, in terms of what happened. *)
Record Alive (m : bool) (ops : list lop) (evs : list lev) (g : logger) : Prop := {
  v_alive : forall i, In i (g_alive g) <-> (i = 1 \/ i = 2 \/ (i = 3 /\ m = true) \/ (i = 0 /\ In LStart ops)) /\ ~ In (Ended i) evs;
  v_trigger : g_trigger g = true <-> (forall b, ~ In (LShutdown b) ops) /\ ~ In LDrop ops;
  v_started : g_started g = true <-> In LStart ops;
  v_ended0 : In (Ended 0) evs -> In LStart ops }.

Lemma tr_snoc ops o : (forall b, o <> LShutdown b) -> o <> LDrop ->
  ((forall b, ~ In (LShutdown b) (ops ++ [o])) /\ ~ In LDrop (ops ++ [o]) <-> (forall b, ~ In (LShutdown b) ops) /\ ~ In LDrop ops).
Proof.
  intros H1 H2. split; intros [A B]; split.
  - intros b X. apply (A b), in_app_iff. auto.
  - intros X. apply B, in_app_iff. auto.
  - intros b X. apply in_app_iff in X. destruct X as [X|[X|[]]]; [apply (A b X)|apply (H1 b X)].
  - intros X. apply in_app_iff in X. destruct X as [X|[X|[]]]; auto.
Qed.

Lemma alive_step m ops evs g t o g' t' e : Alive m ops evs g -> lstep g t o = Some (g', t', e) -> Alive m (ops ++ [o]) (evs ++ e) g'.
Proof.
  intros [VA VT VS VE] S1. destruct o as [|b| | |i|i|]; unfold lstep in S1.
  - destruct (g_handle g && negb (g_started g)) eqn:C; [|discriminate]. apply andb_true_iff in C. destruct C as [_ C]. apply negb_true_iff in C.
    destruct (step (g_watch g) (MakeByHandle 0)) as [[w a]|] eqn:E; [|discriminate]. inv S1. rewrite app_nil_r.
    constructor; simpl.
    + intros i. rewrite in_app_iff, VA. simpl. split; [|intuition].
      intros [<-|X]; [|intuition]. split; [intuition|]. intros X. apply VE in X. apply VS in X. congruence.
    + rewrite VT. symmetry. apply tr_snoc; intros; discriminate.
    + rewrite in_app_iff. simpl. intuition.
    + rewrite in_app_iff. simpl. intuition.
  - assert (X : Alive m (ops ++ [LShutdown b]) (evs ++ e) (mkLogger (g_watch g) false (g_alive g) (g_handle g) (g_started g) (g_wait g))
       /\ g_alive g' = g_alive g /\ g_started g' = g_started g /\ g_trigger g' = false).
    { destruct (g_trigger g) eqn:T.
      - destruct (step (g_watch g) (if b then Request else DropTrigger)) as [[w a]|] eqn:E; [|discriminate]. inv S1. simpl. splits; auto.
        constructor; simpl.
        + intros i. rewrite VA, !in_app_iff. destruct b; simpl; intuition congruence.
        + split; [discriminate|]. intros [A _]. exfalso. eapply A. apply in_app_iff. right. left. reflexivity.
        + rewrite VS, in_app_iff. simpl. intuition congruence.
        + rewrite !in_app_iff. destruct b; simpl; intuition congruence.
      - inv S1. splits; auto.
        constructor; simpl.
        + intros i. rewrite VA, !in_app_iff. simpl; intuition congruence.
        + split; [discriminate|]. intros [A _]. exfalso. eapply A. apply in_app_iff. right. left. reflexivity.
        + rewrite VS, in_app_iff. simpl. intuition congruence.
        + rewrite !in_app_iff. simpl; intuition congruence. }
    destruct X as ([XA XT XS XE] & A & B & C). constructor; rewrite ?A, ?B, ?C; auto.
  - destruct (g_wait g) eqn:W; [|discriminate].
    destruct (step (g_watch g) Return) as [[w a]|] eqn:E; [|discriminate]. inv S1.
    constructor; simpl.
    + intros i. rewrite VA, !in_app_iff. simpl; intuition congruence.
    + rewrite VT. symmetry. apply tr_snoc; intros; discriminate.
    + rewrite VS, in_app_iff. simpl. intuition congruence.
    + rewrite !in_app_iff. simpl; intuition congruence.
  - assert (X : Alive m (ops ++ [LDrop]) (evs ++ e) (mkLogger (g_watch g) false (g_alive g) (g_handle g) (g_started g) (g_wait g))
       /\ g_alive g' = g_alive g /\ g_started g' = g_started g /\ g_trigger g' = false).
    { assert (e = [] /\ g_alive g' = g_alive g /\ g_started g' = g_started g /\ g_trigger g' = false) as (-> & ?).
      { destruct (g_trigger g) eqn:T; [|inv S1; auto].
        destruct (step (g_watch g) DropTrigger) as [[w a]|] eqn:E; [|discriminate]. inv S1. auto. }
      split; auto. rewrite app_nil_r. constructor; simpl.
        + intros i. rewrite VA, !in_app_iff. simpl; intuition congruence.
        + split; [discriminate|]. intros [_ A]. exfalso. apply A. apply in_app_iff. right. left. reflexivity.
        + rewrite VS, in_app_iff. simpl. intuition congruence.
        + rewrite !in_app_iff. simpl; intuition congruence. }
    destruct X as ([XA XT XS XE] & A & B & C). constructor; rewrite ?A, ?B, ?C; auto.
  - assert (X : Alive m (ops ++ [LPoll i]) (evs ++ e) g /\ g_alive g' = g_alive g /\ g_started g' = g_started g /\ g_trigger g' = g_trigger g).
    { destruct (step (g_watch g) (Poll i)) as [[w a]|] eqn:E; [|discriminate].
      assert ((e = [] \/ e = [Told i]) /\ g_alive g' = g_alive g /\ g_started g' = g_started g /\ g_trigger g' = g_trigger g) as (He & Hr)
        by (destruct a as [[]|]; inv S1; auto).
      split; auto. constructor; simpl.
      - intros j. rewrite VA, !in_app_iff. destruct He as [->| ->]; simpl; intuition congruence.
      - rewrite VT. symmetry. apply tr_snoc; intros; discriminate.
      - rewrite VS, in_app_iff. simpl. intuition congruence.
      - rewrite !in_app_iff. destruct He as [->| ->]; simpl; intuition congruence. }
    destruct X as ([XA XT XS XE] & A & B & C). constructor; rewrite ?A, ?B, ?C; auto.
  - destruct (existsb (Nat.eqb i) t && existsb (Nat.eqb i) (g_alive g)) eqn:Heqb; [|discriminate].
    destruct (run (g_watch g) (DropRx i :: (if i =? 0 then [DropHandle] else []))) as [[w a]|] eqn:E; [|discriminate]. inv S1.
    apply andb_true_iff in Heqb. destruct Heqb as [_ H2].
    assert (IA : In i (g_alive g)). { apply existsb_exists in H2. destruct H2 as (y & A & B). apply Nat.eqb_eq in B. subst. auto. }
    constructor; simpl.
    + intros j. rewrite filter_In, VA, negb_true_iff, Nat.eqb_neq, !in_app_iff. simpl. split.
      * intros ((P & Q) & R). split; [intuition|]. intros [X|[X|[]]]; [auto|]. congruence.
      * intros (P & Q). splits; [intuition congruence|tauto|]. intros ->. apply Q. auto.
    + rewrite VT. symmetry. apply tr_snoc; intros; discriminate.
    + rewrite VS, in_app_iff. simpl. intuition congruence.
    + rewrite !in_app_iff. simpl. intros [X|[X|[]]]; auto. inv X. apply VA in IA. destruct IA as ([X|[X|[[X _]|[_ X]]]] & _); try discriminate; auto.
  - destruct (run (g_watch g) (map DropRx (g_alive g) ++ (if g_handle g then [DropHandle] else []))) as [[w a]|] eqn:E; [|discriminate]. inv S1.
    assert (ME : forall j, In (Ended j) (map Ended (g_alive g)) <-> In j (g_alive g)).
    { intros j. rewrite in_map_iff. split; [intros (y & Q & P); inv Q; auto|eauto]. }
    constructor; simpl.
    + intros j. split; [intros []|]. rewrite !in_app_iff, ME, VA. simpl. intuition congruence.
    + rewrite VT. symmetry. apply tr_snoc; intros; discriminate.
    + rewrite VS, in_app_iff. simpl. intuition congruence.
    + rewrite !in_app_iff, ME. simpl. intros [X|X]; auto. apply VA in X. destruct X as ([X|[X|[[X _]|[_ X]]]] & _); try discriminate; auto.
Qed.

Lemma logger_inv m ops : forall g0 g t e, build m = Some g0 -> lrun g0 [] ops = Some (g, t, e) -> Alive m ops e g /\ exists l, Link l g.
Proof.
  induction ops as [|o ops IH] using rev_ind; intros g0 g t e B R.
  - inv R. split; [|eapply link_build; eauto].
    unfold build in B. destruct m; vm_compute in B; inv B; constructor; simpl; try solve [intuition congruence].
    all: intros i; split; [intros [<-|[<-|X]]; intuition|]; intuition.
  - rewrite lrun_app in R. destruct (lrun g0 [] ops) as [[[g1 t1] e1]|] eqn:R1; [|discriminate].
    destruct (IH _ _ _ _ B R1) as (A & l & L). simpl in R.
    destruct (lstep g1 t1 o) as [[[g2 t2] e2]|] eqn:S1; [|discriminate]. inv R. rewrite app_nil_r. split.
    + eapply alive_step; eauto.
    + destruct (link_step _ _ _ _ _ _ _ L S1) as (l' & L'). eauto.
Qed.

(** The request is remembered. *)
Lemma link_step_req l g t o g' t' e : Link l g -> lstep g t o = Some (g', t', e) -> w_pending (g_watch g) = true -> w_pending (g_watch g') = true.
Proof.
  intros L S1 P. destruct (link_step _ _ _ _ _ _ _ L S1) as (l' & [(x & R') _ _ _ _ _]). destruct L as [(y & R) _ _ _ _ _].
  apply (i_pending _ _ (inv_run _ _ _ R')). apply in_app_iff. left. apply (i_pending _ _ (inv_run _ _ _ R)). auto.
Qed.
Lemma lrun_req ops : forall l g t g' t' e, Link l g -> lrun g t ops = Some (g', t', e) -> w_pending (g_watch g) = true -> w_pending (g_watch g') = true.
Proof.
  induction ops as [|o ops IH]; intros l g t g' t' e L R P; simpl in R; [inv R; auto|].
  destruct (lstep g t o) as [[[g1 t1] e1]|] eqn:S1; [|discriminate].
  destruct (lrun g1 t1 ops) as [[[g2 t2] e2]|] eqn:R2; [|discriminate]. inv R.
  destruct (link_step _ _ _ _ _ _ _ L S1) as (l' & L'). exact (IH _ _ _ _ _ _ L' R2 (link_step_req _ _ _ _ _ _ _ L S1 P)).
Qed.

(** A blocking shutdown, if it is the first: every part is told at its next poll, the call returns only when all parts that ran have ended, and then it does. *)
Lemma blocking_works m g0 pre post g t e : build m = Some g0 -> (forall b, ~ In (LShutdown b) pre) -> ~ In LDrop pre ->
  lrun g0 [] (pre ++ LShutdown true :: post) = Some (g, t, e) ->
  let running i := (i = 1 \/ i = 2 \/ (i = 3 /\ m = true) \/ (i = 0 /\ In LStart (pre ++ LShutdown true :: post))) /\ ~ In (Ended i) e in
  (forall i, running i -> exists g' t', lrun g0 [] ((pre ++ LShutdown true :: post) ++ [LPoll i]) = Some (g', t', e ++ [Told i])) /\
  (~ In LReturn post -> ((exists g' t', lrun g0 [] ((pre ++ LShutdown true :: post) ++ [LReturn]) = Some (g', t', e ++ [Returned])) <-> forall i, ~ running i)).
Proof.
  intros B NS ND R. cbv zeta.
  destruct (logger_inv _ _ _ _ _ _ B R) as (A & l & L).
  assert (R0 := R). rewrite lrun_app in R. destruct (lrun g0 [] pre) as [[[g1 t1] e1]|] eqn:R1; [|discriminate].
  destruct (logger_inv _ _ _ _ _ _ B R1) as (A1 & l1 & L1).
  destruct (lrun g1 t1 (LShutdown true :: post)) as [[[g2 t2] e2]|] eqn:R2; [|discriminate]. inv R.
  assert (T : g_trigger g1 = true) by (apply (v_trigger _ _ _ _ A1); auto).
  simpl in R2. rewrite T in R2. assert (T' := T). rewrite (k_trigger _ _ L1) in T'. rewrite T' in R2.
  match type of R2 with match lrun ?x _ _ with _ => _ end = _ => set (gq := x) in * end.
  destruct (lrun gq t1 post) as [[[g3 t3] e3]|] eqn:R3; [|discriminate]. inv R2.
  assert (SQ : lstep g1 t1 (LShutdown true) = Some (gq, t1, [])). { simpl. rewrite T, T'. reflexivity. }
  destruct (link_step _ _ _ _ _ _ _ L1 SQ) as (lq & LQ).
  assert (PQ : w_pending (g_watch gq) = true) by reflexivity.
  assert (P : w_pending (g_watch g) = true) by (exact (lrun_req _ _ _ _ _ _ _ LQ R3 PQ)).
  assert (W : ~ In LReturn post -> g_wait g = true).
  { intros NR. assert (WQ : g_wait gq = true) by reflexivity. assert (TQ : g_trigger gq = false) by reflexivity.
    clear -NR WQ TQ R3. clearbody gq. revert gq t1 g t e2 NR WQ TQ R3.
    induction post as [|o post IH]; intros gq t1 g t e2 NR WQ TQ R3; simpl in R3; [inv R3; auto|].
    destruct (lstep gq t1 o) as [[[g4 t4] e4]|] eqn:S1; [|discriminate].
    destruct (lrun g4 t4 post) as [[[g5 t5] e5]|] eqn:R4; [|discriminate]. inv R3.
    assert (NR' : ~ In LReturn post) by (intros X; apply NR; right; auto).
    assert (X : g_wait g4 = true /\ g_trigger g4 = false).
    { destruct o; simpl in S1; rewrite ?TQ in S1;
      repeat (match type of S1 with context [match ?x with _ => _ end] => destruct x; try discriminate end); inv S1; auto;
      exfalso; apply NR; left; reflexivity. }
    destruct X as [X Y]. eapply IH; eauto. }
  destruct L as [(x & RL) KA KT KW KH KN]. pose proof (inv_run _ _ _ RL) as HI.
  assert (RQ : In Request l) by (apply (i_pending _ _ HI); auto).
  split.
  - intros i HR. apply (v_alive _ _ _ _ A) in HR. apply KA in HR. apply (i_known _ _ HI) in HR.
    destruct (poll_iff l _ x i RL HR) as (w' & b & E & BB).
    assert (b = true) as -> by (apply BB; auto).
    eexists _, _. rewrite lrun_app, R0. unfold lrun, lstep. rewrite E. reflexivity.
  - intros NR. specialize (W NR). rewrite lrun_app, R0. unfold lrun, lstep. rewrite W.
    assert (WC : w_closing (g_watch g) = true) by congruence.
    assert (EM : w_rx (g_watch g) = [] <-> (forall i, ~ In i (g_alive g))).
    { split.
      - intros E i X. apply KA in X. rewrite E in X. discriminate.
      - intros N. destruct (w_rx (g_watch g)) as [|r q] eqn:Q; auto. exfalso. apply (N (r_id r)). apply KA. apply known_cons. auto. }
    simpl. rewrite WC. split.
    + intros (g' & t' & E) i HR. apply (v_alive _ _ _ _ A) in HR. destruct (w_rx (g_watch g)) eqn:Q; [|discriminate E].
      apply EM in HR; auto.
    + intros N. rewrite (proj2 EM). { eexists _, _. reflexivity. }
      intros i HR. apply (v_alive _ _ _ _ A) in HR. apply (N i). exact HR.
Qed.

(** After a shutdown that does not block (or after the logger is dropped) nothing stops, whatever is called later. *)
Record Deaf (g : logger) (t : list nat) : Prop := {
  d_pending : w_pending (g_watch g) = false; d_version : w_version (g_watch g) = 0;
  d_handles : w_handles (g_watch g) = 1; d_wt : w_trigger (g_watch g) = false; d_wc : w_closing (g_watch g) = false;
  d_seen : forall r, In r (w_rx (g_watch g)) -> r_waiting r = true -> r_seen r = 0;
  d_trigger : g_trigger g = false; d_wait : g_wait g = false; d_told : t = [] }.
Lemma deaf_step g t o g' t' e : Deaf g t -> o <> LFail -> lstep g t o = Some (g', t', e) -> Deaf g' t' /\ (e = [] \/ e = [Returned]).
Proof.
  intros [DP DV DH DW DC DS DT DQ DD] NF S1. subst t. destruct o as [|b| | |i|i|]; unfold lstep in S1; rewrite ?DT, ?DQ in S1; try discriminate; try congruence.
  - destruct (g_handle g && negb (g_started g)); [|discriminate]. destruct (step (g_watch g) (MakeByHandle 0)) as [[w a]|] eqn:E; [|discriminate]. inv S1.
    simpl in E. destruct (negb (w_handles (g_watch g) =? 0) && negb (known 0 (w_rx (g_watch g)))); [|discriminate]. inv E. split; auto. constructor; simpl; auto.
    intros r [<-|X]; simpl; auto.
  - inv S1. split; auto. constructor; auto.
  - inv S1. split; auto. constructor; auto.
  - simpl in S1. destruct (get i (w_rx (g_watch g))) as [r|] eqn:G; [|discriminate]. apply get_in in G. destruct G as [G1 G2].
    rewrite DP, DV, andb_false_r in S1. unfold no_sender in S1. rewrite DW, DC, DH in S1.
    assert (SE : (if r_waiting r then r_seen r else 0) = 0) by (destruct (r_waiting r) eqn:W; auto). rewrite SE in S1. simpl in S1. inv S1.
    split; auto. constructor; simpl; auto. intros q HQ W. apply in_set in HQ. destruct HQ as [->|HQ]; auto.
Qed.
Lemma deaf_run ops : forall g t g' t' e, Deaf g t -> ~ In LFail ops -> lrun g t ops = Some (g', t', e) -> Deaf g' t' /\ forall x, In x e -> x = Returned.
Proof.
  induction ops as [|o ops IH]; intros g t g' t' e D NF R; simpl in R; [inv R; split; auto; intros x []|].
  destruct (lstep g t o) as [[[g1 t1] e1]|] eqn:S1; [|discriminate].
  destruct (lrun g1 t1 ops) as [[[g2 t2] e2]|] eqn:R2; [|discriminate]. inv R.
  assert (N1 : o <> LFail) by (intros ->; apply NF; left; auto).
  assert (N2 : ~ In LFail ops) by (intros X; apply NF; right; auto).
  destruct (deaf_step _ _ _ _ _ _ D N1 S1) as [D1 E1].
  destruct (IH _ _ _ _ _ D1 N2 R2) as [D2 E2].
  split; auto. intros x X. apply in_app_or in X. destruct X as [X|X]; auto. destruct E1 as [->| ->]; simpl in X; intuition.
Qed.

Lemma never_stops m g0 o : build m = Some g0 -> o = LShutdown false \/ o = LDrop ->
  exists g t e, lrun g0 [] [LStart; o] = Some (g, t, e) /\
  forall post g' t' e', ~ In LFail post -> lrun g0 [] ([LStart; o] ++ post) = Some (g', t', e') -> forall i, ~ In (Told i) e' /\ ~ In (Ended i) e' /\ (i <= 2 \/ i = 3 /\ m = true -> In i (g_alive g')).
Proof.
  intros B O.
  assert (X : exists g t e, lrun g0 [] [LStart; o] = Some (g, t, e) /\ Deaf g t /\ forall x, In x e -> x = Returned).
  { unfold build in B. destruct m, O as [->| ->]; vm_compute in B; inv B; (eexists _, _, _; split; [vm_compute; reflexivity|]);
    (split; [constructor; simpl; auto; intros r HR; repeat (destruct HR as [<-|HR]; [simpl; auto; fail|]); destruct HR|]);
    intros x; simpl; intuition. }
  destruct X as (g & t & e & R & D & E). exists g, t, e. split; auto.
  intros post g' t' e' NF RP. assert (RP0 := RP). rewrite lrun_app, R in RP.
  destruct (lrun g t post) as [[[g2 t2] e2]|] eqn:R2; [|discriminate]. inv RP.
  destruct (deaf_run _ _ _ _ _ _ D NF R2) as [D2 E2].
  assert (EE : forall x, In x (e ++ e2) -> x = Returned) by (intros x H; apply in_app_or in H; destruct H; auto).
  destruct (logger_inv _ _ _ _ _ _ B RP0) as (A & _).
  intros i. splits; intros H; try (apply EE in H; discriminate).
  apply (v_alive _ _ _ _ A). split; [|intros Q; apply EE in Q; discriminate].
  assert (SI : In LStart ([LStart; o] ++ post)) by (left; reflexivity).
  destruct H as [H|H]; [|auto]. assert (i = 0 \/ i = 1 \/ i = 2) as [->|[->| ->]] by lia; auto.
Qed.
