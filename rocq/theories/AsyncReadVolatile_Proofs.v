(** Asynchronous reads of volatile buffers. *)
From Verif Require Import Base Ring_Model Ring_Proofs IntrusiveQueue_Model Volatile_Model Volatile_Spec Volatile_Proofs AsyncRead_Model AsyncRead_Proofs.
Open Scope Z_scope.

Section V.
Variable cap : Z.
Definition vrel (b : vbuf) (s : fifo) : Prop := exists U, rel cap b s U /\ history s /\ (c_readable (v_c b) = false -> f_unread s = []).
Definition v_good (s : fifo) (r : vout) : Prop := exists x l a, f_unread s = x :: l /\ r = ORange (Ok (mkRange a (Z.of_nat (length (rec_data x))))).
Lemma not_told o r b : v_sent o r b = false -> c_pending (v_c b) = false -> (forall p u, o = VCommit p -> r = ORes (Ok u) -> False) /\ (o = VStartRead false -> r = ORange (Err Unavailable) -> False).
Proof. intros H P. split; intros; subst; cbn in H; [discriminate|rewrite P in H; discriminate]. Qed.
Lemma quiet s o r s' : step cap s o r s' -> (forall p u, o = VCommit p -> r = ORes (Ok u) -> False) -> f_unread s = [] -> f_unread s' = [].
Proof.
  intros H N E. destruct H; auto; cbn; try (exfalso; eapply N; reflexivity); try congruence.
  rewrite E in *. destruct lost; [|discriminate]. cbn in *. auto.
Qed.
Lemma v_pend b s U : rel cap b s U -> c_pending (v_c b) = false.
Proof. intros R. exact (ci_pending _ _ _ (r_ci _ _ _ _ R)). Qed.
Lemma v_Hstep b s o b' r : vrel b s -> vop_ok o -> v_step b o = (b', r) ->
  exists s', step cap s o r s' /\ vrel b' s' /\ (v_sent o r b' = false -> f_unread s = [] -> f_unread s' = []) /\ (o = VStartRead false -> rg_verdict v_ring r = Again -> f_unread s' = []).
Proof.
  intros (U & R & Hi & Hd) Ho E. destruct (sim_step _ _ _ _ _ _ _ R Hi Ho E) as (s' & U' & S1 & R1). exists s'.
  assert (P : c_pending (v_c b') = false) by (eapply v_pend; exact R1).
  assert (Z1 : o = VStartRead false -> rg_verdict v_ring r = Again -> f_unread s' = []).
  { intros -> V. cbn in V. inv S1; cbn; auto; discriminate. }
  split; [exact S1|]. split; [|split; [|exact Z1] ].
  - exists U'. split; [exact R1|]. split; [eapply history_step; eassumption|]. rewrite (v_step_readable _ _ _ _ E). unfold v_tells. intros X.
    assert (Y : c_readable (v_c b) = false -> (forall p u, o = VCommit p -> r = ORes (Ok u) -> False) -> f_unread s' = []) by (intros Y N; eapply quiet; [exact S1|exact N|auto]).
    destruct o; try (apply Y; [exact X|intros; discriminate]).
    + destruct r; try (apply Y; [exact X|intros; discriminate]). destruct r; try discriminate; apply Y; try exact X; intros; discriminate.
    + destruct block; [apply Y; [exact X|intros; discriminate]|]. destruct r; try (apply Y; [exact X|intros; discriminate]). destruct r; try (apply Y; [exact X|intros; discriminate]).
      destruct e; try (apply Y; [exact X|intros; discriminate]). apply Z1; reflexivity.
  - intros N. apply quiet with (1 := S1). apply (not_told o r b' N P).
Qed.
Lemma v_Hread b s : vrel b s -> rg_readable v_ring b = false -> f_unread s = [].
Proof. intros (U & _ & _ & H). exact H. Qed.
Lemma v_Hnone b s b' r : vrel b s -> f_reader s = Some false -> f_unread s = [] -> v_step b (VStartRead false) = (b', r) ->
  rg_verdict v_ring r = Again /\ v_sent (VStartRead false) r b' = true /\ rg_readable v_ring b' = false.
Proof.
  intros (U & R & Hi & Hd) F N E. destruct (sim_step cap b s U (VStartRead false) b' r R Hi Logic.I E) as (s' & U' & S1 & R1).
  assert (P : c_pending (v_c b') = false) by (eapply v_pend; exact R1). unfold reading in *.
  assert (r = ORange (Err Unavailable)) as -> by (inv S1; auto; congruence). cbn [rg_verdict v_ring rg_readable v_sent]. rewrite (v_step_readable _ _ _ _ E). cbn. rewrite P. auto.
Qed.
Lemma v_Hsome b s b' r : vrel b s -> f_reader s = Some false -> f_unread s <> [] -> v_step b (VStartRead false) = (b', r) -> rg_verdict v_ring r = Returned /\ v_good s r.
Proof.
  intros (U & R & Hi & Hd) F N E. destruct (sim_step cap b s U (VStartRead false) b' r R Hi Logic.I E) as (s' & U' & S1 & R1). unfold reading in *.
  inv S1; try congruence. split; [reflexivity|]. exists x, l, a. auto.
Qed.
Lemma steps_run calls : forall s s', steps (step cap) s calls s' -> run cap s (map fst calls) (map snd calls) s'.
Proof.
  induction calls as [|[o r] l IH]; intros s s' H; cbn in *; [subst; constructor|]. destruct H as (s1 & A & Hb). econstructor; [exact A|]. apply IH. exact Hb.
Qed.
End V.

Lemma v_async mem cap l st calls : 0 <= cap < 2147483648 -> Forall (ok_h vop_ok) l -> reader_run v_ring (mkReader (v_new mem cap) false Away) l = (st, calls) ->
  exists s, run cap fifo_init (map fst calls) (map snd calls) s /\ fine (vrel cap) (fun s => f_unread s = []) st s.
Proof.
  intros Hc Ho E. destruct (gen_run v_ring vop_ok (vrel cap) (step cap) (fun s => f_unread s = [])) with (l := l) (st := mkReader (v_new mem cap) false Away) (st' := st) (calls := calls) (s := fifo_init) as (s & S1 & F); [exact Logic.I|apply v_Hstep|apply v_Hread| |exact Ho|exact E|].
  - split; [|exact Logic.I]. exists []. split; [apply rel_init; exact Hc|]. split; [|reflexivity]. apply history_init.
  - exists s. split; [apply steps_run; exact S1|exact F].
Qed.
Lemma v_async_waits mem cap l st calls : 0 <= cap < 2147483648 -> Forall (ok_h vop_ok) l -> reader_run v_ring (mkReader (v_new mem cap) false Away) l = (st, calls) ->
  exists s, run cap fifo_init (map fst calls) (map snd calls) s /\ (rs_at st = Awaiting false -> f_unread s = []) /\
    (rs_at st <> Away -> f_reader s = Some false ->
       match f_unread s with
       | x :: _ => exists k st' a, (k <= 3)%nat /\ reader_run v_ring st (repeat Poll k) = (st', [(VStartRead false, ORange (Ok (mkRange a (Z.of_nat (length (rec_data x))))))]) /\ rs_at st' = Away
       | [] => exists k st' c, (k <= 6)%nat /\ reader_run v_ring st (repeat Poll k) = (st', c) /\ rs_at st' = Awaiting false
       end).
Proof.
  intros Hc Ho E. destruct (v_async _ _ _ _ _ Hc Ho E) as (s & S1 & F). exists s. split; [exact S1|]. split.
  - intros A. destruct F as [_ F]. rewrite A in F. exact F.
  - intros A Rd. destruct (f_unread s) as [|x u] eqn:Eu.
    + eapply (poll_none v_ring (vrel cap) (fun s => f_unread s = []) (fun s => f_unread s = []) (fun s => f_reader s = Some false)); eauto. intros b s0 b' r. apply v_Hnone.
    + destruct (poll_some v_ring (vrel cap) (fun s => f_unread s = []) (fun s => f_unread s = []) (fun s => f_reader s = Some false) v_good) with (st := st) (s := s) as (k & st' & r & K1 & K2 & K3 & x' & l' & a & K4 & K5); auto.
      * apply v_Hread.
      * intros b s0 b' r. apply v_Hsome.
      * congruence.
      * rewrite Eu in K4. inv K4. exists k, st', a. auto.
Qed.
