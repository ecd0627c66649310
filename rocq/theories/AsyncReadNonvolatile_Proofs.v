(** Asynchronous reads of non-volatile buffers. *)
From Verif Require Import Base Ring_Model Ring_Proofs Nonvolatile_Model Nonvolatile_Spec Nonvolatile_Proofs NonvolatileQueue_Proofs NonvolatileClient_Spec NonvolatileUse_Proofs AsyncRead_Model AsyncRead_Proofs.
Open Scope Z_scope.

Section N.
Variable rcrc : list Z -> Z.
Variable hcrc : Z -> option Z -> option Z -> option Z -> Z.
Variable k : config.
Local Notation rel := (rel rcrc hcrc).
Local Notation sum := (record_sum rcrc).
Local Notation step := (step k sum).

Lemma n_pend b s U D : rel k b s U D -> c_pending (n_c b) = false.
Proof. intros R. exact (ci_pending _ _ _ (nr_ci _ _ _ _ _ _ _ R)). Qed.
Lemma one_step (J : queue -> Prop) (C : nop -> Prop) :
  (forall s o out s', step s o out s' -> C o -> J s -> J s') -> (forall s o, J s -> C o -> ~ misuse k s o) -> (forall o j, ~ C (NCrash o j)) ->
  forall n s U D o n' r, rel k n s U D -> J s -> C o -> nop_ok o -> n_step rcrc hcrc n o = (n', r) -> exists s' U' D', step s o r s' /\ rel k n' s' U' D' /\ J s'.
Proof.
  intros HJ HM HC n s U D o n' r R Js Co No E. destruct (clean_run rcrc hcrc J C k HJ HM HC n s U D [o] R Js) as (s' & U' & D' & R1 & R2 & R3); [constructor; auto|constructor; auto|].
  cbn [n_run] in R1, R2. rewrite E in R1, R2. cbn [fst snd] in *. inversion R1 as [|? ? ? ? ? ? ? St Rest]; subst. inversion Rest; subst. exists s', U', D'. auto.
Qed.
Lemma leave_unread fs u s : q_unread (leave fs u s) = u.
Proof. unfold leave. destruct u; reflexivity. Qed.
Lemma steps_run calls : forall s s', steps step s calls s' -> run k sum s (map fst calls) (map snd calls) s'.
Proof.
  induction calls as [|[o r] l IH]; intros s s' H; cbn in *; [subst; constructor|]. destruct H as (s1 & A & Hb). econstructor; [exact A|]. apply IH. exact Hb.
Qed.
Lemma attempt_shrinks s size block second out s' : attempt k s size block second out s' -> q_unread s = [] -> q_unread s' = [].
Proof. intros A E. destruct A; cbn; auto. rewrite leave_unread. rewrite E in *. destruct lost; [|discriminate]. cbn in *. auto. Qed.

(** ** The regular consumer *)
Definition prel (b : nbuf) (s : queue) : Prop := (exists U D, rel k b s U D) /\ no_cursor s /\ (c_readable (n_c b) = false -> q_unread s = []).
Definition p_ok (o : nop) : Prop := nop_ok o /\ plain_op o.
Definition p_none (s : queue) : Prop := Forall (fun e => ~ shown k sum e) (q_unread s).
Definition p_good (s : queue) (r : nout) : Prop := exists skip x l a, q_unread s = skip ++ x :: l /\ Forall (fun e => ~ shown k sum e) skip /\ shown k sum x /\ r = NRange (Ok (mkRange a (Z.of_nat (length (e_data x))))).
Lemma p_quiet s o r s' : step s o r s' -> plain_op o -> no_cursor s -> (forall u, o = NCommit -> r = NRes (Ok u) -> False) -> q_unread s = [] -> q_unread s' = [].
Proof.
  intros H P C N E. destruct H; cbn; rewrite ?leave_unread; auto; try contradiction; try (exfalso; eapply N; reflexivity); try congruence;
    try (eapply attempt_shrinks; eassumption); try (rewrite E in *; destruct skip; discriminate).
  - destruct (_ && _); auto.
  - unfold abandon. destruct (q_slot s) as [[i d]|]; auto. rewrite E. reflexivity.
  - unfold abandon. destruct (q_slot s) as [[i d]|]; auto. rewrite E. reflexivity.
Qed.
Lemma p_Hstep b s o b' r : prel b s -> p_ok o -> n_step rcrc hcrc b o = (b', r) ->
  exists s', step s o r s' /\ prel b' s' /\ (n_sent o r b' = false -> q_unread s = [] -> q_unread s' = []) /\ (o = NStartRead false -> rg_verdict (n_ring rcrc hcrc) r = Again -> q_unread s' = []).
Proof.
  intros ((U & D & R) & Nc & Hd) [Ho Hp] E.
  destruct (one_step no_cursor plain_op) with (n := b) (s := s) (U := U) (D := D) (o := o) (n' := b') (r := r) as (s' & U' & D' & S1 & R1 & N1); auto.
  { intros s0 o0 out0 s0' St Po. eapply step_no_cursor; [exact St|]. destruct o0; try discriminate. contradiction. }
  { intros s0 o0 N Po [_ M]. destruct o0; try contradiction. destruct M as [m M]. eapply N. exact M. }
  exists s'. assert (P : c_pending (n_c b') = false) by (eapply n_pend; exact R1).
  assert (Z1 : o = NStartRead false -> rg_verdict (n_ring rcrc hcrc) r = Again -> q_unread s' = []).
  { intros -> V. cbn in V. inv S1; cbn; rewrite ?leave_unread; auto; try discriminate. exfalso. eapply Nc. eassumption. }
  split; [exact S1|]. split; [|split; [|exact Z1] ].
  - split; [eauto|]. split; [exact N1|]. rewrite (n_step_readable _ _ _ _ _ _ E). unfold n_tells. intros X.
    assert (Y : c_readable (n_c b) = false -> (forall u, o = NCommit -> r = NRes (Ok u) -> False) -> q_unread s' = []) by (intros Y N; eapply p_quiet; [exact S1|exact Hp|exact Nc|exact N|auto]).
    destruct o; try (apply Y; [exact X|intros; discriminate]).
    + destruct r; try (apply Y; [exact X|intros; discriminate]). destruct r; try discriminate; apply Y; try exact X; intros; discriminate.
    + destruct block; [apply Y; [exact X|intros; discriminate]|]. destruct r; try (apply Y; [exact X|intros; discriminate]). destruct r; try (apply Y; [exact X|intros; discriminate]).
      destruct e; try (apply Y; [exact X|intros; discriminate]). apply Z1; reflexivity.
    + destruct r; try (apply Y; [exact X|intros; discriminate]). discriminate.
    + contradiction.
  - intros N. eapply p_quiet with (1 := S1); [exact Hp|exact Nc|]. intros u -> ->. discriminate.
Qed.
Lemma p_Hread b s : prel b s -> rg_readable (n_ring rcrc hcrc) b = false -> q_unread s = [].
Proof. intros (_ & _ & H). exact H. Qed.
Lemma p_Hnone b s b' r : prel b s -> q_reader s = Regular false -> p_none s -> n_step rcrc hcrc b (NStartRead false) = (b', r) ->
  rg_verdict (n_ring rcrc hcrc) r = Again /\ n_sent (NStartRead false) r b' = true /\ rg_readable (n_ring rcrc hcrc) b' = false.
Proof.
  intros Hr F N E. destruct (p_Hstep b s (NStartRead false) b' r Hr (conj Logic.I Logic.I) E) as (s' & S1 & ((U' & D' & R1) & _) & _).
  assert (P : c_pending (n_c b') = false) by (eapply n_pend; exact R1).
  assert (r = NRange (Err Unavailable)) as ->.
  { inv S1; auto; try congruence. exfalso. unfold p_none in N. match goal with X : q_unread _ = _ ++ _ |- _ => rewrite X in N end. apply Forall_app in N as [_ N]. inv N. auto. }
  cbn [rg_verdict n_ring rg_readable n_sent]. rewrite (n_step_readable _ _ _ _ _ _ E). cbn. rewrite P. auto.
Qed.
Lemma p_Hsome b s b' r : prel b s -> q_reader s = Regular false -> ~ p_none s -> n_step rcrc hcrc b (NStartRead false) = (b', r) -> rg_verdict (n_ring rcrc hcrc) r = Returned /\ p_good s r.
Proof.
  intros Hr F N E. destruct (p_Hstep b s (NStartRead false) b' r Hr (conj Logic.I Logic.I) E) as (s' & S1 & _).
  inv S1; try congruence; try (exfalso; apply N; assumption). split; [reflexivity|]. exists skip, x, l, a. auto.
Qed.

(** ** The cursor *)
Definition c_none (s : queue) : Prop := exists j, q_reader s = Cursor j /\ (length (q_unread s) <= j)%nat.
Definition crel (b : nbuf) (s : queue) : Prop := (exists U D, rel k b s U D) /\ cursor_fine k s /\ (forall x, q_reader s <> Regular x) /\ (c_readable (n_c b) = false -> c_none s).
Definition c_ok (o : nop) : Prop := nop_ok o /\ cursor_op o.
Definition c_idle (s : queue) : Prop := exists j, q_reader s = Cursor j.
Definition c_good (s : queue) (r : nout) : Prop := exists j x a, q_reader s = Cursor j /\ nth_error (q_unread s) j = Some x /\ r = NRange (Ok (mkRange a (Z.of_nat (length (e_data x))))).
Lemma attempt_keeps s size block second out s' : attempt k s size block second out s' -> k_ow k = OBlock -> q_unread s' = q_unread s /\ q_reader s' = q_reader s.
Proof.
  intros A E. destruct A; cbn; auto. rewrite leave_unread, leave_reader. split; [|reflexivity]. match goal with X : q_unread s = _, Y : _ -> lost = [] |- _ => rewrite X, Y by auto end. reflexivity.
Qed.
Lemma attempt_who s size block second out s' : attempt k s size block second out s' -> q_reader s' = q_reader s.
Proof. intros A. destruct A; cbn; auto. rewrite leave_reader. reflexivity. Qed.
Lemma c_quiet s o r s' : step s o r s' -> cursor_op o -> k_ow k = OBlock -> (forall u, o = NCommit -> r = NRes (Ok u) -> False) -> c_none s -> c_none s'.
Proof.
  intros H P B N (j & Ej & Lj).
  assert (X : q_reader s' = q_reader s -> q_unread s' = q_unread s -> c_none s') by (intros A1 A2; exists j; rewrite A1, A2; auto).
  destruct H; try contradiction; try (apply X; reflexivity); try (exfalso; eapply N; reflexivity); try congruence.
  - edestruct attempt_keeps; eauto.
  - edestruct attempt_keeps; eauto.
  - destruct (_ && _); apply X; reflexivity.
  - assert (n = j) by congruence. subst. apply nth_error_None in Lj. congruence.
  - assert (j = S n) by congruence. subst. exists n. cbn. rewrite leave_unread. split; [reflexivity|]. rewrite H0 in Lj. cbn in Lj. lia.
Qed.
Lemma c_who s o r s' : step s o r s' -> cursor_op o -> (forall x, q_reader s <> Regular x) -> forall x, q_reader s' <> Regular x.
Proof.
  intros H P N. destruct H; try contradiction; auto; cbn; try congruence; try (erewrite attempt_who by eassumption; auto).
  destruct (_ && _); auto.
Qed.
Lemma c_Hstep b s o b' r : crel b s -> c_ok o -> n_step rcrc hcrc b o = (b', r) ->
  exists s', step s o r s' /\ crel b' s' /\ (n_sent o r b' = false -> c_none s -> c_none s') /\ (o = NStartRead false -> rg_verdict (cursor_ring rcrc hcrc) r = Again -> c_none s').
Proof.
  intros ((U & D & R) & Nc & Nr & Hd) [Ho Hp] E.
  destruct (one_step (cursor_fine k) cursor_op) with (n := b) (s := s) (U := U) (D := D) (o := o) (n' := b') (r := r) as (s' & U' & D' & S1 & R1 & N1); auto.
  { intros s0 o0 out0 s0' St Po. eapply step_cursor_fine; eassumption. }
  { intros s0 o0 [F1 F2] Po [Q M]. destruct o0; try contradiction.
    - destruct M as [_ M]. rewrite (F1 M) in Q. discriminate.
    - destruct M as [m M]. destruct (k_ow k) eqn:Ow; [rewrite (F1 eq_refl) in Q; discriminate|]. eapply F2; [reflexivity|exact M]. }
  exists s'. assert (P : c_pending (n_c b') = false) by (eapply n_pend; exact R1).
  assert (Z1 : o = NStartRead false -> rg_verdict (cursor_ring rcrc hcrc) r = Again -> c_none s').
  { intros -> V. cbn in V. inv S1; try discriminate; try (exfalso; eapply Nr; eassumption). exists n. split; [assumption|]. apply nth_error_None. assumption. }
  assert (OB : c_none s -> k_ow k = OBlock).
  { intros (j & Ej & _). destruct (k_ow k) eqn:Ow; [reflexivity|]. exfalso. destruct Nc as [_ Nc]. eapply (Nc Ow). exact Ej. }
  split; [exact S1|]. split; [|split; [|exact Z1] ].
  - split; [eauto|]. split; [exact N1|]. split; [eapply c_who; eassumption|]. rewrite (n_step_readable _ _ _ _ _ _ E). unfold n_tells. intros X.
    assert (Y : c_readable (n_c b) = false -> (forall u, o = NCommit -> r = NRes (Ok u) -> False) -> c_none s') by (intros Y N; eapply c_quiet; [exact S1|exact Hp|auto|exact N|auto]).
    destruct o; try (apply Y; [exact X|intros; discriminate]); try contradiction.
    + destruct r; try (apply Y; [exact X|intros; discriminate]). destruct r; try discriminate; apply Y; try exact X; intros; discriminate.
    + destruct block; [apply Y; [exact X|intros; discriminate]|]. destruct r; try (apply Y; [exact X|intros; discriminate]). destruct r; try (apply Y; [exact X|intros; discriminate]).
      destruct e; try (apply Y; [exact X|intros; discriminate]). apply Z1; reflexivity.
  - intros N Q. eapply c_quiet with (1 := S1); [exact Hp|auto| |exact Q]. intros u -> ->. discriminate.
Qed.
Lemma c_Hread b s : crel b s -> rg_readable (cursor_ring rcrc hcrc) b = false -> c_none s.
Proof. intros (_ & _ & _ & H). exact H. Qed.
Lemma c_Hnone b s b' r : crel b s -> c_idle s -> c_none s -> n_step rcrc hcrc b (NStartRead false) = (b', r) ->
  rg_verdict (cursor_ring rcrc hcrc) r = Again /\ n_sent (NStartRead false) r b' = true /\ rg_readable (cursor_ring rcrc hcrc) b' = false.
Proof.
  intros Hr F (j & Ej & Lj) E. destruct (c_Hstep b s (NStartRead false) b' r Hr (conj Logic.I Logic.I) E) as (s' & S1 & ((U' & D' & R1) & _) & _).
  assert (P : c_pending (n_c b') = false) by (eapply n_pend; exact R1). apply nth_error_None in Lj.
  assert (r = NRange (Err Unavailable)) as -> by (inv S1; auto; congruence).
  cbn [rg_verdict cursor_ring rg_readable n_sent]. rewrite (n_step_readable _ _ _ _ _ _ E). cbn. rewrite P. auto.
Qed.
Lemma c_Hsome b s b' r : crel b s -> c_idle s -> ~ c_none s -> n_step rcrc hcrc b (NStartRead false) = (b', r) -> rg_verdict (cursor_ring rcrc hcrc) r = Returned /\ c_good s r.
Proof.
  intros Hr (j & Ej) N E. destruct (c_Hstep b s (NStartRead false) b' r Hr (conj Logic.I Logic.I) E) as (s' & S1 & _).
  inv S1; try congruence.
  - split; [reflexivity|]. exists n, x, a. auto.
  - exfalso. apply N. exists n. split; [assumption|]. apply nth_error_None. assumption.
Qed.
End N.

Section Use.
Variable rcrc : list Z -> Z.
Variable hcrc : Z -> option Z -> option Z -> option Z -> Z.
Variables (k : config) (st0 : stats) (n : nbuf).
Hypothesis Hc : 0 <= k_cap k < 2147483648.
Hypothesis Hn : n_open hcrc None (k_cap k + header_size) (k_ow k) (k_hold k) (k_check k) st0 = Ok n.
Lemma readable_new : c_readable (n_c n) = true.
Proof. apply (opened_readable hcrc None (k_cap k + header_size) (k_ow k) (k_hold k) (k_check k) st0 n false). unfold rb_open. rewrite Hn. reflexivity. Qed.
Lemma p_async l st calls : Forall (ok_h p_ok) l -> reader_run (n_ring rcrc hcrc) (mkReader n false Away) l = (st, calls) ->
  exists s, run k (record_sum rcrc) (queue_init k) (map fst calls) (map snd calls) s /\ (rs_at st = Awaiting false -> q_unread s = []) /\
    (rs_at st <> Away -> q_reader s = Regular false ->
      (~ Forall (fun e => ~ shown k (record_sum rcrc) e) (q_unread s) -> exists i st' skip x u a, (i <= 3)%nat /\ q_unread s = skip ++ x :: u /\ Forall (fun e => ~ shown k (record_sum rcrc) e) skip /\ shown k (record_sum rcrc) x /\
         reader_run (n_ring rcrc hcrc) st (repeat Poll i) = (st', [(NStartRead false, NRange (Ok (mkRange a (Z.of_nat (length (e_data x))))))]) /\ rs_at st' = Away) /\
      (Forall (fun e => ~ shown k (record_sum rcrc) e) (q_unread s) -> exists i st' c, (i <= 6)%nat /\ reader_run (n_ring rcrc hcrc) st (repeat Poll i) = (st', c) /\ rs_at st' = Awaiting false)).
Proof.
  intros Ho E.
  destruct (gen_run (n_ring rcrc hcrc) p_ok (prel rcrc hcrc k) (step k (record_sum rcrc)) (fun s => q_unread s = [])) with (l := l) (st := mkReader n false Away) (st' := st) (calls := calls) (s := queue_init k) as (s & S1 & F);
    [split; exact Logic.I|apply p_Hstep|apply p_Hread| |exact Ho|exact E|].
  - split; [|exact Logic.I]. split; [exists [], []; eapply new_rel; eassumption|]. split; [intros m; discriminate|]. intros X. cbn in X. rewrite readable_new in X. discriminate.
  - exists s. split; [apply steps_run; exact S1|]. split; [intros A; destruct F as [_ F]; rewrite A in F; exact F|]. intros A Rd. split.
    + intros Ns. destruct (poll_some (n_ring rcrc hcrc) (prel rcrc hcrc k) (fun s => q_unread s = []) (p_none rcrc k) (fun s => q_reader s = Regular false) (p_good rcrc k)) with (st := st) (s := s)
        as (i & st' & r & K1 & K2 & K3 & skip & x & u & a & K4 & K5 & K6 & K7); auto.
      * apply p_Hread.
      * intros b s0 b' r. apply p_Hsome.
      * intros s0 Z. unfold p_none. rewrite Z. constructor.
      * subst r. exists i, st', skip, x, u, a. splits; auto.
    + intros Ns. eapply (poll_none (n_ring rcrc hcrc) (prel rcrc hcrc k) (fun s => q_unread s = []) (p_none rcrc k) (fun s => q_reader s = Regular false)); eauto. intros b s0 b' r. apply p_Hnone.
Qed.
Lemma c_async l st calls : Forall (ok_h c_ok) l -> reader_run (cursor_ring rcrc hcrc) (mkReader n false Away) l = (st, calls) ->
  exists s, run k (record_sum rcrc) (queue_init k) (map fst calls) (map snd calls) s /\
    (rs_at st = Awaiting false -> exists j, q_reader s = Cursor j /\ nth_error (q_unread s) j = None) /\
    (forall j, rs_at st <> Away -> q_reader s = Cursor j ->
      match nth_error (q_unread s) j with
      | Some x => exists i st' a, (i <= 3)%nat /\ reader_run (cursor_ring rcrc hcrc) st (repeat Poll i) = (st', [(NStartRead false, NRange (Ok (mkRange a (Z.of_nat (length (e_data x))))))]) /\ rs_at st' = Away
      | None => exists i st' c, (i <= 6)%nat /\ reader_run (cursor_ring rcrc hcrc) st (repeat Poll i) = (st', c) /\ rs_at st' = Awaiting false
      end).
Proof.
  intros Ho E.
  destruct (gen_run (cursor_ring rcrc hcrc) c_ok (crel rcrc hcrc k) (step k (record_sum rcrc)) c_none) with (l := l) (st := mkReader n false Away) (st' := st) (calls := calls) (s := queue_init k) as (s & S1 & F);
    [split; exact Logic.I|apply c_Hstep|apply c_Hread| |exact Ho|exact E|].
  - split; [|exact Logic.I]. split; [exists [], []; eapply new_rel; eassumption|]. split; [split; [intros HB; cbn; rewrite HB; reflexivity|intros _ m; discriminate]|]. split; [discriminate|]. intros X. cbn in X. rewrite readable_new in X. discriminate.
  - exists s. split; [apply steps_run; exact S1|]. split.
    { intros A; destruct F as [_ F]; rewrite A in F. destruct F as (j & E1 & E2). exists j. split; [exact E1|]. apply nth_error_None. exact E2. }
    intros j A Rd. destruct (nth_error (q_unread s) j) as [x|] eqn:Ex.
    + destruct (poll_some (cursor_ring rcrc hcrc) (crel rcrc hcrc k) c_none c_none c_idle c_good) with (st := st) (s := s)
        as (i & st' & r & K1 & K2 & K3 & j' & x' & a & K4 & K5 & K6); auto.
      * apply c_Hread.
      * intros b s0 b' r. apply c_Hsome.
      * exists j. exact Rd.
      * intros (j' & E1 & E2). assert (j' = j) by congruence. subst. apply nth_error_None in E2. congruence.
      * assert (j' = j) by congruence. subst. assert (x' = x) by congruence. subst. exists i, st', a. splits; auto.
    + eapply (poll_none (cursor_ring rcrc hcrc) (crel rcrc hcrc k) c_none c_none c_idle); eauto.
      * intros b s0 b' r. apply c_Hnone.
      * exists j. exact Rd.
      * exists j. split; [exact Rd|]. apply nth_error_None. exact Ex.
Qed.
End Use.

(** ** A cursor that found a damaged record while it holds others *)
Section Spin.
Variable rcrc : list Z -> Z.
Variable hcrc : Z -> option Z -> option Z -> option Z -> Z.
Definition spins (b : nbuf) : Prop := c_pending (n_c b) = true /\ c_readable (n_c b) = true /\ exists r q, n_cons b = Some (Ahead (r :: q)).
Lemma spin_busy b : spins b -> n_busy b = true.
Proof. intros (_ & _ & r & q & E). unfold n_busy, n_reading. rewrite E. reflexivity. Qed.
Lemma tail_keeps b t z block b' r : n_reserve_tail hcrc b t z block = (b', r) -> spins b -> c_pending (n_c b') = true /\ n_cons b' = n_cons b.
Proof.
  unfold n_reserve_tail. intros H S. rewrite (spin_busy _ S) in H. destruct S as (P & _). destruct (advance_due_to_write _ _ _ _ _ _) as [c1 r1] eqn:E. apply due_pending in E; auto.
  destruct r1 as [u|e|]; [|destruct e; inv H; auto|inv H; auto].
  match type of H with context [finish_reservation ?c _ _] => assert (E3 : c_pending c = true) by (destruct (t_lwe t); exact E); destruct (finish_reservation c _ _) as [ [c3 d]|] eqn:E4 end.
  - apply finish_reservation_pending in E4. inv H. cbn. split; [congruence|reflexivity].
  - inv H. auto.
Qed.
Lemma loop_keeps b t z block b' r : n_reserve_loop hcrc b t z block = (b', r) -> spins b -> c_pending (n_c b') = true /\ n_cons b' = n_cons b.
Proof.
  unfold n_reserve_loop. intros H S. destruct (match n_read_reservation b with Some _ => _ | None => _ end); [destruct S as (P & _); destruct (n_hold b); inv H; auto|]. eapply tail_keeps; eassumption.
Qed.
Lemma spin_other b o b' out : spins b -> n_own o = false -> n_step rcrc hcrc b o = (b', out) -> spins b'.
Proof.
  intros S No H.
  assert (X : c_pending (n_c b') = true /\ n_cons b' = n_cons b).
  { destruct (S) as (P & _). destruct o; try discriminate; cbn [n_step] in H.
    - destruct (n_prod b), (n_wait b); try (inv H; auto; fail). destruct (n_reserve hcrc b size block) as [n1 r] eqn:E. inv H. unfold n_reserve in E.
      destruct (n_prod b) as [ [q|]|]; [inv E; auto| |].
      all: destruct (start_reserve_common (n_c b) size) as [c1 r1] eqn:E1; unfold start_reserve_common in E1; rewrite P in E1; destruct (0 <? _); inv E1; inv E; auto.
    - destruct (n_wait b); [|inv H; auto]. destruct (n_resume hcrc b w) as [n1 r] eqn:E. inv H. unfold n_resume in E.
      destruct (c_shutdown _); [inv E; auto|]. destruct (w_second w); [eapply tail_keeps|eapply loop_keeps]; eassumption.
    - destruct (n_prod b) eqn:Ep, (n_wait b); try (inv H; auto; fail). inv H. unfold n_write. rewrite Ep. repeat dmatch; auto.
    - destruct (n_prod b) eqn:Ep, (n_wait b); try (inv H; auto; fail). destruct (n_commit rcrc hcrc b) as [n1 r] eqn:E. inv H. unfold n_commit in E. rewrite Ep in E.
      destruct o; [|inv E; auto].
      match type of E with match ?x with _ => _ end = _ => destruct x as [c1|] eqn:E1 end; [|inv E; auto].
      inv E. split; [|reflexivity]. change (c_pending (maybe_do_total_data_loss_reset (n_cb hcrc) (n_busy (n_set_prod (Some None) b)) c1) = true). rewrite maybe_pending by (apply n_cb_p).
      replace (n_busy (n_set_prod (Some None) b)) with true. 2:{ destruct S as (_ & _ & r1 & q1 & E2). unfold n_busy, n_reading. cbn. rewrite E2. reflexivity. }
      destruct (n_check b); [destruct (_ && _); [|discriminate]|]; inv E1; cbn; destruct (committed_readable (n_c b) r0) as [_ E2]; cbn in E2; rewrite E2, P; reflexivity.
    - destruct (n_register_producer b) as [n1 r] eqn:E. inv H. unfold n_register_producer in E. destruct (n_prod b); inv E; auto.
    - destruct (n_prod b), (n_wait b); inv H; auto.
    - destruct (n_wait_for_drain b) as [n1 r] eqn:E. inv H. unfold n_wait_for_drain, wait_for_drain in E. destruct (_ || _); inv E; auto.
    - inv H. auto.
    - inv H. auto.
    - inv H. unfold n_shutdown, shutdown_common. cbn. destruct (c_shutdown _); auto. }
  destruct X as [X1 X2]. destruct S as (P & R & r & q & E). split; [exact X1|]. split; [|exists r, q; congruence].
  rewrite (n_step_readable _ _ _ _ _ _ H). unfold n_tells. destruct o; try discriminate; auto. destruct out; auto. destruct r0; auto.
Qed.
Lemma spin_try b : spins b -> n_step rcrc hcrc b (NStartRead false) = (b, NRange (Err Unavailable)).
Proof.
  intros S. pose proof (spin_busy _ S) as B. destruct S as (P & R & r & q & E). cbn [n_step]. rewrite E. unfold n_start_read, n_start_read_fuel, loop_fuel. cbn [consumer_start_read].
  unfold start_read. rewrite P. cbn. destruct b. cbn in *. subst. reflexivity.
Qed.
Definition turning (st : reader_state nbuf) : Prop := spins (rs_buf st) /\ exists f, rs_at st = Top f \/ rs_at st = Trying f.
Lemma turns_step st h : turning st -> turning (fst (reader_step (cursor_ring rcrc hcrc) st h)).
Proof.
  intros (S & f & P). destruct h as [o|o| | |]; cbn [reader_step].
  - cbn [rg_own cursor_ring]. destruct (n_own o) eqn:No; [split; eauto|]. change (rg_step (cursor_ring rcrc hcrc)) with (n_step rcrc hcrc). destruct (n_step rcrc hcrc (rs_buf st) o) as [b r] eqn:E. cbn [fst]. split; [exact (spin_other _ _ _ _ S No E)|].
    cbn [rs_at]. destruct P as [-> | ->]; cbn [hear]; eauto.
  - destruct P as [E|E]; rewrite E; split; eauto.
  - destruct P as [E|E]; rewrite E; split; eauto.
  - destruct P as [E|E]; rewrite E.
    + destruct (S) as (S1 & S2 & S3). change (rg_readable (cursor_ring rcrc hcrc) (rs_buf st)) with (c_readable (n_c (rs_buf st))). rewrite S2. split; [exact S|]. cbn. eauto.
    + change (rg_step (cursor_ring rcrc hcrc) (rs_buf st) (rg_try (cursor_ring rcrc hcrc))) with (n_step rcrc hcrc (rs_buf st) (NStartRead false)). rewrite (spin_try _ S). split; [exact S|]. cbn. eauto.
  - destruct P as [E|E]; rewrite E; split; eauto.
Qed.
Lemma turns_run l : forall st, turning st -> turning (fst (reader_run (cursor_ring rcrc hcrc) st l)).
Proof.
  induction l as [|h l IH]; intros st T; [exact T|]. cbn [reader_run]. pose proof (turns_step st h T) as T1. destruct (reader_step _ st h) as [s1 c1]. cbn [fst] in T1. specialize (IH s1 T1). destruct (reader_run _ s1 l). exact IH.
Qed.
End Spin.
