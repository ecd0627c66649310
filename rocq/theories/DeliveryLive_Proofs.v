(** Left alone, the flush thread, the upload task and the upload service deliver every record. *)
From Verif Require Import Base Ring_Model Volatile_Model Volatile_Spec Nonvolatile_Model Nonvolatile_Spec Aggregate_Model Aggregate_Spec Aggregate_Proofs AggregateUse_Proofs AggregateLive_Proofs
  Delivery_Model Delivery_Spec Delivery_Proofs.
From Verif Require NonvolatileClient_Spec Batching_Model Batching_Spec Batching_Proofs.
Open Scope Z_scope.

Section P.
Variable rcrc : list Z -> Z.
Variable hcrc : Z -> option Z -> option Z -> option Z -> Z.
Variable vcap : Z.
Variable k : config.
Hypothesis hold : k_hold k = true.
Hypothesis small : vcap < 4294967296.
Hypothesis block : k_ow k = OBlock.
Hypothesis fits : vcap + (k_extra k - 4) <= k_cap k.
Local Notation sum := (NonvolatileClient_Spec.record_sum rcrc).
Local Notation nstep := (Nonvolatile_Spec.step k sum).
Local Notation g_step := (g_step rcrc hcrc).
Local Notation thread_step := (thread_step rcrc hcrc).
Local Notation d_step := (d_step rcrc hcrc).
Local Notation d_run := (d_run rcrc hcrc).
Local Notation inv_ := (inv_ rcrc hcrc vcap k false).
Local Notation explains := (explains rcrc vcap k).
Local Notation dinv := (dinv rcrc hcrc vcap k).

Definition working (w : worker) : Prop :=
  w_stop w = false /\ (w_deadline w = true -> Batching_Model.logs (w_builder w) <> []) /\
  match w_phase w with
  | WIdle => Batching_Model.logs (w_builder w) <> [] -> w_deadline w = true
  | WUploading _ => Batching_Model.logs (w_builder w) = []
  | WReleasing n => Batching_Model.logs (w_builder w) = [] /\ n <> 0%nat
  | WEnded => False
  end.
(** What the thread waits for does not fit. *)
Definition short (q : queue) : Prop := exists size second, q_wait q = Some (size, true, second) /\ Nonvolatile_Spec.short_of_room k (q_unread q) size.
Definition lively (d : delivery) (q : queue) : Prop :=
  g_shut (d_g d) = SIdle /\ (g_pos (d_g d) = FWait -> g_wake (d_g d) = true \/ short q) /\
  match d_w d with Some w => working w | None => True end.

Lemma two_n s q a oa b ob s' q' : explains s q [NCall a oa; NCall b ob] s' q' -> exists q1, nstep q a oa q1 /\ nstep q1 b ob q' /\ s' = s.
Proof.
  intros [A B]. cbn in A, B. inv A. inv B. match goal with H : Nonvolatile_Spec.run _ _ _ [_] _ _ |- _ => inv H end.
  match goal with H : Nonvolatile_Spec.run _ _ _ [] _ _ |- _ => inv H end. eauto.
Qed.
Lemma consume_frame g o : g_pos (fst (g_step g (Consume o))) = g_pos g /\ g_shut (fst (g_step g (Consume o))) = g_shut g /\ (g_wake g = true -> g_wake (fst (g_step g (Consume o))) = true).
Proof. cbn. destruct (consumer_call o); [|auto]. unfold on_n_signal. destruct (n_step rcrc hcrc (g_n g) o). cbn. splits; auto. intros ->. reflexivity. Qed.
Lemma consume_calls g o : consumer_call o = true -> exists out, snd (g_step g (Consume o)) = [NCall o out].
Proof. intros C. cbn. rewrite C. destruct (on_n_signal rcrc hcrc g o) as [g' out]. exists out. reflexivity. Qed.
Lemma advance_signals g : forall b, snd (g_step g (Consume NAdvance)) = [NCall NAdvance (NFin (Ok b))] -> g_wake (fst (g_step g (Consume NAdvance))) = true.
Proof. intros b. cbn. unfold on_n_signal. destruct (n_step rcrc hcrc (g_n g) NAdvance) as [n' out]. cbn. intros E. inv E. cbn. apply orb_true_r. Qed.
Lemma unread_kept q o out q' : nstep q o out q' -> match o with NStartRead false | NPeek | NRegisterCursor => True | _ => False end -> (forall b, q_reader q <> Regular b) -> q_unread q' = q_unread q.
Proof. intros St O R. inv St; try contradiction; try reflexivity; exfalso; eapply R; eassumption. Qed.
Lemma wait_kept q o out q' : nstep q o out q' -> match o with NStartRead false | NPeek | NRegisterCursor => True | _ => False end -> (forall b, q_reader q <> Regular b) -> q_wait q' = q_wait q.
Proof. intros St O R. inv St; try contradiction; try reflexivity; exfalso; eapply R; eassumption. Qed.
Lemma short_kept q q' : q_unread q' = q_unread q -> q_wait q' = q_wait q -> short q -> short q'.
Proof. unfold short. intros -> ->. exact (fun H => H). Qed.

Lemma select_working w l w' o : w_stop w = false -> (w_deadline w = true -> Batching_Model.logs (w_builder w) <> []) -> w_phase w = WIdle -> w_select w l = (w', o) -> working w' /\ ~ In GaveUp o.
Proof.
  intros S D P E. unfold w_select, w_flush, w_arm, Batching_Model.take in E. destruct (Batching_Model.limit_reached _ _).
  - inv E. split; [split; [exact S|split; [discriminate|reflexivity]]|intros [?|[]]; discriminate].
  - destruct (Batching_Model.logs (w_builder w)) eqn:L; inv E; (split; [split; [exact S|split; cbn; rewrite ?P, ?L; try exact D; try discriminate; congruence]|intros []]).
Qed.

(** The thread waits only while there is something in the file. *)
Lemma thread_wait g s q s' q' : inv_ g s q -> explains s q (snd (thread_step g)) s' q' -> (g_pos g = FWait -> g_wake g = true \/ short q) ->
  g_pos (fst (thread_step g)) = FWait -> g_wake (fst (thread_step g)) = true \/ short q'.
Proof.
  intros I X L. pose proof (i_gone _ _ _ _ _ _ _ _ I) as G.
  assert (A : forall size second q1, attempt k q size true second (NRange (Err WouldBlock)) q1 -> short q1).
  { intros size second q1 A. inv A; match goal with H : Nonvolatile_Spec.short_of_room _ _ _ |- _ => rewrite G, app_nil_r in H; eexists _, _; split; [reflexivity|exact H] end. }
  revert X. unfold Aggregate_Model.thread_step. destruct (g_pos g) eqn:P; unfold on_v, on_n.
  all: try (repeat match goal with |- context [v_step ?v ?o] => destruct (v_step v o) | |- context [n_step rcrc hcrc ?v ?o] => destruct (n_step rcrc hcrc v o) end; cbn;
    repeat match goal with |- context [match ?x with _ => _ end] => destruct x end; cbn; intros; congruence).
  - destruct (n_step rcrc hcrc (g_n g) (NReserve size true)) as [n' out]. cbn [fst snd]. intros X. apply n_one in X. destruct X as [St _].
    destruct out; cbn; try discriminate. destruct r as [r|e|]; cbn; try discriminate. destruct e; cbn; try discriminate. intros _. right. inv St. eapply A. eassumption.
  - destruct (g_wake g) eqn:W.
    + destruct (n_step rcrc hcrc (g_n g) NResume) as [n' out]. cbn [fst snd]. intros X. apply n_one in X. destruct X as [St _].
      destruct out; cbn; try discriminate. destruct r as [r|e|]; cbn; try discriminate. destruct e; cbn; try discriminate. intros _. right. inv St.
      pose proof (i_pos _ _ _ _ _ _ _ _ I) as Q. rewrite P in Q. cbn [pos_inv] in Q. destruct Q as ((_ & x & u & _ & sec & Qw) & _).
      match goal with Q : attempt _ _ ?z ?b ?c _ _, H : q_wait q = Some (?z, ?b, ?c) |- _ => rewrite Qw in H; inv H; eapply A; exact Q end.
    + cbn. intros X _. apply none in X. destruct X as [_ ->]. rewrite W. auto.
Qed.

Lemma step_lively d s q o m d' c o' s' q' : dinv d s q o -> d_step d m = Some (d', c, o') -> explains s q c s' q' -> ~ In Failed o' ->
  m <> Stop -> m <> World Shutdown -> lively d q -> lively d' q' /\ ~ In GaveUp o'.
Proof.
  intros (I & K & T) St X NF N1 N2 (L1 & L2 & L3). destruct m as [a| |l| |l|a| | |].
  - assert (NC : forall x, a <> Consume x) by (intros x ->; cbn in St; discriminate).
    assert (St' : (let (g, c) := g_step (d_g d) a in Some (mkD g (d_w d), c, [])) = Some (d', c, o')) by (destruct a; try exact St; exfalso; eapply NC; reflexivity). clear St.
    assert (CL : calm_label a) by (destruct a; try exact Logic.I; [exfalso; eapply NC; reflexivity|exfalso; apply N2; reflexivity]).
    pose proof (shut_idle rcrc hcrc _ _ CL L1) as L1'.
    assert (L2' : explains s q (snd (g_step (d_g d) a)) s' q' -> g_pos (fst (g_step (d_g d) a)) = FWait -> g_wake (fst (g_step (d_g d) a)) = true \/ short q').
    { clear X. intros X. destruct a; try contradiction.
      5: exact (thread_wait _ _ _ _ _ I X L2).
      all: assert (Q : nops (snd (g_step (d_g d) _)) = [] -> q' = q) by (intros E; destruct X as [_ R]; rewrite E in R; inv R; reflexivity).
      all: assert (F : forall g0, g_pos g0 = g_pos (d_g d) -> g_wake g0 = g_wake (d_g d) -> q' = q -> g_pos g0 = FWait -> g_wake g0 = true \/ short q') by (intros g0 F1 F2 ->; rewrite F1, F2; exact L2).
      all: revert Q; cbn [Aggregate_Model.g_step]; unfold on_v.
      - destruct (producer_call o0); [destruct (v_step _ _)|]; cbn; intros Q; apply F; auto.
      - destruct (v_step _ _); cbn; intros Q; apply F; auto.
      - destruct (v_step _ _); cbn; intros Q; apply F; auto.
      - destruct (g_handles (d_g d)); [|destruct (v_step _ _)]; cbn; intros Q; apply F; auto. }
    destruct (g_step (d_g d) a) as [g' c']. cbn [fst snd] in *. inv St'. split; [|intros []]. split; [exact L1'|]. split; [exact (L2' X)|exact L3].
  - cbn -[Aggregate_Model.g_step] in St. destruct (d_w d) as [w|]; [discriminate|]. destruct (consume_frame (d_g d) NRegisterCursor) as (F1 & F2 & F3).
    destruct (consume_calls (d_g d) NRegisterCursor eq_refl) as (out & E). destruct (g_step (d_g d) (Consume NRegisterCursor)) as [g1 c1]. cbn [fst snd] in *. subst c1. destruct T as (T & _).
    assert (Q : d' = mkD g1 (Some worker_new) /\ c = [NCall NRegisterCursor out] /\ o' = []).
    { destruct out; try destruct r; inv St; auto; exfalso; apply NF; left; reflexivity. }
    destruct Q as (-> & -> & ->). apply n_one in X. destruct X as [X _]. split; [|intros []]. split; [cbn; congruence|]. split; [|split; [reflexivity|split; [discriminate|cbn; congruence]]].
    cbn. rewrite F1. intros Hp. destruct (L2 Hp) as [A|A]; [auto|right]. eapply short_kept; [eapply unread_kept; [exact X|exact Logic.I|]|eapply wait_kept; [exact X|exact Logic.I|]|exact A]; intros b; rewrite T; discriminate.
  - cbn -[Aggregate_Model.g_step d_take] in St. destruct (d_w d) as [w|] eqn:Ew; [|discriminate]. destruct (w_phase w) eqn:P; try discriminate. injection St as St. unfold d_take in St.
    destruct T as (cc & es & T1 & _). destruct L3 as (S0 & D0 & L3).
    destruct (consume_frame (d_g d) (NStartRead false)) as (F1 & F2 & F3). destruct (consume_calls (d_g d) (NStartRead false) eq_refl) as (out & E).
    destruct (g_step (d_g d) (Consume (NStartRead false))) as [g1 c1]. cbn [fst snd] in *. subst c1.
    destruct (consume_frame g1 NPeek) as (F4 & F5 & F6). destruct (consume_calls g1 NPeek eq_refl) as (out2 & E2).
    destruct (g_step g1 (Consume NPeek)) as [g2 c2]. cbn [fst snd] in *. subst c2.
    assert (NR : forall b, q_reader q <> Regular b) by (intros b; rewrite T1; discriminate).
    assert (Fail : forall w1 g0 c0, (mkD g0 (Some w1), c0, [Failed]) = (d', c, o') -> lively d' q' /\ ~ In GaveUp o') by (intros w1 g0 c0 H; inv H; exfalso; apply NF; left; reflexivity).
    destruct out as [| |[r|e|]| | | | | |]; try (eapply Fail; exact St).
    + destruct out2 as [| | | |[bs|]| | | |]; try (eapply Fail; exact St).
      destruct (w_select _ l) as [w' ow] eqn:Es. inv St. apply select_working in Es; [|exact S0|cbn; intros _; destruct (Batching_Model.logs (w_builder w)); discriminate|reflexivity]. destruct Es as [W NG].
      split; [|intros [?|?]; [discriminate|auto]]. cbn in X. apply two_n in X. destruct X as (q1 & X1 & X2 & _).
      assert (U1 : q_unread q1 = q_unread q) by (eapply unread_kept; eauto; exact Logic.I).
      assert (U2 : q_unread q' = q_unread q1) by (eapply unread_kept; [exact X2|exact Logic.I|]; inv X1; cbn; intros b; rewrite ?T1; try discriminate; congruence).
      assert (V1 : q_wait q1 = q_wait q) by (eapply wait_kept; eauto; exact Logic.I).
      assert (V2 : q_wait q' = q_wait q1) by (eapply wait_kept; [exact X2|exact Logic.I|]; inv X1; cbn; intros b; rewrite ?T1; try discriminate; congruence).
      split; [cbn; congruence|]. split; [|exact W]. cbn. rewrite F4, F1. intros Hp. destruct (L2 Hp) as [A|A]; [auto|right]. apply (short_kept q); congruence.
    + destruct e; try (eapply Fail; exact St). inv St. split; [|intros []]. apply n_one in X. destruct X as [X _].
      split; [cbn; congruence|]. split; [|split; [exact S0|split; [exact D0|exact L3]]]. cbn. rewrite F1. intros Hp. destruct (L2 Hp) as [A|A]; [auto|right]. exact (short_kept _ _ (unread_kept _ _ _ _ X Logic.I NR) (wait_kept _ _ _ _ X Logic.I NR) A).
  - cbn in St. destruct (d_w d) as [w|] eqn:Ew; [|discriminate]. destruct (w_phase w) eqn:P; try discriminate. destruct (w_deadline w) eqn:Dl; [|discriminate].
    unfold w_flush, Batching_Model.take in St. inv St. apply none in X. destruct X as [_ ->]. split; [|intros [?|[]]; discriminate]. split; [exact L1|]. split; [exact L2|]. destruct L3. split; [assumption|split; [discriminate|reflexivity]].
  - cbn in St. destruct (d_w d) as [w|] eqn:Ew; [|discriminate]. destruct (w_phase w) eqn:P; try discriminate. destruct (w_select w l) as [w' ow] eqn:Es. inv St.
    apply none in X. destruct X as [_ ->]. destruct L3 as (S0 & D0 & L3). destruct (select_working _ _ _ _ S0 D0 P Es). split; [|assumption]. split; [exact L1|]. split; [exact L2|assumption].
  - cbn in St. destruct (d_w d) as [w|] eqn:Ew; [|discriminate]. destruct (w_phase w) as [|n| |] eqn:P; try discriminate. inv St. apply none in X. destruct X as [_ ->].
    split; [|intros [?|[]]; discriminate]. split; [exact L1|]. split; [exact L2|]. destruct L3 as (S0 & D0 & L3). rewrite P in L3. split; [exact S0|]. split; [exact D0|]. cbn. destruct n; auto.
  - cbn -[Aggregate_Model.g_step d_release] in St. destruct (d_w d) as [w|] eqn:Ew; [|discriminate]. destruct (w_phase w) as [| |[|n]|] eqn:P; try discriminate. injection St as St. unfold d_release in St.
    destruct L3 as (S0 & D0 & L3). rewrite P in L3. destruct L3 as [L3 _].
    destruct (consume_frame (d_g d) NAdvance) as (F1 & F2 & F3). destruct (consume_calls (d_g d) NAdvance eq_refl) as (out & E). pose proof (advance_signals (d_g d)) as Sg. rewrite E in Sg.
    destruct (g_step (d_g d) (Consume NAdvance)) as [g1 c1]. cbn [fst snd] in *. subst c1.
    assert (Fail : forall w1 g0 c0, (mkD g0 (Some w1), c0, [Failed]) = (d', c, o') -> lively d' q' /\ ~ In GaveUp o') by (intros w1 g0 c0 H; inv H; exfalso; apply NF; left; reflexivity).
    destruct out as [| | | | |[r|e|]| | |]; try (eapply Fail; exact St). inv St. split; [|intros [?|[]]; discriminate]. split; [cbn; congruence|]. split; [intros _; left; exact (Sg r eq_refl)|].
    split; [exact S0|]. split; [exact D0|]. cbn. destruct n; auto.
  - congruence.
  - cbn in St. destruct (d_w d) as [w|] eqn:Ew; [|discriminate]. destruct L3 as [S0 _]. rewrite S0 in St. discriminate.
Qed.

Definition live (d : delivery) (s : fifo) (q : queue) (o : list seen) : Prop := dinv d s q o /\ lively d q /\ ~ In GaveUp o /\ ~ In Failed o.
Lemma live_step d s q o m d' c o' : live d s q o -> move_ok m -> m <> Stop -> m <> World Shutdown -> d_step d m = Some (d', c, o') ->
  exists s' q', explains s q c s' q' /\ live d' s' q' (o ++ o').
Proof.
  intros (I & L & G & F) Ok N1 N2 St. destruct (step_dinv rcrc hcrc vcap k hold small block _ _ _ _ _ _ _ _ I Ok St F) as (s' & q' & X & I' & F').
  assert (NF : ~ In Failed o') by (intros H; apply F'; apply in_or_app; auto).
  destruct (step_lively _ _ _ _ _ _ _ _ _ _ I St X NF N1 N2 L) as [L' G']. exists s', q'. split; [exact X|]. split; [exact I'|]. split; [exact L'|]. split; [|exact F'].
  intros H. apply in_app_or in H. tauto.
Qed.

(** Where the cursor is. *)
Lemma cursor_at d s q o w : live d s q o -> d_w d = Some w -> exists c, q_reader q = Cursor c /\ (c <= length (q_unread q))%nat /\
  match w_phase w with WIdle => c = length (Batching_Model.logs (w_builder w)) | WUploading n => c = n | WReleasing n => c = n | WEnded => False end.
Proof.
  intros ((I & K & T) & L & G & _) Ew. rewrite Ew in T. destruct T as (c & es & T1 & T2 & T3). exists c. split; [exact T1|].
  destruct L as (_ & _ & L). rewrite Ew in L. destruct L as (_ & _ & L). unfold corr in T3.
  assert (Rel : forall u ob, Batching_Model.run (Batching_Model.uploader_new []) es = Some (u, ob) -> ~ In GaveUp (map hide ob) -> Batching_Proofs.rel u ob).
  { intros u ob Ru N. apply (Batching_Proofs.rel_run es (Batching_Model.uploader_new []) [] u ob); [unfold Batching_Proofs.rel; cbn; splits; auto; lia|exact Ru|].
    intros Hin. apply N. apply in_map_iff. exists Batching_Model.OAbandoned. auto. }
  unfold data in T3. destruct (w_phase w) as [|n|n|] eqn:P; [| | |contradiction].
  - destruct T3 as (ob & R & ->). destruct (Rel _ _ R G) as ((_ & [A|A]) & _ & _ & B); [|discriminate]. cbn in A, B. rewrite map_length in B. auto.
  - destruct T3 as (ob & R & ->). destruct (Rel _ _ R G) as ((b & _ & A1 & A2 & _) & _ & _ & B). cbn in A1, A2, B. rewrite map_length in B. split; [exact B|congruence].
  - destruct T3 as (gone & a & ob & R & -> & _). destruct (Rel _ _ R) as ((b & _ & A1 & A2 & _) & _ & _ & B); [intros H; apply G; apply in_or_app; auto|].
    cbn in A1, A2, B. rewrite app_length, map_length in B. lia.
Qed.

(** * Work left to do *)
Definition work (x : option worker) (u : nat) : nat :=
  match x with
  | None => 4 * u + 1
  | Some w => match w_phase w with
    | WIdle => 4 * (u - length (Batching_Model.logs (w_builder w))) + 3 * length (Batching_Model.logs (w_builder w))
    | WUploading n => 4 * (u - n) + n + 1
    | WReleasing n => 4 * (u - n) + n
    | WEnded => 0
    end
  end.
Definition place (p : fpos) : nat :=
  match p with FNew => 9 | FNew2 => 8 | FLoop => 7 | FRead => 6 | FReserve _ => 5 | FWait => 4 | FReserved => 3 | FCopied => 2 | _ => 1 end.
Definition left_ (d : delivery) (s : fifo) (q : queue) : nat :=
  10 * (9 * length (f_unread s) + place (g_pos (d_g d))) + 2 * work (d_w d) (length (q_unread q)) + (if g_wake (d_g d) then 1 else 0).

(** Moves that do something. *)
Definition urgent (d : delivery) (s : fifo) (q : queue) (m : move) : Prop :=
  match m, d_w d with
  | World Thread, _ => match g_pos (d_g d) with FRead => f_unread s <> [] | FWait => g_wake (d_g d) = true | FExit | FExit2 | FDone => False | _ => True end
  | Start, None => True
  | Take _, Some w => w_phase w = WIdle /\ (length (Batching_Model.logs (w_builder w)) < length (q_unread q))%nat
  | Tick, Some w => w_phase w = WIdle /\ Batching_Model.logs (w_builder w) <> []
  | Answer _, Some w => exists n, w_phase w = WUploading n
  | Release, Some w => exists n, w_phase w = WReleasing n
  | _, _ => False
  end.
Definition same_view (d : delivery) (s : fifo) (q : queue) (d' : delivery) (s' : fifo) (q' : queue) : Prop :=
  d_w d' = d_w d /\ g_pos (d_g d') = g_pos (d_g d) /\ g_wake (d_g d') = g_wake (d_g d) /\ f_unread s' = f_unread s /\ f_consumed s' = f_consumed s /\ q_unread q' = q_unread q /\ q_past q' = q_past q.
Definition finished (d : delivery) (s : fifo) (q : queue) : Prop :=
  f_unread s = [] /\ q_unread q = [] /\ exists w, d_w d = Some w /\ w_phase w = WIdle /\ Batching_Model.logs (w_builder w) = [].

Lemma some_urgent d s q o : live d s q o -> ~ finished d s q ->
  (forall l, urgent d s q (Take l)) \/ urgent d s q Tick \/ (forall a, urgent d s q (Answer a)) \/ urgent d s q Release \/ urgent d s q Start \/ urgent d s q (World Thread).
Proof.
  intros L N. assert (L0 := L). destruct L0 as ((I & _) & (L1 & L2 & L3) & _). unfold urgent. destruct (d_w d) as [w|] eqn:Ew; [|auto 8].
  destruct (cursor_at _ _ _ _ _ L Ew) as (c & C1 & C2 & C3). destruct L3 as (_ & _ & L3). destruct (w_phase w) as [|n|n|] eqn:P; [|right; right; left; eauto|right; right; right; left; eauto|contradiction].
  destruct (Batching_Model.logs (w_builder w)) eqn:Lg; [|right; left; split; auto; discriminate].
  destruct (q_unread q) eqn:U; [|left; intros _; split; auto; cbn; lia].
  right. right. right. right. right. assert (F : f_unread s <> []) by (intros E; apply N; unfold finished; rewrite E, U, Ew; eauto 8).
  assert (Hal: ends (g_pos (d_g d)) = true -> False).
  { intros He. pose proof (h_exit _ _ _ _ _ (i_shut _ _ _ _ _ _ _ _ I) He fits) as A. rewrite (h_stop _ _ _ _ _ (i_shut _ _ _ _ _ _ _ _ I)), L1 in A. discriminate. }
  destruct (g_pos (d_g d)); try exact F; try exact Logic.I; try (exfalso; apply Hal; reflexivity). destruct (L2 eq_refl) as [A|(size & second & _ & A & _)]; [exact A|congruence].
Qed.

(** * The flush thread *)
Definition all_of (s : fifo) : list (list Z) := bytes_consumed s ++ map rec_data (f_unread s).
Definition chores (g : agg) (s : fifo) : nat := 9 * length (f_unread s) + place (g_pos g).
Definition can_move (g : agg) (s : fifo) : Prop := match g_pos g with FRead => f_unread s <> [] | FWait => g_wake g = true | FExit | FExit2 | FDone => False | _ => True end.
Definition moved (g : agg) (s : fifo) (q : queue) (g' : agg) (s' : fifo) (q' : queue) : Prop :=
  (chores g' s' < chores g s)%nat /\ (g_wake g' = true -> g_wake g = true) /\ (length (q_unread q') <= length (q_unread q) + 1)%nat \/
  chores g' s' = chores g s /\ g_wake g = true /\ g_wake g' = false /\ q_unread q' = q_unread q.
Lemma leave_unread fs u q : q_unread (leave fs u q) = u.
Proof. destruct u; reflexivity. Qed.

Lemma attempt_effect g s q size second r q' : q_gone q = [] -> q_shut q = false -> g_pos g = FWait /\ g_wake g = true \/ (exists n, g_pos g = FReserve n) -> attempt k q size true second r q' ->
  exists x, r = NRange x /\ moved g s q (reserved g x) s q' /\ g_shut (reserved g x) = g_shut g.
Proof.
  intros G Sh Hp A. inv A; try congruence.
  - assert (lost = []) as -> by auto. cbn [app map] in *. subst kept. eexists. split; [reflexivity|]. split; [|reflexivity]. left. unfold chores. cbn. rewrite leave_unread.
    destruct Hp as [[-> ?]|[n ->]]; cbn; splits; auto; lia.
  - eexists. split; [reflexivity|]. split; [|reflexivity]. unfold moved, chores. cbn. destruct Hp as [[-> W]|[n ->]]; cbn; [right; auto|left; splits; try lia; discriminate].
  - eexists. split; [reflexivity|]. split; [|reflexivity]. unfold moved, chores. cbn. destruct Hp as [[-> W]|[n ->]]; cbn; [right; auto|left; splits; try lia; discriminate].
Qed.

Lemma thread_effect g s q s' q' : inv_ g s q -> g_shut g = SIdle -> explains s q (snd (thread_step g)) s' q' ->
  all_of s' = all_of s /\ (exists p, f_consumed s' = f_consumed s ++ p) /\ (can_move g s -> moved g s q (fst (thread_step g)) s' q') /\
  (can_move g s \/ g_pos (fst (thread_step g)) = g_pos g /\ g_wake (fst (thread_step g)) = g_wake g /\ f_unread s' = f_unread s /\ f_consumed s' = f_consumed s /\ q' = q).
Proof.
  intros H C1 X.
  assert (Hst: g_stop g = false) by (rewrite (h_stop _ _ _ _ _ (i_shut _ _ _ _ _ _ _ _ H)), C1; reflexivity).
  assert (Hal: ends (g_pos g) = true -> False) by (intros He; pose proof (h_exit _ _ _ _ _ (i_shut _ _ _ _ _ _ _ _ H) He fits); congruence).
  assert (Same : forall s0, f_unread s0 = f_unread s -> f_consumed s0 = f_consumed s -> all_of s0 = all_of s /\ (exists p, f_consumed s0 = f_consumed s ++ p))
    by (intros s0 E1 E2; unfold all_of, bytes_consumed; rewrite E1, E2; split; [reflexivity|exists []; rewrite app_nil_r; reflexivity]).
  pose proof (i_gone _ _ _ _ _ _ _ _ H) as G.
  pose proof (h_nlocks _ _ _ _ _ (i_shut _ _ _ _ _ _ _ _ H)) as NL. pose proof (h_nshut _ _ _ _ _ (i_shut _ _ _ _ _ _ _ _ H)) as NS. rewrite C1 in NS. cbn in NS. rewrite NS in NL. cbn in NL.
  pose proof (i_pos _ _ _ _ _ _ _ _ H) as P. unfold can_move.
  assert (Ms : forall g' s0, (chores g' s0 < chores g s)%nat -> g_wake g' = g_wake g -> moved g s q g' s0 q) by (intros g' s0 A B; left; splits; [exact A|congruence|lia]).
  revert X. unfold Aggregate_Model.thread_step. destruct (g_pos g) eqn:Hp; cbn [pos_inv] in *; try (exfalso; apply Hal; reflexivity).
  - unfold on_v. destruct (v_step (g_v g) VRegisterConsumer) as [v' out]. cbn [fst snd]. intros X. apply v_one in X. destruct X as [St ->]. destruct P as (P & _). inv St; [|congruence].
    destruct (Same (Volatile_Spec.set_reader (Some false) s) eq_refl eq_refl) as [A B]. split; [exact A|]. split; [exact B|]. split; [intros _|left; exact Logic.I]. apply Ms; [|reflexivity]. unfold chores. cbn. rewrite Hp. cbn. lia.
  - unfold on_n. destruct (n_step rcrc hcrc (g_n g) NRegisterProducer) as [n' out]. cbn [fst snd]. intros X. apply n_one in X. destruct X as [St ->]. destruct P as (_ & P & _). inv St; [|congruence].
    destruct (Same s eq_refl eq_refl) as [A B]. split; [exact A|]. split; [exact B|]. split; [intros _|left; exact Logic.I]. left. unfold chores. cbn. rewrite Hp. cbn. splits; auto; lia.
  - cbn [fst snd]. intros X. apply none in X. destruct X as [-> ->]. rewrite Hst in *.
    destruct (Same s eq_refl eq_refl) as [A B]. split; [exact A|]. split; [exact B|]. split; [intros _|left; exact Logic.I]. apply Ms; [|reflexivity]. unfold chores. cbn. rewrite Hp. cbn. lia.
  - unfold on_v. destruct (v_step (g_v g) (VStartRead true)) as [v' out]. cbn [fst snd]. intros X. apply v_one in X. destruct X as [St ->]. destruct P as (P & _).
    pose proof (h_vshut _ _ _ _ _ (i_shut _ _ _ _ _ _ _ _ H)) as VS. rewrite C1 in VS. cbn in VS.
    inv St; try (unfold Volatile_Spec.reading in *; congruence).
    + destruct (Same (Volatile_Spec.set_reader (Some true) s) eq_refl eq_refl) as [A B]. split; [exact A|]. split; [exact B|]. split; [intros _|left; congruence]. apply Ms; [|reflexivity]. unfold chores. cbn. rewrite Hp. cbn. lia.
    + destruct (Same s' eq_refl eq_refl) as [A B]. split; [exact A|]. split; [exact B|]. split; [congruence|]. right. rewrite VS. cbn. auto.
  - unfold on_n. destruct (n_step rcrc hcrc (g_n g) (NReserve size true)) as [n' out]. cbn [fst snd]. intros X. apply n_one in X. destruct X as [St ->].
    destruct P as ((Hr & x & u & Hu & Hz) & (P2 & P3 & P4) & P5). destruct (unread_sane vcap _ _ _ _ (i_v _ _ _ _ _ _ _ _ H) Hu) as [Z1 Z2].
    destruct (Same s eq_refl eq_refl) as [A B]. split; [exact A|]. split; [exact B|]. split; [intros _|left; exact Logic.I].
    inv St; try lia; try congruence.
    + match goal with T : attempt _ _ _ _ _ _ _ |- _ => destruct (attempt_effect (g_set_n n' g) s _ _ _ _ _ G NS ltac:(right; exists (Z.of_nat (length (rec_data x))); exact Hp) T) as (r & -> & M & _) end.
      exact M.
    + match goal with A : ~ idle _ |- _ => exfalso; apply A; split; assumption end.
  - destruct (g_wake g) eqn:W.
    + unfold on_n. destruct (n_step rcrc hcrc (g_n g) NResume) as [n' out]. cbn [fst snd]. intros X. apply n_one in X. destruct X as [St ->].
      destruct P as ((_ & x & u & Hu & second & Hw) & _).
      destruct (Same s eq_refl eq_refl) as [A B]. split; [exact A|]. split; [exact B|]. split; [intros _|left; reflexivity].
      inv St; try congruence. match goal with T : q_wait q = Some (?a, ?b, ?c), Q : attempt _ _ ?a ?b ?c _ _ |- _ => rewrite Hw in T; inv T; destruct (attempt_effect (g_set_n n' g) s _ _ _ _ _ G NS ltac:(left; split; [exact Hp|exact W]) Q) as (r & -> & M & _) end.
      exact M.
    + cbn [fst snd]. intros X. apply none in X. destruct X as [-> ->]. destruct (Same s eq_refl eq_refl) as [A B]. split; [exact A|]. split; [exact B|]. split; [discriminate|]. right. auto.
  - unfold on_v. destruct (v_step (g_v g) VPeek) as [v' out]. cbn [fst snd].
    destruct out as [|r|r|[bs|]|r|b]; cbn [fst snd]; try (intros X; apply v_one in X; destruct X as [St _]; inv St; destruct P as ((P & _) & _); unfold Volatile_Spec.reading in *; exfalso; auto; fail).
    unfold on_n. destruct (n_step rcrc hcrc (g_n (g_set_v v' g)) (NWrite 0 bs)) as [n' out]. cbn [fst snd]. intros [V N]. cbn in V, N. inv V. inv N.
    match goal with R : Volatile_Spec.run _ _ [] _ _ |- _ => inv R end. match goal with R : Nonvolatile_Spec.run _ _ _ [] _ _ |- _ => inv R end. match goal with R : Volatile_Spec.step _ _ _ _ _ |- _ => inv R end.
    destruct (Same s' eq_refl eq_refl) as [A B]. split; [exact A|]. split; [exact B|]. split; [intros _|left; exact Logic.I].
    assert (q_unread q' = q_unread q) as E by (match goal with R : nstep _ _ _ _ |- _ => inv R; try reflexivity; destruct (_ && _); reflexivity end).
    left. unfold chores. cbn. rewrite Hp, E. cbn. splits; auto; lia.
  - unfold on_n. destruct (n_step rcrc hcrc (g_n g) NCommit) as [n' out]. cbn [fst snd]. intros X. apply n_one in X. destruct X as [St ->]. destruct P as ((_ & x & u & Hu & i & Hs) & P1 & P2 & P3).
    destruct (Same s eq_refl eq_refl) as [A B]. split; [exact A|]. split; [exact B|]. split; [intros _|left; exact Logic.I]. inv St; try congruence.
    + left. unfold chores. cbn. rewrite Hp, G, app_length. cbn. splits; auto; lia.
    + match goal with A : ~ idle _ |- _ => exfalso; apply A; split; assumption end.
  - unfold on_v. destruct (v_step (g_v g) VFinishRead) as [v' out]. cbn [fst snd]. intros X. apply v_one in X. destruct X as [St ->]. destruct P as ((P & _) & _).
    inv St; try congruence. split; [|split; [eexists; reflexivity|split; [intros _|left; exact Logic.I]]].
    + unfold all_of, bytes_consumed. cbn. match goal with A : f_unread s = _ |- _ => rewrite A end. rewrite map_app, <- app_assoc. reflexivity.
    + apply Ms; [|destruct b; cbn; rewrite ?C1; reflexivity]. unfold chores. rewrite Hp. match goal with A : f_unread s = _ |- _ => rewrite A end. cbn [f_unread length]. destruct b; cbn [g_set_v g_shut]; rewrite ?C1; cbn; lia.
Qed.

(** * The upload task *)
Lemma nothing_kept g s q c out : inv_ g s q -> q_reader q = Cursor c -> q_sync q = true -> nth_error (q_unread q) c = None ->
  snd (g_step g (Consume (NStartRead false))) = [NCall (NStartRead false) out] -> g_wake (fst (g_step g (Consume (NStartRead false)))) = g_wake g.
Proof.
  intros I R Sy Nt _. destruct (i_n _ _ _ _ _ _ _ _ I) as ((U & D & Rl) & _). pose proof (Nonvolatile_Proofs.nr_cons _ _ _ _ _ _ _ Rl) as Cn.
  destruct (Nonvolatile_Proofs.nr_sync _ _ _ _ _ _ _ Rl Sy) as (_ & _ & _ & Cu & _). unfold Nonvolatile_Proofs.ahead in Cu. rewrite R in Cu.
  assert (Len : length U = length (q_unread q)) by (pose proof (Nonvolatile_Proofs.nr_unread _ _ _ _ _ _ _ Rl) as F2; clear - F2; induction F2; cbn; congruence).
  apply nth_error_None in Nt. rewrite skipn_all2 in Cu by lia. cbn in Cu.
  cbn. unfold on_n_signal, n_step. destruct (n_cons (g_n g)) as [[e|qs]|] eqn:Ec; try (destruct e; [destruct Cn as [Cn _]|]); try congruence.
  unfold n_start_read, n_start_read_fuel, loop_fuel. cbn [consumer_start_read]. unfold start_read. cbn [rd_start]. rewrite Cu.
  assert (E : signals (g_n g) (g_n g) (NStartRead false) (NRange (Err Unavailable)) = false) by (cbn; destruct (n_wait (g_n g)); [rewrite Z.ltb_irrefl, andb_false_r|]; reflexivity).
  destruct (c_pending (n_c (g_n g))); cbn; destruct (n_wait (g_n g)); rewrite ?Z.ltb_irrefl, ?andb_false_r, ?orb_false_r; reflexivity.
Qed.

Definition task_effect (d : delivery) (s : fifo) (q : queue) (m : move) (d' : delivery) (s' : fifo) (q' : queue) : Prop :=
  s' = s /\ g_pos (d_g d') = g_pos (d_g d) /\
  ((work (d_w d') (length (q_unread q')) < work (d_w d) (length (q_unread q)))%nat \/ ~ urgent d s q m /\ same_view d s q d' s' q').
Lemma task_moves d s q o m d' c o' s' q' : live d s q o -> allowed m -> m <> World Thread -> d_step d m = Some (d', c, o') -> explains s q c s' q' -> live d' s' q' (o ++ o') ->
  task_effect d s q m d' s' q'.
Proof.
  intros L Al NT St X L'. assert (L0 := L). destruct L0 as ((I & K & T) & (L1 & L2 & L3) & G & F). unfold task_effect.
  assert (NF : ~ In Failed o') by (destruct L' as (_ & _ & _ & H); intros H'; apply H; apply in_or_app; auto).
  destruct m as [a| |l| |l|a| | |]; try contradiction.
  - destruct a; try contradiction.
  - cbn -[Aggregate_Model.g_step] in St. destruct (d_w d) as [w|] eqn:Ew; [discriminate|]. destruct (consume_frame (d_g d) NRegisterCursor) as (F1 & F2 & F3).
    destruct (consume_calls (d_g d) NRegisterCursor eq_refl) as (out & E). destruct (g_step (d_g d) (Consume NRegisterCursor)) as [g1 c1]. cbn [fst snd] in *. subst c1. destruct T as (T & _).
    assert (Q : d' = mkD g1 (Some worker_new) /\ c = [NCall NRegisterCursor out] /\ o' = []).
    { destruct out; try destruct r; inv St; auto; exfalso; apply NF; left; reflexivity. }
    destruct Q as (-> & -> & ->). apply n_one in X. destruct X as [X ->]. split; [reflexivity|]. split; [exact F1|]. left.
    rewrite (unread_kept _ _ _ _ X Logic.I) by (intros b; rewrite T; discriminate). cbn. lia.
  - cbn -[Aggregate_Model.g_step d_take] in St. destruct (d_w d) as [w|] eqn:Ew; [|discriminate]. destruct (w_phase w) eqn:P; try discriminate. injection St as St. unfold d_take in St.
    destruct (cursor_at _ _ _ _ _ L Ew) as (cc & C1 & C2 & C3). rewrite P in C3. subst cc.
    destruct (consume_frame (d_g d) (NStartRead false)) as (F1 & F2 & F3). destruct (consume_calls (d_g d) (NStartRead false) eq_refl) as (out & E).
    pose proof (fun A B => nothing_kept (d_g d) s q _ out I C1 A B E) as NK.
    destruct (g_step (d_g d) (Consume (NStartRead false))) as [g1 c1]. cbn [fst snd] in *. subst c1.
    destruct (consume_frame g1 NPeek) as (F4 & F5 & F6). destruct (consume_calls g1 NPeek eq_refl) as (out2 & E2).
    destruct (g_step g1 (Consume NPeek)) as [g2 c2]. cbn [fst snd] in *. subst c2.
    assert (NR : forall b, q_reader q <> Regular b) by (intros b; rewrite C1; discriminate).
    destruct out as [| |[r|e|]| | | | | |]; try (exfalso; inv St; apply NF; left; reflexivity).
    + destruct out2 as [| | | |[bs|]| | | |]; try (exfalso; inv St; apply NF; left; reflexivity).
      destruct (w_select _ l) as [w' ow] eqn:Es. inv St. cbn in X. apply two_n in X. destruct X as (q1 & X1 & X2 & ->).
      assert (U1 : q_unread q1 = q_unread q) by (eapply unread_kept; eauto; exact Logic.I).
      assert (U2 : q_unread q' = q_unread q1) by (eapply unread_kept; [exact X2|exact Logic.I|]; inv X1; cbn; intros b; rewrite ?C1; try discriminate; congruence).
      assert (Lt : (length (Batching_Model.logs (w_builder w)) < length (q_unread q))%nat) by (inv X1; try congruence; rewrite C1 in *; match goal with A : Cursor _ = Cursor _ |- _ => inv A end; apply nth_error_Some; congruence).
      split; [reflexivity|]. split; [cbn; congruence|]. left. cbn [d_w]. rewrite U2, U1. unfold work. rewrite P.
      assert (Q : (w_phase w' = WUploading (S (length (Batching_Model.logs (w_builder w))))) \/ w_phase w' = WIdle /\ length (Batching_Model.logs (w_builder w')) = S (length (Batching_Model.logs (w_builder w)))).
      { unfold w_select, w_flush, w_arm, Batching_Model.take in Es. cbn in Es. destruct (Batching_Model.limit_reached _ _).
        - inv Es. left. cbn. rewrite app_length. cbn. f_equal. lia.
        - right. injection Es as <- _. match goal with |- context [match ?x with [] => _ | _ :: _ => _ end] => destruct x end; (split; [reflexivity|]; cbn; rewrite app_length; cbn; lia). }
      destruct Q as [->|[-> ->]]; lia.
    + destruct e; try (exfalso; inv St; apply NF; left; reflexivity). inv St. apply n_one in X. destruct X as [X ->]. split; [reflexivity|]. split; [exact F1|]. right.
      inv X; try congruence. rewrite C1 in *. match goal with A : Cursor _ = Cursor _ |- _ => inv A end.
      split; [unfold urgent; rewrite Ew; intros [_ A]; match goal with B : nth_error _ _ = None |- _ => apply nth_error_None in B end; lia|].
      unfold same_view. cbn. splits; auto.
  - cbn in St. destruct (d_w d) as [w|] eqn:Ew; [|discriminate]. destruct (w_phase w) eqn:P; try discriminate. destruct (w_deadline w) eqn:Dl; [|discriminate].
    destruct (cursor_at _ _ _ _ _ L Ew) as (cc & C1 & C2 & C3). rewrite P in C3. subst cc. destruct L3 as (_ & D0 & _). specialize (D0 Dl).
    unfold w_flush, Batching_Model.take in St. inv St. apply none in X. destruct X as [-> ->]. split; [reflexivity|]. split; [reflexivity|]. left. cbn. rewrite P.
    destruct (Batching_Model.logs (w_builder w)); [congruence|]. cbn [length] in *. lia.
  - cbn in St. destruct (d_w d) as [w|] eqn:Ew; [|discriminate]. destruct (w_phase w) as [|n| |] eqn:P; try discriminate. inv St. apply none in X. destruct X as [-> ->].
    destruct (cursor_at _ _ _ _ _ L Ew) as (cc & C1 & C2 & C3). rewrite P in C3. subst cc. destruct L3 as (_ & _ & L3). rewrite P in L3.
    split; [reflexivity|]. split; [reflexivity|]. left. cbn. rewrite P. destruct n; rewrite ?L3; cbn; lia.
  - cbn -[Aggregate_Model.g_step d_release] in St. destruct (d_w d) as [w|] eqn:Ew; [|discriminate]. destruct (w_phase w) as [| |[|n]|] eqn:P; try discriminate. injection St as St. unfold d_release in St.
    destruct (cursor_at _ _ _ _ _ L Ew) as (cc & C1 & C2 & C3). rewrite P in C3. subst cc. destruct L3 as (_ & _ & L3). rewrite P in L3. destruct L3 as [L3 _].
    destruct (consume_frame (d_g d) NAdvance) as (F1 & F2 & F3). destruct (consume_calls (d_g d) NAdvance eq_refl) as (out & E).
    destruct (g_step (d_g d) (Consume NAdvance)) as [g1 c1]. cbn [fst snd] in *. subst c1.
    destruct out as [| | | | |[r|e|]| | |]; try (exfalso; inv St; apply NF; left; reflexivity). inv St. apply n_one in X. destruct X as [X ->]. split; [reflexivity|]. split; [exact F1|]. left.
    inv X. match goal with A : q_unread q = _ |- _ => rewrite A in * end. cbn [Nonvolatile_Spec.set_reader q_unread]. rewrite leave_unread. cbn [d_w work w_phase w_builder]. rewrite P.
    cbn [length] in *. destruct n; cbn [w_phase]; rewrite ?L3; cbn [length]; lia.
Qed.

Lemma urgent_step d s q o m : live d s q o -> urgent d s q m -> exists d' c o', d_step d m = Some (d', c, o').
Proof.
  intros L Ur. destruct m as [a| |l| |l|a| | |].
  1:{ destruct a; try contradiction. cbn -[Aggregate_Model.thread_step]. destruct (thread_step (d_g d)). eauto. }
  all: cbn -[Aggregate_Model.g_step d_take d_release] in *; destruct (d_w d) as [w|] eqn:Ew; try contradiction.
  - destruct (g_step (d_g d) (Consume NRegisterCursor)) as [g c]. repeat match goal with |- context [match ?x with _ => _ end] => destruct x end; eauto.
  - destruct Ur as [-> _]. destruct (d_take rcrc hcrc (d_g d) w l) as [[? ?] ?]. eauto.
  - destruct Ur as [P Ne]. rewrite P. destruct L as (_ & (_ & _ & L3) & _). rewrite Ew in L3. destruct L3 as (_ & _ & L3). rewrite P in L3. rewrite (L3 Ne). eauto.
  - destruct Ur as [n ->]. eauto.
  - destruct Ur as [n P]. rewrite P. destruct L as (_ & (_ & _ & L3) & _). rewrite Ew in L3. destruct L3 as (_ & _ & L3). rewrite P in L3. destruct L3 as [_ L3]. destruct n; [congruence|].
    destruct (d_release rcrc hcrc (d_g d) w n) as [[? ?] ?]. eauto.
Qed.

(** * Both *)
Lemma work_more x u : (match x with Some w => match w_phase w with WIdle => length (Batching_Model.logs (w_builder w)) | WUploading n => n | WReleasing n => n | WEnded => u end | None => u end <= u)%nat ->
  forall v, (v <= u + 1)%nat -> (work x v <= work x u + 4)%nat.
Proof. intros H v Hv. destruct x as [w|]; cbn in *; [destruct (w_phase w)|]; lia. Qed.
Lemma quiet_step d s q o m d' c o' : live d s q o -> allowed m -> d_step d m = Some (d', c, o') ->
  exists s' q', explains s q c s' q' /\ live d' s' q' (o ++ o') /\ all_of s' = all_of s /\
    ((left_ d' s' q' < left_ d s q)%nat \/ ~ urgent d s q m /\ same_view d s q d' s' q') /\ (finished d s q -> finished d' s' q').
Proof.
  intros L Al St.
  destruct (live_step _ _ _ _ m _ _ _ L ltac:(destruct m; try contradiction; try exact Logic.I; destruct a; try contradiction; exact Logic.I)
    ltac:(destruct m; try contradiction; discriminate) ltac:(destruct m; try contradiction; try discriminate; destruct a; try contradiction; discriminate) St) as (s' & q' & X & L').
  exists s', q'. split; [exact X|]. split; [exact L'|].
  assert (D : m = World Thread \/ m <> World Thread) by (destruct m; try (right; discriminate); destruct a; auto; right; discriminate).
  destruct D as [->|NT].
  - cbn -[Aggregate_Model.thread_step] in St. assert (L0 := L). destruct L0 as ((I & K & T) & (L1 & L2 & L3) & G & F).
    pose proof (thread_effect (d_g d) s q s' q' I L1) as Ef. destruct (thread_step (d_g d)) as [g' c'] eqn:Et. inv St. cbn [fst snd] in Ef. destruct (Ef X) as (A & (p & B) & C1 & C2). clear Ef.
    split; [exact A|]. split.
    + destruct C2 as [C2|(D1 & D2 & D3 & D4 & ->)].
      * left. unfold left_. cbn [d_g d_w]. specialize (C1 C2). destruct C1 as [(M1 & M2 & M3)|(M1 & M2 & M3 & M4)]; unfold chores in *.
        -- assert (Wk : (work (d_w d) (length (q_unread q')) <= work (d_w d) (length (q_unread q)) + 4)%nat).
           { apply work_more; [|exact M3]. destruct (d_w d) as [w|] eqn:Ew; [|lia]. destruct (cursor_at _ _ _ _ _ L Ew) as (cc & _ & Q1 & Q2). destruct (w_phase w); try contradiction; lia. }
           destruct (g_wake g') eqn:Wg; [rewrite M2 by reflexivity|]; lia.
        -- rewrite M2, M3, M4. lia.
      * assert (Ur : urgent d s q (World Thread) \/ ~ urgent d s q (World Thread)).
        { unfold urgent. destruct (g_pos (d_g d)); try (right; tauto); try (left; exact Logic.I); [destruct (f_unread s); [right; congruence|left; discriminate]|destruct (g_wake (d_g d)); [left; reflexivity|right; discriminate]]. }
        destruct Ur as [Ur|Ur]; [|right; split; [exact Ur|]; unfold same_view; cbn; splits; auto].
        exfalso. specialize (C1 Ur). destruct C1 as [(M1 & _)|(_ & M2 & M3 & _)]; [unfold chores in M1; rewrite D1, D3 in M1; lia|congruence].
    + intros (N1 & N2 & N3). destruct L' as ((I' & K' & T') & _). pose proof (inv_linked _ _ _ _ _ _ _ _ I') as (_ & _ & _ & Lk). pose proof (inv_linked _ _ _ _ _ _ _ _ I) as (_ & _ & _ & Lk0).
      unfold all_of, bytes_consumed in A. rewrite B, N1, map_app in A. cbn in A. rewrite app_nil_r in A.
      assert (A1 : map rec_data p = [] /\ map rec_data (f_unread s') = []).
      { apply (f_equal (@length _)) in A. rewrite !app_length in A. split; apply length_zero_iff_nil; lia. }
      destruct A1 as [A1 A2]. apply map_eq_nil in A1, A2. subst p. rewrite app_nil_r in B.
      destruct Lk as [Lk|(x & u & E & _)]; [|rewrite A2 in E; discriminate]. destruct Lk0 as [Lk0|(x & u & E & _)]; [|rewrite N1 in E; discriminate].
      assert (Bw : bytes_written q' = bytes_written q) by (rewrite Lk, Lk0; unfold bytes_consumed; rewrite B; reflexivity).
      assert (Sg : removed q' = removed q /\ exists new, data q' = data q ++ new).
      { destruct (world_ops rcrc hcrc (d_g d) Thread ltac:(discriminate)) as [[_ E]|E].
        - exfalso. pose proof (h_exit _ _ _ _ _ (i_shut _ _ _ _ _ _ _ _ I)) as He. rewrite E in He. specialize (He eq_refl fits). rewrite (h_stop _ _ _ _ _ (i_shut _ _ _ _ _ _ _ _ I)), L1 in He. discriminate.
        - change (g_step (d_g d) Thread) with (thread_step (d_g d)) in E. rewrite Et in E. cbn [snd] in E. destruct X as [_ X]. destruct (writer_run rcrc k block _ _ _ _ X E (i_gone _ _ _ _ _ _ _ _ I)) as (_ & S2 & _ & S3). auto. }
      destruct Sg as (S2 & new & S3). rewrite !split_written in Bw by (eapply i_gone; eassumption). rewrite S2, S3 in Bw. apply app_inv_head in Bw. assert (new = []) as -> by (destruct new; [reflexivity|]; apply (f_equal (@length _)) in Bw; rewrite app_length in Bw; cbn in Bw; lia).
      unfold data in S3. rewrite N2 in S3. cbn in S3. apply map_eq_nil in S3. exact (conj A2 (conj S3 N3)).
  - destruct (task_moves _ _ _ _ _ _ _ _ _ _ L Al NT St X L') as (-> & E1 & E2). split; [reflexivity|]. split.
    + destruct E2 as [E2|E2]; [left|right; exact E2]. unfold left_. rewrite E1. destruct (g_wake (d_g d')), (g_wake (d_g d)); lia.
    + intros (N1 & N2 & w & N3 & N4 & N5). destruct E2 as [E2|(_ & E2)].
      * exfalso. rewrite N2, N3 in E2. cbn in E2. rewrite N4, N5 in E2. cbn in E2. lia.
      * destruct E2 as (V1 & _ & _ & V4 & _ & V6 & _). split; [congruence|]. split; [congruence|]. exists w. splits; congruence.
Qed.

(** * Rounds *)
Local Notation attempts := (attempts rcrc hcrc).
Lemma view_left d s q d' s' q' : same_view d s q d' s' q' -> left_ d' s' q' = left_ d s q.
Proof. intros (A & B & C & D & _ & E & _). unfold left_. rewrite A, B, C, D, E. reflexivity. Qed.
Lemma view_urgent d s q d' s' q' m : same_view d s q d' s' q' -> urgent d' s' q' m <-> urgent d s q m.
Proof. intros (A & B & C & D & _ & E & _). unfold urgent. rewrite A, B, C, D, E. tauto. Qed.
Lemma view_trans d s q d1 s1 q1 d2 s2 q2 : same_view d s q d1 s1 q1 -> same_view d1 s1 q1 d2 s2 q2 -> same_view d s q d2 s2 q2.
Proof. unfold same_view. intuition congruence. Qed.

Lemma attempts_live ms : forall d s q o d' c o', Forall allowed ms -> live d s q o -> attempts d ms = (d', c, o') ->
  exists s' q', explains s q c s' q' /\ live d' s' q' (o ++ o') /\ all_of s' = all_of s /\ (finished d s q -> finished d' s' q') /\
    ((left_ d' s' q' < left_ d s q)%nat \/ same_view d s q d' s' q' /\ Forall (fun m => ~ urgent d s q m) ms).
Proof.
  induction ms as [|m ms IH]; intros d s q o d' c o' F L E; cbn in E.
  - inv E. exists s, q. rewrite app_nil_r. split; [apply explains_nil|]. split; [exact L|]. split; [reflexivity|]. split; [auto|]. right. split; [unfold same_view; splits; reflexivity|constructor].
  - apply Forall_cons_iff in F as [Fm F]. destruct (d_step d m) as [[[d1 c1] o1]|] eqn:St.
    + destruct (attempts d1 ms) as [[d2 c2] o2] eqn:Ea. inv E. destruct (quiet_step _ _ _ _ _ _ _ _ L Fm St) as (s1 & q1 & X1 & L1 & A1 & M1 & F1).
      destruct (IH _ _ _ _ _ _ _ F L1 Ea) as (s2 & q2 & X2 & L2 & A2 & F2 & M2). exists s2, q2. rewrite app_assoc. split; [eapply explains_app; eassumption|]. split; [exact L2|]. split; [congruence|]. split; [auto|].
      destruct M1 as [M1|[M1 V1]]; destruct M2 as [M2|[V2 M2]].
      * left. lia.
      * left. rewrite (view_left _ _ _ _ _ _ V2). exact M1.
      * left. rewrite <- (view_left _ _ _ _ _ _ V1). exact M2.
      * right. split; [eapply view_trans; eassumption|]. constructor; [exact M1|]. eapply Forall_impl; [|exact M2]. intros m' H. rewrite <- (view_urgent _ _ _ _ _ _ _ V1). exact H.
    + destruct (IH _ _ _ _ _ _ _ F L E) as (s2 & q2 & X2 & L2 & A2 & F2 & M2). exists s2, q2. split; [exact X2|]. split; [exact L2|]. split; [exact A2|]. split; [exact F2|].
      destruct M2 as [M2|[V2 M2]]; [left; exact M2|right]. split; [exact V2|]. constructor; [|exact M2]. intros Ur. destruct (urgent_step _ _ _ _ _ L Ur) as (? & ? & ? & Q). congruence.
Qed.

Lemma finished_dec d s q : finished d s q \/ ~ finished d s q.
Proof.
  unfold finished. destruct (f_unread s); [|right; intros (A & _); discriminate]. destruct (q_unread q); [|right; intros (_ & A & _); discriminate].
  destruct (d_w d) as [w|]; [|right; intros (_ & _ & w & A & _); discriminate]. destruct (w_phase w) eqn:P; try (right; intros (_ & _ & w0 & A & B & _); inv A; congruence).
  destruct (Batching_Model.logs (w_builder w)) eqn:Lg; [left; eauto 8|right; intros (_ & _ & w0 & A & _ & B); inv A; congruence].
Qed.
Lemma round_live r d s q o d' c o' : Delivery_Spec.round r -> live d s q o -> attempts d r = (d', c, o') ->
  exists s' q', explains s q c s' q' /\ live d' s' q' (o ++ o') /\ all_of s' = all_of s /\ (finished d s q -> finished d' s' q') /\ (finished d' s' q' \/ (left_ d' s' q' < left_ d s q)%nat).
Proof.
  intros (F & R1 & R2 & (l & R3) & R4 & (a & R5) & R6) L E. destruct (attempts_live _ _ _ _ _ _ _ _ F L E) as (s' & q' & X & L' & A & Fi & M). exists s', q'. split; [exact X|]. split; [exact L'|]. split; [exact A|]. split; [exact Fi|].
  destruct (finished_dec d s q) as [D|D]; [left; auto|right]. destruct M as [M|[_ M]]; [exact M|]. exfalso. rewrite Forall_forall in M.
  destruct (some_urgent _ _ _ _ L D) as [U|[U|[U|[U|[U|U]]]]]; [exact (M _ R3 (U l))|exact (M _ R4 U)|exact (M _ R5 (U a))|exact (M _ R6 U)|exact (M _ R2 U)|exact (M _ R1 U)].
Qed.
Lemma attempts_app a : forall d b d1 c1 o1 d2 c2 o2, attempts d a = (d1, c1, o1) -> attempts d1 b = (d2, c2, o2) -> attempts d (a ++ b) = (d2, c1 ++ c2, o1 ++ o2).
Proof.
  induction a as [|m a IH]; intros d b d1 c1 o1 d2 c2 o2 E1 E2; cbn in *; [inv E1; exact E2|]. destruct (d_step d m) as [[[d3 c3] o3]|].
  - destruct (attempts d3 a) as [[d4 c4] o4] eqn:E3. inv E1. rewrite (IH _ _ _ _ _ _ _ _ E3 E2), !app_assoc. reflexivity.
  - eapply IH; eassumption.
Qed.
Lemma rounds_live rs : forall d s q o, Forall Delivery_Spec.round rs -> live d s q o -> (finished d s q \/ (left_ d s q < length rs)%nat) ->
  exists d' c o' s' q', attempts d (concat rs) = (d', c, o') /\ explains s q c s' q' /\ live d' s' q' (o ++ o') /\ all_of s' = all_of s /\ finished d' s' q'.
Proof.
  induction rs as [|r rs IH]; intros d s q o F L H; cbn.
  - destruct H as [H|H]; [|cbn [length] in H; lia]. exists d, [], [], s, q. rewrite app_nil_r. splits; auto. apply explains_nil.
  - apply Forall_cons_iff in F as [Fr F]. destruct (attempts d r) as [[d1 c1] o1] eqn:E1. destruct (round_live _ _ _ _ _ _ _ _ Fr L E1) as (s1 & q1 & X1 & L1 & A1 & F1 & M1).
    assert (M : finished d1 s1 q1 \/ (left_ d1 s1 q1 < length rs)%nat).
    { destruct M1 as [M1|M1]; [left; exact M1|]. destruct H as [H|H]; [left; auto|cbn [length] in H; right; lia]. }
    destruct (IH _ _ _ _ F L1 M) as (d2 & c2 & o2 & s2 & q2 & E2 & X2 & L2 & A2 & F2). exists d2, (c1 ++ c2), (o1 ++ o2), s2, q2. rewrite app_assoc.
    split; [eapply attempts_app; eassumption|]. split; [eapply explains_app; eassumption|]. split; [exact L2|]. split; [congruence|exact F2].
Qed.
End P.

(** * From the beginning *)
Section Q.
Variable rcrc : list Z -> Z.
Variable hcrc : Z -> option Z -> option Z -> option Z -> Z.
Local Notation d_run := (d_run rcrc hcrc).
Lemma run_live vcap k ms : k_hold k = true -> vcap < 4294967296 -> k_ow k = OBlock -> forall d s q o d' c o', live rcrc hcrc vcap k d s q o -> Forall move_ok ms -> ~ In Stop ms -> ~ In (World Shutdown) ms -> d_run d ms = Some (d', c, o') ->
  exists s' q', explains rcrc vcap k s q c s' q' /\ live rcrc hcrc vcap k d' s' q' (o ++ o').
Proof.
  intros hold small block. induction ms as [|m ms IH]; intros d s q o d' c o' L F N1 N2 R; cbn in R.
  - inv R. exists s, q. rewrite app_nil_r. split; [apply explains_nil|exact L].
  - apply Forall_cons_iff in F as [Fm F]. destruct (d_step rcrc hcrc d m) as [[[d1 c1] o1]|] eqn:St; [|discriminate]. destruct (d_run d1 ms) as [[[d2 c2] o2]|] eqn:Er; [|discriminate]. inv R.
    destruct (live_step rcrc hcrc vcap k hold small block d s q o m d1 c1 o1 L Fm) as (s1 & q1 & X1 & L1); [intros ->; apply N1; left; reflexivity|intros ->; apply N2; left; reflexivity|exact St|].
    destruct (IH d1 s1 q1 (o ++ o1) d' c2 o2 L1 F) as (s2 & q2 & X2 & L2); [intros H; apply N1; right; exact H|intros H; apply N2; right; exact H|exact Er|].
    exists s2, q2. rewrite app_assoc. split; [eapply explains_app; eassumption|exact L2].
Qed.

Lemma all_delivered : forall mem vsize nsize check st g ms d c o, 0 <= vsize -> nsize - header_size < 2147483648 ->
  g_new hcrc None mem vsize nsize OBlock check st = Ok g -> (check = true -> vsize + 4 <= nsize - header_size) ->
  Forall move_ok ms -> ~ In Stop ms -> ~ In (World Shutdown) ms -> d_run (d_new g) ms = Some (d, c, o) ->
  exists s q n, explains rcrc vsize (cfg nsize OBlock check) fifo_init (queue_init (cfg nsize OBlock check)) c s q /\
    forall rs, Forall Delivery_Spec.round rs -> (n <= length rs)%nat -> exists d' c' o' s' q', attempts rcrc hcrc d (concat rs) = (d', c', o') /\
      explains rcrc vsize (cfg nsize OBlock check) s q c' s' q' /\ f_unread s' = [] /\ q_unread q' = [] /\ collecting d' = [] /\ to_release d' = 0%nat /\
      concat (answered None (o ++ o')) = bytes_consumed s ++ map rec_data (f_unread s).
Proof.
  intros mem vsize nsize check st g ms d c o H1 H2 E Hf F N1 N2 R. destruct (dinv_new rcrc hcrc _ _ _ _ _ _ H1 H2 E) as [I0 Sm].
  assert (Ft: vsize + (k_extra (cfg nsize OBlock check) - 4) <= k_cap (cfg nsize OBlock check)).
  { unfold g_new in E. destruct (_ || _) eqn:G; [discriminate|]. apply orb_false_elim in G. destruct G as [G1 G2]. apply Z.ltb_ge in G1, G2.
    unfold k_extra. cbn. destruct check; [specialize (Hf eq_refl)|]; lia. }
  assert (L0 : live rcrc hcrc vsize (cfg nsize OBlock check) (d_new g) fifo_init (queue_init (cfg nsize OBlock check)) []).
  { split; [exact I0|]. split; [|split; intros []]. unfold g_new in E. destruct (_ || _); [discriminate|]. destruct (n_open _ _ _ _ _ _ _); inv E. split; [reflexivity|]. split; [discriminate|exact Logic.I]. }
  destruct (run_live vsize (cfg nsize OBlock check) ms eq_refl Sm eq_refl _ _ _ _ _ _ _ L0 F N1 N2 R) as (s & q & X & L). cbn [app] in L.
  exists s, q, (S (left_ d s q)). split; [exact X|]. intros rs Fr Le.
  destruct (rounds_live rcrc hcrc vsize (cfg nsize OBlock check) eq_refl Sm eq_refl Ft rs d s q o Fr L (or_intror Le)) as (d' & c' & o' & s' & q' & Ea & X' & L' & A & Fi).
  exists d', c', o', s', q'. destruct Fi as (Fi1 & Fi2 & w & W1 & W2 & W3). split; [exact Ea|]. split; [exact X'|]. split; [exact Fi1|]. split; [exact Fi2|].
  split; [unfold collecting; rewrite W1; exact W3|]. split; [unfold to_release; rewrite W1, W2; reflexivity|].
  destruct L' as (I' & _ & NG & NF). destruct (dinv_spec rcrc hcrc _ _ _ _ _ _ I' NF) as (Lk & B & _ & _ & _ & T & _). destruct (T NG) as (rest & T1 & T2).
  unfold to_release in T2. rewrite W1, W2 in T2. apply length_zero_iff_nil in T2. subst rest. rewrite app_nil_r in T1. rewrite Fi2 in B. cbn in B. rewrite app_nil_r in B.
  rewrite T1, <- B. destruct Lk as (_ & _ & _ & [Lk|(x & u & Eu & _)]); [|rewrite Fi1 in Eu; discriminate]. rewrite Lk. change (bytes_consumed s ++ map rec_data (f_unread s)) with (all_of s). rewrite <- A.
  unfold all_of. rewrite Fi1, app_nil_r. reflexivity.
Qed.
End Q.

(** * A flush thread that is over *)
Definition finishes (c : call) : bool := match c with VCall VFinishRead _ => true | _ => false end.
Lemma unfinished_run vcap l : forall s outs s', Volatile_Spec.run vcap s l outs s' -> ~ In VFinishRead l -> f_consumed s' = f_consumed s.
Proof.
  induction l as [|o l IH]; intros s outs s' R N; inv R; [reflexivity|]. rewrite (IH _ _ _ ltac:(eassumption)) by (intros H; apply N; right; exact H).
  match goal with H : Volatile_Spec.step _ _ _ _ _ |- _ => inv H end; try reflexivity. exfalso. apply N. left. reflexivity.
Qed.
Lemma unfinished_calls c : (forall x, In x c -> finishes x = false) -> ~ In VFinishRead (vops c).
Proof.
  intros H Hin. unfold vops in Hin. apply in_flat_map in Hin as (x & Hx & Hi). specialize (H x Hx). destruct x as [o out|o out]; cbn in Hi; [|contradiction]. destruct Hi as [->|[]]. discriminate.
Qed.
Lemma over_step rcrc hcrc d m d' c o : g_pos (d_g d) = FDone -> d_step rcrc hcrc d m = Some (d', c, o) -> g_pos (d_g d') = FDone /\ forall x, In x c -> finishes x = false.
Proof.
  intros H St. assert (A : forall g a, g_pos g = FDone -> g_pos (fst (g_step rcrc hcrc g a)) = FDone /\ forall x, In x (snd (g_step rcrc hcrc g a)) -> finishes x = false).
  { intros g a Hg. destruct (done_step rcrc hcrc g a Hg) as (A & B & _). split; [exact A|]. intros x Hx. specialize (B x Hx). destruct x as [o1 out|o1 out]; [destruct o1; try reflexivity; contradiction|reflexivity]. }
  assert (W : forall a, (let (g, c0) := g_step rcrc hcrc (d_g d) a in Some (mkD g (d_w d), c0, [])) = Some (d', c, o) -> g_pos (d_g d') = FDone /\ forall x, In x c -> finishes x = false).
  { intros a E. destruct (A (d_g d) a H) as [A1 A2]. destruct (g_step rcrc hcrc (d_g d) a). inv E. auto. }
  destruct m as [a| |l| |l|a| | |].
  1:{ destruct a; [exact (W (Produce o0) St)|discriminate|exact (W Flush St)|exact (W Lock St)|exact (W Unlock St)|exact (W Shutdown St)|exact (W Thread St)]. }
  all: cbn -[g_step d_take d_release] in St; destruct (d_w d) as [w|]; try discriminate.
  - destruct (A (d_g d) (Consume NRegisterCursor) H) as [A1 A2]. destruct (g_step rcrc hcrc (d_g d) (Consume NRegisterCursor)) as [g1 c1]. cbn [fst snd] in *.
    repeat match type of St with context [match ?x with _ => _ end] => destruct x end; inv St; auto.
  - destruct (w_phase w); try discriminate. injection St as St. unfold d_take in St. destruct (A (d_g d) (Consume (NStartRead false)) H) as [A1 A2].
    destruct (g_step rcrc hcrc (d_g d) (Consume (NStartRead false))) as [g1 c1]. cbn [fst snd] in *. destruct (A g1 (Consume NPeek) A1) as [B1 B2]. destruct (g_step rcrc hcrc g1 (Consume NPeek)) as [g2 c2]. cbn [fst snd] in *.
    assert (AB : forall x, In x (c1 ++ c2) -> finishes x = false) by (intros x Hx; apply in_app_or in Hx as [?|?]; auto).
    assert (Q : (d_g d' = g1 \/ d_g d' = g2) /\ (c = c1 \/ c = c1 ++ c2)).
    { unfold w_select, w_flush, Batching_Model.take in St.
      repeat match type of St with context [match ?x with _ => _ end] => match x with context [match _ with _ => _ end] => fail 1 | _ => destruct x end end; inv St; cbn; auto. }
    destruct Q as [[->| ->] [->| ->]]; auto.
  - destruct (w_phase w); try discriminate. destruct (w_deadline w); [|discriminate]. unfold w_flush, Batching_Model.take in St. inv St. split; [exact H|intros x []].
  - destruct (w_phase w); try discriminate. destruct (w_select w l). inv St. split; [exact H|intros x []].
  - destruct (w_phase w); inv St. split; [exact H|intros x []].
  - destruct (w_phase w) as [| |[|n]|]; try discriminate. injection St as St. unfold d_release in St. destruct (A (d_g d) (Consume NAdvance) H) as [A1 A2].
    destruct (g_step rcrc hcrc (d_g d) (Consume NAdvance)) as [g1 c1]. cbn [fst snd] in *. repeat match type of St with context [match ?x with _ => _ end] => destruct x end; inv St; auto.
  - inv St. split; [exact H|intros x []].
  - destruct (w_stop w); [|discriminate]. destruct (w_phase w); inv St; (split; [exact H|intros x []]).
Qed.
Lemma over_run rcrc hcrc ms : forall d d' c o, g_pos (d_g d) = FDone -> d_run rcrc hcrc d ms = Some (d', c, o) -> g_pos (d_g d') = FDone /\ forall x, In x c -> finishes x = false.
Proof.
  induction ms as [|m ms IH]; intros d d' c o H R; cbn in R; [inv R; split; [exact H|intros x []]|].
  destruct (d_step rcrc hcrc d m) as [[[d1 c1] o1]|] eqn:St; [|discriminate]. destruct (d_run rcrc hcrc d1 ms) as [[[d2 c2] o2]|] eqn:Er; [|discriminate]. inv R.
  destruct (over_step _ _ _ _ _ _ _ H St) as [A B]. destruct (IH _ _ _ _ A Er) as [A2 B2]. split; [exact A2|]. intros x Hx. apply in_app_or in Hx as [?|?]; auto.
Qed.
Lemma d_run_app rcrc hcrc a : forall d b d1 c1 o1 d2 c2 o2, d_run rcrc hcrc d a = Some (d1, c1, o1) -> d_run rcrc hcrc d1 b = Some (d2, c2, o2) -> d_run rcrc hcrc d (a ++ b) = Some (d2, c1 ++ c2, o1 ++ o2).
Proof.
  induction a as [|m a IH]; intros d b d1 c1 o1 d2 c2 o2 E1 E2; cbn in *; [inv E1; exact E2|]. destruct (d_step rcrc hcrc d m) as [[[d3 c3] o3]|]; [|discriminate].
  destruct (d_run rcrc hcrc d3 a) as [[[d4 c4] o4]|] eqn:E3; [|discriminate]. inv E1. rewrite (IH _ _ _ _ _ _ _ _ E3 E2), !app_assoc. reflexivity.
Qed.

(** Nothing is sent, whatever happens later. *)
Lemma never_sent rcrc hcrc : forall mem vsize nsize check st g ms d c o, 0 <= vsize -> nsize - header_size < 2147483648 ->
  g_new hcrc None mem vsize nsize OBlock check st = Ok g -> Forall move_ok ms -> d_run rcrc hcrc (d_new g) ms = Some (d, c, o) ->
  g_pos (d_g d) = FDone -> forallb (fun x => negb (finishes x)) c = true ->
  forall ms' d' c' o', Forall move_ok ms' -> d_run rcrc hcrc d ms' = Some (d', c', o') -> sent (o ++ o') = [].
Proof.
  intros mem vsize nsize check st g ms d c o H1 H2 E F R P N ms' d' c' o' F' R'.
  destruct (dinv_new rcrc hcrc _ _ _ _ _ _ H1 H2 E) as [I0 Sm]. pose proof (d_run_app rcrc hcrc _ _ _ _ _ _ _ _ _ R R') as R2. destruct (over_run _ _ _ _ _ _ _ P R') as [P' N'].
  destruct (run_dinv rcrc hcrc vsize (cfg nsize OBlock check) eq_refl Sm eq_refl (ms ++ ms') _ _ _ _ _ _ _ I0 ltac:(apply Forall_app; auto) R2 (fun H => H)) as (s & q & X & I & NF). cbn [app] in *.
  destruct (dinv_spec rcrc hcrc _ _ _ _ _ _ I NF) as (_ & _ & _ & (rest & W) & (bs & cur & _ & B2 & _ & B4) & _).
  destruct I as (I & _). pose proof (i_pos _ _ _ _ _ _ _ _ I) as Q. rewrite P' in Q. cbn [pos_inv] in Q. destruct Q as (_ & _ & _ & Q). unfold same in Q.
  destruct X as [X _]. assert (Cs : f_consumed s = []).
  { change ([] : list rec) with (f_consumed fifo_init). eapply unfinished_run; [exact X|]. apply unfinished_calls. intros x Hx. apply in_app_or in Hx as [Hx|Hx]; [|auto].
    rewrite forallb_forall in N. specialize (N x Hx). destruct (finishes x); [discriminate|reflexivity]. }
  unfold bytes_consumed in Q. rewrite Cs in Q. rewrite Q in W. cbn in W. rewrite B2 in *. destruct bs as [|b bs]; [reflexivity|]. inv B4. match goal with H : b <> [] /\ _ |- _ => destruct H as [H _]; destruct b; [congruence|discriminate] end.
Qed.
