(** C139: being offline does not stop logging. C140: shutting down ends the SDK and releases its callers. C141: trouble with the backend does not end logging. *)
From Verif Require Import Base Parts_Model Parts_Spec Parts_Proofs.

(** * C139 *)
(** Whatever happened before, short of a shutdown and of a part that failed: unless the statistics wait for room in the channel of a connection that is not established or waits for the log
    loop itself, the SDK can by its own moves take all calls accepted so far, in order, and answer all callers that wait, in order. Nothing has to come from the network. *)
Theorem C139_settles_partial : forall cap mobile ms p es, ~ In Shutdown ms -> ~ In Fault ms -> move_run cap (parts_new mobile) ms = Some (p, es) -> jammed ms = false -> settles cap p es.
Proof. exact settle. Qed.
Print Assumptions C139_settles_partial.
(** Logs that do not block and changes of fields need only the log loop: after any history with no other calls, whatever the network did, the loop takes one call with each turn, until all
    are taken. *)
Theorem C139_nonblocking : forall cap mobile ms p es, ~ In Shutdown ms -> ~ In Fault ms -> Forall quiet ms -> move_run cap (parts_new mobile) ms = Some (p, es) ->
  exists p' es', move_run cap p (repeat (TakeCall Buffers) (length (accepted es) - length (taken es))) = Some (p', es') /\ settled (es ++ es').
Proof. exact settle_calm. Qed.
Print Assumptions C139_nonblocking.
(** In the excluded case the SDK stands still once a call needs the statistics: until the connection is established no call is taken and no caller is answered, whatever else happens; and
    if the connection waits for the log loop, a connection does not help, and neither does a shutdown. *)
Theorem C139_stuck : forall cap mobile ms p es, ~ In Shutdown ms -> ~ In Fault ms -> move_run cap (parts_new mobile) ms = Some (p, es) -> jammed ms = true ->
  (exists c ws, p_loop p = Waits c (ForStats :: ws)) ->
  frozen cap (fun m => m = Connect \/ m = Shutdown \/ m = Fault) p /\ (cycle ms = true -> frozen cap (fun m => m = Fault) p).
Proof. exact stuck. Qed.
Print Assumptions C139_stuck.

(** * Concrete histories *)
Definition log (n : nat) : move := Call (mkCall n (Log false)).
Definition crash (n : nat) : move := Call (mkCall n (Log true)).
Definition save (n : nat) : move := Call (mkCall n (Flush true)).
Notation runs ms := (move_run 3 (parts_new true) ms).
(** A day: the configuration of the last run is taken from its file; the device is offline; an upload of logs waits in the channel; a log that blocks arrives. *)
Definition day : list move := [ConfigIn; HandOver; TakeConfig; log 1; TakeCall Buffers; OtherPut; crash 2; log 3; TakeCall Buffers; BuffersDone true; save 4].
Definition no_stop (ms : list move) : bool := forallb (fun m => match m with Shutdown | Fault => false | _ => true end) ms.
Lemma no_stop_spec ms : no_stop ms = true -> ~ In Shutdown ms /\ ~ In Fault ms.
Proof. unfold no_stop. rewrite forallb_forall. intros H. split; intros K; specialize (H _ K); discriminate. Qed.
Definition ids (x : option (parts * list event)) : option (list nat * list nat * list nat) :=
  match x with Some (_, es) => Some (map c_id (accepted es), map c_id (taken es), map c_id (returned es)) | None => None end.
Example C139_case : no_stop day = true /\ ids (runs day) = Some ([1; 2; 3; 4], [1; 2], []) /\ jammed day = false /\
  ids (runs (day ++ [StatsDone; TakeCall Buffers; TakeCall Buffers; StatsDone; BuffersDone true])) = Some ([1; 2; 3; 4], [1; 2; 3; 4], [2; 4]) /\
  (let quiet_day := [ConfigIn; HandOver; log 1; OtherPut; Upload; log 2; Kill; TakeConfig; log 3; log 4] in
   no_stop quiet_day = true /\ Forall quiet quiet_day /\ jammed quiet_day = true /\ ids (runs quiet_day) = Some ([1; 2; 3], [], []) /\
   ids (runs (quiet_day ++ [TakeCall Buffers; TakeCall Buffers; TakeCall Buffers])) = Some ([1; 2; 3], [1; 2; 3], [])).
Proof.
  split; [reflexivity|]. split; [vm_compute; reflexivity|]. split; [reflexivity|]. split; [vm_compute; reflexivity|]. split; [reflexivity|]. split; [repeat constructor|]. split; [reflexivity|].
  split; vm_compute; reflexivity.
Qed.

(** A client that was told to stop connecting (its API key was refused): an upload is in the channel, the statistics are to be uploaded, and the application crashes. The SDK stands still. *)
Definition killed : list move := [ConfigIn; HandOver; TakeConfig; Kill; OtherPut; Upload; crash 1; TakeCall NoBuffer].
(** A connection that works: an upload is in the channel and the statistics are to be uploaded when a configuration is handed over and another one comes. *)
Definition connected : list move := [Connect; ConfigIn; HandOver; TakeConfig; OtherPut; Upload; crash 1; TakeCall NoBuffer; ConfigIn; HandOver; ConfigIn].
Definition loop_of (x : option (parts * list event)) : option loop := match x with Some (p, _) => Some (p_loop p) | None => None end.
Lemma stands ms : no_stop ms = true -> jammed ms = true -> loop_of (runs ms) = Some (Waits (mkCall 1 (Log true)) [ForStats]) ->
  exists p es, runs ms = Some (p, es) /\ frozen 3 (fun m => m = Connect \/ m = Shutdown \/ m = Fault) p /\ (cycle ms = true -> frozen 3 (fun m => m = Fault) p).
Proof.
  intros N J L. destruct (no_stop_spec _ N) as [N1 N2]. destruct (move_run 3 (parts_new true) ms) as [[p es]|] eqn:R; [|discriminate]. cbn in L. exists p, es. split; [reflexivity|].
  apply (C139_stuck 3 true ms p es N1 N2 R J). injection L as L. rewrite L. eauto.
Qed.
(** In the first history no call is ever taken or answered again before a shutdown: a killed client does not connect. *)
Lemma killed_stays cap ms : forall p p' es, p_conn p = Killed -> ~ In Shutdown ms -> ~ In Fault ms -> p_stop p = false -> p_loop p <> LEnded -> move_run cap p ms = Some (p', es) -> ~ In Connect ms.
Proof.
  induction ms as [|m ms IH]; intros p p' es K N1 N2 T L R; [intros []|]. cbn in R. destruct (move_step cap p m) as [[p1 e1]|] eqn:S; [|discriminate].
  destruct (move_run cap p1 ms) as [[p2 e2]|] eqn:R2; [|discriminate].
  destruct (step_alive cap p m p1 e1 (fun H => N2 (or_introl H)) (fun H => N1 (or_introl H)) T L ltac:(congruence) S) as (T1 & L1 & _).
  assert (K1 : m <> Connect /\ p_conn p1 = Killed).
  { split; [intros ->; cbn in S; rewrite K in S; discriminate|].
    destruct m as [c|f| |b| | | | |more| | | | | | | | | | |]; cbn [move_step] in S; rewrite ?K, ?T in S; try discriminate.
    - destruct (p_loop p); try destruct (length (p_queue p) <? cap)%nat; inv S; exact K.
    - destruct (p_loop p); try discriminate. destruct (p_queue p) as [|c q]; [discriminate|]. destruct (enter (with_queue p q) c (waits_of (p_init p) c f)) as [q1 e] eqn:E. inv S. apply enter_rest in E as (_ & _ & E & _). cbn in E. congruence.
    - destruct (p_loop p); try discriminate. destruct (p_conf p); inv S; exact K.
    - destruct (p_loop p) as [|c [|[] ws]|]; try discriminate. destruct b; injection S as S; apply enter_rest in S as (_ & _ & E & _); cbn in E; congruence.
    - destruct (p_flusher p); try discriminate. destruct (p_ask p); [|discriminate]. destruct (p_loop p) as [|c [|[] ws]|]; try discriminate. injection S as S. apply enter_rest in S as (_ & _ & E & _); congruence.
    - destruct (p_flusher p); try discriminate. destruct (p_pending p); inv S; exact K.
    - destruct (p_flusher p); try discriminate. destruct (p_up p); inv S; exact K.
    - destruct (p_up p); inv S; exact K.
    - destruct (p_flusher p); try discriminate. destruct (p_pending p); try discriminate. inv S; exact K.
    - exfalso. apply N1. left. reflexivity.
    - exfalso. apply N2. left. reflexivity. }
  destruct K1 as [K0 K1]. intros [H|H]; [congruence|]. exact (IH _ _ _ K1 (fun H => N1 (or_intror H)) (fun H => N2 (or_intror H)) T1 L1 R2 H).
Qed.
Theorem C139_refuted : exists p es, ~ In Shutdown killed /\ ~ In Fault killed /\ move_run 3 (parts_new true) killed = Some (p, es) /\ ~ settles 3 p es /\
  frozen 3 (fun m => m = Shutdown \/ m = Fault) p.
Proof.
  destruct (stands killed eq_refl eq_refl ltac:(vm_compute; reflexivity)) as (p & es & R & Fr & _). exists p, es. destruct (no_stop_spec killed eq_refl) as [N1 N2]. split; [exact N1|]. split; [exact N2|]. split; [exact R|].
  assert (E : ids (runs killed) = Some ([1], [1], [])) by (vm_compute; reflexivity). rewrite R in E. injection E as E1 E2 E3. split.
  - intros (ms & p' & es' & Fo & R' & _ & S). assert (Fb : Forall (fun m => ~ (m = Connect \/ m = Shutdown \/ m = Fault)) ms).
    { eapply Forall_impl; [|exact Fo]. intros m O [H|[H|H]]; subst m; exact O. }
    destruct (Fr _ _ _ Fb R') as (_ & B & _). rewrite returned_app, B, app_nil_r in S. apply (f_equal (map c_id)) in S. rewrite E3 in S.
    assert (W : In (mkCall 1 (Log true)) (accepted es)).
    { assert (H : exists c, accepted es = [c] /\ c = mkCall 1 (Log true)) by (assert (X : match runs killed with Some (_, es) => accepted es | None => [] end = [mkCall 1 (Log true)]) by (vm_compute; reflexivity); rewrite R in X; eauto).
      destruct H as (c & -> & ->). left. reflexivity. }
    destruct (filter waiting (accepted (es ++ es'))) eqn:Ef; [|discriminate]. assert (I : In (mkCall 1 (Log true)) (filter waiting (accepted (es ++ es')))) by (apply filter_In; split; [rewrite accepted_app; apply in_or_app; left; exact W|reflexivity]).
    rewrite Ef in I. destruct I.
  - intros ms' p' es' Fm R'. assert (A : ~ In Shutdown ms' /\ ~ In Fault ms') by (rewrite Forall_forall in Fm; split; intros H; apply (Fm _ H); auto). destruct A as [A1 A2].
    assert (K : match runs killed with Some (p, _) => (p_conn p, p_stop p, p_loop p) | None => (Up, true, Idle) end = (Killed, false, Waits (mkCall 1 (Log true)) [ForStats])) by (vm_compute; reflexivity).
    rewrite R in K. injection K as K1 K2 K3. pose proof (killed_stays 3 ms' p p' es' K1 A1 A2 K2 ltac:(congruence) R') as A3. apply (Fr ms' p' es'); [|exact R']. apply Forall_forall. intros m Hm [H|[H|H]]; subst m; contradiction.
Qed.
Print Assumptions C139_refuted.

(** * C140 *)
(** After a request to shut down, whatever came before and after it short of a part that failed: unless the statistics, the connection and the log loop wait for each other, the SDK can by its
    own moves end all its parts, and then every caller that waited was answered, once and in the order of the calls. *)
Theorem C140_ends_partial : forall cap mobile ms p es, In Shutdown ms -> ~ In Fault ms -> move_run cap (parts_new mobile) ms = Some (p, es) -> cycle ms = false ->
  exists ms' p' es', Forall closing ms' /\ move_run cap p ms' = Some (p', es') /\ over p' /\ returned (es ++ es') = filter waiting (accepted (es ++ es')).
Proof. exact ends. Qed.
Print Assumptions C140_ends_partial.
(** In every history whatsoever callers are answered in the order of their calls, at most once. *)
Theorem C140_once : forall cap mobile ms p es, move_run cap (parts_new mobile) ms = Some (p, es) -> exists owed, filter waiting (accepted es) = returned es ++ owed.
Proof. intros cap mobile ms p es R. exists (Parts_Proofs.owed p). exact (proj1 (calls _ _ _ _ _ R)). Qed.
Print Assumptions C140_once.
(** A shutdown frees a killed client. *)
Definition is_over (x : option (parts * list event)) : bool := match x with Some (p, _) => match p_loop p, p_flusher p, p_conn p with LEnded, FEnded, CEnded => true | _, _, _ => false end | None => false end.
Example C140_case : forallb (fun m => match m with Fault => false | _ => true end) (killed ++ [save 2; Shutdown]) = true /\ cycle (killed ++ [save 2; Shutdown]) = false /\
  ids (runs (killed ++ [save 2; Shutdown])) = Some ([1; 2], [1], []) /\
  is_over (runs (killed ++ [save 2; Shutdown; ConnStops; Put; StatsDone; LoopStops; StatsStop])) = true /\
  ids (runs (killed ++ [save 2; Shutdown; ConnStops; Put; StatsDone; LoopStops; StatsStop])) = Some ([1; 2], [1], [1; 2]).
Proof. splits; vm_compute; reflexivity. Qed.
(** With a connection that works, the parts can wait for each other, and then a shutdown never ends: the log loop stays where it is, and the caller of the log that blocks is never answered. *)
Theorem C140_ends_refuted : exists p es, ~ In Fault connected /\ move_run 3 (parts_new true) (connected ++ [Shutdown]) = Some (p, es) /\
  frozen 3 (fun m => m = Fault) p /\ (exists c, In c (accepted es) /\ waiting c = true /\ ~ In c (returned es)).
Proof.
  destruct (stands connected eq_refl eq_refl ltac:(vm_compute; reflexivity)) as (p & es & R & _ & Fr). specialize (Fr eq_refl). destruct (no_stop_spec connected eq_refl) as [_ N2].
  exists (with_stop p), es. split; [exact N2|]. split; [rewrite move_run_app, R; cbn; rewrite app_nil_r; reflexivity|]. split.
  - intros ms' p' es' Fm R'. apply (Fr (Shutdown :: ms') p' es'); [constructor; [discriminate|exact Fm]|]. cbn [move_run move_step]. rewrite R'. reflexivity.
  - assert (X : match runs connected with Some (_, es) => (accepted es, returned es) | None => ([], []) end = ([mkCall 1 (Log true)], [])) by (vm_compute; reflexivity). rewrite R in X. injection X as X1 X2.
    exists (mkCall 1 (Log true)). rewrite X1, X2. splits; [left; reflexivity|reflexivity|intros []].
Qed.
Print Assumptions C140_ends_refuted.

(** * C141 *)
(** Short of a shutdown and of a part that failed, a call is accepted whenever fewer calls than the channel of the log loop holds were accepted and not taken yet. *)
Theorem C141_accepts_partial : forall cap mobile ms p es c, ~ In Shutdown ms -> ~ In Fault ms -> move_run cap (parts_new mobile) ms = Some (p, es) ->
  exists p' e, move_step cap p (Call c) = Some (p', [e]) /\ e = if (length (accepted es) - length (taken es) <? cap)%nat then Accepted c else Refused c.
Proof. exact call_accepted. Qed.
Print Assumptions C141_accepts_partial.
Example C141_case : no_stop day = true /\ ids (runs (day ++ [save 5])) = Some ([1; 2; 3; 4; 5], [1; 2], []) /\ ids (runs (day ++ [save 5; log 6])) = Some ([1; 2; 3; 4; 5], [1; 2], []).
Proof. splits; vm_compute; reflexivity. Qed.
(** One failed write, or one answer of the backend that is not expected, ends logging for good, with no shutdown: every later call is refused, and the calls in the channel are lost. *)
Theorem C141_accepts_refuted : exists ms p es, ~ In Shutdown ms /\ move_run 3 (parts_new true) ms = Some (p, es) /\ accepted es <> [] /\ taken es = [] /\
  forall ms' p' es', move_run 3 p ms' = Some (p', es') -> accepted es' = [] /\ taken es' = [].
Proof.
  assert (X : match runs [Connect; log 1; Fault] with Some (p, es) => (p_loop p, accepted es, taken es) | None => (Idle, [], []) end = (LEnded, [mkCall 1 (Log false)], [])) by (vm_compute; reflexivity).
  exists [Connect; log 1; Fault]. destruct (move_run 3 (parts_new true) [Connect; log 1; Fault]) as [[p es]|]; [|discriminate]. injection X as X1 X2 X3. exists p, es.
  split; [cbn; intuition discriminate|]. split; [reflexivity|]. split; [rewrite X2; discriminate|]. split; [exact X3|]. intros ms' p' es' R. destruct (ended_run 3 ms' p p' es' X1 R) as (_ & A). exact A.
Qed.
Print Assumptions C141_accepts_refuted.
