(** The claims about the log buffer. *)
From Verif Require Import Base Str_Base Log_Model Metadata_Model Metadata_Spec Matcher_Spec LogBuffer_Model LogBuffer_Spec LogBuffer_Proofs.
From Verif Require Session_Model.
Local Open Scope string_scope. Local Open Scope list_scope.

Section Claims.
(** Any pipeline, any thresholds. *)
Variables (C P V E R : Type).
Variables (p_new : C -> P) (p_update : P -> C -> P) (p_log : P -> log -> bool -> V -> option (P * list E)) (p_run : P -> R -> option (P * list E))
  (p_persist : P -> P).
Variables (threshold write_interval : Z) (size : log -> N) (show_time : Z -> string) (has_stats : bool).
Notation step := (step C P V E R p_new p_update p_log p_run p_persist threshold write_interval size show_time has_stats).
Notation run := (run C P V E R p_new p_update p_log p_run p_persist threshold write_interval size show_time has_stats).
Notation session_id := (session_id threshold write_interval).

(** C87. A log passed on is the log of the call with the same number; each of its fields and matching fields is the one of the first source that has the name; the
    global fields are those of the accepted calls before. *)
Theorem C87_fields : forall s0 mc ms now ls b e k lg h, run (buf_new mc ms now s0) ls = Some (b, e) -> In (Wrote k lg h) e ->
  exists ln w t ts pv globals, In (Called k (CLog ln w) Accepted) e /\ In (Taken k (CLog ln w) t) e /\ t_time t = Some ts /\ t_provider t = Some pv /\
    l_level lg = ln_level ln /\ l_type lg = ln_type ln /\ l_message lg = ln_message ln /\
    NoDup (map f_key globals) /\ (forall key v, In (mkField key v) globals <-> added key v (ops_before k e)) /\
    forall po pc lo lc mo mc, source pv Ootb po -> source pv Custom pc -> source (ln_fields ln) Ootb lo -> source (ln_fields ln) Custom lc ->
      source (ln_matching ln) Ootb mo -> source (ln_matching ln) Custom mc ->
      forall key, ~ internal_name key -> carries (ln_type ln) po pc lo lc mo mc globals key (l_fields lg) (l_matching lg).
Proof. intros. eapply fields; eassumption. Qed.

(** C88. The accepted logs are dealt with in the order of the calls, each once; none is left when the loop has nothing to do. *)
Theorem C88_once_in_order : forall mc ms now s0 l b e, run (buf_new mc ms now s0) l = Some (b, e) ->
  Sorted.StronglySorted lt (map fst (accepted e)) /\
  exists rest, log_ids (accepted e) = outcomes e ++ rest /\ (~ ended l e -> quiet step b -> (exists t : tenv V, True) -> rest = []).
Proof. intros mc ms now s0 l b e H. pose proof (ordered _ _ _ _ _ _ _ _ _ _ _ _ _ _ _ _ _ _ _ _ _ _ H) as (H1 & H2 & _). split; assumption. Qed.
(** A pipeline that remembers its logs remembers, in order, those written and not refused by the pre-config buffer, once there is a configuration. *)
Theorem C88_pipeline : forall (hist : P -> list log), (forall c, hist (p_new c) = []) -> (forall p c, hist (p_update p c) = hist p) ->
  (forall p l w v p' es, p_log p l w v = Some (p', es) -> hist p' = hist p ++ [l]) -> (forall p r p' es, p_run p r = Some (p', es) -> hist p' = hist p) ->
  (forall p, hist (p_persist p) = hist p) ->
  forall mc ms now s0 l b e, run (buf_new mc ms now s0) l = Some (b, e) ->
  (configured l -> ~ In Died e -> exists p, b_state b = Ready p) /\ (forall p, b_state b = Ready p -> hist p = delivered e).
Proof. intros. eapply pipeline_gets; eassumption. Qed.
(** After the first configuration nothing is kept back or refused. *)
Theorem C88_after_configuration : forall mc ms now s0 l1 l2 b1 e1 b2 e2 k lg h, run (buf_new mc ms now s0) l1 = Some (b1, e1) -> configured l1 -> run b1 l2 = Some (b2, e2) ->
  In (Wrote k lg h) e2 \/ In (WroteInternal k lg h) e2 -> exists es, h = Piped es.
Proof. intros. eapply all_piped; eassumption. Qed.
(** The pipeline is told whether the caller waits, and what it answers is what is seen. *)
Theorem C88_asked : forall (Q : log -> bool -> V -> list E -> Prop) mc ms now s0 l b e, (forall p l w v p' es, p_log p l w v = Some (p', es) -> Q l w v es) ->
  run (buf_new mc ms now s0) l = Some (b, e) ->
  (forall k lg es, In (Wrote k lg (Piped es)) e -> exists ln w t, In (Called k (CLog ln w) Accepted) e /\ In (Taken k (CLog ln w) t) e /\ Q lg w (t_pipe t) es) /\
  (forall k lg es, In (WroteInternal k lg (Piped es)) e -> exists ln w t, In (Called k (CLog ln w) Accepted) e /\ In (Taken k (CLog ln w) t) e /\ Q lg false (t_pipe t) es) /\
  (forall lg es, In (Replayed lg es) e -> exists v, Q lg false v es).
Proof. intros. eapply asked; eassumption. Qed.

(** C89. A log with overrides gets them if its session is the previous one, and is otherwise replaced by a log that says so. *)
Theorem C89_overridden : forall s0 mc ms now ls b e k ln w x at_, run (buf_new mc ms now s0) ls = Some (b, e) -> In (Called k (CLog ln w) Accepted) e -> ln_override ln = Some (x, at_) ->
  (forall lg h, In (Wrote k lg h) e -> previous_process_session_id s0 = Some x /\ l_session lg = x /\ l_time lg = at_ /\
     exists t ts, In (Taken k (CLog ln w) t) e /\ t_time t = Some ts /\ In (mkField "_logged_at" (VStr (show_time ts))) (l_fields lg)) /\
  (forall lg h, In (WroteInternal k lg h) e -> previous_process_session_id s0 <> Some x /\ l_level lg = 3%N /\ l_type lg = 4%N /\
     In (mkField "_original_session_id" (VStr (l_session lg))) (l_fields lg) /\ In (mkField "_override_session_id" (VStr x)) (l_fields lg)).
Proof. intros. eapply overridden; eassumption. Qed.
(** Other logs have the time at which they were taken, and are not replaced. *)
Theorem C89_not_overridden : forall s0 mc ms now ls b e k ln w, run (buf_new mc ms now s0) ls = Some (b, e) -> In (Called k (CLog ln w) Accepted) e -> ln_override ln = None ->
  (forall lg h, In (Wrote k lg h) e -> exists t, In (Taken k (CLog ln w) t) e /\ t_time t = Some (l_time lg)) /\ (forall lg h, ~ In (WroteInternal k lg h) e).
Proof. intros. eapply not_overridden; eassumption. Qed.

(** C90. Blocking calls return in order, each once; not before they are served or the loop ended; all of them if it ended or has nothing to do. *)
Theorem C90_returns : forall mc ms now s0 l b e, run (buf_new mc ms now s0) l = Some (b, e) ->
  exists rest, waiting_ids (accepted e) = returns e ++ rest /\ (ended l e \/ quiet step b -> (exists t : tenv V, True) -> rest = []).
Proof. intros mc ms now s0 l b e H. pose proof (ordered _ _ _ _ _ _ _ _ _ _ _ _ _ _ _ _ _ _ _ _ _ _ H) as (_ & _ & H3). exact H3. Qed.
Theorem C90_not_before : forall mc ms now s0 l b e k, run (buf_new mc ms now s0) l = Some (b, e) -> In (Returned k) e ->
  ended l e \/ exists c t, In (Taken k c t) e /\ match c with CLog _ w => w = true /\ In k (outcomes e) | CFlush w => w = true | _ => False end.
Proof. intros. eapply not_before; eassumption. Qed.
(** From any state the loop has nothing to do after a number of steps bounded by the messages waiting, if it gets its turns and the flushes are answered. *)
Theorem C90_progress : forall t : tenv V, t_inner t = [] -> forall n b, (b_place b <> Gone -> length (b_queue b) = n) ->
  exists ls b' e, Forall (loop_label (C:=C) (R:=R) t) ls /\ length ls <= 3 * n + 2 /\ run b ls = Some (b', e) /\ quiet step b'.
Proof. intros. apply drains_from; assumption. Qed.

(** C91. When a blocking flush returns and the loop goes on: all logs accepted before were dealt with, then the stats were asked for and answered, then the buffers, then
    the session was written to its store and, once configured, the workflows were persisted. *)
Theorem C91_flushed : forall mc ms now s0 l b e k, run (buf_new mc ms now s0) l = Some (b, e) -> In (Called k (CFlush true) Accepted) e -> In (Returned k) e -> ~ ended l e ->
  exists l1 l2 t e0 e1 e2 e3 e4, l = l1 ++ BuffersDone :: l2 /\ e = (e0 ++ Taken k (CFlush true) t :: e1 ++ BuffersAsked :: e2) ++ BuffersAnswered :: SessionSaved :: e3 ++ Returned k :: e4 /\
    (forall j ln w, In (Called j (CLog ln w) Accepted) e -> j < k -> In j (outcomes e0)) /\
    (has_stats = true -> exists m, e1 = StatsAsked :: m ++ [StatsAnswered]) /\
    (configured l1 -> e3 = [Persisted]) /\ (e3 = [Persisted] \/ e3 = []) /\
    (exists b1 b2 es, run (buf_new mc ms now s0) l1 = Some (b1, e0 ++ Taken k (CFlush true) t :: e1 ++ BuffersAsked :: e2) /\ step b1 BuffersDone = Some (b2, es) /\
       match b_session b2 with Activity a => forall m, Session_Model.a_mem a = Some m -> Session_Model.a_store a = Some (Session_Model.to_stored m) | Fixed _ => True end /\
       forall p, b_state b1 = Ready p -> b_state b2 = Ready (p_persist p)).
Proof. intros. eapply flushed; eassumption. Qed.

(** C92. Calls the provider makes change nothing, unless it flushes: the state is the same as with a provider that makes none, and so is all that can be seen but the refusals. *)
Theorem C92_provider : forall l b b' e, Forall flushless l -> run b l = Some (b', e) -> exists e', run b (map muted l) = Some (b', e') /\ apart e' = apart e.
Proof. intros. eapply provider_apart; eassumption. Qed.

(** C93. The application asks for the session and then starts no new one; with the activity based strategy also the clock does not go back nor beyond the threshold. Then
    the logs taken after have this session. *)
Theorem C93_session : forall s0 mc ms now l1 k l2 b1 e1 b2 e2 i, run (buf_new mc ms now s0) l1 = Some (b1, e1) -> snd (session_id (b_session b1) k) = i -> run b1 (SessionId k :: l2) = Some (b2, e2) ->
  (forall k', ~ In (NewSession k') l2) -> (forall a, s0 = Activity a -> Sorted.StronglySorted Z.le (k_now k :: clocks l2) /\ Forall (fun n => n <= k_now k + threshold)%Z (clocks l2)) ->
  (forall j ln w lg h, In (Called j (CLog ln w) Accepted) (e1 ++ e2) -> ln_override ln = None -> In (Wrote j lg h) e2 -> l_session lg = i) /\
  (forall j lg h, In (WroteInternal j lg h) e2 -> l_session lg = i).
Proof. intros. eapply in_session; eassumption. Qed.

(** C94. The report: the periodic log about resources carries the number of logs taken, in all and since the last report, of each kind. *)
Theorem C94_reported : forall s0 mc ms now ls b e k lg h, run (buf_new mc ms now s0) ls = Some (b, e) -> In (Wrote k lg h) e ->
  exists ln w t e1 e2, e = e1 ++ Taken k (CLog ln w) t :: e2 /\
    (reports (CLog ln w) t = true -> forall n p lo, In (n, p) counters -> source (ln_fields ln) Ootb lo ->
      (absent (n ++ "_count") lo -> forall v, In (mkField (n ++ "_count") v) (l_fields lg) <->
         v = VStr (dec_string (N.of_nat (tally_since p 0 e1 + (if p (CLog ln w) then 1 else 0)) mod 4294967296))) /\
      (absent (n ++ "_total_count") lo -> forall v, In (mkField (n ++ "_total_count") v) (l_fields lg) <->
         v = VStr (dec_string (N.of_nat (tally p 0 e1 + (if p (CLog ln w) then 1 else 0)) mod 4294967296)))).
Proof. intros. eapply reported; eassumption. Qed.

(** C95. A log says offline if and only if that was the last thing known about the network when it was taken, its own response included. *)
Theorem C95_quality : forall s0 mc ms now ls b e k lg h, run (buf_new mc ms now s0) ls = Some (b, e) -> In (Wrote k lg h) e ->
  exists ln w t pv e1 e2, e = e1 ++ Taken k (CLog ln w) t :: e2 /\ t_provider t = Some pv /\
    forall po lo, source pv Ootb po -> source (ln_fields ln) Ootb lo -> absent "_network_quality" lo ->
      (~ In (ln_type ln) [1; 3; 4]%N -> absent "_network_quality" po -> forall v, In (mkField "_network_quality" v) (l_fields lg) <->
         v = VStr "offline" /\ quality_after Unknown (e1 ++ [Taken k (CLog ln w) t]) = Offline) /\
      (In (ln_type ln) [1; 3; 4]%N -> forall v, ~ In (mkField "_network_quality" v) (l_fields lg)).
Proof. intros. eapply quality_told; eassumption. Qed.
End Claims.

(** ** A pipeline that remembers its logs, for the examples *)
Definition toy_log (p : list log) (l : log) (_ : bool) (_ : unit) : option (list log * list log) := Some (p ++ [l], [l]).
Definition toy_step := step unit (list log) unit log unit (fun _ => []) (fun p _ => p) toy_log (fun p _ => Some (p, [])) (fun p => p) 1000 15 (fun _ => 1%N) (fun _ => "noon") true.
Definition toy := run unit (list log) unit log unit (fun _ => []) (fun p _ => p) toy_log (fun p _ => Some (p, [])) (fun p => p) 1000 15 (fun _ => 1%N) (fun _ => "noon") true.
Definition toy_line (ty : N) (m : string) (fs : list annotated) (o : option (string * Z)) : line := mkLine 2 ty (VStr m) fs [] o.
Definition toy_call (ty : N) (m : string) (fs : list annotated) (o : option (string * Z)) (w : bool) : label unit unit unit := Call (CLog (toy_line ty m fs o) w) Accepted.
Definition toy_env (now : Z) (inner : list (call * answer)) : tenv unit := mkTenv 0 (mkClock now "first" "next") true (Some now) (Some [mkAnnotated (mkField "os" (VStr "linux")) Ootb]) inner tt.
Definition toy_take (now : Z) : label unit unit unit := Take (toy_env now []).
(** A process that ran before, in session [old]. *)
Definition toy_session : strategy := Activity (Session_Model.Build_act None (Some (Session_Model.Build_stored "old" 5))).
Definition toy_buf : buf (list log) := buf_new 1 10 0 toy_session.
(** Global fields, a log, a log of the crash before and one of another session, a report, responses; a configuration in between, flushes. *)
Definition toy_ls : list (label unit unit unit) :=
  [Call (CAdd (mkField "user" (VStr "me"))) Accepted; toy_call 0 "hello" [] None false; toy_call 0 "there" [] None false; toy_take 10; toy_take 10; SetQuality Offline; toy_take 11; Config tt (fun _ => tt);
   toy_call 2 "crash" [] (Some ("old", 3%Z)) true; toy_call 2 "crash" [] (Some ("older", 3%Z)) true; toy_take 12; toy_take 13; Run tt;
   toy_call 0 "again" [] None false; toy_take 14; toy_call 8 "HTTPResponse" [mkAnnotated (mkField "_status_code" (VStr "200")) Ootb] None false; toy_take 15;
   toy_call 3 "" [] None false; toy_take 16; Call (CRemove "user") Accepted; Call (CFlush true) Accepted; Call (CLog (toy_line 0 "bye" [] None) false) FullSize; toy_take 17; toy_take 18; StatsDone; BuffersDone;
   SessionId (mkClock 19 "a" "b"); toy_call 0 "later" [] None true; toy_take 20].

Ltac found := repeat first [left; reflexivity | right].
Ltac nf := vm_compute; intuition discriminate.
(** The global field and the provider's are there; "there" is refused by the pre-config buffer, which takes one log here. *)
Example C87_fields_ex : exists b e lg, toy toy_buf toy_ls = Some (b, e) /\ In (Wrote 1 lg Kept) e /\ l_fields lg = [mkField "os" (VStr "linux"); mkField "user" (VStr "me")] /\
  exists lg2, In (Wrote 2 lg2 Dropped) e /\ In (mkField "_network_quality" (VStr "offline")) (l_fields lg2).
Proof. do 3 eexists. split; [vm_compute; reflexivity|]. split; [found|]. split; [reflexivity|]. eexists. split; [found|]. simpl. auto. Qed.
Example C88_ex : exists b e p, toy toy_buf toy_ls = Some (b, e) /\ outcomes e = [1; 2; 3; 4; 5; 6; 7; 11] /\ log_ids (accepted e) = outcomes e /\ b_state b = Ready p /\
  map l_message p = map VStr ["hello"; "crash"; "failed to override log attributes, provided override attributes do not match expectations"; "again"; "HTTPResponse"; ""; "later"] /\
  configured toy_ls /\ ~ ended toy_ls e /\ quiet toy_step b /\ (exists lg es, In (Wrote 3 lg (Piped es)) e).
Proof.
  do 3 eexists. split; [vm_compute; reflexivity|]. split; [reflexivity|]. split; [reflexivity|]. split; [reflexivity|]. split; [reflexivity|]. split; [exists tt, (fun _ => tt); simpl; auto 20|].
  split; [intros [H|H]; revert H; nf|]. split; [split; [intros t|split]; reflexivity|]. do 2 eexists. found.
Qed.
(** C88, what is not so: a log accepted by the channel is lost if the loop is told to stop before it takes it. *)
Theorem C88_stopped_refuted : exists l b e k ln w, toy toy_buf l = Some (b, e) /\ In (Called k (CLog ln w) Accepted) e /\ ~ In Died e /\ ~ In k (outcomes e) /\ forall l' b' e', toy b l' = Some (b', e') -> ~ In k (outcomes e').
Proof.
  exists [toy_call 0 "hello" [] None false; Stop]. do 2 eexists. exists 0, (toy_line 0 "hello" [] None), false. split; [vm_compute; reflexivity|]. split; [left; reflexivity|]. split; [nf|]. split; [nf|].
  intros l' b' e' H X.
  assert (G : forall l (b b' : buf (list log)) e, b_place b = Gone -> toy b l = Some (b', e) -> outcomes e = []).
  { clear. induction l as [|x l IH]; intros b b' e Hg H; [inversion H; reflexivity|]. unfold toy in *. simpl in H.
    destruct x; simpl in H; unfold do_call, configure, take in H; rewrite ?Hg in H; try discriminate.
    - destruct a; try discriminate; (match type of H with (match ?r with _ => _ end) = _ => destruct r as [[b1 e1]|] eqn:Er end; [|discriminate]); inversion H; subst; simpl; (eapply IH; [|exact Er]; exact Hg).
    - match type of H with (match ?r with _ => _ end) = _ => destruct r as [[b1 e1]|] eqn:Er end; [|discriminate]; inversion H; subst; simpl; (eapply IH; [|exact Er]; exact Hg).
    - match type of H with (match ?r with _ => _ end) = _ => destruct r as [[b1 e1]|] eqn:Er end; [|discriminate]; inversion H; subst; simpl; (eapply IH; [|exact Er]; exact Hg).
    - match type of H with (match ?r with _ => _ end) = _ => destruct r as [[b1 e1]|] eqn:Er end; [|discriminate]; inversion H; subst; simpl; (eapply IH; [|exact Er]; exact Hg). }
  apply G in H; [|reflexivity]. rewrite H in X. exact X.
Qed.
Example C89_ex : exists b e lg h lg2 h2, toy toy_buf toy_ls = Some (b, e) /\ In (Wrote 3 lg h) e /\ l_session lg = "old" /\ l_time lg = 3%Z /\ In (WroteInternal 4 lg2 h2) e /\
  In (mkField "_override_session_id" (VStr "older")) (l_fields lg2) /\ previous_process_session_id toy_session = Some "old".
Proof. do 6 eexists. split; [vm_compute; reflexivity|]. split; [found|]. split; [reflexivity|]. split; [reflexivity|]. split; [found|]. split; [simpl; auto 10|reflexivity]. Qed.
Example C90_ex : exists b e, toy toy_buf toy_ls = Some (b, e) /\ returns e = [3; 4; 9; 11] /\ waiting_ids (accepted e) = returns e.
Proof. do 2 eexists. split; [vm_compute; reflexivity|]. split; reflexivity. Qed.
(** Calls that wait while nothing is taken, and while the loop ends. *)
Example C90_waiting_ex : exists b e, toy toy_buf [toy_call 0 "x" [] None true; Call (CFlush true) Accepted] = Some (b, e) /\ returns e = [] /\ length (b_queue b) = 2 /\
  exists b' e', toy b [Stop] = Some (b', e') /\ returns e' = [0; 1].
Proof. do 2 eexists. split; [vm_compute; reflexivity|]. split; [reflexivity|]. split; [reflexivity|]. do 2 eexists. split; [vm_compute; reflexivity|reflexivity]. Qed.
Example C91_ex : exists b e, toy toy_buf toy_ls = Some (b, e) /\ In (Called 9 (CFlush true) Accepted) e /\ In (Returned 9) e /\ ~ ended toy_ls e.
Proof. do 2 eexists. split; [vm_compute; reflexivity|]. split; [found|]. split; [found|]. intros [H|H]; revert H; nf. Qed.
(** C91, what is not so: before the first configuration a blocking flush returns although the logs before are only in memory; *)
Theorem C91_unconfigured_refuted : exists l b e k lg, toy toy_buf l = Some (b, e) /\ In (Called k (CFlush true) Accepted) e /\ In (Returned k) e /\ ~ ended l e /\ kept e = [lg] /\ replayed e = [] /\
  exists p, b_state b = Waiting p /\ PreConfig_Model.pop_all p = [lg].
Proof.
  exists [toy_call 0 "hello" [] None false; toy_take 10; Call (CFlush true) Accepted; toy_take 11; StatsDone; BuffersDone]. do 2 eexists. exists 1. eexists. split; [vm_compute; reflexivity|].
  split; [found|]. split; [found|]. split; [intros [H|H]; revert H; nf|]. split; [reflexivity|]. split; [reflexivity|]. eexists. split; reflexivity.
Qed.
(** and when the loop is told to stop it returns although nothing was flushed and a log before is lost. *)
Theorem C91_stopped_refuted : exists l b e k, toy toy_buf l = Some (b, e) /\ In (Called k (CFlush true) Accepted) e /\ In (Returned k) e /\ ~ In Died e /\ ~ In SessionSaved e /\ ~ In BuffersAsked e /\ outcomes e = [].
Proof.
  exists [toy_call 0 "hello" [] None false; Call (CFlush true) Accepted; Stop]. do 2 eexists. exists 1. split; [vm_compute; reflexivity|]. split; [found|]. split; [found|]. split; [nf|]. split; [nf|]. split; [nf|reflexivity].
Qed.
(** The provider logs and adds a field. *)
Example C92_ex : let l := [toy_call 0 "hello" [] None true; Take (toy_env 10 [(CLog (toy_line 0 "inside" [] None) true, Accepted); (CAdd (mkField "k" (VStr "v")), Accepted)])] in
  Forall flushless l /\ exists b e, toy toy_buf l = Some (b, e) /\ In (Guarded (CAdd (mkField "k" (VStr "v")))) e /\ outcomes e = [0] /\ b_queue b = [].
Proof.
  split; [repeat constructor; simpl; intros w a [H|[H|[]]]; discriminate|]. do 2 eexists. split; [vm_compute; reflexivity|]. split; [found|]. split; reflexivity.
Qed.
(** C92, what is not so: a provider that flushes and waits ends the loop, and the logs after it are refused. *)
Theorem C92_flush_refuted : exists l b e, toy toy_buf l = Some (b, e) /\ ~ In Stop l /\ In Died e /\ outcomes e = [] /\ (forall c, toy b [Call c Accepted] = None).
Proof.
  exists [toy_call 0 "hello" [] None true; Take (toy_env 10 [(CFlush true, Accepted)])]. do 2 eexists. split; [vm_compute; reflexivity|]. split; [nf|]. split; [found|]. split; [reflexivity|]. intros c. reflexivity.
Qed.
Example C93_ex : exists b1 e1 b2 e2 lg h, let l1 := firstn 26 toy_ls in let l2 := skipn 27 toy_ls in toy toy_buf l1 = Some (b1, e1) /\ toy b1 (SessionId (mkClock 19 "a" "b") :: l2) = Some (b2, e2) /\
  snd (session_id 1000 15 (b_session b1) (mkClock 19 "a" "b")) = "old" /\ (forall k', ~ In (NewSession k') l2) /\ Sorted.StronglySorted Z.le (19%Z :: clocks l2) /\ Forall (fun n => n <= 1019)%Z (clocks l2) /\
  In (Wrote 11 lg h) e2 /\ l_session lg = "old".
Proof.
  do 6 eexists. split; [vm_compute; reflexivity|]. split; [vm_compute; reflexivity|]. split; [vm_compute; reflexivity|]. split; [intros k'; vm_compute; intuition discriminate|].
  split; [repeat constructor; vm_compute; discriminate|]. split; [repeat constructor; vm_compute; discriminate|]. split; [found|reflexivity].
Qed.
(** C93, what is not so: a log called in one session has the next one if that is started before the loop takes it. *)
Theorem C93_session_of_call_refuted : exists l1 l2 b1 e1 b2 e2 k lg h, toy toy_buf l1 = Some (b1, e1) /\ snd (session_id 1000 15 (b_session b1) k) = "old" /\
  toy b1 (SessionId k :: l2) = Some (b2, e2) /\ In (Called 0 (CLog (toy_line 0 "hello" [] None) false) Accepted) e2 /\ In (Wrote 0 lg h) e2 /\ l_session lg <> "old".
Proof.
  exists [], [toy_call 0 "hello" [] None false; NewSession (mkClock 11 "x" "new"); toy_take 12]. do 4 eexists. exists (mkClock 10 "x" "y"). do 2 eexists.
  split; [reflexivity|]. split; [vm_compute; reflexivity|]. split; [vm_compute; reflexivity|]. split; [found|]. split; [found|]. vm_compute. discriminate.
Qed.
Example C94_ex : exists b e lg h ln t, toy toy_buf toy_ls = Some (b, e) /\ In (Wrote 7 lg h) e /\ In (Taken 7 (CLog ln false) t) e /\ reports (CLog ln false) t = true /\
  In (mkField "_logs_total_count" (VStr "7")) (l_fields lg) /\ In (mkField "_network_logs_count" (VStr "1")) (l_fields lg).
Proof. do 6 eexists. split; [vm_compute; reflexivity|]. split; [found|]. split; [found|]. split; [reflexivity|]. split; simpl; auto 30. Qed.
(** Offline, and no more so with the response. *)
Example C95_ex : exists b e lg h lg2 h2, toy toy_buf toy_ls = Some (b, e) /\ In (Wrote 5 lg h) e /\ In (mkField "_network_quality" (VStr "offline")) (l_fields lg) /\
  In (Wrote 6 lg2 h2) e /\ ~ In "_network_quality" (map f_key (l_fields lg2)).
Proof. do 6 eexists. split; [vm_compute; reflexivity|]. split; [found|]. split; [simpl; auto 10|]. split; [found|]. nf. Qed.

Print Assumptions C87_fields.
Print Assumptions C88_once_in_order.
Print Assumptions C88_pipeline.
Print Assumptions C88_after_configuration.
Print Assumptions C88_asked.
Print Assumptions C88_stopped_refuted.
Print Assumptions C89_overridden.
Print Assumptions C89_not_overridden.
Print Assumptions C90_returns.
Print Assumptions C90_not_before.
Print Assumptions C90_progress.
Print Assumptions C91_flushed.
Print Assumptions C91_unconfigured_refuted.
Print Assumptions C91_stopped_refuted.
Print Assumptions C92_provider.
Print Assumptions C92_flush_refuted.
Print Assumptions C93_session.
Print Assumptions C93_session_of_call_refuted.
Print Assumptions C94_reported.
Print Assumptions C95_quality.
