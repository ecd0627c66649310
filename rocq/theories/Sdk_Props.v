(** C142, C143: from the call to the buffers. *)
From Verif Require Import Base Str_Base Log_Model Metadata_Model LogMatcher_Model BufferMatcher_Model Matcher_Spec Workflow_Model Workflow_Spec WorkflowEngine_Model WorkflowEngine_Spec WorkflowExamples_Model Pipeline_Model Pipeline_Spec Pipeline_Props LogBuffer_Model LogBuffer_Spec Sdk_Model Sdk_Spec Sdk_Proofs.
From Verif Require Filter_Model PreConfig_Model Session_Model.
Local Open Scope string_scope. Local Open Scope list_scope.

Section Claims.
(** Any regular expressions, thresholds, sizes; any state file; any torn writes. *)
Variables (re_match : string -> string -> bool) (re_replace : string -> string -> string -> string) (to_i32 : string -> option Z)
  (sha : string -> string) (f64 : string -> option Z).
Variables (threshold write_interval : Z) (size : log -> N) (show_time : Z -> string) (has_stats : bool).
Variables (file : option saved) (torn : pipe -> bool).
Notation step := (sdk_step re_match re_replace to_i32 sha f64 threshold write_interval size show_time has_stats file torn).
Notation run := (sdk_run re_match re_replace to_i32 sha f64 threshold write_interval size show_time has_stats file torn).
Notation carries := Pipeline_Spec.carries.
(** The log after the filters of the configuration, if they apply. *)
Notation filtered := (fun (on : bool) (c : conf) (l : log) => if on then Filter_Model.process re_match re_replace to_i32 (u_filters (k_update c)) l else l).

(** ** C142: logs reach the buffers the configuration in force names *)
(** Without workflows: each log that is given to the pipeline, at once or from the buffer of logs that came before the first configuration, gives exactly one
    record for each buffer that wants it, by the configuration received last, and no other. *)
Theorem C142_plain mc ms now s0 ls b e lg ps : run (buf_new mc ms now s0) ls = Some (b, e) -> In (lg, ps) (given e) ->
  exists l1 x l2 c0 cs on v, ls = l1 ++ x :: l2 /\ told x v /\ confs (l1 ++ [x]) = c0 :: cs /\ filters_on None (l1 ++ [x]) = Some on /\
  (workflows_on false (l1 ++ [x]) = false -> coherent (k_update (last cs c0)) -> buffers_work v -> forall re_ok cfg, selector_new re_ok cfg = Some (u_selector (k_update (last cs c0))) ->
   let l := filtered on (last cs c0) lg in
   exists ids r, records ps = map (fun id => (id, r)) ids /\ NoDup ids /\ carries l [] r /\ forall id, In id ids <-> wants re_match cfg l id).
Proof.
  intros R H. edestruct given_at with (1 := R) (2 := H) as (l1 & x & l2 & c0 & cs & on & w & v & p & p' & A1 & A2 & A3 & A4 & A5 & A6).
  exists l1, x, l2, c0, cs, on, v. splits; auto. intros W C BW re_ok cfg SN. rewrite W in A5. eapply (plain_log re_match re_replace to_i32 sha f64 threshold show_time has_stats file torn); eauto.
Qed.
(** With workflows: at most one record for each buffer, only for buffers of the configuration, each with the filtered log, or a copy of it for a trigger buffer. *)
Theorem C142_once mc ms now s0 ls b e lg ps : run (buf_new mc ms now s0) ls = Some (b, e) -> In (lg, ps) (given e) ->
  exists l1 x l2 c0 cs on, ls = l1 ++ x :: l2 /\ confs (l1 ++ [x]) = c0 :: cs /\ filters_on None (l1 ++ [x]) = Some on /\
  (Forall (fun c => coherent (k_update c)) (c0 :: cs) -> let l := filtered on (last cs c0) lg in
   NoDup (map fst (records ps)) /\ exists acts, forall id r, In (id, r) (records ps) -> In id (pr_ids (u_producers (k_update (last cs c0)))) /\
     (carries l acts r \/ (copies l acts r /\ In id (pr_triggers (u_producers (k_update (last cs c0))))))).
Proof.
  intros R H. edestruct given_at with (1 := R) (2 := H) as (l1 & x & l2 & c0 & cs & on & w & v & p & p' & A1 & A2 & A3 & A4 & A5 & A6).
  exists l1, x, l2, c0, cs, on. splits; auto. intros F. eapply (once_log re_match re_replace to_i32 sha f64 threshold show_time has_stats file torn); eauto.
Qed.
(** Partial: no configuration removes a continuous buffer, also not between the state file and the start, and no buffer fails. Then a log that some buffer wants is written. *)
Theorem C142_kept_partial mc ms now s0 ls b e lg ps : run (buf_new mc ms now s0) ls = Some (b, e) -> In (lg, ps) (given e) ->
  exists l1 x l2 c0 cs on v, ls = l1 ++ x :: l2 /\ told x v /\ confs (l1 ++ [x]) = c0 :: cs /\ filters_on None (l1 ++ [x]) = Some on /\
  (coherent (k_update c0) -> file_fits (conts c0) file -> keeps_buffers (conts c0) cs -> buffers_work v -> forall re_ok cfg, selector_new re_ok cfg = Some (u_selector (k_update (last cs c0))) ->
   let l := filtered on (last cs c0) lg in (exists d, wants re_match cfg l d) -> exists acts id r, In (id, r) (records ps) /\ carries l acts r).
Proof.
  intros R H. edestruct given_at with (1 := R) (2 := H) as (l1 & x & l2 & c0 & cs & on & w & v & p & p' & A1 & A2 & A3 & A4 & A5 & A6).
  exists l1, x, l2, c0, cs, on, v. splits; auto. intros C F K BW re_ok cfg SN. cbv zeta. intros W. edestruct (routed_log re_match re_replace to_i32 sha f64 threshold show_time has_stats file torn) with (1 := A5) (2 := A6) (3 := C) (4 := F) (5 := K) (6 := BW) (7 := SN) as (acts & _ & _ & X). destruct (X W) as (id & r & Y). eauto.
Qed.
(** Partial, with the same conditions: a log taken by the loop is written to exactly the buffers it goes to in the state the pipeline is in. *)
Theorem C142_routed_partial mc ms now s0 l1 b1 e1 t b2 es lg ps : run (buf_new mc ms now s0) l1 = Some (b1, e1) -> step b1 (Take t) = Some (b2, es) -> In (lg, ps) (given es) ->
  exists c0 cs on p, b_state b1 = Ready p /\ confs l1 = c0 :: cs /\ filters_on None l1 = Some on /\
  (coherent (k_update c0) -> file_fits (conts c0) file -> keeps_buffers (conts c0) cs -> buffers_work (t_pipe t) -> forall re_ok cfg, selector_new re_ok cfg = Some (u_selector (k_update (last cs c0))) ->
   let l := filtered on (last cs c0) lg in exists acts,
   (forall id, goes re_match cfg p l id -> exists r, In (id, r) (records ps) /\ carries l acts r) /\
   (forall id r, In (id, r) (records ps) -> (goes re_match cfg p l id /\ carries l acts r) \/ (copies l acts r /\ In id (pr_triggers (u_producers (k_update (last cs c0)))) /\ forall d, ~ goes re_match cfg p l d))).
Proof.
  intros R S H. edestruct taken_at with (1 := R) (2 := S) (3 := H) as (c0 & cs & on & w & p & p' & A1 & A2 & A3 & A4 & A5).
  exists c0, cs, on, p. splits; auto. intros C F K BW re_ok cfg SN. cbv zeta. edestruct (routed_log re_match re_replace to_i32 sha f64 threshold show_time has_stats file torn) with (1 := A4) (2 := A5) (3 := C) (4 := F) (5 := K) (6 := BW) (7 := SN) as (acts & X & Y & _). eauto.
Qed.
(** The buffers get their records in the order of the logs: the logs given to the pipeline are those written, in that order, and nothing else hands records to a buffer. *)
Theorem C142_order mc ms now s0 ls b e : run (buf_new mc ms now s0) ls = Some (b, e) ->
  (forall p, b_state b = Ready p -> map fst (given e) = delivered e) /\ (forall q, b_state b = Waiting q -> given e = [] /\ delivered e = PreConfig_Model.pop_all q) /\ (forall ps, In (Ran ps) e -> records ps = []).
Proof.
  intros R. edestruct order_inv with (1 := R) as (O & I). splits.
  - intros p E. rewrite E in I. exact I.
  - intros q E. rewrite E in I. exact I.
  - intros ps H. rewrite Forall_forall in O. apply O. clear - H. induction e as [|x e IH]; [destruct H|]. destruct H as [->|H]; [now left|]. destruct x; cbn; auto.
Qed.

(** ** C143: blocking logs are on disk when the call returns *)
(** Partial: the conditions of [C142_kept_partial], and the flush task answers. When a blocking log call returns and the loop has not ended, then the provider failed, or a log about it was written
    instead, or the log was written: to memory, if there was no configuration, or each record of it is flushed, except those that a streaming action sends to its destinations. *)
Theorem C143_flushed_partial mc ms now s0 ls b e k ln : run (buf_new mc ms now s0) ls = Some (b, e) -> ~ ended ls e -> In (Called k (CLog ln true) Accepted) e -> In (Returned k) e ->
  In (Failed k) e \/ (exists lg h, In (WroteInternal k lg h) e) \/ exists lg h l1 t l2 b1 e1, In (Wrote k lg h) e /\ ls = l1 ++ Take t :: l2 /\ In (Taken k (CLog ln true) t) e /\ run (buf_new mc ms now s0) l1 = Some (b1, e1) /\
  forall ps, h = Piped ps -> exists c0 cs on p, confs l1 = c0 :: cs /\ filters_on None l1 = Some on /\ b_state b1 = Ready p /\
  (coherent (k_update c0) -> file_fits (conts c0) file -> keeps_buffers (conts c0) cs -> buffers_work (t_pipe t) -> v_flush (t_pipe t) = FlushOk ->
   forall re_ok cfg, selector_new re_ok cfg = Some (u_selector (k_update (last cs c0))) -> let l := filtered on (last cs c0) lg in
   In EReturn ps /\ forall id r o, In (EWrite id r o) ps -> settled ps id r o \/ exists a d, in_force p l a /\ wants re_match cfg l d /\ In d (sa_sources a) /\ In id (sa_dests a)).
Proof.
  intros R NE HC HR. edestruct returned_blocking with (1 := R) (2 := NE) (3 := HC) (4 := HR) as [A|[A|(lg & h & l1 & t & l2 & b1 & e1 & b2 & es & A1 & A2 & A3 & A4 & A5 & A6)] ]; auto.
  right. right. exists lg, h, l1, t, l2, b1, e1. assert (HT : In (Taken k (CLog ln true) t) e).
  { rewrite A2 in R. unfold sdk_run in R, A3. rewrite LogBuffer_Proofs.run_app, A3 in R. cbn [LogBuffer_Model.run] in R. unfold sdk_step in A4. rewrite A4 in R. match type of R with context [LogBuffer_Model.run _ _ _ _ _ _ _ _ _ _ _ _ _ _ _ b2 l2] => destruct (LogBuffer_Model.run _ _ _ _ _ _ _ _ _ _ _ _ _ _ _ b2 l2) as [[b3 e3]|] end; [|discriminate].
    inv R. apply in_or_app. right. apply in_or_app. auto. }
  splits; auto. intros ps ->. edestruct wrote_at with (1 := A3) (2 := A4) (3 := A5) (4 := A6) as (p & p' & B1 & B2 & B3).
  assert (G : In (lg, ps) (given es)) by (eapply in_given; [exact A5|reflexivity]). edestruct taken_at with (1 := A3) (2 := A4) (3 := G) as (c0 & cs & on & w & p1 & p1' & C1 & C2 & C3 & C4 & C5).
  rewrite B1 in C1. injection C1 as <-. exists c0, cs, on, p. splits; auto. intros C F K BW FO re_ok cfg SN. eapply (blocking_log re_match re_replace to_i32 sha f64 threshold show_time has_stats file torn); eauto.
Qed.
(** Partial, with the same conditions: a blocking log that the loop takes leaves the state of the workflows saved. *)
Theorem C143_saved_partial mc ms now s0 l1 b1 e1 t b2 es k lg ps ln : run (buf_new mc ms now s0) l1 = Some (b1, e1) -> step b1 (Take t) = Some (b2, es) -> In (Wrote k lg (Piped ps)) es -> In (Taken k (CLog ln true) t) es ->
  exists c0 cs p p', confs l1 = c0 :: cs /\ b_state b1 = Ready p /\ b_state b2 = Ready p' /\
  (coherent (k_update c0) -> file_fits (conts c0) file -> keeps_buffers (conts c0) cs -> buffers_work (t_pipe t) -> forall re_ok cfg, selector_new re_ok cfg = Some (u_selector (k_update (last cs c0))) ->
   v_torn (t_pipe t) = false -> forall y, p_engine p = On y -> exists y', p_engine p' = On y' /\ e_dirty (y_engine y') = false /\ (y_file y' = Some (state_optimized (y_engine y')) \/ y_file y' = y_file y)).
Proof.
  intros A3 A4 A5 A6. edestruct wrote_at with (1 := A3) (2 := A4) (3 := A5) (4 := A6) as (p & p' & B1 & B2 & B3).
  assert (G : In (lg, ps) (given es)) by (eapply in_given; [exact A5|reflexivity]). edestruct taken_at with (1 := A3) (2 := A4) (3 := G) as (c0 & cs & on & w & p1 & p1' & C1 & C2 & C3 & C4 & C5).
  rewrite B1 in C1. injection C1 as <-. exists c0, cs, p, p'. splits; auto. intros C F K BW re_ok cfg SN T y EY. eapply (saved_log re_match re_replace to_i32 sha f64 threshold show_time has_stats file torn); eauto.
Qed.

(** ** C144: a flush of the state saves the workflows *)
(** When a blocking flush of the state returns and the loop has not ended, all logs accepted before it were dealt with, and the state of the workflows as those logs left it was written to its file,
    or it was not marked as changed; it is not marked now. *)
Theorem C144_saved mc ms now s0 ls b e k : run (buf_new mc ms now s0) ls = Some (b, e) -> In (Called k (CFlush true) Accepted) e -> In (Returned k) e -> ~ ended ls e ->
  exists l1 l2 b1 e1 b2 es, ls = l1 ++ BuffersDone :: l2 /\ run (buf_new mc ms now s0) l1 = Some (b1, e1) /\ step b1 BuffersDone = Some (b2, es) /\
    (forall j ln w, In (Called j (CLog ln w) Accepted) e -> j < k -> In j (outcomes e1)) /\
    forall p y, b_state b1 = Ready p -> p_engine p = On y -> torn p = false -> exists p' y', b_state b2 = Ready p' /\ p_engine p' = On y' /\ e_dirty (y_engine y') = false /\ e_workflows (y_engine y') = e_workflows (y_engine y) /\
      e_pending (y_engine y') = e_pending (y_engine y) /\ e_streaming (y_engine y') = e_streaming (y_engine y) /\
      (y_file y' = Some (state_optimized (y_engine y)) \/ (e_dirty (y_engine y) = false /\ y' = y)).
Proof.
  intros R HC HR NE. edestruct LogBuffer_Proofs.flushed with (1 := R) (2 := HC) (3 := HR) (4 := NE) as (l1 & l2 & t & e0 & e1 & e2 & e3 & e4 & A1 & A2 & A3 & _ & _ & _ & b1 & b2 & es & A4 & A5 & _ & A6).
  exists l1, l2, b1. eexists. exists b2, es. split; [exact A1|]. split; [exact A4|]. split; [exact A5|]. split.
  - intros j ln w Hj Lj. rewrite LogBuffer_Proofs.outcomes_app. apply in_or_app. left. eauto.
  - intros p y Hp Hy T. exists (sdk_persist re_match to_i32 sha f64 torn p). rewrite (A6 _ Hp). unfold sdk_persist, engine_step. rewrite Hy, T. cbn [WorkflowEngine_Model.step]. destruct (e_dirty (y_engine y)) eqn:ED.
    + eexists. split; [reflexivity|]. split; [reflexivity|]. cbn. splits; auto.
    + exists y. splits; auto.
Qed.
End Claims.

(** ** Concrete histories *)
Definition sx := sdk_run xm xreplace xi xh xf 1000 15 (fun _ => 1%N) (fun _ => "noon") true None (fun _ => false).
Definition sx_line (m : string) (o : option (string * Z)) : line := mkLine 2 0 (VStr m) [] [] o.
Definition sx_call (m : string) (w : bool) : slabel := Call (CLog (sx_line m None) w) Accepted.
Definition sx_take : slabel := Take (mkTenv 0 (mkClock 5 "S" "S2") false (Some 7%Z) (Some []) [] xenv).
Definition sx_buf : buf pipe := buf_new 10 1000 0 (Activity (Session_Model.Build_act None None)).
Definition sx_conf (ws : list workflow_proto) (conts : list string) (on : bool) : slabel := Config (mkConf (xupdate ws (xbuffers conts) conts) on true 10) (fun _ => xenv).
(** Per log: its message, the buffers that got records and whether there was a flush. *)
Definition seen (e : list sevent) : list (value * list string * bool) :=
  map (fun x => (l_message (fst x), ids_written (snd x), existsb (fun f => match f with EFlush _ FlushOk => true | _ => false end) (snd x))) (given e).

Ltac all_good := unfold sx_conf, sx_call, sx_take; cbn [confs app]; repeat (apply Forall_cons; [cbn [k_update]; apply xcoherent|]); apply Forall_nil.

(** The hypotheses of [C142_plain] and [C142_order]: a log before the first configuration, one after it, and a blocking one after the second. *)
Definition sx_plain : list slabel := [sx_call "early" false; sx_take; sx_conf [] ["c1"] false; sx_call "x" false; sx_take; sx_conf [] ["c1"; "c2"] false; Run (FilterFlag false); sx_call "y" true; sx_take].
Example C142_plain_case : workflows_on false sx_plain = false /\ filters_on None sx_plain = Some false /\ Forall (fun c => coherent (k_update c)) (confs sx_plain) /\ length (confs sx_plain) = 2 /\ buffers_work xenv /\
  selector_new (fun _ => true) (xbuffers ["c1"; "c2"]) = Some (u_selector (xupdate [] (xbuffers ["c1"; "c2"]) ["c1"; "c2"])) /\
  match sx sx_buf sx_plain with
  | Some (b, e) => seen e = [(VStr "early", ["trigger"], false); (VStr "x", ["trigger"], false); (VStr "y", ["trigger"], true)] /\ map l_message (delivered e) = map VStr ["early"; "x"; "y"] /\ In (Returned 2) e
  | None => False
  end.
Proof.
  split; [reflexivity|]. split; [reflexivity|]. split; [unfold sx_plain; all_good|]. split; [reflexivity|]. split; [intros id; discriminate|]. split; [reflexivity|]. vm_compute. splits; auto 20.
Qed.
(** Those of [C142_kept_partial], [C142_routed_partial] and [C142_once], with a streaming action in force for the last log, which is sent to its destinations; the update before it adds a continuous buffer. *)
Definition sx_stream : list slabel :=
  [sx_conf [flush_to ["trigger"] (Some ["c1"; "c2"])] ["c1"; "c2"] true; sx_call "F" false; sx_take; Run (Negotiates Upload); Run RunsOnce; Run (TakesFlush true); Run (Sdk_Model.FlushDone 0);
   sx_conf [flush_to ["trigger"] (Some ["c1"; "c2"])] ["c1"; "c2"; "c3"] true; sx_call "x" false].
Example C142_case : (exists c0 cs, confs sx_stream = c0 :: cs /\ coherent (k_update c0) /\ keeps_buffers (conts c0) cs /\ length cs = 1 /\ file_fits (conts c0) None) /\ workflows_on false sx_stream = true /\
  match sx sx_buf (sx_stream ++ [sx_take]) with
  | Some (b, e) => seen e = [(VStr "F", ["trigger"], false); (VStr "x", ["c1"; "c2"], false)] /\ In (Ran [ETrigger ["trigger"] true]) e
  | None => False
  end.
Proof.
  split; [do 2 eexists; split; [reflexivity|]; split; [apply xcoherent|]; split; [split; [apply xcoherent|split; [intros d; cbn; tauto|exact Logic.I] ]|split; [reflexivity|intros s E; discriminate] ]|]. split; [reflexivity|]. vm_compute. splits; auto 20.
Qed.
(** C142, what is not so: an update removes a continuous buffer to which an action still has to stream; once the action is approved a log that a buffer wants is given to the pipeline and no buffer gets it. *)
Theorem C142_lost_refuted : exists ls b e lg ps, sx sx_buf ls = Some (b, e) /\ Forall (fun c => coherent (k_update c)) (confs ls) /\ ~ ended ls e /\ In (lg, ps) (given e) /\
  last (confs ls) (mkConf (xupdate [] [] []) true true 10) = mkConf (xupdate [flush_to ["trigger"] (Some ["c1"; "c2"])] (xbuffers ["c2"]) ["c2"]) true true 10 /\
  u_selector (xupdate [flush_to ["trigger"] (Some ["c1"; "c2"])] (xbuffers ["c2"]) ["c2"]) = match selector_new (fun _ => true) (xbuffers ["c2"]) with Some s => s | None => [] end /\
  wants xm (xbuffers ["c2"]) lg "trigger" /\ records ps = [].
Proof.
  exists [sx_conf [flush_to ["trigger"] (Some ["c1"; "c2"])] ["c1"; "c2"] true; sx_call "F" false; sx_take; sx_conf [flush_to ["trigger"] (Some ["c1"; "c2"])] ["c2"] true;
    Run (Negotiates Upload); Run RunsOnce; Run (TakesFlush true); sx_call "x" true; sx_take].
  do 2 eexists. exists (mkLog 2 0 (VStr "x") [] [] "S" 7). eexists. split; [vm_compute; reflexivity|]. split; [all_good|]. split; [intros [H|H]; revert H; vm_compute; intuition discriminate|].
  split; [right; left; reflexivity|]. split; [reflexivity|]. split; [reflexivity|]. split; [|reflexivity].
  exists (mkBufferCfg "trigger" any_log), (mkFilterCfg "1" (Some (BBase (Some BAnyMatch)))), (BBase (Some BAnyMatch)). splits; auto; [right; right; now left|now left|exact Logic.I].
Qed.

(** The hypotheses of [C143_flushed_partial] and [C143_saved_partial]: a blocking log that triggers an action. *)
Example C143_case : let ls := [sx_conf [flush_to ["trigger"] (Some ["c1"])] ["c1"] true; sx_call "x" false; sx_take; sx_call "F" true; sx_take] in
  (exists c0, confs ls = [c0] /\ coherent (k_update c0) /\ file_fits (conts c0) None) /\
  match sx sx_buf ls with
  | Some (b, e) => In (Called 1 (CLog (sx_line "F" None) true) Accepted) e /\ In (Returned 1) e /\ seen e = [(VStr "x", ["trigger"], false); (VStr "F", ["trigger"], true)] /\ existsb (fun x => match x with Died => true | _ => false end) e = false /\
      match b_state b with Ready p => match p_engine p with On y => y_file y = Some (state_optimized (y_engine y)) /\ e_dirty (y_engine y) = false | Off _ => False end | Waiting _ => False end
  | None => False
  end.
Proof. cbv zeta. split; [eexists; split; [reflexivity|]; split; [apply xcoherent|intros s E; discriminate]|]. vm_compute. splits; auto 20. Qed.
(** C143, what is not so: before the first configuration a blocking log call returns although the log is only in memory; *)
Theorem C143_unconfigured_refuted : exists ls b e k ln lg q, sx sx_buf ls = Some (b, e) /\ ~ ended ls e /\ In (Called k (CLog ln true) Accepted) e /\ In (Returned k) e /\ In (Wrote k lg Kept) e /\ b_state b = Waiting q /\ PreConfig_Model.pop_all q = [lg] /\ given e = [].
Proof.
  exists [sx_call "x" true; sx_take]. do 2 eexists. exists 0. do 3 eexists. split; [vm_compute; reflexivity|]. split; [intros [H|H]; revert H; vm_compute; intuition discriminate|]. split; [left; reflexivity|]. split; [cbn; auto|]. split; [cbn; auto|].
  split; [reflexivity|]. split; reflexivity.
Qed.
(** and the log that replaces one whose session is refused is written without a flush, although the caller waits. *)
Theorem C143_replaced_refuted : exists ls b e k ln lg ps id r, sx sx_buf ls = Some (b, e) /\ ~ ended ls e /\ configured ls /\ In (Called k (CLog ln true) Accepted) e /\ In (Returned k) e /\ In (WroteInternal k lg (Piped ps)) e /\ In (EWrite id r WOk) ps /\
  forall ids o, ~ In (EFlush ids o) ps.
Proof.
  exists [sx_conf [] ["c1"] true; Call (CLog (sx_line "x" (Some ("other", 3%Z))) true) Accepted; sx_take]. do 2 eexists. exists 0. do 5 eexists. split; [vm_compute; reflexivity|]. split; [intros [H|H]; revert H; vm_compute; intuition discriminate|].
  split; [do 2 eexists; left; reflexivity|]. split; [left; reflexivity|]. split; [cbn; auto|]. split; [cbn; auto|]. split; [right; left; reflexivity|]. intros ids o H. cbn [In] in H. intuition discriminate.
Qed.
(** The hypotheses of [C144_saved]: a log that triggers an action, then a flush. *)
Example C144_case : let ls := [sx_conf [flush_to ["trigger"] (Some ["c1"])] ["c1"] true; sx_call "F" false; Call (CFlush true) Accepted; sx_take; sx_take; StatsDone] in
  match sx sx_buf ls with
  | Some (b1, _) => match sx sx_buf (ls ++ [BuffersDone]), b_state b1 with
      | Some (b, e), Ready p1 => In (Returned 1) e /\ In Persisted e /\ existsb (fun x => match x with Died => true | _ => false end) e = false /\
          match b_state b with Ready p => match p_engine p, p_engine p1 with On y, On y1 => y_file y1 = None /\ e_dirty (y_engine y1) = true /\ y_file y = Some (state_optimized (y_engine y1)) /\ e_pending (y_engine y) <> [] | _, _ => False end | Waiting _ => False end
      | _, _ => False
      end
  | None => False
  end.
Proof. vm_compute. splits; auto 20; discriminate. Qed.
(** C144, what is not so: after a write that was torn the state counts as saved, and the next flush does not write it. *)
Theorem C144_torn_refuted : exists ls b e p y, let sx' := sdk_run xm xreplace xi xh xf 1000 15 (fun _ => 1%N) (fun _ => "noon") true None (fun p => match engine_file (p_engine p) with None => true | Some _ => false end) in
  sx' sx_buf ls = Some (b, e) /\ ~ ended ls e /\ In (Called 1 (CFlush true) Accepted) e /\ In (Returned 1) e /\ In (Called 2 (CFlush true) Accepted) e /\ In (Returned 2) e /\
  b_state b = Ready p /\ p_engine p = On y /\ e_pending (y_engine y) <> [] /\ y_file y = None /\ e_dirty (y_engine y) = false.
Proof.
  exists [sx_conf [flush_to ["trigger"] (Some ["c1"])] ["c1"] true; sx_call "F" false; Call (CFlush true) Accepted; Call (CFlush true) Accepted; sx_take; sx_take; StatsDone; BuffersDone; sx_take; StatsDone; BuffersDone].
  do 4 eexists. cbv zeta. split; [vm_compute; reflexivity|]. split; [intros [H|H]; revert H; vm_compute; intuition discriminate|]. split; [cbn; auto 40|]. split; [cbn; auto 40|]. split; [cbn; auto 40|]. split; [cbn; auto 40|].
  split; [reflexivity|]. split; [reflexivity|]. split; [discriminate|]. split; reflexivity.
Qed.

Print Assumptions C142_plain.
Print Assumptions C142_once.
Print Assumptions C142_kept_partial.
Print Assumptions C142_routed_partial.
Print Assumptions C142_order.
Print Assumptions C142_lost_refuted.
Print Assumptions C143_flushed_partial.
Print Assumptions C143_saved_partial.
Print Assumptions C143_unconfigured_refuted.
Print Assumptions C143_replaced_refuted.
Print Assumptions C144_saved.
Print Assumptions C144_torn_refuted.
