(** C52, C53, C75: the processing pipeline. *)
From Verif Require Import Base Str_Base Log_Model LogMatcher_Model BufferMatcher_Model Matcher_Spec Workflow_Model Workflow_Spec WorkflowEngine_Model WorkflowEngine_Spec WorkflowExamples_Model Pipeline_Model Pipeline_Spec Pipeline_Proofs PipelineEffects_Proofs PipelineState_Proofs.
Local Open Scope string_scope. Local Open Scope list_scope.

(** ** C75: logs reach their buffers *)
(** C75. The configuration received last is in force; the filters of that configuration apply if the flag says so. *)
Theorem C75_latest re_match re_replace to_i32 sha f64 u on fon stats limit file ops p ess :
  prun re_match re_replace to_i32 sha f64 (pipe_new u on fon stats limit file) ops = Some (p, ess) ->
  let w := latest u ops in p_producers p = u_producers w /\ p_selector p = u_selector w /\ p_tails p = u_tails w /\
  forall l, filtered re_match re_replace to_i32 p l = if filtering fon ops then Filter_Model.process re_match re_replace to_i32 (u_filters w) l else l.
Proof. exact (new_config re_match re_replace to_i32 sha f64 u on fon stats limit file ops p ess). Qed.
Print Assumptions C75_latest.

(** In every execution a log gives at most one record for each buffer, only records for buffers of the configuration, and each is the
    filtered log, or a copy of it for a trigger buffer. *)
Theorem C75_once re_match re_replace to_i32 sha f64 u on fon stats limit file ops p ess l b v p' es :
  prun re_match re_replace to_i32 sha f64 (pipe_new u on fon stats limit file) ops = Some (p, ess) -> coherent u -> all_coherent ops ->
  pstep re_match re_replace to_i32 sha f64 p (PLog l b v) = Some (p', es) ->
  let l := filtered re_match re_replace to_i32 p l in
  NoDup (map fst (records es)) /\ exists acts, forall id r, In (id, r) (records es) -> In id (pr_ids (p_producers p)) /\
    (carries l acts r \/ (copies l acts r /\ In id (pr_triggers (p_producers p)))).
Proof. intros R C. exact (run_once re_match re_replace to_i32 sha f64 u on fon stats limit file ops p ess R C l b v p' es). Qed.
Print Assumptions C75_once.

(** Partial: no configuration update removes a continuous buffer, also not between the state file and the start, and no buffer fails.
    Then a log is written to exactly the buffers it goes to; a log that some buffer wants is written; and a copy is only made of logs
    that go to no buffer. *)
Theorem C75_delivered_partial re_match re_replace to_i32 sha f64 u on fon stats limit file ops p ess re_ok cfg l0 b v p' es :
  prun re_match re_replace to_i32 sha f64 (pipe_new u on fon stats limit file) ops = Some (p, ess) -> coherent u ->
  file_fits (pr_conts (u_producers u)) file -> growing (pr_conts (u_producers u)) ops -> buffers_work v -> selector_new re_ok cfg = Some (p_selector p) ->
  pstep re_match re_replace to_i32 sha f64 p (PLog l0 b v) = Some (p', es) -> let l := filtered re_match re_replace to_i32 p l0 in exists acts,
  (forall id, goes re_match cfg p l id -> exists r, In (id, r) (records es) /\ carries l acts r) /\
  (forall id r, In (id, r) (records es) -> (goes re_match cfg p l id /\ carries l acts r) \/ (copies l acts r /\ In id (pr_triggers (p_producers p)) /\ forall d, ~ goes re_match cfg p l d)) /\
  ((exists d, wants re_match cfg l d) -> exists id r, In (id, r) (records es) /\ carries l acts r).
Proof. intros R C. exact (run_delivered re_match re_replace to_i32 sha f64 u on fon stats limit file ops p ess R C re_ok cfg l0 b v p' es). Qed.
Print Assumptions C75_delivered_partial.

(** The streams of tailing clients get the filtered log, as one record with the ids of exactly the streams that want it. *)
Theorem C75_tail re_match re_replace to_i32 sha f64 u on fon stats limit file ops p ess re_ok cfgs l0 b v p' es :
  prun re_match re_replace to_i32 sha f64 (pipe_new u on fon stats limit file) ops = Some (p, ess) -> coherent u -> all_coherent ops ->
  p_tails p = tails_new re_ok cfgs -> (forall i m, In (i, Some m) cfgs -> types_by_equality m) -> pstep re_match re_replace to_i32 sha f64 p (PLog l0 b v) = Some (p', es) ->
  let l := filtered re_match re_replace to_i32 p l0 in exists ids,
  flat_map (fun e => match e with EStream r _ => [r] | _ => [] end) es = match ids with [] => [] | _ => [make_log l [] ids] end /\
  forall s, In s ids <-> exists m, In (s, m) cfgs /\ (forall c, m = Some c -> tree_new re_ok c <> None) /\ tailed re_match to_i32 l m.
Proof. intros R C. exact (run_tail re_match re_replace to_i32 sha f64 u on fon stats limit file ops p ess R C re_ok cfgs l0 b v p' es). Qed.
Print Assumptions C75_tail.

(** *** Concrete configurations *)
Definition any_log : list filter_cfg := [mkFilterCfg "1" (Some (BBase (Some BAnyMatch)))].
(** All logs go to "trigger"; the other buffers get none. *)
Definition xbuffers (conts : list string) : list buffer_cfg := map (fun c => mkBufferCfg c []) conts ++ [mkBufferCfg "other" []; mkBufferCfg "trigger" any_log].
Definition xupdate (ws : list workflow_proto) (cfg : list buffer_cfg) (conts : list string) : update_cfg :=
  mkUpdate (mkProducers (map bc_id cfg) ["trigger"; "other"] conts) (match selector_new (fun _ => true) cfg with Some s => s | None => [] end) (parse ws)
    (tails_new (fun _ => true) [("s1", None); ("s2", Some (CBase (Some (MessageMatch (Some Version_Model.OpEq) "x"))))]) [].
Definition xreplace (a b c : string) : string := c.
Definition xenv : env := mkEnv WOk (fun _ => WOk) WOk FlushOk true false false.
(** A flush on "F" of the buffers [bs], with streaming to the buffers [dest]. *)
Definition flush_to (bs : list string) (dest : option (list string)) : workflow_proto :=
  mkWorkflowP "w" [mkStateP "0" [on "F" 1 [PFlush "f" bs (match dest with Some d => Some (d, []) | None => None end)] "1"]; mkStateP "1" []] (Some Exclusive) None None.
Definition xrun (p : pipe) (ops : list pop) := prun xm xreplace xi xh xf p ops.
Definition xstart (ws : list workflow_proto) (conts : list string) : pipe := pipe_new (xupdate ws (xbuffers conts) conts) true true true 10 None.
Definition P (s : string) (b : bool) : pop := PLog (xlog s "S" 0) b xenv.
Definition ids_written (es : list effect) : list string := map fst (records es).

Lemma xcoherent ws conts : coherent (xupdate ws (xbuffers conts) conts).
Proof.
  split.
  - cbn [xupdate u_selector u_producers pr_ids]. intros b Hb. assert (X : forall cfg sel, selector_new (fun _ => true) cfg = Some sel -> In b sel -> In (bf_id b) (map bc_id cfg)).
    { induction cfg as [|c cfg IH]; intros sel E H; cbn [selector_new] in E; [inv E; destruct H|]. destruct (filters_new _ _); [|discriminate]. destruct (selector_new _ cfg) as [s|] eqn:ES; [|discriminate]. inv E. destruct H as [<-|H]; [now left|right; eauto]. }
    destruct (selector_new _ _) as [sel|] eqn:E; [eapply X; eauto|destruct Hb].
  - intros d. cbn [xupdate u_producers pr_ids pr_triggers pr_conts]. unfold xbuffers. rewrite map_app, map_map. cbn [bc_id map]. rewrite map_id, in_app_iff. cbn [In]. tauto.
Qed.

(** The hypotheses of [C75_delivered_partial], with a streaming action in force: the log goes to its two destinations. *)
Example C75_case : let u := xupdate [flush_to ["trigger"] (Some ["c1"; "c2"])] (xbuffers ["c1"; "c2"]) ["c1"; "c2"] in
  let ops := [P "F" false; PNegotiate Upload; PRunOnce; PTakeFlush true; PFlushDone 0] in
  coherent u /\ growing (pr_conts (u_producers u)) ops /\ file_fits (pr_conts (u_producers u)) None /\ buffers_work xenv /\
  selector_new (fun _ => true) (xbuffers ["c1"; "c2"]) = Some (u_selector u) /\
  match xrun (pipe_new u true true true 10 None) (ops ++ [P "x" true]) with
  | Some (_, ess) => map ids_written ess = [["trigger"]; []; []; []; []; ["c1"; "c2"]] /\
      map (fun es => flat_map (fun e => match e with EStream r _ => rc_streams r | _ => [] end) es) ess = [["s1"]; []; []; []; []; ["s1"; "s2"]] /\ List.concat ess <> [] /\ nth 3 ess [] = [ETrigger ["trigger"] true]
  | None => False
  end.
Proof.
  cbv zeta. split; [apply xcoherent|]. split; [exact Logic.I|]. split; [intros s E; discriminate|]. split; [intros id; discriminate|]. split; [reflexivity|]. vm_compute. splits; auto; discriminate.
Qed.

(** An action that waits for its approval keeps its streaming destinations when an update removes one of them. Once it is approved the
    logs of its buffers are lost, although the configuration is coherent and no buffer fails. *)
Theorem C75_lost_refuted : exists u ops u', let p0 := pipe_new u true true true 10 None in
  coherent u /\ (forall w on n, In (PUpdate w on n) ops -> w = u') /\ coherent u' /\ buffers_work xenv /\ u_selector u' = match selector_new (fun _ => true) (xbuffers ["c2"]) with Some s => s | None => [] end /\
  exists p ess p' es, xrun p0 ops = Some (p, ess) /\ xrun p [P "x" true] = Some (p', [es]) /\
  p_selector p = u_selector u' /\ wants xm (xbuffers ["c2"]) (xlog "x" "S" 0) "trigger" /\ records es = [] /\ In EReturn es.
Proof.
  exists (xupdate [flush_to ["trigger"] (Some ["c1"; "c2"])] (xbuffers ["c1"; "c2"]) ["c1"; "c2"]),
    [P "F" false; PUpdate (xupdate [flush_to ["trigger"] (Some ["c1"; "c2"])] (xbuffers ["c2"]) ["c2"]) true 10; PNegotiate Upload; PRunOnce; PTakeFlush true],
    (xupdate [flush_to ["trigger"] (Some ["c1"; "c2"])] (xbuffers ["c2"]) ["c2"]). cbv zeta.
  split; [apply xcoherent|]. split; [intros w on n [H|[H|[H|[H|[H|[] ] ] ] ] ]; try discriminate; congruence|]. split; [apply xcoherent|]. split; [intros id; discriminate|]. split; [reflexivity|].
  do 4 eexists. split; [vm_compute; reflexivity|]. split; [vm_compute; reflexivity|]. split; [reflexivity|]. split; [|split; [reflexivity|vm_compute; auto] ].
  exists (mkBufferCfg "trigger" any_log), (mkFilterCfg "1" (Some (BBase (Some BAnyMatch)))), (BBase (Some BAnyMatch)). splits; auto; [right; right; now left|now left|exact Logic.I].
Qed.
Print Assumptions C75_lost_refuted.

(** ** C53: blocking logs *)
(** A blocking log returns exactly once, at the end; other logs do not wait. *)
Theorem C53_return re_match re_replace to_i32 sha f64 u on fon stats limit file ops p ess l b v p' es :
  prun re_match re_replace to_i32 sha f64 (pipe_new u on fon stats limit file) ops = Some (p, ess) -> coherent u -> all_coherent ops ->
  pstep re_match re_replace to_i32 sha f64 p (PLog l b v) = Some (p', es) ->
  (b = false -> ~ In EReturn es) /\ (b = true -> exists es1, es = es1 ++ [EReturn] /\ ~ In EReturn es1).
Proof. intros R C. exact (run_return re_match re_replace to_i32 sha f64 u on fon stats limit file ops p ess R C l b v p' es). Qed.
Print Assumptions C53_return.

(** A blocking log leaves the state of the workflows saved: written anew, or nothing has changed since. Conditions as in [C75_delivered_partial], and the write is complete. *)
Theorem C53_saved_partial re_match re_replace to_i32 sha f64 u on fon stats limit file ops p ess re_ok cfg l0 v p' es y :
  prun re_match re_replace to_i32 sha f64 (pipe_new u on fon stats limit file) ops = Some (p, ess) -> coherent u ->
  file_fits (pr_conts (u_producers u)) file -> growing (pr_conts (u_producers u)) ops -> buffers_work v -> selector_new re_ok cfg = Some (p_selector p) ->
  pstep re_match re_replace to_i32 sha f64 p (PLog l0 true v) = Some (p', es) -> p_engine p = On y -> v_torn v = false ->
  exists y', p_engine p' = On y' /\ e_dirty (y_engine y') = false /\
    (y_file y' = Some (state_optimized (y_engine y')) \/
     y_file y' = y_file y /\ exists r, WorkflowEngine_Model.process_log re_match to_i32 sha f64 (y_engine y) (filtered re_match re_replace to_i32 p l0) (matching_of re_match p (filtered re_match re_replace to_i32 p l0)) (is_done (y_done y)) = Some (y_engine y', r)).
Proof. exact (new_saved re_match re_replace to_i32 sha f64 u on fon stats limit file ops p ess re_ok cfg l0 v p' es y). Qed.
Print Assumptions C53_saved_partial.
(** Only a flush of the state and a log change the state file: a log that blocks, or one that comes when it is time to save. Switching workflows off and on keeps it. *)
Theorem C53_file_kept re_match re_replace to_i32 sha f64 p o p' es : pstep re_match re_replace to_i32 sha f64 p o = Some (p', es) ->
  engine_file (p_engine p') = engine_file (p_engine p) \/ (exists b, o = PPersist b) \/ exists l b v, o = PLog l b v /\ (b = true \/ v_persist v = true).
Proof. exact (file_kept re_match re_replace to_i32 sha f64 p o p' es). Qed.
Print Assumptions C53_file_kept.

(** Partial: no update removes a continuous buffer, no buffer fails, and the flush task answers. Then each record is flushed before the
    call returns, except those that a streaming action sends to its destinations. *)
Theorem C53_flushed_partial re_match re_replace to_i32 sha f64 u on fon stats limit file ops p ess re_ok cfg l0 v p' es id r o :
  prun re_match re_replace to_i32 sha f64 (pipe_new u on fon stats limit file) ops = Some (p, ess) -> coherent u ->
  file_fits (pr_conts (u_producers u)) file -> growing (pr_conts (u_producers u)) ops -> buffers_work v -> v_flush v = FlushOk -> selector_new re_ok cfg = Some (p_selector p) ->
  pstep re_match re_replace to_i32 sha f64 p (PLog l0 true v) = Some (p', es) -> In (EWrite id r o) es -> let l := filtered re_match re_replace to_i32 p l0 in
  settled es id r o \/ exists a d, in_force p l a /\ wants re_match cfg l d /\ In d (sa_sources a) /\ In id (sa_dests a).
Proof. intros R C. exact (run_settled re_match re_replace to_i32 sha f64 u on fon stats limit file ops p ess R C re_ok cfg l0 v p' es id r o). Qed.
Print Assumptions C53_flushed_partial.

(** A blocking log that a streaming action sends to other buffers: they are not flushed. *)
Theorem C53_streamed_refuted : exists u ops p ess p' es id r o, coherent u /\ growing (pr_conts (u_producers u)) ops /\ xrun (pipe_new u true true true 10 None) ops = Some (p, ess) /\
  xrun p [P "x" true] = Some (p', [es]) /\ In (EWrite id r o) es /\ In EReturn es /\ forall ids f, In (EFlush ids f) es -> ~ In id ids.
Proof.
  exists (xupdate [flush_to ["trigger"] (Some ["c1"; "c2"])] (xbuffers ["c1"; "c2"]) ["c1"; "c2"]), [P "F" false; PNegotiate Upload; PRunOnce; PTakeFlush true; PFlushDone 0].
  do 4 eexists. exists "c1". do 2 eexists. split; [apply xcoherent|]. split; [cbn; auto|]. split; [vm_compute; reflexivity|]. split; [vm_compute; reflexivity|]. split; [right; left; reflexivity|]. split; [cbn; auto 10|].
  intros ids f H. cbn [In] in H. decompose [or] H; try discriminate; auto. match goal with X : EFlush _ _ = _ |- _ => injection X as <- <- end. intros [X|[] ]. discriminate.
Qed.
Print Assumptions C53_streamed_refuted.

(** The flush task has ended: the blocking call returns all the same. *)
Theorem C53_no_flush_refuted : exists u p' es id r, coherent u /\
  xrun (pipe_new u true true true 10 None) [PLog (xlog "x" "S" 0) true (mkEnv WOk (fun _ => WOk) WOk FlushGone true false false)] = Some (p', [es]) /\
  In (EWrite id r WOk) es /\ In EReturn es /\ ~ exists ids, In (EFlush ids FlushOk) es.
Proof.
  exists (xupdate [] (xbuffers ["c1"]) ["c1"]). do 2 eexists. exists "trigger". eexists. split; [apply xcoherent|]. split; [vm_compute; reflexivity|]. split; [right; left; reflexivity|]. split; [cbn; auto 10|].
  intros (ids & H). cbn [In] in H. decompose [or] H; try discriminate; auto.
Qed.
Print Assumptions C53_no_flush_refuted.

(** One of two buffers fails: the other one is not flushed before the call returns. *)
Theorem C53_failed_write_refuted : exists u v p' es id r, coherent u /\ v_flush v = FlushOk /\
  xrun (pipe_new u true true true 10 None) [PLog (xlog "x" "S" 0) true v] = Some (p', [es]) /\ In (EWrite id r WOk) es /\ In EReturn es /\ forall ids f, ~ In (EFlush ids f) es.
Proof.
  exists (mkUpdate (mkProducers ["a"; "b"] ["a"; "b"] []) (match selector_new (fun _ => true) [mkBufferCfg "a" any_log; mkBufferCfg "b" any_log] with Some s => s | None => [] end) [] None []),
    (mkEnv WOk (fun id => if String.eqb id "b" then WHard else WOk) WOk FlushOk true false false). do 2 eexists. exists "a". eexists. split.
  { split; [cbn; intros b [<-|[<-|[] ] ]; auto|cbn; tauto]. }
  split; [reflexivity|]. split; [vm_compute; reflexivity|]. split; [left; reflexivity|]. split; [cbn; auto|]. intros ids f H. cbn [In] in H. decompose [or] H; try discriminate; auto.
Qed.
Print Assumptions C53_failed_write_refuted.

(** The hypotheses of [C53_flushed_partial]; a log that two buffers want is flushed in both. *)
Example C53_case : let cfg := [mkBufferCfg "a" any_log; mkBufferCfg "b" any_log] in
  let u := mkUpdate (mkProducers ["a"; "b"] ["a"] ["b"]) (match selector_new (fun _ => true) cfg with Some s => s | None => [] end) (parse [flush_to ["a"] None]) None [] in
  coherent u /\ growing ["b"] [P "x" false] /\ file_fits ["b"] None /\ buffers_work xenv /\ selector_new (fun _ => true) cfg = Some (u_selector u) /\
  match xrun (pipe_new u true true true 10 None) [P "x" false; P "F" true] with
  | Some (_, [ [EWrite _ _ _; EWrite _ _ _]; [EWrite "a" ra _; EWrite "b" rb _; EFlush ids FlushOk; EFlushStats true; EReturn] ]) => ids = ["a"; "b"] /\ rc_actions ra = ["f"] /\ ra = rb
  | _ => False
  end.
Proof.
  cbv zeta. split; [split; [cbn; intros b [<-|[<-|[] ] ]; auto|cbn; tauto]|]. split; [exact Logic.I|]. split; [intros s E; discriminate|]. split; [intros id; discriminate|]. split; [reflexivity|]. vm_compute. auto.
Qed.

(** The hypotheses of [C53_saved_partial] with a configuration as in [C53_case]: the log that triggers the action is saved as pending. *)
Example C53_saved_case : let cfg := [mkBufferCfg "a" any_log; mkBufferCfg "b" any_log] in
  let u := mkUpdate (mkProducers ["a"; "b"] ["a"] ["b"]) (match selector_new (fun _ => true) cfg with Some s => s | None => [] end) (parse [flush_to ["a"] None]) None [] in
  v_torn xenv = false /\ match xrun (pipe_new u true true true 10 None) [P "x" false; P "F" true] with
  | Some (p, _) => match p_engine p with On y => y_file y = Some (state_optimized (y_engine y)) /\ y_file y <> None | Off _ => False end | None => False end.
Proof. cbv zeta. split; [reflexivity|]. vm_compute. split; [reflexivity|discriminate]. Qed.

(** ** C52: logs that trigger a flush *)
(** The action ids recorded with a log, and the buffers it flushes, are those of the flush actions it triggers. *)
Theorem C52_actions re_match re_replace to_i32 sha f64 u on fon stats limit file ops p ess l r :
  prun re_match re_replace to_i32 sha f64 (pipe_new u on fon stats limit file) ops = Some (p, ess) -> coherent u -> all_coherent ops -> verdict re_match to_i32 sha f64 p l r ->
  exists acts, (forall i, In i (o_action_ids r) <-> exists a, In a acts /\ af_id a = i) /\ (forall b, In b (o_flushed r) <-> exists a, In a acts /\ asks_for p a b).
Proof. intros R C. exact (run_flushes re_match re_replace to_i32 sha f64 u on fon stats limit file ops p ess R C l r). Qed.
Print Assumptions C52_actions.

(** Partial: the trigger buffers the log goes to are all flushed (and the conditions of [C75_delivered_partial]). Then the log or a copy of it, with the ids of
    the actions, is written to a continuous buffer or to a buffer that is flushed. *)
Theorem C52_uploaded_partial re_match re_replace to_i32 sha f64 u on fon stats limit file ops p ess re_ok cfg l0 b v p' es r :
  prun re_match re_replace to_i32 sha f64 (pipe_new u on fon stats limit file) ops = Some (p, ess) -> coherent u ->
  file_fits (pr_conts (u_producers u)) file -> growing (pr_conts (u_producers u)) ops -> buffers_work v -> selector_new re_ok cfg = Some (p_selector p) ->
  pstep re_match re_replace to_i32 sha f64 p (PLog l0 b v) = Some (p', es) -> let l := filtered re_match re_replace to_i32 p l0 in verdict re_match to_i32 sha f64 p l r -> o_flushed r <> [] ->
  (forall d, goes re_match cfg p l d -> In d (pr_triggers (p_producers p)) -> In d (o_flushed r)) ->
  exists id rec, In (id, rec) (records es) /\ (carries l (o_action_ids r) rec \/ copies l (o_action_ids r) rec) /\ (In id (pr_conts (p_producers p)) \/ In id (o_flushed r)).
Proof. intros R C. exact (run_flush_log re_match re_replace to_i32 sha f64 u on fon stats limit file ops p ess R C re_ok cfg l0 b v p' es r). Qed.
Print Assumptions C52_uploaded_partial.

(** The log goes to a trigger buffer, but the action flushes another one: neither the log nor a copy is in the flushed buffer. *)
Theorem C52_other_buffer_refuted : exists u p' es ids, coherent u /\ xrun (pipe_new u true true true 10 None) [P "F" false; PNegotiate Upload; PRunOnce; PTakeFlush true] = Some (p', [es; []; []; [ETrigger ids true] ]) /\
  records es <> [] /\ forall id r, In (id, r) (records es) -> ~ In id ids /\ ~ In id (pr_conts (p_producers p')).
Proof.
  exists (xupdate [flush_to ["other"] None] (xbuffers ["c1"]) ["c1"]). do 3 eexists. split; [apply xcoherent|]. split; [vm_compute; reflexivity|]. split; [discriminate|]. intros id r [H|[] ]. injection H as <- <-.
  split; intros [X|[] ]; discriminate.
Qed.
Print Assumptions C52_other_buffer_refuted.

(** The hypotheses of [C52_uploaded_partial] for a log that no buffer wants: the copy is written to the flushed buffer. *)
Example C52_case : let cfg := [mkBufferCfg "c" []; mkBufferCfg "other" []; mkBufferCfg "trigger" []] in
  let u := mkUpdate (mkProducers ["c"; "other"; "trigger"] ["trigger"; "other"] ["c"]) (match selector_new (fun _ => true) cfg with Some s => s | None => [] end) (parse [flush_to ["other"] None]) None [] in
  coherent u /\ buffers_work xenv /\ selector_new (fun _ => true) cfg = Some (u_selector u) /\
  match xrun (pipe_new u true true true 10 None) [P "x" true; P "F" true; PNegotiate Upload; PRunOnce; PTakeFlush true] with
  | Some (_, [ [EFlushStats true; EReturn]; [EWrite "other" r WOk; EFlush ["other"] FlushOk; EFlushStats true; EReturn]; []; []; [ETrigger ["other"] true] ]) => rc_actions r = ["f"] /\ rc_message r = VStr "F" /\ rc_type r = 4%N
  | _ => False
  end.
Proof. cbv zeta. split; [split; [cbn; intros b [<-|[<-|[<-|[] ] ] ]; auto|cbn; tauto]|]. split; [intros id; discriminate|]. split; [reflexivity|]. vm_compute. auto. Qed.
