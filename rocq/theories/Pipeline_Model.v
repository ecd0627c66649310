(** Model of bd-logger/src/log_replay.rs ([ProcessingPipeline], "replay" below) and of [TailConfigurations] in
    bd-logger/src/client_config.rs ("config" below), on top of the models of the filters, the matchers and the workflow engine.
    - The pipeline's effects are a trace: records handed to the buffers (with the buffer's answer), flush requests, the return of the call.
    - The buffers' answers, the flush task's and the stats task's answers are inputs ([env]).
    - The level counters, log lines and the flatbuffers encoding (bd-client-common/src/fb.rs) are left out: a record is the list of
      things encoded. *)
From Verif Require Import Base Str_Base Log_Model LogMatcher_Model BufferMatcher_Model Workflow_Model WorkflowEngine_Model.
From Verif Require Filter_Model.
Local Open Scope string_scope. Local Open Scope list_scope.

(** bd-client-common/src/fb.rs lines 52-66: what [make_log] encodes. *)
Record record := mkRecord {
  rc_level : N; rc_type : N; rc_message : value; rc_fields : list field; rc_session : string; rc_time : Z; rc_actions : list string; rc_streams : list string }.
(** bd-client-common/src/fb.rs lines 52-66. *)
Definition make_log (l : log) (actions streams : list string) : record :=
  mkRecord (l_level l) (l_type l) (l_message l) (l_fields l) (l_session l) (l_time l) actions streams.
(** replay:464-474: the synthetic copy has level Debug (1) and type InternalSDK (4). *)
Definition make_synthetic (l : log) (actions : list string) : record :=
  mkRecord 1 4 (l_message l) (l_fields l) (l_session l) (l_time l) actions [].

(** The answer of a buffer: written, refused because it is locked or full (replay:397-409), or another error. *)
Inductive wres := WOk | WSoft | WHard.
(** The answer to a flush request: done, or the flush task is gone or dropped the request. *)
Inductive fres := FlushOk | FlushGone | FlushDropped.

(** What replay:204-493 does to its surroundings. *)
Inductive effect :=
| EStream (r : record) (o : wres)
| EWrite (id : string) (r : record) (o : wres)
| EScreenshot
| EFlush (ids : list string) (o : fres)
| EFlushStats (ok : bool)
| EReturn (** the caller of a blocking log continues: it was told so, or its channel was dropped *)
| ETrigger (ids : list string) (accepted : bool).

(** The answers replay:204-493 gets. *)
Record env := mkEnv {
  v_stream : wres; v_write : string -> wres; v_synthetic : wres; v_flush : fres; v_stats : bool;
  v_persist : bool (** the throttle of [maybe_persist] lets it write *); v_torn : bool }.

(** bd-logger/src/logging_state.rs lines 321-326 [BufferProducers]. *)
Record producers := mkProducers { pr_ids : list string; pr_triggers : list string; pr_conts : list string }.
(** config:356-360 [TailConfigurations]: the streams, if any, with their matchers. *)
Definition tails := option (list (string * option tree)).
(** config:362-401 [TailConfigurations::new]: streams with a matcher that cannot be parsed are left out. *)
Definition tails_new (re_ok : string -> bool) (l : list (string * option matcher_cfg)) : tails :=
  match l with
  | [] => None
  | _ => Some (flat_map (fun s => match snd s with
                                  | None => [(fst s, None)]
                                  | Some m => match tree_new re_ok m with Some t => [(fst s, Some t)] | None => [] end
                                  end) l)
  end.
(** The engine, or its state file while there is none. *)
Inductive engine_state := On (y : system) | Off (file : option saved).
(** replay:82-105 [ProcessingPipeline]. *)
Record pipe := mkPipe {
  p_producers : producers; p_selector : list buffer_filter; p_engine : engine_state; p_tails : tails; p_filters : list Filter_Model.filter;
  p_filter_on : bool; p_stats : bool }.
(** logging_state.rs lines 313-319 [ConfigUpdate]. *)
Record update_cfg := mkUpdate {
  u_producers : producers; u_selector : list buffer_filter; u_workflows : list config; u_tails : tails; u_filters : list Filter_Model.filter }.

Section Pipeline.
Variables (re_match : string -> string -> bool) (re_replace : string -> string -> string -> string) (to_i32 : string -> option Z)
  (sha : string -> string) (f64 : string -> option Z).

(** The engine as started in replay:107-170. *)
Definition engine_start (limit : Z) (u : update_cfg) (file : option saved) : system :=
  mkSystem (start (engine_new limit) (mkEngineCfg (u_workflows u) (pr_triggers (u_producers u)) (pr_conts (u_producers u))) file) [] [] [] file.

(** replay:107-170 [new]; [limit]: the traversals limit of the engine, [file]: the state file found. *)
Definition pipe_new (u : update_cfg) (workflows_on filter_on stats : bool) (limit : Z) (file : option saved) : pipe :=
  mkPipe (u_producers u) (u_selector u) (if workflows_on then On (engine_start limit u file) else Off file) (u_tails u) (u_filters u) filter_on stats.

(** The state file of the engine, on or off (replay:107-170). *)
Definition engine_file (e : engine_state) : option saved := match e with On y => y_file y | Off f => f end.

(** replay:172-202 [update]. *)
Definition pipe_update (p : pipe) (u : update_cfg) (workflows_on : bool) (limit : Z) : pipe :=
  let e :=
    if workflows_on then
      match p_engine p with
      | On y => On (mkSystem (update (y_engine y) (mkEngineCfg (u_workflows u) (pr_triggers (u_producers u)) (pr_conts (u_producers u))))
                      (y_rejected y) (y_outputs y) (y_done y) (y_file y))
      | Off f => On (engine_start limit u f)
      end
    else Off (engine_file (p_engine p)) in
  mkPipe (u_producers u) (u_selector u) e (u_tails u) (u_filters u) (p_filter_on p) (p_stats p).

(** config:403-437 [maybe_stream_log] and config:316-350. *)
Definition stream_ids (t : tails) (l : log) : list string :=
  match t with
  | None => []
  | Some l' => map fst (filter (fun s => match snd s with None => true | Some m => matches re_match to_i32 m l end) l')
  end.
(** config:403-437. *)
Definition maybe_stream_log (t : tails) (l : log) (o : wres) : list effect :=
  match stream_ids t l with [] => [] | ids => [EStream (make_log l [] ids) o] end.

(** replay:372-418 [write_to_buffers]; the boolean: no error is returned. *)
Fixpoint write_loop (known dests : list string) (r : record) (w : string -> wres) : list effect * bool :=
  match dests with
  | [] => ([], true)
  | id :: dests' =>
      if mem id known then
        match w id with
        | WHard => ([EWrite id r WHard], false)
        | o => let (es, ok) := write_loop known dests' r w in (EWrite id r o :: es, ok)
        end
      else ([], false)
  end.

(** replay:420-493 [process_flush_buffers_actions]: the writes, and the buffer the synthetic log was written to. *)
Definition process_flush_buffers_actions (actions : list string) (b : producers) (flushed written : list string) (l : log) (o : wres)
    : list effect * option string :=
  match actions with
  | [] => ([], None)
  | _ =>
      let written_to_continuous_buffer := existsb (fun x => mem x (pr_conts b)) written in
      let written_to_flushed_trigger_buffer := existsb (fun x => mem x (pr_triggers b)) written in
      match flushed with
      | [] => ([], None)
      | id :: _ =>
          if written_to_continuous_buffer || written_to_flushed_trigger_buffer then ([], None)
          else ((if mem id (pr_ids b) then [EWrite id (make_synthetic l actions) o] else []), Some id)
      end
  end.

(** replay:319-370 [finish_blocking_log_processing]. *)
Definition finish_blocking (stats : bool) (matching : list string) (v : env) : list effect :=
  let stats_effect := if stats then [EFlushStats (v_stats v)] else [] in
  match matching with
  | [] => stats_effect
  | _ => EFlush matching (v_flush v) :: match v_flush v with FlushOk => stats_effect | _ => [] end
  end.

(** The log after the filters, replay:211-214. *)
Definition filtered (p : pipe) (l : log) : log := if p_filter_on p then Filter_Model.process re_match re_replace to_i32 (p_filters p) l else l.
(** replay:242-246. *)
Definition matching_of (p : pipe) (l : log) : list string :=
  buffers re_match (p_selector p) (l_type l) (l_level l) (l_message l) (fields_ref_value (l_fields l) (l_matching l)).

(** Update of one field, replay:79-104. *)
Definition with_engine (p : pipe) (e : engine_state) : pipe :=
  mkPipe (p_producers p) (p_selector p) e (p_tails p) (p_filters p) (p_filter_on p) (p_stats p).

(** replay:204-317 [process_log]. *)
Definition process_log (p : pipe) (l0 : log) (blocking : bool) (v : env) : option (pipe * list effect) :=
  let l := filtered p l0 in
  let streamed := maybe_stream_log (p_tails p) l (v_stream v) in
  let matching := matching_of p l in
  let returns (es : list effect) := if blocking then es ++ [EReturn] else es in
  match p_engine p with
  | On y =>
      match WorkflowEngine_Model.process_log re_match to_i32 sha f64 (y_engine y) l matching (is_done (y_done y)) with
      | None => None
      | Some (e, r) =>
          let y := mkSystem e (y_rejected y) (y_outputs y) (y_done y) (y_file y) in
          let screenshot := if o_screenshot r then [EScreenshot] else [] in
          let (written, ok) := write_loop (pr_ids (p_producers p)) (o_dests r) (make_log l (o_action_ids r) []) (v_write v) in
          if ok then
            let (synthetic, extra) := process_flush_buffers_actions (o_action_ids r) (p_producers p) (o_flushed r) (o_dests r) l (v_synthetic v) in
            let matching := match extra with Some id => set_insert id matching | None => matching end in
            let y := if blocking || v_persist v then match step re_match to_i32 sha f64 y (Persist (v_torn v)) with Some (y, _) => y | None => y end else y in
            Some (with_engine p (On y),
                  streamed ++ screenshot ++ written ++ synthetic ++ returns (if blocking then finish_blocking (p_stats p) matching v else []))
          else Some (with_engine p (On y), streamed ++ screenshot ++ returns written)
      end
  | Off _ =>
      let (written, ok) := write_loop (pr_ids (p_producers p)) matching (make_log l [] []) (v_write v) in
      if ok then Some (p, streamed ++ written ++ returns (if blocking then finish_blocking (p_stats p) matching v else []))
      else Some (p, streamed ++ returns written)
  end.

(** What the pipeline is used for, and what happens in its [run] (replay:495-539): a flush of the state saves the engine
    (bd-logger/src/async_log_buffer.rs lines 645-647), the steps of the negotiation, a flush request of the
    engine is passed on (or refused by the full channel: its answer channel is dropped), and changes of the two flags. *)
Inductive pop :=
| PLog (l : log) (blocking : bool) (v : env)
| PUpdate (u : update_cfg) (workflows_on : bool) (limit : Z)
| PNegotiate (d : decision) | PRunOnce | PTakeFlush (accepted : bool) | PFlushDone (n : nat)
| PWorkflowsFlag (on : bool) | PFilterFlag (on : bool) | PPersist (torn : bool).

(** A step of the engine, replay:495-539. *)
Definition engine_step (p : pipe) (o : op) : option pipe :=
  match p_engine p with
  | Off _ => Some p
  | On y => match step re_match to_i32 sha f64 y o with Some (y, _) => Some (with_engine p (On y)) | None => None end
  end.

(** One use of the pipeline: replay:172-539. *)
Definition pstep (p : pipe) (o : pop) : option (pipe * list effect) :=
  match o with
  | PLog l blocking v => process_log p l blocking v
  | PUpdate u on limit => Some (pipe_update p u on limit, [])
  | PNegotiate d => match engine_step p (Negotiate d) with Some p => Some (p, []) | None => None end
  | PRunOnce => match engine_step p RunOnce with Some p => Some (p, []) | None => None end
  | PTakeFlush accepted =>
      match p_engine p with
      | Off _ => Some (p, [])
      | On y =>
          match e_buffers (y_engine y) with
          | [] => Some (p, [])
          | (n, ids) :: _ =>
              match engine_step p TakeFlush with
              | None => None
              | Some p => match (if accepted then Some p else engine_step p (FlushDone n)) with Some p => Some (p, [ETrigger ids accepted]) | None => None end
              end
          end
      end
  | PFlushDone n => match engine_step p (FlushDone n) with Some p => Some (p, []) | None => None end
  | PWorkflowsFlag on => Some (if on then p else with_engine p (Off (engine_file (p_engine p))), [])
  | PFilterFlag on => Some (mkPipe (p_producers p) (p_selector p) (p_engine p) (p_tails p) (p_filters p) on (p_stats p), [])
  | PPersist torn => match engine_step p (Persist torn) with Some p => Some (p, []) | None => None end
  end.

(** The effects of each step. *)
Fixpoint prun (p : pipe) (l : list pop) : option (pipe * list (list effect)) :=
  match l with
  | [] => Some (p, [])
  | o :: l => match pstep p o with
              | None => None
              | Some (p, es) => match prun p l with None => None | Some (p, ess) => Some (p, es :: ess) end
              end
  end.
End Pipeline.
