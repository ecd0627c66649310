(** Vocabulary of the statements about the processing pipeline. *)
From Verif Require Import Base Str_Base Log_Model LogMatcher_Model BufferMatcher_Model Matcher_Spec Workflow_Model WorkflowEngine_Model WorkflowEngine_Spec Pipeline_Model.
From Verif Require Filter_Model.
Local Open Scope string_scope. Local Open Scope list_scope.

(** A configuration whose parts belong together, as [LoggerUpdate::apply_configuration] makes them from one list of buffers: each buffer
    is a trigger buffer or a continuous buffer, and logs are only routed to buffers of the list. *)
Definition coherent (u : update_cfg) : Prop :=
  (forall b, In b (u_selector u) -> In (bf_id b) (pr_ids (u_producers u))) /\
  (forall d, In d (pr_ids (u_producers u)) <-> In d (pr_triggers (u_producers u)) \/ In d (pr_conts (u_producers u))).
(** Updates are coherent and keep the continuous buffers. *)
Fixpoint growing (conts : list string) (ops : list pop) : Prop :=
  match ops with
  | [] => True
  | PUpdate u _ _ :: ops => coherent u /\ incl conts (pr_conts (u_producers u)) /\ growing (pr_conts (u_producers u)) ops
  | _ :: ops => growing conts ops
  end.
(** Updates are coherent. *)
Definition all_coherent (ops : list pop) : Prop := forall u on limit, In (PUpdate u on limit) ops -> coherent u.
(** The pending actions of a state file stream to buffers of the list. *)
Definition file_fits (conts : list string) (file : option saved) : Prop :=
  forall s, file = Some s -> forall q, In q (sv_pending s) -> forall c, pa_streaming q = Some c -> incl (sc_dest c) conts.

(** The records of a step: all that were handed to the buffers. *)
Definition records (es : list effect) : list (string * record) := flat_map (fun e => match e with EWrite id r _ => [(id, r)] | _ => [] end) es.
(** A record that carries the log as it is, or the synthetic copy of it (level Debug, type InternalSDK), with the actions it triggered. *)
Definition carries (l : log) (actions : list string) (r : record) : Prop :=
  rc_level r = l_level l /\ rc_type r = l_type l /\ rc_message r = l_message l /\ rc_fields r = l_fields l /\ rc_session r = l_session l /\ rc_time r = l_time l /\
  rc_actions r = actions /\ rc_streams r = [].
Definition copies (l : log) (actions : list string) (r : record) : Prop :=
  rc_level r = 1%N /\ rc_type r = 4%N /\ rc_message r = l_message l /\ rc_fields r = l_fields l /\ rc_session r = l_session l /\ rc_time r = l_time l /\ rc_actions r = actions /\ rc_streams r = [].
(** No buffer fails in an unexpected way. *)
Definition buffers_work (v : env) : Prop := forall id, v_write v id <> WHard.

(** The log is routed to the buffer by the configuration. *)
Definition wants (re_match : string -> string -> bool) (cfg : list buffer_cfg) (l : log) (id : string) : Prop :=
  routed re_match (l_level l) (l_type l) (l_message l) (fun k s => fields_ref_value (l_fields l) (l_matching l) k = Some s) cfg id.
(** The streaming actions that are in force when the log arrives. *)
Definition in_force (p : pipe) (l : log) (a : streaming) : Prop :=
  match p_engine p with
  | On y => e_workflows (y_engine y) <> [] /\ In a (e_streaming (y_engine y)) /\
            (over (l_session l) a -> flush_complete (y_engine y) (is_done (y_done y)) (sa_id a) = false)
  | Off _ => False
  end.
(** The buffers of a log: those the configuration routes it to unless a streaming action has taken them over, and the destinations
    of the streaming actions that take the log. *)
Definition goes (re_match : string -> string -> bool) (cfg : list buffer_cfg) (p : pipe) (l : log) (id : string) : Prop :=
  (wants re_match cfg l id /\ ~ exists a, in_force p l a /\ In id (sa_sources a)) \/
  exists a d, in_force p l a /\ wants re_match cfg l d /\ In d (sa_sources a) /\ In id (sa_dests a).

(** What the engine decides about the log. *)
Definition verdict (re_match : string -> string -> bool) (to_i32 : string -> option Z) (sha : string -> string) (f64 : string -> option Z) (p : pipe) (l : log) (r : result) : Prop :=
  exists y e, p_engine p = On y /\
  WorkflowEngine_Model.process_log re_match to_i32 sha f64 (y_engine y) l (matching_of re_match p l) (is_done (y_done y)) = Some (e, r).
(** The record of the buffer is on disk when the call returns: after it was written and before the return, the buffer was flushed. *)
Definition settled (es : list effect) (id : string) (r : record) (o : wres) : Prop :=
  forall before after, es = before ++ EReturn :: after -> exists es1 ids es2, before = es1 ++ EFlush ids FlushOk :: es2 /\ In (EWrite id r o) es1 /\ In id ids.
(** A trigger buffer that the flush action asks for. *)
Definition asks_for (p : pipe) (a : action_flush) (id : string) : Prop := In id (pr_triggers (p_producers p)) /\ (af_buffers a = [] \/ In id (af_buffers a)).
(** The stream takes the log. *)
Definition tailed (re_match : string -> string -> bool) (to_i32 : string -> option Z) (l : log) (m : option matcher_cfg) : Prop :=
  match m with
  | None => True
  | Some m => holds re_match to_i32 (l_level l) (l_type l) (l_message l) (fun k s => fields_ref_value (l_fields l) (l_matching l) k = Some s) m
  end.

(** The configuration received last, and the state of the filter flag. *)
Fixpoint latest (u : update_cfg) (ops : list pop) : update_cfg := match ops with [] => u | PUpdate w _ _ :: ops => latest w ops | _ :: ops => latest u ops end.
Fixpoint filtering (on : bool) (ops : list pop) : bool := match ops with [] => on | PFilterFlag b :: ops => filtering b ops | _ :: ops => filtering on ops end.
