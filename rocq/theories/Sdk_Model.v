(** The log buffer (bd-logger/src/async_log_buffer.rs, "alb" below) with the processing pipeline (bd-logger/src/log_replay.rs, "replay" below) as its pipeline:
    [LogBuffer_Model] with [Pipeline_Model].
    - The two runtime flags and the limit of the workflow engine are read when a configuration comes (replay:120-127 and 178) and are part of [conf]; while the
      pipeline runs, a change of a flag is one of its own turns.
    - The state file found at the start, and whether a write of it is torn, are parameters. *)
From Verif Require Import Base Str_Base Log_Model Workflow_Model WorkflowEngine_Model Pipeline_Model LogBuffer_Model.
From Verif Require Filter_Model.
Local Open Scope string_scope. Local Open Scope list_scope.

(** logging_state.rs lines 313-319 [ConfigUpdate], with what replay:120-127 and 178 read from the runtime. [k_filter] is only read by replay:126-127. *)
Record conf := mkConf { k_update : update_cfg; k_workflows : bool; k_filter : bool; k_limit : Z }.
(** What the pipeline does on its own, replay:495-539 [run]. *)
Inductive turn := Negotiates (d : decision) | RunsOnce | TakesFlush (accepted : bool) | FlushDone (n : nat) | WorkflowsFlag (on : bool) | FilterFlag (on : bool).
(** replay:495-539. *)
Definition pop_of (r : turn) : pop :=
  match r with
  | Negotiates d => PNegotiate d | RunsOnce => PRunOnce | TakesFlush a => PTakeFlush a | FlushDone n => PFlushDone n
  | WorkflowsFlag on => PWorkflowsFlag on | FilterFlag on => PFilterFlag on
  end.

Section Sdk.
Variables (re_match : string -> string -> bool) (re_replace : string -> string -> string -> string) (to_i32 : string -> option Z)
  (sha : string -> string) (f64 : string -> option Z).
Variables (threshold write_interval : Z) (size : log -> N) (show_time : Z -> string) (has_stats : bool).
(** The state file found at the start, and: is the write of the state file torn? *)
Variables (file : option saved) (torn : pipe -> bool).

(** replay:107-170 as called by logging_state.rs lines 95-124; the flush of stats is there in both or in none (logging_state.rs lines 73-78). *)
Definition sdk_new (c : conf) : pipe := pipe_new (k_update c) (k_workflows c) (k_filter c) has_stats (k_limit c) file.
(** replay:172-202 as called by alb:514-517. *)
Definition sdk_update (p : pipe) (c : conf) : pipe := pipe_update p (k_update c) (k_workflows c) (k_limit c).
(** replay:204-317 as called by alb:485-503 and 537-548. *)
Definition sdk_log (p : pipe) (l : log) (blocking : bool) (v : env) : option (pipe * list effect) := Pipeline_Model.process_log re_match re_replace to_i32 sha f64 p l blocking v.
(** replay:495-539 as called by alb:655-656. *)
Definition sdk_turn (p : pipe) (r : turn) : option (pipe * list effect) := pstep re_match re_replace to_i32 sha f64 p (pop_of r).
(** alb:645-647: the engine, if there is one, is saved. *)
Definition sdk_persist (p : pipe) : pipe := match engine_step re_match to_i32 sha f64 p (Persist (torn p)) with Some p => p | None => p end.

(** alb:562-668. *)
Definition sdk_step : buf pipe -> label conf env turn -> option (buf pipe * list (event env effect)) :=
  step conf pipe env effect turn sdk_new sdk_update sdk_log sdk_turn sdk_persist threshold write_interval size show_time has_stats.
(** A history, alb:562-668. *)
Definition sdk_run : buf pipe -> list (label conf env turn) -> option (buf pipe * list (event env effect)) :=
  run conf pipe env effect turn sdk_new sdk_update sdk_log sdk_turn sdk_persist threshold write_interval size show_time has_stats.
End Sdk.
