(** What the counters of the workflows engine have to do with what it runs. *)
From Verif Require Import Base Str_Base Log_Model LogMatcher_Model Workflow_Model WorkflowEngine_Model WorkflowEngine_Spec WorkflowStats_Model.
Local Open Scope string_scope. Local Open Scope list_scope. Local Open Scope Z_scope.

(** What runs. *)
Definition workflows_running (y : system) : Z := Z.of_nat (List.length (e_workflows (y_engine y))).
Definition runs_running (y : system) : Z := Z.of_nat (List.length (flat_map w_runs (e_workflows (y_engine y)))).
Definition traversals_running (y : system) : Z := Z.of_nat (List.length (held (y_engine y))).
(** Counted as started and not as ended. *)
Definition workflows_open (k : counters) : Z := k_started k - k_ended k.
Definition runs_open (k : counters) : Z := k_stats k CreatedRuns - k_stats k StoppedRuns - k_stats k CompletedRuns.
Definition traversals_open (k : counters) : Z := k_stats k CreatedTraversals - k_stats k StoppedTraversals - k_stats k CompletedTraversals.
(** The process is not restarted. *)
Definition one_process (ops : list op) : Prop := forall g n, ~ In (Restart g n) ops.
(** All logs belong to one session, that of the state file if it has one. *)
Definition one_session (st : option saved) (ops : list op) : Prop :=
  exists s, (forall l, In l (logs_of ops) -> l_session l = s) /\ match st with None => True | Some sv => sv_session sv = "" \/ sv_session sv = s end.
(** The workflows that need a new run for the next log: those without a run in the initial state. *)
Definition in_need (e : engine) : Z := Z.of_nat (List.length (filter needs_new_run (e_workflows e))).
