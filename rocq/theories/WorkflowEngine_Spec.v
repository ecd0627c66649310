(** Vocabulary of the statements about the workflows engine. *)
From Verif Require Import Base Str_Base Log_Model LogMatcher_Model Workflow_Model Workflow_Spec WorkflowEngine_Model.
Local Open Scope string_scope. Local Open Scope list_scope. Local Open Scope Z_scope.

(** The configurations that an operation hands to the engine. *)
Definition given (o : op) : list config := match o with Update g | Restart g _ => g_workflows g | _ => [] end.
(** All configurations of an execution. *)
Definition all_given (g : engine_cfg) (ops : list op) : list config := g_workflows g ++ flat_map given ops.
(** Either the process is not restarted, or equal ids mean equal definitions throughout the execution. *)
Definition is_restart (o : op) : bool := match o with Restart _ _ => true | _ => false end.
(** A write of the state file that fails half-way; a new configuration. *)
Definition torn_write (o : op) : bool := match o with Persist b => b | _ => false end.
Definition is_update (o : op) : bool := match o with Update _ => true | _ => false end.
Definition stable (g : engine_cfg) (ops : list op) : Prop :=
  existsb is_restart ops = true -> forall c c', In c (all_given g ops) -> In c' (all_given g ops) -> c_id c = c_id c' -> c = c'.
(** The limits of the restarts are not negative: they are of type [u32] in the code. *)
Definition limits_ok (ops : list op) : Prop := forall g n, In (Restart g n) ops -> 0 <= n.
(** The limit in force after the operations. *)
Definition limit_after (limit : Z) (ops : list op) : Z := fold_left (fun n o => match o with Restart _ m => m | _ => n end) ops limit.
(** The traversals the engine holds. *)
Definition held (e : engine) : list traversal := flat_map r_traversals (flat_map w_runs (e_workflows e)).
(** The condition under which the counter of traversals does not drift: no limit of matched logs, or no state with two ways out. *)
Definition steady (c : config) : Prop := c_matched c = None \/ forall s, In s (c_states c) -> (List.length (s_transitions s) <= 1)%nat.

(** Two engines that differ only in the runs of their workflows and what depends on them. *)
Definition same_but_runs (e1 e2 : engine) : Prop :=
  e_configs e1 = e_configs e2 /\ map w_id (e_workflows e1) = map w_id (e_workflows e2) /\ e_session e1 = e_session e2 /\ e_pending e1 = e_pending e2 /\ e_streaming e1 = e_streaming e2 /\
  e_limit e1 = e_limit e2 /\ e_triggers e1 = e_triggers e2 /\ e_conts e1 = e_conts e2 /\ e_flushes e1 = e_flushes e2 /\ e_input e1 = e_input e2 /\ e_buffers e1 = e_buffers e2 /\ e_next e1 = e_next e2.

(** The workflows an engine runs: pairs of a definition and its state. *)
Definition workflows_of (e : engine) : list (config * workflow) := combine (e_configs e) (e_workflows e).
(** The engine has a state for each definition, under its id, and no two definitions with the same id. *)
Definition consistent (e : engine) : Prop := Forall2 (fun c w => w_id w = c_id c) (e_configs e) (e_workflows e) /\ NoDup (map c_id (e_configs e)).

(** The parts of two results that the workflows decide are the same. *)
Definition same_actions (r1 r2 : result) : Prop :=
  o_action_ids r1 = o_action_ids r2 /\ o_flushed r1 = o_flushed r2 /\ o_screenshot r1 = o_screenshot r2 /\ o_metrics r1 = o_metrics r2 /\ o_paths r1 = o_paths r2.

Section Feed.
Variables (re_match : string -> string -> bool) (to_i32 : string -> option Z) (sha : string -> string) (f64 : string -> option Z).
(** A sequence of logs with their destinations and the flushes that are complete at that time. *)
Fixpoint feed (e : engine) (ls : list (log * list string * (nat -> bool))) : option (engine * list result) :=
  match ls with
  | [] => Some (e, [])
  | (l, dests, done) :: ls' => match process_log re_match to_i32 sha f64 e l dests done with
                               | Some (e', r) => match feed e' ls' with Some (e'', rs) => Some (e'', r :: rs) | None => None end
                               | None => None
                               end
  end.
(** No workflow hits the limit of traversals while the log is processed. *)
Fixpoint roomy (l : log) (ws : list (config * workflow)) (cur limit : Z) : Prop :=
  match ws with
  | [] => True
  | (c, w) :: ws' => match w_process re_match to_i32 sha c l w cur limit with
                     | Some (_, cur', r) => wr_stats r LimitHits = 0 /\ roomy l ws' cur' limit
                     | None => False
                     end
  end.
End Feed.

(** * Streaming *)
(** The action re-routes logs with these destinations. *)
Definition routes (a : streaming) (dests : list string) : Prop := exists d, In d dests /\ In d (sa_sources a).
Definition routesb (a : streaming) (dests : list string) : bool := existsb (fun d => mem d (sa_sources a)) dests.
(** The action ends at a log of the given session, if the flush it belongs to is complete: its limit is reached or the session is another one. *)
Definition over (session : string) (a : streaming) : Prop := sa_session a <> session \/ exists n, sa_max a = Some n /\ (n <= sa_count a)%N.
(** The buffers the engine knows. *)
Definition known (e : engine) (d : string) : Prop := In d (e_triggers e) \/ In d (e_conts e).
(** The action with one more re-routed log. *)
Definition counted (a : streaming) : streaming := mkStreamingAction (sa_id a) (sa_session a) (sa_sources a) (sa_dests a) (sa_max a) (sa_count a + 1).
(** Each streaming action has a configured destination. *)
Definition routable (e : engine) : Prop := forall a, In a (e_streaming e) -> exists d, In d (sa_dests a) /\ In d (e_conts e).

(** One streaming action while the logs are processed: what becomes of it, and how many logs it re-routes. *)
Fixpoint lives (complete : (nat -> bool) -> bool) (a : streaming) (ls : list (log * list string * (nat -> bool))) : option streaming * nat :=
  match ls with
  | [] => (Some a, 0%nat)
  | (l, dests, done) :: ls' =>
    if complete done && (negb (String.eqb (sa_session a) (l_session l)) || match sa_max a with Some n => (n <=? sa_count a)%N | None => false end) then (None, 0%nat)
    else if routesb a dests then let (b, n) := lives complete (counted a) ls' in (b, S n) else lives complete a ls'
  end.

(** * Negotiation *)
(** The flush actions of a definition. *)
Definition flushes (c : config) : list action_flush :=
  flat_map (fun s => flat_map (fun tr => flat_map (fun a => match a with AFlush f => [f] | _ => [] end) (tr_actions tr)) (s_transitions s)) (c_states c).
(** An id names one flush action. *)
Definition unique_flushes (cs : list config) : Prop := forall c c' a a', In c cs -> In c' cs -> In a (flushes c) -> In a' (flushes c') -> af_id a = af_id a' -> a = a'.
(** The trigger buffers change only when the process is restarted. *)
Fixpoint same_triggers (t : list string) (ops : list op) : Prop :=
  match ops with
  | [] => True
  | Update g :: ops' => g_triggers g = t /\ same_triggers t ops'
  | Restart g _ :: ops' => same_triggers (g_triggers g) ops'
  | _ :: ops' => same_triggers t ops'
  end.
Definition pending_of (o : output) : pending := match o with Approved p | Rejected p => p end.
(** The actions under negotiation: sent to the negotiator, or answered by it. *)
Definition negotiated (y : system) : list pending := e_input (y_engine y) ++ map pending_of (y_outputs y).

(** * Histories *)
(** [sub xs ys]: [xs] is obtained from [ys] by leaving out elements. *)
Inductive sub {A} : list A -> list A -> Prop :=
| sub_nil : sub [] []
| sub_skip x xs ys : sub xs ys -> sub xs (x :: ys)
| sub_keep x xs ys : sub xs ys -> sub (x :: xs) (x :: ys).
(** The logs of an execution. *)
Definition logs_of (ops : list op) : list log := flat_map (fun o => match o with Log l _ => [l] | _ => [] end) ops.
(** At the log [l], after the logs [before], the action is due: there is a transition with this action in a configuration of [cs], and a
    selection of the logs of the session of [l] in which [l] is the match the transition waits for. *)
Definition called_for (re_match : string -> string -> bool) (to_i32 : string -> option Z) (cs : list config) (before : list log) (l : log) (a : action) : Prop :=
  exists c s tr ls, In c cs /\ In s (c_states c) /\ In tr (s_transitions s) /\ In a (tr_actions tr) /\ sub ls before /\ Forall (fun x => l_session x = l_session l) ls /\
  due re_match to_i32 tr ls l = true.

(** Each configuration of the execution has at most one workflow with an id. *)
Definition distinct (g : engine_cfg) (ops : list op) : Prop :=
  NoDup (map c_id (g_workflows g)) /\ forall g', In (Update g') ops \/ (exists n, In (Restart g' n) ops) -> NoDup (map c_id (g_workflows g')).
(** Two systems that differ only in the runs of their workflows and what depends on them. *)
Definition same_but_runs_system (y1 y2 : system) : Prop :=
  same_but_runs (y_engine y1) (y_engine y2) /\ y_rejected y1 = y_rejected y2 /\ y_outputs y1 = y_outputs y2 /\ y_done y1 = y_done y2 /\ y_file y1 = y_file y2.

(** * Following a traversal *)
Section Follow.
Variables (re_match : string -> string -> bool) (to_i32 : string -> option Z) (sha : string -> string) (f64 : string -> option Z).
(** The effect of an action is in the result; the paths are treated separately. *)
Definition shown (l : log) (r : result) (a : action) : Prop :=
  match a with
  | AFlush f => In (af_id f) (o_action_ids r)
  | AMetric m => incl (emit_metric f64 m l) (o_metrics r)
  | AScreenshot _ => o_screenshot r = true
  | ASankey _ => True
  end.
(** The runs of a workflow that see each log: all of a parallel workflow, the last one of an exclusive workflow. *)
Definition leading (c : config) (runs : list run) (rn : run) : Prop :=
  match c_exec c with Parallel => In rn runs | Exclusive => runs = [rn] \/ exists i, runs = [i; rn] /\ r_initial i = true end.
(** The engine waits in the state [i] of the workflow, with these numbers of matches for its transitions. A workflow without runs waits in its first state. *)
Definition waits_in (e : engine) (c : config) (i : nat) (cs : list N) : Prop :=
  exists w, In (c, w) (workflows_of e) /\ workflow_fits c w /\
  (w_runs w = [] /\ i = 0%nat /\ Forall (fun n => n = 0%N) cs \/
   exists rn t, leading c (w_runs w) rn /\ In t (r_traversals rn) /\ t_state t = i /\ t_counts t = cs).
(** The log does not make an exclusive workflow start over: it matches a transition of the list, or none of the first state. *)
Definition undisturbed (c : config) (trs : list transition) (l : log) : Prop :=
  c_exec c = Parallel \/ (exists tr, In tr trs /\ hit re_match to_i32 tr l = true) \/
  (forall s0 tr, nth_error (c_states c) 0 = Some s0 -> In tr (s_transitions s0) -> hit re_match to_i32 tr l = false).
(** The logs are processed without a limit being hit and without disturbing the workflow. *)
Fixpoint calm (c : config) (trs : list transition) (e : engine) (ls : list (log * list string * (nat -> bool))) : Prop :=
  match ls with
  | [] => True
  | (l, dests, done) :: ls' => roomy re_match to_i32 sha l (workflows_of e) (e_current e) (e_limit e) /\ undisturbed c trs l /\
      match process_log re_match to_i32 sha f64 e l dests done with Some (e', _) => calm c trs e' ls' | None => False end
  end.
End Follow.
