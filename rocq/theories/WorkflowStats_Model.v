(** The counters that the workflows engine keeps about itself: bd-workflows/src/engine.rs [WorkflowsEngineStats] (lines 1107-1250), as far as they count workflows, runs,
    traversals and hits of the limit. They are beside the state of the engine: this file says how each operation changes them. The counters of a process start at zero.
    Simplification: the counters are unbounded ([u64] in the code). *)
From Verif Require Import Base Str_Base Log_Model LogMatcher_Model Workflow_Model WorkflowEngine_Model.
Local Open Scope string_scope. Local Open Scope list_scope. Local Open Scope Z_scope.

(** Lines 1107-1168: [workflow_starts_total], [workflow_stops_total]; the others have the names of [stat]. *)
Record counters := mkCounters { k_started : Z; k_ended : Z; k_stats : stats }.
(** Lines 1171-1250: the counters of a new process. *)
Definition no_counters : counters := mkCounters 0 0 no_stats.
(** Lines 611-641: the counters of one workflow are added. *)
Definition add_stats (s t : stats) : stats := fun x => s x + t x.
(** Lines 329-365: what is left of the workflow. *)
Definition kept_workflow (e : engine) (w : workflow) : workflow :=
  if e_limit e <? workflow_count w + e_current e then mkWorkflow (w_id w) (trim_runs (rev (w_runs w)) (workflow_count w) (e_current e) (e_limit e)) else w.
(** Lines 326-388 [add_workflow]: one hit for each run left out, the runs that are left, and the traversals there were before. *)
Definition count_add (k : counters) (e : engine) (w : workflow) : counters :=
  mkCounters (k_started k + 1) (k_ended k)
    (inc (inc (inc (k_stats k) LimitHits (count (w_runs w) - count (w_runs (kept_workflow e w)))) CreatedRuns (count (w_runs (kept_workflow e w)))) CreatedTraversals (workflow_count w)).
(** Lines 295-324 [add_workflows]. *)
Fixpoint count_adds (k : counters) (e : engine) (cs : list config) (existing : list workflow) : counters :=
  match cs with
  | [] => k
  | c :: cs' =>
    let w := match last_workflow (c_id c) existing with Some w => w | None => mkWorkflow (c_id c) [] end in
    count_adds (count_add k e w) (add_workflow e w c) cs' (without (c_id c) existing)
  end.
(** Lines 155-199 [start]: a new process. *)
Definition count_start (limit : Z) (g : engine_cfg) (st : option saved) : counters :=
  count_adds no_counters (engine_new limit) (g_workflows g) (match st with Some s => sv_workflows s | None => [] end).
(** Lines 390-409 [remove_workflow]. *)
Definition count_remove (k : counters) (w : workflow) : counters :=
  mkCounters (k_started k) (k_ended k + 1) (inc (inc (k_stats k) StoppedRuns (count (w_runs w))) StoppedTraversals (workflow_count w)).
(** Lines 210-293 [update]. *)
Definition count_update (k : counters) (e : engine) (g : engine_cfg) : counters :=
  let ws := combine (e_configs e) (e_workflows e) in
  let kept := filter (unchanged (g_workflows g)) ws in
  let gone := filter (fun x => negb (unchanged (g_workflows g) x)) ws in
  let k := fold_right (fun x k => count_remove k (snd x)) k gone in
  let e := set_workflows e (map fst kept) (map snd kept) (removed_current (e_current e) gone) (e_dirty e || existsb (fun x => negb (w_initial (snd x))) gone) in
  let existing := map w_id (e_workflows e) in
  fst (fold_left (fun ke c => if mem (c_id c) existing then ke else (count_add (fst ke) (snd ke) (mkWorkflow (c_id c) []), add_workflow (snd ke) (mkWorkflow (c_id c) []) c)) (g_workflows g) (k, e)).

Section Count.
Variables (re_match : string -> string -> bool) (to_i32 : string -> option Z) (sha : string -> string) (f64 : string -> option Z).
(** Lines 609-641: the counters of all workflows for one log; [None]: the code panics. *)
Fixpoint all_stats (l : log) (ws : list (config * workflow)) (cur limit : Z) : option stats :=
  match ws with
  | [] => Some no_stats
  | (c, w) :: ws' =>
    match w_process re_match to_i32 sha c l w cur limit with
    | None => None
    | Some (_, cur, r) => match all_stats l ws' cur limit with Some s => Some (add_stats (wr_stats r) s) | None => None end
    end
  end.
(** Lines 547-641 [process_log]; a change of the session (lines 757-766) counts nothing. *)
Definition count_log (k : counters) (e : engine) (l : log) : counters :=
  let e := enter_session e l in
  match all_stats l (combine (e_configs e) (e_workflows e)) (e_current e) (e_limit e) with
  | Some s => mkCounters (k_started k) (k_ended k) (add_stats (k_stats k) s)
  | None => k
  end.
(** Each operation, lines 155-845. *)
Definition count_op (k : counters) (y : system) (o : op) : counters :=
  match o with
  | Log l _ => count_log k (y_engine y) l
  | Update g => count_update k (y_engine y) g
  | Restart g limit => count_start limit g (y_file y)
  | _ => k
  end.
(** A history with its counters. *)
Fixpoint count_ops (y : system) (k : counters) (ops : list op) : option (system * counters) :=
  match ops with
  | [] => Some (y, k)
  | o :: ops' => match step re_match to_i32 sha f64 y o with Some (y', _) => count_ops y' (count_op k y o) ops' | None => None end
  end.
End Count.

(** A process that starts with this state file, lines 155-199. *)
Definition process_new (g : engine_cfg) (limit : Z) (st : option saved) : system := mkSystem (start (engine_new limit) g st) [] [] [] st.
