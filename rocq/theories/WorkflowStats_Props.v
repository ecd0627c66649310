(** The claims about the counters of the workflows engine. *)
From Verif Require Import Base Str_Base Log_Model LogMatcher_Model Workflow_Model Workflow_Spec WorkflowEngine_Model WorkflowEngine_Spec WorkflowExamples_Model Workflow_Props WorkflowStats_Model WorkflowStats_Spec WorkflowStats_Proofs.
Local Open Scope string_scope. Local Open Scope list_scope. Local Open Scope Z_scope.

(** C148. The workflows counted as started and not as stopped are those that run: always, also over restarts. *)
Theorem C148_workflows : forall re_match to_i32 sha f64 g limit st ops y k, count_ops re_match to_i32 sha f64 (process_new g limit st) (count_start limit g st) ops = Some (y, k) -> workflows_open k = workflows_running y.
Proof. exact counters_workflows. Qed.
(** C148. The runs counted as started and neither as stopped nor as completed are those that run, as long as the session does not change. *)
Theorem C148_runs_partial : forall re_match to_i32 sha f64 g limit st ops y k, one_process ops -> one_session st ops ->
  count_ops re_match to_i32 sha f64 (process_new g limit st) (count_start limit g st) ops = Some (y, k) -> runs_open k = runs_running y.
Proof. exact counters_runs. Qed.
(** C148. The same for the traversals, if no workflow has a limit of matched logs and no restored run was left out. *)
Theorem C148_traversals_partial : forall re_match to_i32 sha f64 g limit st ops y k, one_process ops -> one_session st ops -> Forall (fun c => well_formed c /\ c_matched c = None) (all_given g ops) ->
  k_stats (count_start limit g st) LimitHits = 0 ->
  count_ops re_match to_i32 sha f64 (process_new g limit st) (count_start limit g st) ops = Some (y, k) -> traversals_open k = traversals_running y.
Proof. exact counters_traversals. Qed.
(** C148. For each log the hits of the limit are the runs that were needed and not created, and at most the stopped runs besides. *)
Theorem C148_limit_hits : forall re_match to_i32 sha f64 g limit st ops y k l dests y' k', count_ops re_match to_i32 sha f64 (process_new g limit st) (count_start limit g st) ops = Some (y, k) ->
  count_ops re_match to_i32 sha f64 y k [Log l dests] = Some (y', k') ->
  let short := in_need (enter_session (y_engine y) l) - (k_stats k' CreatedRuns - k_stats k CreatedRuns) in
  short <= k_stats k' LimitHits - k_stats k LimitHits <= short + (k_stats k' StoppedRuns - k_stats k StoppedRuns).
Proof. exact counters_limit. Qed.
(** C148. Each history that the engine goes through has its counters. *)
Theorem C148_counted : forall re_match to_i32 sha f64 ops y k, (exists y' ev, run_ops re_match to_i32 sha f64 y ops = Some (y', ev)) ->
  exists y' k' ev, count_ops re_match to_i32 sha f64 y k ops = Some (y', k') /\ run_ops re_match to_i32 sha f64 y ops = Some (y', ev).
Proof. exact counters_watch. Qed.

(** What the counters and the engine say at the end. *)
Definition report (x : option (system * counters)) : option (Z * Z * (Z * Z) * (Z * Z) * Z) :=
  match x with Some (y, k) => Some (workflows_open k, workflows_running y, (runs_open k, runs_running y), (traversals_open k, traversals_running y), k_stats k LimitHits) | None => None end.
Definition watched (g : engine_cfg) (limit : Z) (st : option saved) (ops : list op) : option (system * counters) := count_ops xm xi xh xf (process_new g limit st) (count_start limit g st) ops.
Definition three := engine_with [many Parallel; nth_A 2].
Definition busy_ops : list op := [L "P"; L "P"; L "A"; Persist false; Update (engine_with [nth_A 2; shorter]); L "A"; L "P"].
Lemma three_calm : Forall (fun c => well_formed c /\ c_matched c = None) (g_workflows three).
Proof.
  assert (W : Forall well_formed (g_workflows three)) by apply C69_parsed_configurations_well_formed.
  assert (M : forallb (fun c => match c_matched c with None => true | _ => false end) (g_workflows three) = true) by (vm_compute; reflexivity).
  rewrite forallb_forall in M. rewrite Forall_forall in *. intros c Hc. split; auto. specialize (M c Hc). destruct (c_matched c); [discriminate|auto].
Qed.
(** Runs that start, advance, complete and are removed by an update; the limit of three is hit. *)
Example C148_case : report (watched three 3 None busy_ops) = Some (2, 2, (3, 3), (3, 3), 1) /\ one_process busy_ops /\ one_session None busy_ops /\
  Forall (fun c => well_formed c /\ c_matched c = None) (all_given three busy_ops) /\ k_stats (count_start 3 three None) LimitHits = 0.
Proof.
  split; [vm_compute; reflexivity|]. split; [intros g n H; unfold busy_ops in H; repeat (apply in_inv in H as [H|H]; [discriminate|]); contradiction|]. split; [|split; [|vm_compute; reflexivity]].
  - exists "S". split; [|exact Logic.I]. intros l H. cbn in H. repeat destruct H as [<-|H]; try reflexivity. contradiction.
  - assert (W : Forall well_formed (all_given three busy_ops)).
    { unfold all_given. cbn [busy_ops L flat_map given app]. rewrite app_nil_r. apply Forall_app. split; apply C69_parsed_configurations_well_formed. }
    assert (M : forallb (fun c => match c_matched c with None => true | _ => false end) (all_given three busy_ops) = true) by (vm_compute; reflexivity).
    rewrite forallb_forall in M. rewrite Forall_forall in *. intros c Hc. split; auto. specialize (M c Hc). destruct (c_matched c); [discriminate|auto].
Qed.

Lemma reported x a b c d e f h : report x = Some (a, b, (c, d), (e, f), h) -> exists y k, x = Some (y, k) /\ workflows_open k = a /\ workflows_running y = b /\ runs_open k = c /\ runs_running y = d /\
  traversals_open k = e /\ traversals_running y = f /\ k_stats k LimitHits = h.
Proof. destruct x as [[y k]|]; cbn [report]; intros H; [|discriminate]. injection H as H1 H2 H3 H4 H5 H6 H7. exists y, k. auto 10. Qed.
Definition is_there (x : option saved) : bool := match x with None => false | Some _ => true end.
Lemma present (x : option saved) : is_there x = true -> x <> None.
Proof. destruct x; discriminate. Qed.
(** C148. A change of the session drops all runs and counts none as stopped: the counters drift. *)
Definition other_session : list op := [L "P"; L "P"; Log (xlog "x" "T" 0) []].
Theorem C148_session_refuted : exists g limit ops y k, one_process ops /\ Forall (fun c => well_formed c /\ c_matched c = None) (all_given g ops) /\ watched g limit None ops = Some (y, k) /\
  workflows_open k = 2 /\ runs_open k = 5 /\ runs_running y = 2 /\ traversals_open k = 5 /\ traversals_running y = 2.
Proof.
  assert (R : report (watched three 9 None other_session) = Some (2, 2, (5, 2), (5, 2), 0)) by (vm_compute; reflexivity).
  apply reported in R as (y & k & R0 & R1 & R2 & R3 & R4 & R5 & R6 & R7). exists three, 9, other_session, y, k.
  split; [intros g n H; unfold other_session in H; repeat (apply in_inv in H as [H|H]; [discriminate|]); contradiction|].
  split; [unfold all_given; cbn [other_session L flat_map given app]; rewrite app_nil_r; apply three_calm|]. repeat (split; [assumption|]). assumption.
Qed.
(** C148. A run that its limit of matched logs stops after some of its traversals advanced: the traversals it gained are counted as stopped and not as started, those that ended are not counted. *)
Definition abbb : list op := [L "A"; L "B"; L "B"; L "B"].
Theorem C148_matched_refuted : exists g limit ops y k y2 g2 k2, one_process ops /\ one_session None ops /\ watched g limit None ops = Some (y, k) /\ traversals_open k = 0 /\ traversals_running y = 1 /\
  watched g2 limit None ops = Some (y2, k2) /\ traversals_open k2 = 2 /\ traversals_running y2 = 1.
Proof.
  assert (R : report (watched (engine_with [fork]) 99 None abbb) = Some (1, 1, (1, 1), (0, 1), 0)) by (vm_compute; reflexivity).
  assert (Q : report (watched (engine_with [leak]) 99 None abbb) = Some (1, 1, (1, 1), (2, 1), 0)) by (vm_compute; reflexivity).
  apply reported in R as (y & k & R0 & R1 & R2 & R3 & R4 & R5 & R6 & R7). apply reported in Q as (y2 & k2 & Q0 & Q1 & Q2 & Q3 & Q4 & Q5 & Q6 & Q7).
  exists (engine_with [fork]), 99, abbb, y, k, y2, (engine_with [leak]), k2. split; [intros g n H; unfold abbb in H; repeat (apply in_inv in H as [H|H]; [discriminate|]); contradiction|].
  split; [exists "S"; split; [|exact Logic.I]; intros l H; cbn in H; repeat destruct H as [<-|H]; try reflexivity; contradiction|]. repeat (split; [assumption|]). assumption.
Qed.
(** C148. A restored workflow that does not fit: the traversals of the runs left out are counted as started. *)
Definition three_runs_saved : option saved := match watched three 9 None [L "P"; L "P"; L "P"; Persist false] with Some (y, _) => y_file y | None => None end.
Theorem C148_restored_refuted : exists g limit st y k, st <> None /\ watched g limit st [] = Some (y, k) /\ k_stats k LimitHits = 1 /\ runs_open k = runs_running y /\ traversals_open k = 3 /\ traversals_running y = 2.
Proof.
  assert (R : report (watched three 2 three_runs_saved []) = Some (2, 2, (2, 2), (3, 2), 1)) by (vm_compute; reflexivity).
  assert (N : is_there three_runs_saved = true) by (vm_compute; reflexivity).
  apply reported in R as (y & k & R0 & R1 & R2 & R3 & R4 & R5 & R6 & R7). exists three, 2, three_runs_saved, y, k.
  split; [exact (present three_runs_saved N)|]. split; [exact R0|]. split; [exact R7|]. split; [exact (eq_trans R3 (eq_sym R4))|]. split; assumption.
Qed.
Print Assumptions C148_workflows.
Print Assumptions C148_runs_partial.
Print Assumptions C148_traversals_partial.
Print Assumptions C148_limit_hits.
Print Assumptions C148_counted.
Print Assumptions C148_session_refuted.
Print Assumptions C148_matched_refuted.
Print Assumptions C148_restored_refuted.
