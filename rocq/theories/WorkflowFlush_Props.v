(** C150: an approved action asks once for the flush of its buffers (bd-workflows/src/engine.rs
    lines 471-543). *)
From Verif Require Import Base Str_Base Version_Model Log_Model LogMatcher_Model Workflow_Model Workflow_Spec WorkflowEngine_Model WorkflowExamples_Model WorkflowFlush_Spec WorkflowFlush_Proofs.
Local Open Scope string_scope. Local Open Scope list_scope.

(** When an approval is dealt with, the flush of the buffers of the action is asked for, under a
    new number, unless an earlier flush for the same action is under way. Missing for the full
    property: the queue of the requests has ten places (C150_full_queue_refuted). *)
Theorem C150_flush_partial re_match to_i32 sha f64 g limit ops y ev p y' ev' :
  run_ops re_match to_i32 sha f64 (system_new g limit) ops = Some (y, ev) -> approved_next y p -> step re_match to_i32 sha f64 y RunOnce = Some (y', ev') ->
  let r := requests re_match to_i32 sha f64 (system_new g limit) ops [] in
  (running y r (pa_id p) \/ List.length (waiting y) = 10%nat -> waiting y' = waiting y) /\
  (~ running y r (pa_id p) -> List.length (waiting y) <> 10%nat -> exists n, waiting y' = waiting y ++ [(n, pa_triggers p)] /\ ~ In n (map snd r) /\ ~ In n (y_done y')).
Proof. exact (flush_once re_match to_i32 sha f64 g limit ops y ev p y' ev'). Qed.
Print Assumptions C150_flush_partial.

(** At most ten requests wait; all of them were made for an approved action; no number is used
    twice; and of the requests for one action at most one is not answered. *)
Theorem C150_one_at_a_time re_match to_i32 sha f64 g limit ops y ev :
  run_ops re_match to_i32 sha f64 (system_new g limit) ops = Some (y, ev) -> let r := requests re_match to_i32 sha f64 (system_new g limit) ops [] in
  (List.length (waiting y) <= 10)%nat /\ NoDup (map snd r) /\ (forall n ids, In (n, ids) (waiting y) -> exists id, In (id, n) r) /\
  (forall id n m, In (id, n) r -> In (id, m) r -> ~ In n (y_done y) -> ~ In m (y_done y) -> n = m).
Proof. exact (one_at_a_time re_match to_i32 sha f64 g limit ops y ev). Qed.
Print Assumptions C150_one_at_a_time.

(** Nothing but an approval asks for a flush. *)
Theorem C150_only_approvals re_match to_i32 sha f64 y o y' ev : step re_match to_i32 sha f64 y o = Some (y', ev) -> (o = RunOnce -> forall p, ~ approved_next y p) ->
  waiting y' = waiting y \/ waiting y' = tl (waiting y) \/ waiting y' = [].
Proof. exact (only_approvals re_match to_i32 sha f64 y o y' ev). Qed.
Print Assumptions C150_only_approvals.

(** What a history shows: the waiting requests, the requests made, the answered ones, what is to
    be dealt with next, and what is pending. *)
Definition report (g : engine_cfg) (ops : list op) : option (list (nat * list string) * list (string * nat) * list nat * list string * list string) :=
  match run_ops xm xi xh xf (system_new g 10) ops with
  | Some (y, _) => Some (waiting y, requests xm xi xh xf (system_new g 10) ops [], y_done y, map (fun o => match o with Approved p | Rejected p => pa_id p end) (y_outputs y), map pa_id (e_pending (y_engine y)))
  | None => None
  end.
Definition twice : list op := [L "F"; Negotiate Upload; Negotiate Upload; RunOnce].
(** Two approvals of actions with one id: the second one asks for nothing as long as the first
    request is not answered. *)
Example C150_case :
  report (engine_with [two_flushes]) twice = Some ([(0%nat, ["trigger"])], [("f", 0%nat)], [], ["f"], ["f"]) /\
  report (engine_with [two_flushes]) (twice ++ [RunOnce]) = Some ([(0%nat, ["trigger"])], [("f", 0%nat)], [], [], []) /\
  report (engine_with [two_flushes]) (twice ++ [TakeFlush; FlushDone 0; RunOnce]) = Some ([(1%nat, ["other"])], [("f", 1%nat); ("f", 0%nat)], [0%nat], [], []).
Proof. vm_compute. splits; reflexivity. Qed.

(** A flush on "G". *)
Definition late : workflow_proto := mkWorkflowP "late" [mkStateP "0" [on "G" 1 [PFlush "z" ["other"] None] "1"]; mkStateP "1" []] (Some Exclusive) None None.
Definition full : list op := L "F" :: List.concat (repeat [Negotiate Upload; RunOnce] 10) ++ [L "G"; Negotiate Upload].
(** If ten requests wait, an approved action is dropped: it is not pending any more, and its
    buffers are not flushed. *)
Theorem C150_full_queue_refuted : exists ps ops a b c d e a' b' c' d',
  report (engine_with ps) ops = Some (a, b, c, ["z"], d) /\ In "z" d /\ ~ In "z" (map fst b) /\
  report (engine_with ps) (ops ++ [RunOnce]) = Some (a', b', c', [], d') /\ ~ In "z" d' /\ ~ In "z" (map fst b') /\ e = List.length a' /\ e = 10%nat.
Proof.
  exists [eleven; late], full. assert (X : exists a b c d, report (engine_with [eleven; late]) full = Some (a, b, c, ["z"], d) /\ In "z" d /\ ~ In "z" (map fst b)).
  { vm_compute. do 4 eexists. split; [reflexivity|]. cbn. split; [tauto|]. intuition discriminate. }
  assert (Y : exists a b c d, report (engine_with [eleven; late]) (full ++ [RunOnce]) = Some (a, b, c, [], d) /\ ~ In "z" d /\ ~ In "z" (map fst b) /\ List.length a = 10%nat).
  { vm_compute. do 4 eexists. split; [reflexivity|]. cbn. splits; intuition discriminate. }
  destruct X as (a & b & c & d & X1 & X2 & X3). destruct Y as (a' & b' & c' & d' & Y1 & Y2 & Y3 & Y4). exists a, b, c, d, 10%nat, a', b', c', d'. splits; auto.
Qed.
Print Assumptions C150_full_queue_refuted.
