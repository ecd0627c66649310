(** Theorems C47-C51: streaming, negotiation, sessions, updates and restored states of the workflows engine. *)
From Verif Require Import Base Str_Base Version_Model Log_Model LogMatcher_Model Workflow_Model Workflow_Spec Workflow_Proofs WorkflowEngine_Model WorkflowEngine_Spec WorkflowEngine_Proofs WorkflowEqual_Proofs WorkflowActions_Proofs WorkflowNegotiation_Proofs WorkflowHistory_Proofs WorkflowFinal_Proofs WorkflowExamples_Model WorkflowRefuted_Proofs WorkflowSummary_Proofs WorkflowFile_Proofs.
Local Open Scope string_scope. Local Open Scope list_scope. Local Open Scope Z_scope.

(** ** C47: streaming *)
Theorem C47_destination_kept re_match to_i32 sha f64 g limit ops y ev l dests y' r d :
  run_ops re_match to_i32 sha f64 (system_new g limit) ops = Some (y, ev) -> step re_match to_i32 sha f64 y (Log l dests) = Some (y', [Processed l r]) ->
  In d dests -> known (y_engine y) d -> exists d', In d' (o_dests r) /\ known (y_engine y) d'.
Proof. exact (kept_destination re_match to_i32 sha f64 g limit ops y ev l dests y' r d). Qed.
Print Assumptions C47_destination_kept.
(** The destinations of a log are those of the streaming actions that take it, and its own as far as no action takes them. *)
Theorem C47_routing re_match to_i32 sha f64 e l dests done e' r : process_log re_match to_i32 sha f64 e l dests done = Some (e', r) -> e_workflows e <> [] ->
  let kept := filter (fun a => negb (ends_now e (l_session l) done a)) (e_streaming e) in
  e_streaming e' = map (fun a => if routesb a dests then counted a else a) kept /\
  forall d, In d (o_dests r) <-> (exists a, In a kept /\ routes a dests /\ In d (sa_dests a)) \/ (In d dests /\ known e d /\ ~ exists a, In a kept /\ In d (sa_sources a)).
Proof. exact (log_routing re_match to_i32 sha f64 e l dests done e' r). Qed.
Print Assumptions C47_routing.
(** What becomes of each streaming action: once the flush it belongs to is complete, it takes at most the logs its limit leaves, and a log of another session ends it. *)
Theorem C47_limit_and_session_partial re_match to_i32 sha f64 e ls e' rs : List.length (e_configs e) = List.length (e_workflows e) -> e_workflows e <> [] -> feed re_match to_i32 sha f64 e ls = Some (e', rs) ->
  e_streaming e' = catSomes (map (fun a => fst (lives (fun done => flush_complete e done (sa_id a)) a ls)) (e_streaming e)) /\
  forall a, In a (e_streaming e) -> (forall l d done, In (l, d, done) ls -> flush_complete e done (sa_id a) = true) ->
    (forall n, sa_max a = Some n -> (N.of_nat (snd (lives (fun done => flush_complete e done (sa_id a)) a ls)) <= n - sa_count a)%N) /\
    (forall l d done, In (l, d, done) ls -> l_session l <> sa_session a -> fst (lives (fun done => flush_complete e done (sa_id a)) a ls) = None).
Proof. exact (streaming_life re_match to_i32 sha f64 e ls e' rs). Qed.
Print Assumptions C47_limit_and_session_partial.
(** As long as the flush is not complete the limit is ignored: three logs are re-routed although the limit is two. *)
Theorem C47_limit_refuted : exists n ops, match run_ops xm xi xh xf (system_new (engine_with [flush "f" n]) 10) ops with
  | Some (_, ev) => flat_map (fun e => match e with Processed _ r => [o_dests r] | _ => [] end) ev = [["trigger"]; ["cont"]; ["cont"]; ["cont"]] /\
                    flat_map (fun e => match e with Intent p => [pa_id p] | _ => [] end) ev = ["f"] | None => False end /\ n = 2%N.
Proof. exact over_limit_incomplete. Qed.
Print Assumptions C47_limit_refuted.
(** Logs that were re-routed after the last save are not counted after a restart: four logs with a limit of two and a complete flush. *)
Theorem C47_limit_restart_refuted : exists n ops, match run_ops xm xi xh xf (system_new (engine_with [flush "f" n]) 10) ops with
  | Some (_, ev) => flat_map (fun e => match e with Processed _ r => [o_dests r] | _ => [] end) ev = [["trigger"]; ["cont"]; ["cont"]; ["cont"]; ["cont"]; ["trigger"] ] /\
                    flat_map (fun e => match e with Intent p => [pa_id p] | _ => [] end) ev = ["f"] | None => False end /\ n = 2%N /\ In (FlushDone 0) ops.
Proof. exact over_limit_restart. Qed.
Print Assumptions C47_limit_restart_refuted.
Example streaming_case : match run_ops xm xi xh xf (system_new (engine_with [flush "f" 2]) 10) (L "F" :: approve ++ [FlushDone 0; L "x"]) with
  | Some (y, _) => List.length (e_configs (y_engine y)) = List.length (e_workflows (y_engine y)) /\ map sa_max (e_streaming (y_engine y)) = [Some 2%N] /\ map sa_count (e_streaming (y_engine y)) = [1%N] /\
      forallb (fun a => flush_complete (y_engine y) (is_done (y_done y)) (sa_id a)) (e_streaming (y_engine y)) = true /\
      match step xm xi xh xf y (L "x") with Some (_, [Processed _ r]) => o_dests r = ["cont"] | _ => False end
  | None => False end.
Proof. vm_compute. repeat split. Qed.

(** ** C48: negotiation *)
Theorem C48_not_negotiated_again_partial re_match to_i32 sha f64 g limit ops y ev d y' p : Forall well_formed (all_given g ops) -> unique_flushes (all_given g ops) -> stable g ops -> same_triggers (g_triggers g) ops ->
  run_ops re_match to_i32 sha f64 (system_new g limit) ops = Some (y, ev) -> step re_match to_i32 sha f64 y (Negotiate d) = Some (y', [Intent p]) ->
  In p (e_pending (y_engine y)) /\ (forall q, In q (e_pending (y_engine y)) -> pa_id q = pa_id p -> q = p) /\ (forall o, In o (y_outputs y) -> pa_id (pending_of o) <> pa_id p) /\
  (forall s, In s (e_streaming (y_engine y)) -> sa_id s <> pa_id p).
Proof. exact (fresh_intent re_match to_i32 sha f64 g limit ops y ev d y' p). Qed.
Print Assumptions C48_not_negotiated_again_partial.
(** Between two negotiations of an action, the engine took the answer to the first one. *)
Theorem C48_resolved_between_partial re_match to_i32 sha f64 g limit l1 l2 d d' y0 y1 y2 y3 ev0 ev2 p p' : let ops := l1 ++ Negotiate d :: l2 in
  Forall well_formed (all_given g ops) -> unique_flushes (all_given g ops) -> stable g ops -> same_triggers (g_triggers g) ops -> existsb is_restart l2 = false ->
  run_ops re_match to_i32 sha f64 (system_new g limit) l1 = Some (y0, ev0) -> step re_match to_i32 sha f64 y0 (Negotiate d) = Some (y1, [Intent p]) -> run_ops re_match to_i32 sha f64 y1 l2 = Some (y2, ev2) ->
  step re_match to_i32 sha f64 y2 (Negotiate d') = Some (y3, [Intent p']) -> pa_id p' = pa_id p ->
  exists a b y ev out, l2 = a ++ RunOnce :: b /\ run_ops re_match to_i32 sha f64 y1 a = Some (y, ev) /\ hd_error (y_outputs y) = Some out /\ pending_of out = p.
Proof. exact (negotiated_once re_match to_i32 sha f64 g limit l1 l2 d d' y0 y1 y2 y3 ev0 ev2 p p'). Qed.
Print Assumptions C48_resolved_between_partial.
Theorem C48_answers re_match to_i32 sha f64 y d y' p : step re_match to_i32 sha f64 y (Negotiate d) = Some (y', [Intent p]) ->
  (d = Upload -> In (Approved p) (y_outputs y')) /\ (d <> Upload -> In (Rejected p) (y_outputs y')) /\
  (d = Drop -> forall ops y'' ev, existsb is_restart ops = false -> run_ops re_match to_i32 sha f64 y' ops = Some (y'', ev) -> forall q, In (Intent q) ev -> pa_id q <> pa_id p).
Proof. exact (answered re_match to_i32 sha f64 y d y' p). Qed.
Print Assumptions C48_answers.
Theorem C48_rejected_dropped_partial re_match to_i32 sha f64 g limit ops y ev p rest y' ev' : Forall well_formed (all_given g ops) -> unique_flushes (all_given g ops) -> stable g ops -> same_triggers (g_triggers g) ops ->
  run_ops re_match to_i32 sha f64 (system_new g limit) ops = Some (y, ev) -> y_outputs y = Rejected p :: rest -> step re_match to_i32 sha f64 y RunOnce = Some (y', ev') ->
  (forall q, In q (e_pending (y_engine y')) -> pa_id q <> pa_id p) /\ (forall q, In q (negotiated y') -> pa_id q <> pa_id p) /\ (forall s, In s (e_streaming (y_engine y')) -> sa_id s <> pa_id p).
Proof. exact (resolved_dropped re_match to_i32 sha f64 g limit ops y ev p rest y' ev'). Qed.
Print Assumptions C48_rejected_dropped_partial.
(** Two actions with one id are both negotiated. *)
Theorem C48_negotiated_again_refuted : exists ps limit ops, existsb (fun o => match o with RunOnce => true | _ => false end) ops = false /\
  match run_ops xm xi xh xf (system_new (engine_with ps) limit) ops with Some (_, ev) => flat_map (fun e => match e with Intent p => [pa_id p] | _ => [] end) ev = ["f"; "f"] | None => False end.
Proof. exact twice_same_id. Qed.
Print Assumptions C48_negotiated_again_refuted.
(** With unique ids: an action that an update removed from the pending ones, as its buffers are not configured, and that a later update allows again. *)
Theorem C48_negotiated_again_after_update_refuted : exists ps limit ops, unique_flushes (parse ps) /\ existsb (fun o => match o with RunOnce => true | _ => false end) ops = false /\
  match run_ops xm xi xh xf (system_new (engine_with ps) limit) ops with Some (_, ev) => flat_map (fun e => match e with Intent p => [pa_id p] | _ => [] end) ev = ["f"; "f"] | None => False end.
Proof. exact twice_after_update. Qed.
Print Assumptions C48_negotiated_again_after_update_refuted.
(** A rejected action whose buffers an update changed in the meantime stays pending, with nothing left that resolves it. *)
Theorem C48_rejected_dropped_refuted : exists ps limit ops, match run_ops xm xi xh xf (system_new (engine_with ps) limit) ops with
  | Some (y, ev) => flat_map (fun e => match e with Intent p => [pa_id p] | _ => [] end) ev = ["f"] /\ In (Negotiate Failed) ops /\ y_outputs y = [] /\ e_input (y_engine y) = [] /\ map pa_id (e_pending (y_engine y)) = ["f"]
  | None => False end.
Proof. exact rejected_stays. Qed.
Print Assumptions C48_rejected_dropped_refuted.
(** The eleventh action of one log does not fit into the channel: it stays pending and is never negotiated. *)
Theorem C48_negotiated_at_all_refuted : exists ps limit ops, match run_ops xm xi xh xf (system_new (engine_with ps) limit) ops with
  | Some (y, ev) => ~ In "k" (flat_map (fun e => match e with Intent p => [pa_id p] | _ => [] end) ev) /\ y_outputs y = [] /\ e_input (y_engine y) = [] /\ map pa_id (e_pending (y_engine y)) = ["k"]
  | None => False end.
Proof. exact never_negotiated. Qed.
Print Assumptions C48_negotiated_at_all_refuted.
Example negotiation_case : let g := engine_with [flush "f" 2; flush "g" 3] in let ops := [L "F"; L "F"; Negotiate Failed; RunOnce; L "F"; Negotiate Upload] in
  (Forall well_formed (all_given g ops) /\ unique_flushes (all_given g ops) /\ stable g ops /\ same_triggers (g_triggers g) ops) /\
  match run_ops xm xi xh xf (system_new g 10) ops with
  | Some (y, ev) => flat_map (fun e => match e with Intent p => [pa_id p] | _ => [] end) ev = ["f"; "g"] /\
      match step xm xi xh xf y (Negotiate Upload) with Some (_, [Intent p]) => pa_id p = "f" | _ => False end
  | None => False end.
Proof.
  cbv zeta. split; [|vm_compute; split; reflexivity]. split; [unfold all_given; cbn [flat_map given app]; repeat (apply Forall_app; split); try apply parsed_wf; constructor|]. split.
  - vm_compute. intros c c' a a' [<-|[<-|[] ] ] [<-|[<-|[] ] ] [<-|[] ] [<-|[] ]; intros E; reflexivity || discriminate.
  - split; [intros H; vm_compute in H; discriminate|]. vm_compute. auto.
Qed.

(** ** C49: sessions *)
(** Whatever the runs were when a log of another session comes, everything afterwards is the same. *)
Theorem C49_old_runs_forgotten_partial re_match to_i32 sha f64 y1 y2 l dests ops : e_session (y_engine y1) <> "" -> e_session (y_engine y1) <> l_session l -> same_but_runs_system y1 y2 ->
  run_ops re_match to_i32 sha f64 y1 (Log l dests :: ops) = run_ops re_match to_i32 sha f64 y2 (Log l dests :: ops).
Proof. exact (session_run re_match to_i32 sha f64 y1 y2 l dests ops). Qed.
Print Assumptions C49_old_runs_forgotten_partial.
Theorem C49_restored_runs_forgotten re_match to_i32 sha f64 limit g s1 s2 l dests done : sv_session s1 <> "" -> sv_session s1 <> l_session l -> sv_session s1 = sv_session s2 -> sv_pending s1 = sv_pending s2 -> sv_streaming s1 = sv_streaming s2 ->
  process_log re_match to_i32 sha f64 (start (engine_new limit) g (Some s1)) l dests done = process_log re_match to_i32 sha f64 (start (engine_new limit) g (Some s2)) l dests done.
Proof. exact (session_restored re_match to_i32 sha f64 limit g s1 s2 l dests done). Qed.
Print Assumptions C49_restored_runs_forgotten.
(** The engine's session is that of the last log. *)
Theorem C49_session re_match to_i32 sha f64 e l dests done e' r : process_log re_match to_i32 sha f64 e l dests done = Some (e', r) -> e_session e' = l_session l.
Proof. exact (process_log_session re_match to_i32 sha f64 e l dests done e' r). Qed.
Print Assumptions C49_session.
(** In every execution, all actions at a log are called for by logs of its session. *)
Theorem C49_same_session_causes re_match to_i32 sha f64 g limit ops l dests y ev y' r : let all := ops ++ [Log l dests] in Forall well_formed (all_given g all) -> stable g all -> Forall (fun x => l_session x <> "") (logs_of all) ->
  run_ops re_match to_i32 sha f64 (system_new g limit) ops = Some (y, ev) -> step re_match to_i32 sha f64 y (Log l dests) = Some (y', [Processed l r]) ->
  let called := called_for re_match to_i32 (all_given g all) (logs_of ops) l in
  (forall i, In i (o_action_ids r) -> exists a, af_id a = i /\ called (AFlush a)) /\
  (forall m, In m (o_metrics r) -> (exists a, In m (emit_metric f64 a l) /\ called (AMetric a)) \/ (exists a p, m = emit_sankey a p l /\ called (ASankey a))) /\
  (o_screenshot r = true -> exists i, called (AScreenshot i)) /\
  (forall p, In p (o_paths r) -> exists a, called (ASankey a)).
Proof. exact (actions_due re_match to_i32 sha f64 g limit ops l dests y ev y' r). Qed.
Print Assumptions C49_same_session_causes.
(** The session with the empty id is not seen as a session. *)
Theorem C49_empty_session_refuted : exists l1 l2, l_session l1 <> l_session l2 /\
  match run_ops xm xi xh xf (system_new (engine_with [nth_A 2]) 10) [Log l1 []; Log l2 []] with Some (_, ev) => flat_map (fun e => match e with Processed _ r => [List.length (o_metrics r)] | _ => [] end) ev = [0; 1]%nat | None => False end /\
  match run_ops xm xi xh xf (system_new (engine_with [nth_A 2]) 10) [Log l2 []] with Some (_, ev) => flat_map (fun e => match e with Processed _ r => [List.length (o_metrics r)] | _ => [] end) ev = [0]%nat | None => False end.
Proof. exact empty_session_influences. Qed.
Print Assumptions C49_empty_session_refuted.
(** Two systems that differ in their runs; the next log is of another session. *)
Example session_case : match run_ops xm xi xh xf (system_new (engine_with [nth_A 3]) 10) [L "A"], run_ops xm xi xh xf (system_new (engine_with [nth_A 3]) 10) [L "A"; L "A"] with
  | Some (y1, _), Some (y2, _) => (e_session (y_engine y1) = "S" /\ y1 <> y2) /\ same_but_runs_system y1 y2
  | _, _ => False end.
Proof. vm_compute. split; [split; [reflexivity|discriminate]|repeat split; reflexivity]. Qed.

(** ** C50: updates *)
Theorem C50_update_partial re_match to_i32 sha f64 g limit ops y ev g' y' ev' : distinct g ops -> NoDup (map c_id (g_workflows g')) -> run_ops re_match to_i32 sha f64 (system_new g limit) ops = Some (y, ev) ->
  step re_match to_i32 sha f64 y (Update g') = Some (y', ev') ->
  Permutation (map (fun x => c_id (fst x)) (workflows_of (y_engine y'))) (map c_id (g_workflows g')) /\
  (forall c w, In (c, w) (workflows_of (y_engine y)) -> In c (g_workflows g') -> In (c, w) (workflows_of (y_engine y'))) /\
  (forall c, In c (g_workflows g') -> (forall c0 w0, In (c0, w0) (workflows_of (y_engine y)) -> config_eqb c c0 = false) -> In (c, mkWorkflow (c_id c) []) (workflows_of (y_engine y'))) /\
  (forall c w, In (c, w) (workflows_of (y_engine y')) -> In c (g_workflows g') /\ w_runs w = [] \/
     In (c, w) (workflows_of (y_engine y)) /\ exists c', In c' (g_workflows g') /\ config_eqb c' c = true).
Proof. exact (updated re_match to_i32 sha f64 g limit ops y ev g' y' ev'). Qed.
Print Assumptions C50_update_partial.
(** Definitions that compare as equal behave in the same way. *)
Theorem C50_equal_definitions re_match to_i32 sha re_ok p1 p2 c1 c2 : config_new re_ok p1 = Some c1 -> config_new re_ok p2 = Some c2 -> config_eqb c1 c2 = true ->
  forall l w cur limit, w_process re_match to_i32 sha c1 l w cur limit = w_process re_match to_i32 sha c2 l w cur limit.
Proof. exact (equal_behaves re_match to_i32 sha re_ok p1 p2 c1 c2). Qed.
Print Assumptions C50_equal_definitions.
(** With two workflows of one id the engine runs two although one is configured. *)
Theorem C50_update_refuted : exists ps limit ps', match run_ops xm xi xh xf (system_new (engine_with ps) limit) [Update (engine_with ps'); L "A"] with
  | Some (y, _) => map c_id (parse ps') = ["nth"] /\ map c_id (e_configs (y_engine y)) = ["nth"; "nth"] | None => False end.
Proof. exact duplicate_ids. Qed.
Print Assumptions C50_update_refuted.
(** The update keeps one workflow with its progress, changes one, removes one and adds one. *)
Example update_case : let g := engine_with [nth_A 3; many Parallel; fork] in let g' := engine_with [leak; many Exclusive; nth_A 3] in let ops := [L "A"; L "P"] in
  distinct g ops /\ NoDup (map c_id (g_workflows g')) /\
  match run_ops xm xi xh xf (system_new g 10) ops with
  | Some (y, _) => match step xm xi xh xf y (Update g') with
                   | Some (y', _) => map (fun x => (c_id (fst x), List.length (w_runs (snd x)))) (workflows_of (y_engine y')) = [("nth", 2%nat); ("leak", 0%nat); ("many", 0%nat)] | None => False end
  | None => False end.
Proof.
  cbv zeta. assert (N : forall a b c : string, a <> b -> a <> c -> b <> c -> NoDup [a; b; c]) by (intros a b c A B C; repeat constructor; cbn; intuition congruence).
  split; [split|split]; [vm_compute; apply N; discriminate| |vm_compute; apply N; discriminate|vm_compute; reflexivity].
  intros g' [H|(n & H)]; cbn in H; repeat (destruct H as [H|H]; [discriminate|]); destruct H.
Qed.

(** ** C51: restored states *)
Theorem C51_restored_same_actions_partial re_match to_i32 sha f64 g limit ops y ev l d dn ls d' dn' ls' e1 rs : let e := y_engine y in
  0 <= limit -> limits_ok ops -> Forall well_formed (all_given g ops) -> Forall no_return (all_given g ops) -> Forall (fun c => c_matched c = None) (all_given g ops) -> stable g ops -> distinct g ops ->
  run_ops re_match to_i32 sha f64 (system_new g limit) ops = Some (y, ev) ->
  (e_session e = "" \/ e_session e = l_session l -> roomy re_match to_i32 sha l (workflows_of e) (e_current e) (e_limit e)) ->
  map (fun x => fst (fst x)) ls = map (fun x => fst (fst x)) ls' -> feed re_match to_i32 sha f64 e ((l, d, dn) :: ls) = Some (e1, rs) ->
  exists e1' rs', feed re_match to_i32 sha f64 (start (engine_new (e_limit e)) (mkEngineCfg (e_configs e) (e_triggers e) (e_conts e)) (Some (state_optimized e))) ((l, d', dn') :: ls') = Some (e1', rs') /\ Forall2 same_actions rs rs'.
Proof. exact (restored_run re_match to_i32 sha f64 g limit ops y ev l d dn ls d' dn' ls' e1 rs). Qed.
Print Assumptions C51_restored_same_actions_partial.
(** Whenever the engine sees no need to write its state, the file holds the runs that have begun (and, as long as no new configuration arrived, the pending and
    streaming actions); its session is the current one, or the one from before the first log. Without restarts and failed writes. *)
Theorem C51_file_current_partial re_match to_i32 sha f64 g limit ops y ev : let e := y_engine y in
  Forall well_formed (all_given g ops) -> existsb is_restart ops = false -> existsb torn_write ops = false -> run_ops re_match to_i32 sha f64 (system_new g limit) ops = Some (y, ev) -> e_dirty e = false ->
  match y_file y with
  | Some s => sv_workflows s = sv_workflows (state_optimized e) /\ (sv_session s = e_session e \/ sv_session s = "") /\ (existsb is_update ops = false -> sv_pending s = e_pending e /\ sv_streaming s = e_streaming e)
  | None => sv_workflows (state_optimized e) = [] /\ (existsb is_update ops = false -> e_pending e = [] /\ e_streaming e = [])
  end.
Proof. exact (file_current re_match to_i32 sha f64 g limit ops y ev). Qed.
Print Assumptions C51_file_current_partial.
Example file_current_case : match run_ops xm xi xh xf (system_new (engine_with [many Parallel; nth_A 3]) 10) [L "P"; L "A"; L "x"; Persist false; L "x"] with
  | Some (y, _) => e_dirty (y_engine y) = false /\ match y_file y with Some s => List.length (sv_workflows s) = 2%nat | None => False end | None => False end.
Proof. vm_compute. split; reflexivity. Qed.
(** A run that came back to the first state is not saved; its path is lost. *)
Theorem C51_restored_same_actions_refuted : exists ps limit l, let go ops := run_ops xm xi xh xf (system_new (engine_with ps) limit) (L "A" :: ops ++ [l]) in
  let paths ev := flat_map (fun e => match e with Processed _ r => o_paths r | _ => [] end) ev in
  match go [] with Some (_, ev1) => match go [Persist false; Restart (engine_with ps) limit] with Some (_, ev2) => map p_nodes (paths ev1) = [["x"; "y"] ] /\ map p_nodes (paths ev2) = [["y"] ] | None => False end | None => False end.
Proof. exact restore_differs. Qed.
Print Assumptions C51_restored_same_actions_refuted.
Example restored_case : let g := engine_with [nth_A 3; many Parallel] in let ops := [L "A"; L "P"; L "A"] in let l := xlog "A" "S" 3 in
  (0 <= 10 /\ limits_ok ops /\ Forall well_formed (all_given g ops) /\ Forall no_return (all_given g ops) /\ Forall (fun c => c_matched c = None) (all_given g ops) /\ stable g ops /\ distinct g ops) /\
  match run_ops xm xi xh xf (system_new g 10) ops with
  | Some (y, _) => roomy xm xi xh l (workflows_of (y_engine y)) (e_current (y_engine y)) (e_limit (y_engine y)) /\
      match feed xm xi xh xf (y_engine y) [(l, [], fun _ => true); (xlog "Q" "S" 4, [], fun _ => true)] with Some (_, rs) => map (fun r => List.length (o_metrics r)) rs = [1; 1]%nat | None => False end
  | None => False end.
Proof.
  cbv zeta. split; [|vm_compute; repeat split]. split; [lia|]. split; [intros g n H; cbn in H; repeat (destruct H as [H|H]; [discriminate|]); destruct H|].
  split; [unfold all_given; cbn [flat_map given app]; repeat (apply Forall_app; split); try apply parsed_wf; constructor|].
  split; [|split; [|split; [intros H; vm_compute in H; discriminate|split; [vm_compute; repeat constructor; cbn; intuition discriminate|intros g' [H|(n & H)]; cbn in H; repeat (destruct H as [H|H]; [discriminate|]); destruct H] ] ] ].
  - vm_compute. repeat (apply Forall_cons; [|]); try apply Forall_nil; intros s tr Hs Ht; repeat (destruct Hs as [<-|Hs]; [cbn in Ht; repeat (destruct Ht as [<-|Ht]; [cbn; discriminate|]); try destruct Ht; fail|]); try destruct Hs.
  - vm_compute. repeat (apply Forall_cons; [reflexivity|]). apply Forall_nil.
Qed.
