(** Theorems C43-C46 and C69, C70: traversals, runs, counted matches, paths. *)
From Verif Require Import Base Str_Base Version_Model Log_Model LogMatcher_Model Workflow_Model Workflow_Spec Workflow_Proofs WorkflowEngine_Model WorkflowEngine_Spec WorkflowEngine_Proofs WorkflowEqual_Proofs WorkflowHistory_Proofs WorkflowFinal_Proofs WorkflowExamples_Model WorkflowRefuted_Proofs WorkflowFires_Proofs.
Local Open Scope string_scope. Local Open Scope list_scope. Local Open Scope Z_scope.

(** Every configuration the parser accepts is well formed: the hypothesis of the theorems below. *)
Theorem C69_parsed_configurations_well_formed re_ok ps : Forall well_formed (configs_new re_ok ps).
Proof. exact (parsed_wf re_ok ps). Qed.
Print Assumptions C69_parsed_configurations_well_formed.
Example parsed_case : List.length (configs_new (fun _ => true) [fork; leak; many Parallel; mkWorkflowP "bad" [] None None None]) = 3%nat.
Proof. vm_compute. reflexivity. Qed.

(** ** C69: no panic *)
Theorem C69_no_panic_partial re_match to_i32 sha f64 g limit ops : Forall well_formed (all_given g ops) -> stable g ops -> run_ops re_match to_i32 sha f64 (system_new g limit) ops <> None.
Proof. exact (run_total re_match to_i32 sha f64 g limit ops). Qed.
Print Assumptions C69_no_panic_partial.
Theorem C69_no_panic_refuted : exists ps ps' limit ops, run_ops xm xi xh xf (system_new (engine_with ps) limit) (ops ++ [Restart (engine_with ps') limit; L "P"]) = None /\
  run_ops xm xi xh xf (system_new (engine_with ps) limit) (ops ++ [Restart (engine_with ps') limit]) <> None.
Proof. exact panics. Qed.
Print Assumptions C69_no_panic_refuted.
Example no_panic_case : let g := engine_with [fork; many Parallel; flush "f" 2] in let ops := [L "A"; L "B"; L "P"; Update (engine_with [fork; leak]); L "A"; Persist false; Restart (engine_with [leak; fork]) 3; L "A"] in
  Forall well_formed (all_given g ops) /\ stable g ops.
Proof.
  cbv zeta. split; [unfold all_given, engine_with; cbn [g_workflows flat_map given app]; repeat (apply Forall_app; split); try apply parsed_wf; constructor|].
  intros _. vm_compute. intros c c' H H'. repeat (destruct H as [<-|H]; [repeat (destruct H' as [<-|H']; [try reflexivity; discriminate|]); destruct H'|]). destruct H.
Qed.

(** ** C43: the limit of traversals *)
Theorem C43_traversal_limit_partial re_match to_i32 sha f64 g limit ops y ev :
  0 <= limit -> limits_ok ops -> Forall well_formed (all_given g ops) -> Forall steady (all_given g ops) -> stable g ops -> run_ops re_match to_i32 sha f64 (system_new g limit) ops = Some (y, ev) ->
  Z.of_nat (List.length (held (y_engine y))) <= limit_after limit ops.
Proof. exact (run_held re_match to_i32 sha f64 g limit ops y ev). Qed.
Print Assumptions C43_traversal_limit_partial.
Theorem C43_traversal_limit_refuted : exists ps limit ops, match run_ops xm xi xh xf (system_new (engine_with ps) limit) ops with Some (y, _) => limit < Z.of_nat (List.length (held (y_engine y))) | None => False end.
Proof. exact too_many. Qed.
Print Assumptions C43_traversal_limit_refuted.
Example limit_case : let g := engine_with [many Parallel; nth_A 2] in let ops := [L "P"; L "P"; L "P"; L "P"; L "P"] in
  (0 <= 3 /\ limits_ok ops /\ Forall well_formed (all_given g ops) /\ Forall steady (all_given g ops) /\ stable g ops) /\
  match run_ops xm xi xh xf (system_new g 3) ops with Some (y, _) => List.length (held (y_engine y)) = 3%nat | None => False end.
Proof.
  cbv zeta. split; [|vm_compute; reflexivity]. split; [lia|]. split; [intros g n H; cbn in H; repeat (destruct H as [H|H]; [discriminate|]); destruct H|]. split; [unfold all_given; cbn [flat_map given app]; repeat (apply Forall_app; split); try apply parsed_wf; constructor|].
  split; [vm_compute; repeat constructor; left; reflexivity|]. intros H. vm_compute in H. discriminate.
Qed.

(** ** C70: traversals that end give their part of the limit back *)
Theorem C70_counter_exact_partial re_match to_i32 sha f64 g limit ops y ev :
  0 <= limit -> limits_ok ops -> Forall well_formed (all_given g ops) -> Forall (fun c => c_matched c = None) (all_given g ops) -> stable g ops -> run_ops re_match to_i32 sha f64 (system_new g limit) ops = Some (y, ev) ->
  Z.of_nat (List.length (held (y_engine y))) = e_current (y_engine y) /\ e_current (y_engine y) <= limit_after limit ops.
Proof. exact (run_exact re_match to_i32 sha f64 g limit ops y ev). Qed.
Print Assumptions C70_counter_exact_partial.
(** After the run was stopped by its limit of matches, the engine holds nothing, and yet the same log that starts the workflow in a new engine does not any more. *)
Theorem C70_counter_exact_refuted : exists ps limit ops, match run_ops xm xi xh xf (system_new (engine_with ps) limit) ops with
  | Some (y, _) => held (y_engine y) = [] /\ 0 < e_current (y_engine y) /\
      match run_ops xm xi xh xf y [L "A"] with Some (y1, _) => held (y_engine y1) = [] | None => False end /\
      match run_ops xm xi xh xf (system_new (engine_with ps) limit) [L "A"] with Some (y1, _) => List.length (held (y_engine y1)) = 2%nat | None => False end
  | None => False end.
Proof. exact leaked. Qed.
Print Assumptions C70_counter_exact_refuted.
Example exact_case : let g := engine_with [many Parallel; nth_A 2] in let ops := [L "P"; L "A"; L "P"; L "Q"] in
  Forall (fun c => c_matched c = None) (all_given g ops) /\ match run_ops xm xi xh xf (system_new g 5) ops with Some (y, _) => e_current (y_engine y) = 3 | None => False end.
Proof. cbv zeta. split; [vm_compute; repeat (apply Forall_cons; [reflexivity|]); apply Forall_nil|vm_compute; reflexivity]. Qed.

(** ** C44: exclusive workflows *)
Theorem C44_exclusive_two_runs_partial re_match to_i32 sha f64 g limit ops y ev : Forall well_formed (all_given g ops) -> stable g ops -> run_ops re_match to_i32 sha f64 (system_new g limit) ops = Some (y, ev) ->
  forall c w, In (c, w) (workflows_of (y_engine y)) -> c_exec c = Exclusive ->
  (List.length (w_runs w) <= 2)%nat /\ forall i a, w_runs w = [i; a] -> r_initial i = true.
Proof. exact (exclusive_two re_match to_i32 sha f64 g limit ops y ev). Qed.
Print Assumptions C44_exclusive_two_runs_partial.
(** The log is processed by the active run; the initial run processes it only if the active one is unaffected by it. *)
Theorem C44_one_run_processes_partial re_match to_i32 sha f64 g limit ops y ev : Forall well_formed (all_given g ops) -> stable g ops -> run_ops re_match to_i32 sha f64 (system_new g limit) ops = Some (y, ev) ->
  forall c w, In (c, w) (workflows_of (y_engine y)) -> c_exec c = Exclusive -> forall l cur lim w' cur' res i a a' ra, w_runs w = [i; a] ->
  w_process re_match to_i32 sha c l w cur lim = Some (w', cur', res) -> r_process re_match to_i32 sha c l a = Some (a', ra) -> rr_state ra = Running -> cur + rr_created ra - rr_completed ra <= lim -> 0 <= lim ->
  (w_runs w' = [i; a'] /\ wr_actions res = rr_actions ra) \/
  (a' = a /\ exists i' ri, r_process re_match to_i32 sha c l i = Some (i', ri) /\ wr_actions res = rr_actions ri /\ (w_runs w' = [i'] \/ w_runs w' = [a] \/ w_runs w' = [i'; a] /\ i' = i)).
Proof. exact (exclusive_one re_match to_i32 sha f64 g limit ops y ev). Qed.
Print Assumptions C44_one_run_processes_partial.
Theorem C44_exclusive_two_runs_refuted : exists ps ps' limit ops, match run_ops xm xi xh xf (system_new (engine_with ps) limit) (ops ++ [Restart (engine_with ps') limit]) with
  | Some (y, _) => exists c w, In (c, w) (workflows_of (y_engine y)) /\ c_exec c = Exclusive /\ List.length (w_runs w) = 3%nat
  | None => False end.
Proof. exact three_runs. Qed.
Print Assumptions C44_exclusive_two_runs_refuted.
(** A workflow with an initial and an active run; the active run takes the log. *)
Example exclusive_case : match run_ops xm xi xh xf (system_new (engine_with [many Exclusive]) 10) [L "P"; L "x"] with
  | Some (y, _) => match workflows_of (y_engine y) with
      | [(c, mkWorkflow _ [i; a])] => c_exec c = Exclusive /\ r_initial a = false /\ match r_process xm xi xh c (xlog "P" "S" 0) a with Some (_, ra) => rr_state ra = Running | None => False end
      | _ => False end
  | None => False end.
Proof. vm_compute. repeat split. Qed.

(** ** C45: the n-th match *)
(** While no transition is due, the traversal stays in its state with the number of matches of each transition; and only then. *)
Theorem C45_waits re_match to_i32 sha c i s sk : well_formed c -> nth_error (c_states c) i = Some s -> forall ls,
  let t := mkTraversal i (repeat 0%N (List.length (s_transitions s))) sk in
  (quiet re_match to_i32 (s_transitions s) ls -> stays re_match to_i32 sha c t ls = Some (mkTraversal i (map (fun tr => hits re_match to_i32 tr ls) (s_transitions s)) sk)) /\
  (stays re_match to_i32 sha c t ls <> None -> quiet re_match to_i32 (s_transitions s) ls).
Proof. exact (stays_spec re_match to_i32 sha c i s sk). Qed.
Print Assumptions C45_waits.
(** After the logs [ls] since the state was entered, the actions at the log [l] are those of the transitions whose match it is. *)
Theorem C45_fires_at_nth_match re_match to_i32 sha c i s sk ls l t : well_formed c -> nth_error (c_states c) i = Some s ->
  stays re_match to_i32 sha c (mkTraversal i (repeat 0%N (List.length (s_transitions s))) sk) ls = Some t ->
  exists t' r, t_process re_match to_i32 sha c l t = Some (t', r) /\ res_followed r = N.of_nat (List.length (filter (fun tr => due re_match to_i32 tr ls l) (s_transitions s))) /\
  forall x y, plain x = Some y -> (In y (res_actions r) <-> exists tr, In tr (s_transitions s) /\ due re_match to_i32 tr ls l = true /\ In x (tr_actions tr)).
Proof. exact (nth_match re_match to_i32 sha c i s sk ls l t). Qed.
Print Assumptions C45_fires_at_nth_match.
(** In every execution: whatever the engine does at a log is called for by a transition for which this log completes the matches, among logs of the same session. *)
Theorem C45_never_early re_match to_i32 sha f64 g limit ops l dests y ev y' r : let all := ops ++ [Log l dests] in Forall well_formed (all_given g all) -> stable g all -> Forall (fun x => l_session x <> "") (logs_of all) ->
  run_ops re_match to_i32 sha f64 (system_new g limit) ops = Some (y, ev) -> step re_match to_i32 sha f64 y (Log l dests) = Some (y', [Processed l r]) ->
  let called := called_for re_match to_i32 (all_given g all) (logs_of ops) l in
  (forall i, In i (o_action_ids r) -> exists a, af_id a = i /\ called (AFlush a)) /\
  (forall m, In m (o_metrics r) -> (exists a, In m (emit_metric f64 a l) /\ called (AMetric a)) \/ (exists a p, m = emit_sankey a p l /\ called (ASankey a))) /\
  (o_screenshot r = true -> exists i, called (AScreenshot i)) /\
  (forall p, In p (o_paths r) -> exists a, called (ASankey a)).
Proof. exact (actions_due re_match to_i32 sha f64 g limit ops l dests y ev y' r). Qed.
Print Assumptions C45_never_early.
(** And not later: an engine that has just entered a state with a transition carries out all actions of the transition (the emission of paths aside) at the
    log that completes its matches, and then waits in the state the transition leads to. The logs in between belong to the same session; none of them is the last
    match another transition of the state waits for, hits the limit of traversals, or starts an exclusive workflow over; the workflow has no limits of its own. *)
Theorem C45_not_later_partial re_match to_i32 sha f64 c i s tr S e ls e1 rs l dests done e2 r : well_formed c -> c_matched c = None -> c_duration c = None -> nth_error (c_states c) i = Some s -> In tr (s_transitions s) ->
  let logs := map (fun x => fst (fst x)) ls in
  waits_in e c i (repeat 0%N (List.length (s_transitions s))) -> e_session e = "" \/ e_session e = S -> Forall (fun x => l_session x = S) (logs ++ [l]) ->
  feed re_match to_i32 sha f64 e ls = Some (e1, rs) -> calm re_match to_i32 sha f64 c (s_transitions s) e ls -> quiet re_match to_i32 (s_transitions s) logs ->
  process_log re_match to_i32 sha f64 e1 l dests done = Some (e2, r) -> roomy re_match to_i32 sha l (workflows_of e1) (e_current e1) (e_limit e1) -> due re_match to_i32 tr logs l = true ->
  (forall a, In a (tr_actions tr) -> shown f64 l r a) /\
  (forall s', nth_error (c_states c) (tr_target tr) = Some s' -> s_transitions s' <> [] -> waits_in e2 c (tr_target tr) (repeat 0%N (List.length (s_transitions s')))).
Proof. exact (fires_on_time re_match to_i32 sha f64 c i s tr S e ls e1 rs l dests done e2 r). Qed.
Print Assumptions C45_not_later_partial.
(** A new engine waits in the first state of each of its workflows. *)
Theorem C45_new_engine_waits g limit c s : In c (g_workflows g) -> nth_error (c_states c) 0 = Some s -> waits_in (y_engine (system_new g limit)) c 0 (repeat 0%N (List.length (s_transitions s))).
Proof. exact (new_waits g limit c s). Qed.
Print Assumptions C45_new_engine_waits.
(** The reading "at every n-th match" is wrong: an exclusive workflow that needs two matches fires at each match after the first. *)
Theorem C45_every_nth_refuted : exists ops,
  map (hit xm xi (mkTransition 1 (LogMatch (TBase (LStringValue IMessage (mkString OpEq "A"))) 2) [] [])) (logs_of ops) = [true; true; true; true] /\
  match run_ops xm xi xh xf (system_new (engine_with [nth_A 2]) 10) ops with
  | Some (_, ev) => flat_map (fun e => match e with Processed _ r => [List.length (o_metrics r)] | _ => [] end) ev = [0; 1; 1; 1]%nat | None => False end.
Proof. exact every_second. Qed.
Print Assumptions C45_every_nth_refuted.
Example waits_case : match parse [nth_A 3] with
  | [c] => match c_states c with
           | s :: _ => stays xm xi xh c (mkTraversal 0 (repeat 0%N (List.length (s_transitions s))) None) [xlog "A" "S" 0; xlog "x" "S" 0; xlog "A" "S" 1] = Some (mkTraversal 0 [2%N] None) /\
                       existsb (fun tr => due xm xi tr [xlog "A" "S" 0; xlog "x" "S" 0; xlog "A" "S" 1] (xlog "A" "S" 2)) (s_transitions s) = true
           | [] => False end
  | _ => False end.
Proof. vm_compute. split; reflexivity. Qed.
Definition on_time_config : config := nth 0 (parse [nth_A 3]) (mkConfig "" [] Exclusive None None).
Definition on_time_engine : engine := y_engine (system_new (engine_with [nth_A 3]) 10).
Definition on_time_logs : list (log * list string * (nat -> bool)) := [(xlog "A" "S" 0, ["trigger"], fun _ => false); (xlog "x" "S" 0, ["trigger"], fun _ => false); (xlog "A" "S" 1, ["trigger"], fun _ => false)].
Example on_time_case : match c_states on_time_config with
  | s :: _ => waits_in on_time_engine on_time_config 0 (repeat 0%N (List.length (s_transitions s))) /\ calm xm xi xh xf on_time_config (s_transitions s) on_time_engine on_time_logs /\
      quiet xm xi (s_transitions s) (map (fun x => fst (fst x)) on_time_logs) /\
      match feed xm xi xh xf on_time_engine on_time_logs with
      | Some (e, _) => roomy xm xi xh (xlog "A" "S" 2) (workflows_of e) (e_current e) (e_limit e) | None => False end /\
      existsb (fun tr => due xm xi tr (map (fun x => fst (fst x)) on_time_logs) (xlog "A" "S" 2)) (s_transitions s) = true
  | [] => False end.
Proof.
  destruct (c_states on_time_config) as [|s ss] eqn:E; [vm_compute in E; discriminate|]. assert (Hs : nth_error (c_states on_time_config) 0 = Some s) by (rewrite E; reflexivity).
  split; [apply C45_new_engine_waits; [vm_compute; left; reflexivity|exact Hs]|]. clear Hs. vm_compute in E. injection E as <- _.
  assert (U : forall s0 tr, nth_error (c_states on_time_config) 0 = Some s0 -> In tr (s_transitions s0) -> hit xm xi tr (xlog "x" "S" 0) = false).
  { intros s0 tr E I. vm_compute in E. injection E as <-. destruct I as [<-|[] ]. reflexivity. }
  split; [|split; [|split; [vm_compute; splits; reflexivity|reflexivity]]].
  - unfold on_time_logs. cbn [calm s_transitions].
    repeat match goal with |- _ /\ _ => split | |- True => exact Logic.I | |- roomy _ _ _ _ _ _ _ => vm_compute; split; [reflexivity|exact Logic.I] 
    | |- undisturbed _ _ _ _ (xlog "A" _ _) => right; left; eexists; split; [left; reflexivity|vm_compute; reflexivity]
    | |- undisturbed _ _ _ _ _ => right; right; exact U
    | |- match process_log ?a ?b ?c ?d ?e ?l ?x ?y with _ => _ end => let r := eval vm_compute in (process_log a b c d e l x y) in change (process_log a b c d e l x y) with r; cbv beta iota end.
  - intros tr pre l post [<-|[] ] E. destruct pre as [|a [|b [|d [|x pre] ] ] ]; cbn in E; injection E; intros; subst; try reflexivity; discriminate.
Qed.
Example early_case : match run_ops xm xi xh xf (system_new (engine_with [nth_A 2]) 10) [L "A"; L "x"; L "A"] with
  | Some (_, ev) => existsb (fun e => match e with Processed _ r => match o_metrics r with [] => false | _ => true end | _ => false end) ev = true | None => False end.
Proof. vm_compute. reflexivity. Qed.

(** ** C46: Sankey paths *)
(** Each path the engine emits consists of the values on a way through the workflow since the last emission: those that do not count, and the last ones of those that
    count, as many as the limit allows; it is flagged exactly if one was dropped. *)
Theorem C46_recent_values re_match to_i32 sha f64 g limit ops y ev lim : Forall well_formed (all_given g ops) -> stable g ops -> (forall c x, In c (all_given g ops) -> In x (extractions c) -> x_limit x = lim c (x_id x)) ->
  run_ops re_match to_i32 sha f64 (system_new g limit) ops = Some (y, ev) ->
  forall l r p, In (Processed l r) ev -> In p (o_paths r) -> exists c a, In c (all_given g ops) /\ path_follows re_match to_i32 c (lim c) l a p.
Proof. exact (sankey_paths re_match to_i32 sha f64 g limit ops y ev lim). Qed.
Print Assumptions C46_recent_values.
(** The parser gives all extractions of a diagram the same limit. *)
Theorem C46_one_limit re_ok p c : config_new re_ok p = Some c -> exists lim : string -> nat, forall x, In x (extractions c) -> x_limit x = lim (x_id x).
Proof. exact (config_new_limits re_ok p c). Qed.
Print Assumptions C46_one_limit.
Theorem C46_at_most_limit_partial re_match to_i32 c lim l a p : (forall x, In x (extractions c) -> x_id x = as_id a -> x_counts x = true) -> path_follows re_match to_i32 c lim l a p ->
  (List.length (p_nodes p) <= lim (as_id a))%nat.
Proof. exact (path_bound re_match to_i32 c lim l a p). Qed.
Print Assumptions C46_at_most_limit_partial.
(** With values that do not count towards the limit the path is longer, and not flagged. *)
Theorem C46_at_most_limit_refuted : exists ps limit ops c a x, match run_ops xm xi xh xf (system_new (engine_with ps) limit) ops with
  | Some (_, ev) => In c (parse ps) /\ In x (extractions c) /\ x_id x = as_id a /\
      exists p, In p (flat_map (fun e => match e with Processed _ r => o_paths r | _ => [] end) ev) /\ p_sankey p = x_id x /\ (x_limit x < List.length (p_nodes p))%nat /\ p_trimmed p = false
  | None => False end.
Proof. exact long_path. Qed.
Print Assumptions C46_at_most_limit_refuted.
Example path_case : match run_ops xm xi xh xf (system_new (engine_with [counted_path]) 10) [L "A"; L "C"; L "C"; L "B"] with
  | Some (_, ev) => map (fun p => (p_nodes p, p_trimmed p)) (flat_map (fun e => match e with Processed _ r => o_paths r | _ => [] end) ev) = [(["c"; "b"], true)] | None => False end /\
  (forall c x, In c (parse [counted_path]) -> In x (extractions c) -> x_limit x = 2%nat /\ x_counts x = true).
Proof. split; [vm_compute; reflexivity|]. vm_compute. intros c x [<-|[] ] H. repeat (destruct H as [<-|H]; [split; reflexivity|]). destruct H. Qed.
