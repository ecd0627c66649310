(** Executions of the workflows engine in which the full reading of a property does not hold. *)
From Verif Require Import Base Str_Base Version_Model Log_Model LogMatcher_Model Workflow_Model Workflow_Spec Workflow_Proofs WorkflowEngine_Model WorkflowEngine_Spec WorkflowExamples_Model.
Local Open Scope string_scope. Local Open Scope list_scope. Local Open Scope Z_scope.

Lemma parsed_wf re_ok ps : Forall well_formed (configs_new re_ok ps).
Proof.
  unfold configs_new. induction ps as [|p ps IH]; cbn [map catSomes]; [constructor|]. destruct (config_new re_ok p) as [c|] eqn:E; auto. constructor; auto. eapply config_new_wf; eauto.
Qed.

Definition sees (x : option (system * list event)) (P : system -> list event -> Prop) : Prop := match x with Some (y, ev) => P y ev | None => False end.
Notation exec ps limit ops := (run_ops xm xi xh xf (system_new (engine_with ps) limit) ops).
Definition metrics_seen (ev : list event) : list nat := flat_map (fun e => match e with Processed _ r => [List.length (o_metrics r)] | _ => [] end) ev.
Definition paths_seen (ev : list event) : list path := flat_map (fun e => match e with Processed _ r => o_paths r | _ => [] end) ev.
Definition dests_seen (ev : list event) : list (list string) := flat_map (fun e => match e with Processed _ r => [o_dests r] | _ => [] end) ev.
Definition intents_seen (ev : list event) : list string := flat_map (fun e => match e with Intent p => [pa_id p] | _ => [] end) ev.

Lemma too_many : exists ps limit ops, sees (exec ps limit ops) (fun y _ => limit < Z.of_nat (List.length (held (y_engine y)))).
Proof. exists [fork; many Parallel], 5, [L "P"; L "P"; L "A"; L "B"; L "P"; L "P"; L "P"]. vm_compute. reflexivity. Qed.
Lemma leaked : exists ps limit ops, sees (exec ps limit ops) (fun y _ => held (y_engine y) = [] /\ 0 < e_current (y_engine y) /\
  sees (run_ops xm xi xh xf y [L "A"]) (fun y1 _ => held (y_engine y1) = []) /\ sees (exec ps limit [L "A"]) (fun y1 _ => List.length (held (y_engine y1)) = 2%nat)).
Proof. exists [leak], 2, [L "A"; L "B"]. vm_compute. repeat split. Qed.
Lemma three_runs : exists ps ps' limit ops, sees (exec ps limit (ops ++ [Restart (engine_with ps') limit]))
  (fun y _ => exists c w, In (c, w) (workflows_of (y_engine y)) /\ c_exec c = Exclusive /\ List.length (w_runs w) = 3%nat).
Proof. exists [many Parallel], [many Exclusive], 10, [L "P"; L "P"; L "P"; Persist false]. vm_compute. do 2 eexists. split; [left; reflexivity|]. split; reflexivity. Qed.
Lemma every_second : exists ops, map (hit xm xi (mkTransition 1 (LogMatch (TBase (LStringValue IMessage (mkString OpEq "A"))) 2) [] [])) (logs_of ops) = [true; true; true; true] /\
  sees (exec [nth_A 2] 10 ops) (fun _ ev => metrics_seen ev = [0; 1; 1; 1]%nat).
Proof. exists [L "A"; L "A"; L "A"; L "A"]. split; vm_compute; reflexivity. Qed.
Lemma long_path : exists ps limit ops c a x, sees (exec ps limit ops) (fun _ ev => In c (parse ps) /\ In x (extractions c) /\ x_id x = as_id a /\ exists p, In p (paths_seen ev) /\ p_sankey p = x_id x /\ (x_limit x < List.length (p_nodes p))%nat /\ p_trimmed p = false).
Proof.
  exists [uncounted], 10, [L "A"; L "B"]. eexists _, (mkSankeyAction "d" 1 []), (mkExtraction "d" (TFixed "x") false 1). vm_compute. split; [left; reflexivity|]. split; [left; reflexivity|]. split; [reflexivity|].
  eexists. split; [left; reflexivity|]. split; [reflexivity|]. split; [repeat constructor|reflexivity].
Qed.
Lemma over_limit_incomplete : exists n ops, sees (exec [flush "f" n] 10 ops) (fun _ ev => dests_seen ev = [["trigger"]; ["cont"]; ["cont"]; ["cont"]] /\ intents_seen ev = ["f"]) /\ n = 2%N.
Proof. exists 2%N, (L "F" :: approve ++ [L "x"; L "x"; L "x"]). vm_compute. repeat split. Qed.
Lemma over_limit_restart : exists n ops, sees (exec [flush "f" n] 10 ops) (fun _ ev => dests_seen ev = [["trigger"]; ["cont"]; ["cont"]; ["cont"]; ["cont"]; ["trigger"] ] /\ intents_seen ev = ["f"]) /\ n = 2%N /\ In (FlushDone 0) ops.
Proof.
  exists 2%N, (L "F" :: approve ++ [FlushDone 0; Persist false; L "x"; L "x"; Restart (engine_with [flush "f" 2]) 10; L "x"; L "x"; L "x"]). split; [vm_compute; split; reflexivity|]. split; [reflexivity|]. cbn. tauto.
Qed.
Lemma twice_same_id : exists ps limit ops, existsb (fun o => match o with RunOnce => true | _ => false end) ops = false /\ sees (exec ps limit ops) (fun _ ev => intents_seen ev = ["f"; "f"]).
Proof. exists [two_flushes], 10, [L "F"; Negotiate Upload; Negotiate Upload]. split; vm_compute; reflexivity. Qed.
Lemma twice_after_update : exists ps limit ops, unique_flushes (parse ps) /\ existsb (fun o => match o with RunOnce => true | _ => false end) ops = false /\ sees (exec ps limit ops) (fun _ ev => intents_seen ev = ["f"; "f"]).
Proof.
  exists [wide_flush], 10, [L "F"; Update (mkEngineCfg (parse [wide_flush]) [] ["cont"]); Update (mkEngineCfg (parse [wide_flush]) ["other"] ["cont"]); L "F"; Negotiate Upload; Negotiate Upload]. split; [|split; vm_compute; reflexivity].
  vm_compute. intros c c' a a' [<-|[] ] [<-|[] ] [<-|[] ] [<-|[] ] _. reflexivity.
Qed.
Lemma rejected_stays : exists ps limit ops, sees (exec ps limit ops) (fun y ev => intents_seen ev = ["f"] /\ In (Negotiate Failed) ops /\ y_outputs y = [] /\ e_input (y_engine y) = [] /\ map pa_id (e_pending (y_engine y)) = ["f"]).
Proof.
  exists [wide_flush], 10, [L "F"; Negotiate Failed; Update (mkEngineCfg (parse [wide_flush]) ["other"] ["cont"]); RunOnce; L "F"; Negotiate Upload]. vm_compute. repeat split. right. left. reflexivity.
Qed.
Lemma never_negotiated : exists ps limit ops, sees (exec ps limit ops) (fun y ev => ~ In "k" (intents_seen ev) /\ y_outputs y = [] /\ e_input (y_engine y) = [] /\ map pa_id (e_pending (y_engine y)) = ["k"]).
Proof.
  exists [eleven], 10, ([L "F"] ++ repeat (Negotiate Failed) 10 ++ repeat RunOnce 10). vm_compute. split; [|repeat split]. intros H. repeat (destruct H as [H|H]; [discriminate|]). destruct H.
Qed.
Lemma empty_session_influences : exists l1 l2, l_session l1 <> l_session l2 /\
  match run_ops xm xi xh xf (system_new (engine_with [nth_A 2]) 10) [Log l1 []; Log l2 []] with Some (_, ev) => flat_map (fun e => match e with Processed _ r => [List.length (o_metrics r)] | _ => [] end) ev = [0; 1]%nat | None => False end /\
  match run_ops xm xi xh xf (system_new (engine_with [nth_A 2]) 10) [Log l2 []] with Some (_, ev) => flat_map (fun e => match e with Processed _ r => [List.length (o_metrics r)] | _ => [] end) ev = [0]%nat | None => False end.
Proof. exists (xlog "A" "" 0), (xlog "A" "T" 0). split; [discriminate|]. split; vm_compute; reflexivity. Qed.
Lemma duplicate_ids : exists ps limit ps', match run_ops xm xi xh xf (system_new (engine_with ps) limit) [Update (engine_with ps'); L "A"] with
  | Some (y, _) => map c_id (parse ps') = ["nth"] /\ map c_id (e_configs (y_engine y)) = ["nth"; "nth"] | None => False end.
Proof. exists [nth_A 1; nth_A 1], 10, [nth_A 1]. vm_compute. split; reflexivity. Qed.
Lemma restore_differs : exists ps limit l, let go ops := exec ps limit (L "A" :: ops ++ [l]) in
  sees (go []) (fun _ ev1 => sees (go [Persist false; Restart (engine_with ps) limit]) (fun _ ev2 => map p_nodes (paths_seen ev1) = [["x"; "y"] ] /\ map p_nodes (paths_seen ev2) = [["y"] ])).
Proof. exists [returning], 10, (L "B"). vm_compute. split; reflexivity. Qed.
Lemma panics : exists ps ps' limit ops, exec ps limit (ops ++ [Restart (engine_with ps') limit; L "P"]) = None /\ exec ps limit (ops ++ [Restart (engine_with ps') limit]) <> None.
Proof. exists [many Parallel], [shorter], 10, [L "P"; Persist false]. split; vm_compute; [reflexivity|discriminate]. Qed.
