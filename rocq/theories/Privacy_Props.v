(** C137: matching fields are for matching only. *)
From Verif Require Import Base Str_Base Log_Model LogMatcher_Model BufferMatcher_Model Matcher_Spec Workflow_Model Workflow_Spec WorkflowEngine_Model WorkflowEngine_Spec WorkflowExamples_Model Pipeline_Model Pipeline_Spec Pipeline_Props Privacy_Spec Privacy_Proofs.
From Verif Require Filter_Model.
Import Filter_Model(transform, CaptureField, SetField, RemoveField, RegexMatchAndSubstitute, StringValue, ExistingField, Captured, MatchingOnly, fi_transforms, mkFilter).
Local Open Scope string_scope. Local Open Scope list_scope.

(** C137. After any history of configurations, flags, logs and flushes, every field of every record that a log leaves in a buffer or in a
    stream is a captured field of the log, or made by a transform of the configuration received last; a value of a matching field gets
    there only through a transform that captures it or copies it to a captured field. *)
Theorem C137_records re_match re_replace to_i32 sha f64 u on fon stats limit file ops p ess l b v p' es r f :
  prun re_match re_replace to_i32 sha f64 (pipe_new u on fon stats limit file) ops = Some (p, ess) -> pstep re_match re_replace to_i32 sha f64 p (PLog l b v) = Some (p', es) ->
  In r (sent es) -> In f (rc_fields r) -> kept re_replace (transforms (filtering fon ops) (u_filters (Pipeline_Spec.latest u ops))) l f.
Proof. exact (stored_fields re_match re_replace to_i32 sha f64 u on fon stats limit file ops p ess l b v p' es r f). Qed.
Print Assumptions C137_records.

(** Without such a transform, every stored or streamed field is derived from the log without its matching fields. *)
Theorem C137_private re_match re_replace to_i32 sha f64 u on fon stats limit file ops p ess l b v p' es r f :
  prun re_match re_replace to_i32 sha f64 (pipe_new u on fon stats limit file) ops = Some (p, ess) -> pstep re_match re_replace to_i32 sha f64 p (PLog l b v) = Some (p', es) ->
  discreet (transforms (filtering fon ops) (u_filters (Pipeline_Spec.latest u ops))) l ->
  In r (sent es) -> In f (rc_fields r) -> open_field re_replace (transforms (filtering fon ops) (u_filters (Pipeline_Spec.latest u ops))) l f.
Proof. intros R S D Hr Hf. exact (kept_open re_replace _ l D f (stored_fields re_match re_replace to_i32 sha f64 u on fon stats limit file ops p ess l b v p' es r f R S Hr Hf)). Qed.
Print Assumptions C137_private.

(** The metrics that a log gives show texts of the configuration, the level, the type and captured fields of the log, if no configuration of the
    history asks for the value of one of its matching fields. *)
Theorem C137_metrics_partial re_match to_i32 sha f64 g limit ops y ev l r em :
  run_ops re_match to_i32 sha f64 (system_new g limit) ops = Some (y, ev) -> In (Processed l r) ev -> unasked (all_given g ops) l -> In em (o_metrics r) ->
  (forall t v, In (t, v) (em_tags em) -> shown (all_given g ops) l v \/ (t = "_id" /\ metric_id (all_given g ops) v) \/ (t = "_path_id" /\ exists p, In p (o_paths r) /\ v = p_id p)) /\
  ((exists n, em_value em = Z.of_N n) \/ exists s, shown (all_given g ops) l s /\ f64 s = Some (em_value em)).
Proof. exact (metric_values re_match to_i32 sha f64 g limit ops y ev l r em). Qed.
Print Assumptions C137_metrics_partial.

(** So do the nodes of the Sankey paths, for the logs of the history. *)
Theorem C137_paths_partial re_match to_i32 sha f64 g limit ops y ev l r p v :
  run_ops re_match to_i32 sha f64 (system_new g limit) ops = Some (y, ev) -> In (Processed l r) ev -> (forall l', In l' (logs ops) -> unasked (all_given g ops) l') ->
  In p (o_paths r) -> In v (p_nodes p) -> exists l', In l' (logs ops) /\ shown (all_given g ops) l' v.
Proof. exact (path_values re_match to_i32 sha f64 g limit ops y ev l r p v). Qed.
Print Assumptions C137_paths_partial.

(** ** Refutations *)
(** A workflow with a metric that has the value of the field "user" as a tag, and with a path that has it as a node. *)
Definition asking : workflow_proto :=
  mkWorkflowP "a" [mkStateP "0" [mkTransitionP "1" (Some (PLogMatch (CBase (Some (MessageMatch (Some Version_Model.OpEq) "A"))) 1)) [Some (PMetric "m" [("who", Some (TExtract "user")); ("what", Some (TFixed "x"))] (Some (IncFixed 1)) (Some MCounter))] [Some (mkExtensionP "d" (Some (TExtract "user")) true)] ];
                   mkStateP "1" [on "B" 1 [PSankey "d" 2 []] "2"]; mkStateP "2" []] (Some Exclusive) None None.
(** A log with a field "user", among the matching or the captured fields. *)
Definition ulog (s : string) (hide : bool) : log := let fs := [mkField "user" (VStr "secret")] in mkLog 1 0 (VStr s) (if hide then [] else fs) (if hide then fs else []) "S" 0.
Definition ulogs (hide : bool) : list op := [Log (ulog "A" hide) []; Log (ulog "B" hide) []].

Lemma no_number n : In n [0; 1]%N -> "secret" <> dec_string n.
Proof. intros [<-|[<-|[]]]; vm_compute; discriminate. Qed.
Lemma no_text : ~ asks (parse [asking]) (TFixed "secret").
Proof.
  intros (tr & (c & s & C & S & T) & A). vm_compute in C. destruct C as [<-|[]]. cbn [c_states] in S. destruct S as [<-|[<-|[<-|[]]]]; cbn [s_transitions] in T; try contradiction; destruct T as [<-|[]]; cbn [tr_actions tr_sankeys] in A;
    destruct A as [(a & t & A & B)|[(a & k & A & B & D)|[(a & t & A & B)|(x & A & B)]]]; try discriminate; try contradiction; destruct A as [A|[]]; inv A; cbn in B; try discriminate; intuition discriminate.
Qed.
Lemma asked_names k : asks (parse [asking]) (TExtract k) -> k = "user".
Proof.
  intros (tr & (c & s & C & S & T) & A). vm_compute in C. destruct C as [<-|[]]. cbn [c_states] in S. destruct S as [<-|[<-|[<-|[]]]]; cbn [s_transitions] in T; try contradiction; destruct T as [<-|[]]; cbn [tr_actions tr_sankeys] in A;
    destruct A as [(a & t & A & B)|[(a & k' & A & B & D)|[(a & t & A & B)|(x & A & B)]]]; try discriminate; try contradiction; destruct A as [A|[]]; inv A; cbn in B; try discriminate; try congruence; intuition congruence.
Qed.
Lemma not_shown s b : ~ shown (all_given (engine_with [asking]) (ulogs b)) (ulog s true) "secret".
Proof.
  change (all_given (engine_with [asking]) (ulogs b)) with (parse [asking] ++ []). rewrite app_nil_r. intros [A|[A|[A|(k & _ & H)]]].
  - exact (no_text A).
  - apply no_number in A; [exact A|right; now left].
  - apply no_number in A; [exact A|now left].
  - destruct H.
Qed.
(** The metric shows the value of a matching field that no filter captures. *)
Theorem C137_metrics_refuted : exists re_match to_i32 sha f64 g limit ops y ev l r em t v,
  run_ops re_match to_i32 sha f64 (system_new g limit) ops = Some (y, ev) /\ In (Processed l r) ev /\ In em (o_metrics r) /\ In (t, v) (em_tags em) /\
  In (mkField "user" (VStr v)) (l_matching l) /\ l_fields l = [] /\ ~ shown (all_given g ops) l v.
Proof.
  destruct (run_ops xm xi xh xf (system_new (engine_with [asking]) 10) (ulogs true)) as [[y ev]|] eqn:E; [|vm_compute in E; discriminate].
  exists xm, xi, xh, xf, (engine_with [asking]), 10%Z, (ulogs true), y, ev.
  assert (X : match ev with Processed l r :: _ => l = ulog "A" true /\ match o_metrics r with [em] => em_tags em = [("who", "secret"); ("what", "x"); ("_id", "m")] | _ => False end | _ => False end).
  { enough (Y : match run_ops xm xi xh xf (system_new (engine_with [asking]) 10) (ulogs true) with Some (_, Processed l r :: _) => l = ulog "A" true /\ match o_metrics r with [em] => em_tags em = [("who", "secret"); ("what", "x"); ("_id", "m")] | _ => False end | _ => False end) by (rewrite E in Y; exact Y). vm_compute. auto. }
  destruct ev as [|[l r|] ev]; try contradiction. destruct X as [-> X]. destruct (o_metrics r) as [|em [|]] eqn:M; try contradiction.
  exists (ulog "A" true), r, em, "who", "secret". rewrite M, X. splits; [exact E|now left|now left|now left|now left|reflexivity|].
  exact (not_shown "A" _).
Qed.
Print Assumptions C137_metrics_refuted.

(** The path shows it as well. *)
Theorem C137_paths_refuted : exists re_match to_i32 sha f64 g limit ops y ev l r p v,
  run_ops re_match to_i32 sha f64 (system_new g limit) ops = Some (y, ev) /\ In (Processed l r) ev /\ In p (o_paths r) /\ In v (p_nodes p) /\
  (forall l', In l' (logs ops) -> In (mkField "user" (VStr v)) (l_matching l') /\ l_fields l' = [] /\ ~ shown (all_given g ops) l' v).
Proof.
  destruct (run_ops xm xi xh xf (system_new (engine_with [asking]) 10) (ulogs true)) as [[y ev]|] eqn:E; [|vm_compute in E; discriminate].
  exists xm, xi, xh, xf, (engine_with [asking]), 10%Z, (ulogs true), y, ev.
  assert (X : match ev with [_; Processed _ r] => match o_paths r with [p] => p_nodes p = ["secret"] | _ => False end | _ => False end).
  { enough (Y : match run_ops xm xi xh xf (system_new (engine_with [asking]) 10) (ulogs true) with Some (_, [_; Processed _ r]) => match o_paths r with [p] => p_nodes p = ["secret"] | _ => False end | _ => False end) by (rewrite E in Y; exact Y). vm_compute. auto. }
  destruct ev as [|e0 [|[l r|] [|]]]; try contradiction. destruct (o_paths r) as [|p [|]] eqn:M; try contradiction.
  exists l, r, p, "secret". rewrite M, X. splits; [exact E|now right; left|now left|now left|].
  intros l' [<-|[<-|[]]]; (split; [now left|split; [reflexivity|]]); exact (not_shown _ _).
Qed.
Print Assumptions C137_paths_refuted.

(** ** The hypotheses are met *)
(** A filter that sets and rewrites captured and matching fields, and a log with a matching field; the record has the captured ones only. *)
Definition careful : update_cfg := let u := xupdate [] (xbuffers []) [] in
  mkUpdate (u_producers u) (u_selector u) (u_workflows u) (u_tails u)
    [mkFilter (TAnd []) [SetField "copy" (ExistingField "name") Captured false; SetField "mine" (ExistingField "user") MatchingOnly true; RegexMatchAndSubstitute "name" "n" "m"; RegexMatchAndSubstitute "user" "n" "m"] ].
Definition plog : log := mkLog 1 0 (VStr "x") [mkField "name" (VStr "n")] [mkField "user" (VStr "secret")] "S" 0.

Example C137_case : let ts := transforms (filtering true []) (u_filters (Pipeline_Spec.latest careful [])) in discreet ts plog /\
  match pstep xm xreplace xi xh xf (pipe_new careful true true true 10 None) (PLog plog true xenv) with
  | Some (_, es) => map rc_fields (sent es) <> [] /\ Forall (fun r => rc_fields r = [mkField "name" (VStr "n"); mkField "copy" (VStr "n")]) (sent es)
  | None => False end.
Proof.
  cbv zeta. split; [|vm_compute; split; [discriminate|repeat constructor]].
  assert (X : transforms (filtering true []) (u_filters (Pipeline_Spec.latest careful [])) = fi_transforms (hd (mkFilter (TAnd []) []) (u_filters careful))) by reflexivity. rewrite X. clear X.
  intros k [H|(v & o & H)].
  - destruct H as [<-|[]]. split; [|intros n o]; cbn; intuition discriminate.
  - assert (k = "mine") by (cbn in H; intuition congruence). subst. split; [|intros n o']; cbn; intuition discriminate.
Qed.
(** A transform that captures the field has the value stored. *)
Example C137_captured : match pstep xm xreplace xi xh xf (pipe_new (mkUpdate (u_producers careful) (u_selector careful) (u_workflows careful) (u_tails careful) [mkFilter (TAnd []) [CaptureField "user"] ]) true true true 10 None) (PLog plog true xenv) with
  | Some (_, es) => map rc_fields (sent es) <> [] /\ Forall (fun r => In (mkField "user" (VStr "secret")) (rc_fields r)) (sent es)
  | None => False end.
Proof. vm_compute. split; [discriminate|]. repeat constructor; right; now left. Qed.
(** The hypotheses of the two partial theorems: the same workflow with a log whose field is captured. *)
Example C137_reports_case : (forall l', In l' (logs (ulogs false)) -> unasked (all_given (engine_with [asking]) (ulogs false)) l') /\
  match run_ops xm xi xh xf (system_new (engine_with [asking]) 10) (ulogs false) with
  | Some (_, [Processed _ r1; Processed _ r2]) => map em_tags (o_metrics r1) = [ [("who", "secret"); ("what", "x"); ("_id", "m")] ] /\ map p_nodes (o_paths r2) = [ ["secret"] ]
  | _ => False end.
Proof. split; [|vm_compute; auto]. intros l' [<-|[<-|[]]] k A H; destruct H. Qed.
