(** Model of bd-workflows/src/engine.rs, actions_flush_buffers.rs and metrics.rs: the workflows engine, the flush buffers actions and their
    negotiation, log streaming, persistence of the workflows' state. Release semantics.
    Simplifications: a [BTreeSet]/[HashMap] other than the sets of buffer ids is a list in insertion order; statistics and timers are
    omitted except the recorded dynamic metrics; the bincode encoding of the state file is abstracted to "the state or nothing". *)
From Verif Require Import Base Str_Base Log_Model LogMatcher_Model BufferMatcher_Model Workflow_Model.
Local Open Scope string_scope. Local Open Scope list_scope. Local Open Scope Z_scope.

(** * Decidable equality of the action types: the derived [Eq] and [Ord] of config.rs, used to deduplicate actions. *)
Definition tag_value_dec : forall a b : tag_value, {a = b} + {a <> b}. Proof. decide equality; apply string_dec. Defined.
(** config.rs lines 468-486: derived equality. *)
Definition streaming_cfg_dec : forall a b : streaming_cfg, {a = b} + {a <> b}.
Proof. decide equality; [decide equality; apply N.eq_dec | apply (list_eq_dec string_dec)]. Defined.
(** config.rs lines 468-486: derived equality. *)
Definition action_flush_dec : forall a b : action_flush, {a = b} + {a <> b}.
Proof. decide equality; [decide equality; apply streaming_cfg_dec | apply (list_eq_dec string_dec) | apply string_dec]. Defined.
(** config.rs lines 539-540 and 703-704: derived equality. *)
Definition tag_dec : forall a b : string * tag_value, {a = b} + {a <> b}. Proof. decide equality; [apply tag_value_dec | apply string_dec]. Defined.
(** config.rs lines 539-540 and 703-704: derived equality. *)
Definition action_metric_dec : forall a b : action_metric, {a = b} + {a <> b}.
Proof. decide equality; [decide equality | decide equality; [apply N.eq_dec | apply string_dec] | apply (list_eq_dec tag_dec) | apply string_dec]. Defined.
(** config.rs lines 608-609: derived equality. *)
Definition action_sankey_dec : forall a b : action_sankey, {a = b} + {a <> b}.
Proof. decide equality; [apply (list_eq_dec tag_dec) | apply N.eq_dec | apply string_dec]. Defined.
(** workflow.rs lines 456-457: derived equality of a Sankey path. *)
Definition path_dec : forall a b : path, {a = b} + {a <> b}.
Proof. decide equality; [apply bool_dec | apply string_dec | apply (list_eq_dec string_dec) | apply string_dec]. Defined.
(** workflow.rs lines 976-977: derived equality of a triggered Sankey action. *)
Definition triggered_sankey_dec : forall a b : action_sankey * path, {a = b} + {a <> b}. Proof. decide equality; [apply path_dec | apply action_sankey_dec]. Defined.
(** config.rs lines 421-423: derived equality. *)
Definition action_dec : forall a b : action, {a = b} + {a <> b}.
Proof. decide equality; [apply action_flush_dec | apply action_metric_dec | apply action_sankey_dec | apply string_dec]. Defined.
(** config.rs lines 286-287: derived equality. *)
Definition extraction_dec : forall a b : extraction, {a = b} + {a <> b}.
Proof. decide equality; [apply Nat.eq_dec | apply bool_dec | apply tag_value_dec | apply string_dec]. Defined.

(** config.rs derived [PartialEq] of [Config] and its parts; the matcher trees are compared by [tree_eqb]. *)
Definition sumb {P Q : Prop} (x : {P} + {Q}) : bool := if x then true else false.
(** config.rs lines 411-412: derived equality. *)
Definition predicate_eqb (a b : predicate) : bool :=
  match a, b with
  | LogMatch s m, LogMatch t n => tree_eqb s t && (m =? n)%N
  | TimeoutMatch m, TimeoutMatch n => (m =? n)%N
  | _, _ => false
  end.
(** Equality of vectors, config.rs lines 79-322. *)
Fixpoint list_eqb {A} (f : A -> A -> bool) (l m : list A) : bool :=
  match l, m with [], [] => true | x :: l', y :: m' => f x y && list_eqb f l' m' | _, _ => false end.
(** config.rs lines 321-322: derived equality. *)
Definition transition_eqb (a b : transition) : bool :=
  (tr_target a =? tr_target b)%nat && predicate_eqb (tr_rule a) (tr_rule b) && sumb (list_eq_dec action_dec (tr_actions a) (tr_actions b))
  && sumb (list_eq_dec extraction_dec (tr_sankeys a) (tr_sankeys b)).
(** config.rs lines 215-216: derived equality. *)
Definition state_eqb (a b : state) : bool := String.eqb (s_id a) (s_id b) && list_eqb transition_eqb (s_transitions a) (s_transitions b).
(** config.rs lines 263-264: derived equality. *)
Definition execution_eqb (a b : execution) : bool := match a, b with Exclusive, Exclusive | Parallel, Parallel => true | _, _ => false end.
(** Equality of options, config.rs lines 79-80. *)
Definition option_eqb {A} (f : A -> A -> bool) (a b : option A) : bool := match a, b with Some x, Some y => f x y | None, None => true | _, _ => false end.
(** config.rs lines 79-80: derived equality. *)
Definition config_eqb (a b : config) : bool :=
  String.eqb (c_id a) (c_id b) && list_eqb state_eqb (c_states a) (c_states b) && execution_eqb (c_exec a) (c_exec b)
  && option_eqb Z.eqb (c_duration a) (c_duration b) && option_eqb N.eqb (c_matched a) (c_matched b).

(** Insertion into a set represented by a list. *)
Definition insert {A} (dec : forall a b : A, {a = b} + {a <> b}) (x : A) (l : list A) : list A := if in_dec dec x l then l else l ++ [x].
(** [collect] into a set, engine.rs lines 774-845. *)
Definition dedup {A} (dec : forall a b : A, {a = b} + {a <> b}) (l : list A) : list A := fold_left (fun s x => insert dec x s) l [].
(** Membership, intersection and union of sets of buffer ids. *)
Definition mem (x : string) (l : list string) : bool := existsb (String.eqb x) l.
(** Intersection of sets of buffer ids, actions_flush_buffers.rs lines 557-620. *)
Definition inter (a b : list string) : list string := filter (fun x => mem x b) a.
(** Union of sets of buffer ids, engine.rs lines 547-755. *)
Definition union (a b : list string) : list string := fold_left (fun s x => set_insert x s) b a.

(** * Flush buffers actions *)

(** actions_flush_buffers.rs lines 735-744 [PendingFlushBuffersAction]. *)
Record pending := mkPending { pa_id : string; pa_session : string; pa_triggers : list string; pa_streaming : option streaming_cfg }.
(** actions_flush_buffers.rs lines 735-744: derived equality. *)
Definition pending_dec : forall a b : pending, {a = b} + {a <> b}.
Proof. decide equality; [decide equality; apply streaming_cfg_dec | apply (list_eq_dec string_dec) | apply string_dec | apply string_dec]. Defined.
(** Lines 845-858 [StreamingBuffersAction]. *)
Record streaming := mkStreamingAction { sa_id : string; sa_session : string; sa_sources : list string; sa_dests : list string; sa_max : option N; sa_count : N }.

(** Lines 764-829 [PendingFlushBuffersAction::new]. *)
Definition pending_new (a : action_flush) (session : string) (triggers conts : list string) : option pending :=
  let streaming :=
    match af_streaming a with
    | None => None
    | Some s =>
      match conts with
      | [] => None
      | first :: _ =>
        match (match sc_dest s with [] => [first] | d => filter (fun x => mem x d) conts end) with
        | [] => None
        | dest => Some (mkStreaming dest (sc_max s))
        end
      end
    end in
  match (match af_buffers a with [] => triggers | b => filter (fun x => mem x triggers) b end) with
  | [] => None
  | t => Some (mkPending (af_id a) session t streaming)
  end.

(** Lines 876-906 [StreamingBuffersAction::new]. *)
Definition streaming_action_new (p : pending) (conts : list string) : option streaming :=
  match pa_streaming p with
  | None => None
  | Some s => match inter (sc_dest s) conts with
              | [] => None
              | _ => Some (mkStreamingAction (pa_id p) (pa_session p) (pa_triggers p) (sc_dest s) (sc_max s) 0)
              end
  end.
(** Lines 908-917. *)
Definition terminates (s : streaming) : bool := match sa_max s with Some n => (n <=? sa_count s)%N | None => false end.

(** Lines 373-429 [Resolver::process_flush_buffer_actions]: new pending actions, ids of the triggered actions, buffers to flush. *)
Fixpoint flush_loop (session : string) (triggers conts : list string) (pend : list pending) (strm : list streaming) (acts : list action_flush)
    (created : list pending) (ids bufs : list string) : list pending * list string * list string :=
  match acts with
  | [] => (created, ids, bufs)
  | a :: acts' =>
    let ids := set_insert (af_id a) ids in
    match pending_new a session triggers conts with
    | None => flush_loop session triggers conts pend strm acts' created ids bufs
    | Some p =>
      let bufs := union bufs (pa_triggers p) in
      if existsb (fun q => String.eqb (pa_id q) (pa_id p)) pend || existsb (fun q => String.eqb (sa_id q) (pa_id p)) strm
      then flush_loop session triggers conts pend strm acts' created ids bufs
      else flush_loop session triggers conts pend strm acts' (insert pending_dec p created) ids bufs
    end
  end.
(** actions_flush_buffers.rs lines 373-429. *)
Definition process_flush_actions session triggers conts acts pend strm := flush_loop session triggers conts pend strm acts [] [] [].

(** Lines 440-478: the removal of terminated streaming actions; the flag tells whether the flush of the action is complete. *)
Definition keep_streaming (session : string) (x : streaming * bool) : bool :=
  negb ((terminates (fst x) || negb (String.eqb (sa_session (fst x)) session)) && snd x).
(** Lines 484-518: routing of the log. [final]: the destinations so far; [rest]: the destinations that are not re-routed. *)
Fixpoint route_loop (dests : list string) (l : list streaming) (final rest : list string) (rerouted : bool) : list streaming * list string * list string * bool :=
  match l with
  | [] => ([], final, rest, rerouted)
  | a :: l' =>
    match inter (sa_sources a) dests with
    | [] => let '(r, final, rest, b) := route_loop dests l' final rest rerouted in (a :: r, final, rest, b)
    | hit =>
      let '(r, final, rest, b) := route_loop dests l' (union final (sa_dests a)) (filter (fun x => negb (mem x hit)) rest) true in
      (mkStreamingAction (sa_id a) (sa_session a) (sa_sources a) (sa_dests a) (sa_max a) (sa_count a + 1) :: r, final, rest, b)
    end
  end.
(** Lines 434-539 [Resolver::process_streaming_actions]: the destinations of the log, the updated actions, whether they changed. *)
Definition process_streaming (triggers conts : list string) (l : list (streaming * bool)) (dests : list string) (session : string)
    : list string * list streaming * bool :=
  let kept := filter (keep_streaming session) l in
  let rest := filter (fun x => mem x triggers || mem x conts) dests in
  let '(acts, final, rest, rerouted) := route_loop dests (map fst kept) [] rest false in
  (union final rest, acts, negb (count kept =? count l) || rerouted).

(** Lines 557-581 [standardize_pending_actions]. *)
Definition standardize_pending (triggers : list string) (l : list pending) : list pending :=
  dedup pending_dec (catSomes (map (fun p => match inter (pa_triggers p) triggers with
                                             | [] => None
                                             | t => Some (mkPending (pa_id p) (pa_session p) t (pa_streaming p))
                                             end) l)).
(** Lines 585-618 [standardize_streaming_buffers]. *)
Definition standardize_streaming (triggers conts : list string) (l : list streaming) : list streaming :=
  catSomes (map (fun s => match inter (sa_sources s) triggers, inter (sa_dests s) conts with
                          | [], _ | _, [] => None
                          | t, d => Some (mkStreamingAction (sa_id s) (sa_session s) t d (sa_max s) (sa_count s))
                          end) l).

(** Lines 113-230: the outcome of an intent negotiation: the answer of the server, or an error of the upload channel; and the output
    sent to the engine, lines 236-240. *)
Inductive decision := Upload | Drop | Failed.
(** actions_flush_buffers.rs lines 30-36 [NegotiatorOutput]. *)
Inductive output := Approved (p : pending) | Rejected (p : pending).
(** Lines 127-230 [Negotiator::process_pending_action]: new rejected ids and the output. [perform_intent_negotiation] (lines 292-338)
    repeats the request until there is an answer. *)
Definition negotiate (rejected : list string) (p : pending) (d : decision) : list string * output :=
  if mem (pa_id p) rejected then (rejected, Rejected p)
  else match d with
       | Upload => (rejected, Approved p)
       | Drop => (set_insert (pa_id p) rejected, Rejected p)
       | Failed => (rejected, Rejected p)
       end.

(** * Metrics *)

(** metrics.rs lines 101-108 [resolve_field_name]. *)
Definition resolve_field_name (k : string) (l : log) : option string :=
  if String.eqb k "log_level" then Some (dec_string (l_level l))
  else if String.eqb k "log_type" then Some (dec_string (l_type l))
  else fields_ref_value (l_fields l) (l_matching l) k.
(** [BTreeMap::insert] into the tags. *)
Fixpoint tag_insert (k v : string) (l : list (string * string)) : list (string * string) :=
  match l with [] => [(k, v)] | (k', v') :: l' => if String.eqb k' k then (k, v) :: l' else (k', v') :: tag_insert k v l' end.
(** Lines 110-123 [extract_tags]. *)
Definition extract_tags (l : log) (tags : list (string * tag_value)) : list (string * string) :=
  fold_left (fun r p => match (match snd p with TExtract k => resolve_field_name k l | TFixed v => Some v end) with
                        | Some v => tag_insert (fst p) v r
                        | None => r
                        end) tags [].
(** One recorded dynamic metric: type, tags and value. *)
Record emission := mkEmission { em_type : metric_type; em_tags : list (string * string); em_value : Z }.

(** Lines 36-83 [emit_metrics] for one action; [f64] is the parser of a number, an [f64] is represented by an integer code. *)
Definition emit_metric (f64 : string -> option Z) (a : action_metric) (l : log) : list emission :=
  match (match am_inc a with IncFixed n => Some (Z.of_N n) | IncExtract k => match resolve_field_name k l with Some s => f64 s | None => None end end) with
  | None => []
  | Some v => [mkEmission (am_type a) (tag_insert "_id" (am_id a) (extract_tags l (am_tags a))) v]
  end.
(** Lines 85-99 [emit_sankeys] for one action. *)
Definition emit_sankey (a : action_sankey) (p : path) (l : log) : emission :=
  mkEmission MCounter (tag_insert "_path_id" (p_id p) (tag_insert "_id" (as_id a) (extract_tags l (as_tags a)))) 1.

(** * The engine *)

(** engine.rs lines 1055-1063 [WorkflowsState]. *)
Record saved := mkSaved { sv_session : string; sv_workflows : list workflow; sv_pending : list pending; sv_streaming : list streaming }.
(** Lines 63-98 [WorkflowsEngine]: the workflows are the pairs of a configuration and its state; [e_flushes]: [pending_buffer_flushes], the
    receivers are numbered; [e_input]: the channel to the negotiator; [e_buffers]: the channel of buffers to flush. *)
Record engine := mkEngine {
  e_configs : list config; e_workflows : list workflow; e_session : string; e_pending : list pending; e_streaming : list streaming;
  e_current : Z; e_limit : Z; e_dirty : bool; e_triggers : list string; e_conts : list string;
  e_flushes : list (string * nat); e_input : list pending; e_buffers : list (nat * list string); e_next : nat }.
(** Lines 875-897 [WorkflowsEngineConfig]. *)
Record engine_cfg := mkEngineCfg { g_workflows : list config; g_triggers : list string; g_conts : list string }.

(** Lines 101-149 [WorkflowsEngine::new]. *)
Definition engine_new (limit : Z) : engine := mkEngine [] [] "" [] [] 0 limit false [] [] [] [] [] 0.

(** Updates of some fields. *)
Definition set_workflows (e : engine) (cs : list config) (ws : list workflow) (cur : Z) (dirty : bool) : engine :=
  mkEngine cs ws (e_session e) (e_pending e) (e_streaming e) cur (e_limit e) dirty (e_triggers e) (e_conts e) (e_flushes e) (e_input e) (e_buffers e) (e_next e).
(** Update of some fields of the engine, engine.rs lines 64-98. *)
Definition set_session (e : engine) (s : string) : engine :=
  mkEngine (e_configs e) (e_workflows e) s (e_pending e) (e_streaming e) (e_current e) (e_limit e) (e_dirty e) (e_triggers e) (e_conts e) (e_flushes e) (e_input e) (e_buffers e) (e_next e).
(** Update of some fields of the engine, engine.rs lines 64-98. *)
Definition set_actions (e : engine) (p : list pending) (s : list streaming) (dirty : bool) (input : list pending) : engine :=
  mkEngine (e_configs e) (e_workflows e) (e_session e) p s (e_current e) (e_limit e) dirty (e_triggers e) (e_conts e) (e_flushes e) input (e_buffers e) (e_next e).
(** Update of some fields of the engine, engine.rs lines 64-98. *)
Definition set_resolver (e : engine) (t c : list string) : engine :=
  mkEngine (e_configs e) (e_workflows e) (e_session e) (e_pending e) (e_streaming e) (e_current e) (e_limit e) (e_dirty e) t c (e_flushes e) (e_input e) (e_buffers e) (e_next e).
(** Update of some fields of the engine, engine.rs lines 64-98. *)
Definition set_flushes (e : engine) (f : list (string * nat)) (b : list (nat * list string)) (n : nat) : engine :=
  mkEngine (e_configs e) (e_workflows e) (e_session e) (e_pending e) (e_streaming e) (e_current e) (e_limit e) (e_dirty e) (e_triggers e) (e_conts e) f (e_input e) b n.

(** Lines 341-365: runs are removed from the end until the workflow fits. [rest]: the runs, last one first. *)
Fixpoint trim_runs (rest : list run) (remaining current limit : Z) : list run :=
  match rest with
  | [] => []
  | r :: rest' => if remaining - run_count r + current <=? limit then rev rest' else trim_runs rest' (remaining - run_count r) current limit
  end.
(** Lines 326-388 [add_workflow]. *)
Definition add_workflow (e : engine) (w : workflow) (c : config) : engine :=
  let w := if e_limit e <? workflow_count w + e_current e then mkWorkflow (w_id w) (trim_runs (rev (w_runs w)) (workflow_count w) (e_current e) (e_limit e)) else w in
  set_workflows e (e_configs e ++ [c]) (e_workflows e ++ [w]) (e_current e + workflow_count w) (e_dirty e).

(** The last workflow with the id, and the workflows without those that have the id: [collect] into a [HashMap], then [remove]. *)
Fixpoint last_workflow (id : string) (l : list workflow) : option workflow :=
  match l with [] => None | w :: l' => match last_workflow id l' with Some x => Some x | None => if String.eqb (w_id w) id then Some w else None end end.
(** The workflows without those that have the id, engine.rs lines 295-323. *)
Definition without (id : string) (l : list workflow) : list workflow := filter (fun w => negb (String.eqb (w_id w) id)) l.
(** Lines 295-324 [add_workflows]. *)
Fixpoint add_workflows (e : engine) (cs : list config) (existing : list workflow) : engine :=
  match cs with
  | [] => e
  | c :: cs' =>
    let w := match last_workflow (c_id c) existing with Some w => w | None => mkWorkflow (c_id c) [] end in
    add_workflows (add_workflow e w c) cs' (without (c_id c) existing)
  end.

(** Capacities of the channels: lines 117 and 121; actions_flush_buffers.rs line 99. *)
Definition INPUT_CAPACITY : nat := 10.
(** engine.rs lines 117 and 121. *)
Definition BUFFERS_CAPACITY : nat := 10.
(** actions_flush_buffers.rs line 99. *)
Definition OUTPUT_CAPACITY : nat := 16.
(** [try_send] of a list of actions, one after the other. *)
Definition try_send_all {A} (cap : nat) (q : list A) (l : list A) : list A := firstn (Nat.max cap (List.length q)) (q ++ l).

(** Lines 155-199 [start], with the state read from the file. *)
Definition start (e : engine) (g : engine_cfg) (st : option saved) : engine :=
  let e := set_resolver e (g_triggers g) (g_conts g) in
  let e := match st with
           | Some s =>
             let e := set_actions e (standardize_pending (g_triggers g) (sv_pending s)) (standardize_streaming (g_triggers g) (g_conts g) (sv_streaming s)) (e_dirty e) (e_input e) in
             add_workflows (set_session e (sv_session s)) (g_workflows g) (sv_workflows s)
           | None => add_workflows e (g_workflows g) []
           end in
  set_actions e (e_pending e) (e_streaming e) (e_dirty e) (try_send_all INPUT_CAPACITY (e_input e) (e_pending e)).

(** The configuration of the update with the given id: the last one, lines 221-227. *)
Definition latest (id : string) (cs : list config) : option config :=
  fold_left (fun r c => if String.eqb (c_id c) id then Some c else r) cs None.
(** Lines 231-259: the workflows that are kept. The loop runs from the end to the start; the workflows do not depend on each other. *)
Definition unchanged (cs : list config) (x : config * workflow) : bool :=
  match latest (w_id (snd x)) cs with Some c => config_eqb c (fst x) | None => false end.
(** Lines 390-420 [remove_workflow]: the traversals of the removed ones are subtracted, from the last one to the first. *)
Definition removed_current (cur : Z) (l : list (config * workflow)) : Z := fold_right (fun x cur => sat_sub cur (workflow_count (snd x))) cur l.

(** Lines 210-293 [update]. *)
Definition update (e : engine) (g : engine_cfg) : engine :=
  let ws := combine (e_configs e) (e_workflows e) in
  let kept := filter (unchanged (g_workflows g)) ws in
  let gone := filter (fun x => negb (unchanged (g_workflows g) x)) ws in
  let e := set_workflows e (map fst kept) (map snd kept) (removed_current (e_current e) gone)
             (e_dirty e || existsb (fun x => negb (w_initial (snd x))) gone) in
  let existing := map w_id (e_workflows e) in
  let e := fold_left (fun e c => if mem (c_id c) existing then e else add_workflow e (mkWorkflow (c_id c) []) c) (g_workflows g) e in
  let e := set_resolver e (g_triggers g) (g_conts g) in
  set_actions e (standardize_pending (g_triggers g) (e_pending e)) (standardize_streaming (g_triggers g) (g_conts g) (e_streaming e)) (e_dirty e) (e_input e).

(** Lines 1070-1092 [WorkflowsState::optimized]. *)
Definition state_optimized (e : engine) : saved :=
  mkSaved (e_session e) (filter (fun w => match w_runs w with [] => false | _ => true end) (map workflow_optimized (e_workflows e))) (e_pending e) (e_streaming e).

(** Lines 757-766 [clean_state] with lines 1095-1100. *)
Definition clean_state (e : engine) : engine :=
  set_session (set_workflows e (e_configs e) (map (fun w => mkWorkflow (w_id w) []) (e_workflows e)) 0 true) "".

(** Lines 858-872 [WorkflowsEngineResult], with the metrics and the Sankey paths handed out. *)
Record result := mkResult { o_dests : list string; o_action_ids : list string; o_flushed : list string; o_screenshot : bool; o_metrics : list emission; o_paths : list path }.

(** Lines 774-845 [prepare_actions]. *)
Definition flushes_of (l : list triggered) : list action_flush := dedup action_flush_dec (flat_map (fun t => match t with TFlush a => [a] | _ => [] end) l).
(** engine.rs lines 774-845: the metrics. *)
Definition metrics_of (l : list triggered) : list action_metric := dedup action_metric_dec (flat_map (fun t => match t with TMetric a => [a] | _ => [] end) l).
(** engine.rs lines 774-845: the Sankey paths. *)
Definition sankeys_of (l : list triggered) : list (action_sankey * path) := dedup triggered_sankey_dec (flat_map (fun t => match t with TSankey a p => [(a, p)] | _ => [] end) l).
(** engine.rs lines 774-845: the screenshots. *)
Definition screenshots_of (l : list triggered) : list string := flat_map (fun t => match t with TScreenshot i => [i] | _ => [] end) l.

Section Engine.
Variables (re_match : string -> string -> bool) (to_i32 : string -> option Z) (sha : string -> string) (f64 : string -> option Z).

(** Lines 609-670: each workflow processes the log; [dirty]: [needs_state_persistence]. *)
Fixpoint all_process (l : log) (ws : list (config * workflow)) (cur limit : Z) (dirty : bool) : option (list workflow * Z * bool * list triggered) :=
  match ws with
  | [] => Some ([], cur, dirty, [])
  | (c, w) :: ws' =>
    match w_process re_match to_i32 sha c l w cur limit with
    | None => None
    | Some (w', cur, r) =>
      let dirty := dirty || (progressed (wr_stats r) && negb (w_initial w && w_initial w')) in
      match all_process l ws' cur limit dirty with
      | None => None
      | Some (ws'', cur, dirty, acts) => Some (w' :: ws'', cur, dirty, wr_actions r ++ acts)
      end
    end
  end.

(** Lines 555-590: the session of the log. *)
Definition enter_session (e : engine) (l : log) : engine :=
  if String.eqb (e_session e) "" then set_session e (l_session l)
  else if String.eqb (e_session e) (l_session l) then e
  else set_session (clean_state e) (l_session l).

(** Lines 692-710: whether the flush of a streaming action is complete; [done]: the receivers that are not empty. *)
Definition flush_complete (e : engine) (done : nat -> bool) (id : string) : bool :=
  match find (fun p => String.eqb (fst p) id) (e_flushes e) with Some (_, n) => done n | None => true end.

(** Lines 547-755 [process_log]. *)
Definition process_log (e : engine) (l : log) (dests : list string) (done : nat -> bool) : option (engine * result) :=
  let e := enter_session e l in
  match e_workflows e with
  | [] => Some (e, mkResult dests [] [] false [] [])
  | _ =>
    match all_process l (combine (e_configs e) (e_workflows e)) (e_current e) (e_limit e) (e_dirty e) with
    | None => None
    | Some (ws, cur, dirty, acts) =>
      let e := set_workflows e (e_configs e) ws cur dirty in
      let '(dests', strm, changed) :=
        process_streaming (e_triggers e) (e_conts e) (map (fun a => (a, flush_complete e done (sa_id a))) (e_streaming e)) dests (e_session e) in
      let '(created, ids, bufs) := process_flush_actions (e_session e) (e_triggers e) (e_conts e) (flushes_of acts) (e_pending e) strm in
      let e := set_actions e (fold_left (fun s p => insert pending_dec p s) created (e_pending e)) strm
                 (e_dirty e || changed || match created with [] => false | _ => true end) (try_send_all INPUT_CAPACITY (e_input e) created) in
      Some (e, mkResult dests' ids bufs (match screenshots_of acts with [] => false | _ => true end)
                 (flat_map (fun a => emit_metric f64 a l) (metrics_of acts) ++ map (fun x => emit_sankey (fst x) (snd x) l) (sankeys_of acts))
                 (map snd (sankeys_of acts)))
    end
  end.
End Engine.

(** Lines 471-543 [on_log_upload_approved]. *)
Definition on_approved (e : engine) (p : pending) (done : nat -> bool) : engine :=
  let pend := remove pending_dec p (e_pending e) in
  let flush := match find (fun q => String.eqb (fst q) (pa_id p)) (e_flushes e) with Some (_, n) => done n | None => true end in
  let others := filter (fun q => negb (String.eqb (fst q) (pa_id p))) (e_flushes e) in
  let e := if flush then
             if (List.length (e_buffers e) <? BUFFERS_CAPACITY)%nat
             then set_flushes e ((pa_id p, e_next e) :: others) (e_buffers e ++ [(e_next e, pa_triggers p)]) (S (e_next e))
             else set_flushes e others (e_buffers e) (e_next e)
           else e in
  set_actions e pend (match streaming_action_new p (e_conts e) with Some s => e_streaming e ++ [s] | None => e_streaming e end) true (e_input e).
(** Lines 460-464. *)
Definition on_rejected (e : engine) (p : pending) : engine :=
  set_actions e (remove pending_dec p (e_pending e)) (e_streaming e) true (e_input e).

(** * The system: the engine, its negotiator task, the consumer of the flush requests, and the state file *)

(** engine.rs lines 64-98, actions_flush_buffers.rs lines 80-95, the state file of engine.rs lines 913-1050. *)
Record system := mkSystem {
  y_engine : engine;
  y_rejected : list string; (** [rejected_intent_action_ids] of the negotiator. *)
  y_outputs : list output; (** The channel from the negotiator to the engine. *)
  y_done : list nat; (** The flush requests that were answered or dropped. *)
  y_file : option saved (** The state file; [None]: missing or not readable. *)
}.

(** What happens to the system: engine.rs lines 155, 210, 429-540, 547; actions_flush_buffers.rs lines 117-230. *)
Inductive op :=
| Log (l : log) (dests : list string) (** a log is processed *)
| Negotiate (d : decision) (** the negotiator task processes its next action *)
| RunOnce (** [run_once] receives an output of the negotiator *)
| TakeFlush (** the consumer of the flush requests takes one *)
| FlushDone (n : nat) (** the consumer answers or drops a request that was sent *)
| Update (g : engine_cfg) (** a new configuration *)
| Persist (torn : bool) (** [maybe_persist] is called and decides to write; [torn]: the write fails after the file was created *)
| Restart (g : engine_cfg) (limit : Z) (** the process ends and a new one starts *).

(** What an operation shows: the result of a log, or the intent that is negotiated with the server. *)
Inductive event := Processed (l : log) (r : result) | Intent (p : pending).

Section System.
Variables (re_match : string -> string -> bool) (to_i32 : string -> option Z) (sha : string -> string) (f64 : string -> option Z).

(** Has the flush of that number been answered? engine.rs lines 440-470. *)
Definition is_done (l : list nat) (n : nat) : bool := existsb (Nat.eqb n) l.

(** [None]: the code panics. *)
Definition step (y : system) (o : op) : option (system * list event) :=
  let e := y_engine y in
  match o with
  | Log l dests =>
      match process_log re_match to_i32 sha f64 e l dests (is_done (y_done y)) with
      | None => None
      | Some (e', r) => Some (mkSystem e' (y_rejected y) (y_outputs y) (y_done y) (y_file y), [Processed l r])
      end
  | Negotiate d =>
      match e_input e with
      | [] => Some (y, [])
      | p :: rest =>
        if (List.length (y_outputs y) <? OUTPUT_CAPACITY)%nat then
          let (rej, out) := negotiate (y_rejected y) p d in
          Some (mkSystem (set_actions e (e_pending e) (e_streaming e) (e_dirty e) rest) rej (y_outputs y ++ [out]) (y_done y) (y_file y),
                if mem (pa_id p) (y_rejected y) then [] else [Intent p])
        else Some (y, [])
      end
  | RunOnce =>
      match y_outputs y with
      | [] => Some (y, [])
      | Approved p :: rest => Some (mkSystem (on_approved e p (is_done (y_done y))) (y_rejected y) rest (y_done y) (y_file y), [])
      | Rejected p :: rest => Some (mkSystem (on_rejected e p) (y_rejected y) rest (y_done y) (y_file y), [])
      end
  | TakeFlush => Some (mkSystem (set_flushes e (e_flushes e) (tl (e_buffers e)) (e_next e)) (y_rejected y) (y_outputs y) (y_done y) (y_file y), [])
  | FlushDone n => Some (mkSystem e (y_rejected y) (y_outputs y) (if (n <? e_next e)%nat then n :: y_done y else y_done y) (y_file y), [])
  | Update g => Some (mkSystem (update e g) (y_rejected y) (y_outputs y) (y_done y) (y_file y), [])
  | Persist torn =>
      if e_dirty e then
        Some (mkSystem (set_workflows e (e_configs e) (e_workflows e) (e_current e) false) (y_rejected y) (y_outputs y) (y_done y)
                (if torn then None else Some (state_optimized e)), [])
      else Some (y, [])
  | Restart g limit => Some (mkSystem (start (engine_new limit) g (y_file y)) [] [] [] (y_file y), [])
  end.

(** A history of operations: engine.rs lines 155-845, actions_flush_buffers.rs lines 117-230. *)
Fixpoint run_ops (y : system) (ops : list op) : option (system * list event) :=
  match ops with
  | [] => Some (y, [])
  | o :: ops' => match step y o with
                 | None => None
                 | Some (y', ev) => match run_ops y' ops' with Some (y'', ev') => Some (y'', ev ++ ev') | None => None end
                 end
  end.
End System.

(** A first start without a state file. *)
Definition system_new (g : engine_cfg) (limit : Z) : system := mkSystem (start (engine_new limit) g None) [] [] [] None.
