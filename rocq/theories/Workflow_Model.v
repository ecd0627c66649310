(** Model of bd-workflows/src/config.rs (workflow configurations) and of bd-workflows/src/workflow.rs (workflows, runs, traversals,
    Sankey paths), release semantics: [debug_assert!] is skipped.
    Simplifications: counters and indices are unbounded ([u32]/[u64]/[usize] in the code); a [BTreeMap]/[BTreeSet] is a list (the sets of
    buffer ids are sorted by [set_insert], the others are in insertion order); log lines are omitted.
    A panic of the code (index out of range) is [None]. *)
From Verif Require Import Base Str_Base Log_Model LogMatcher_Model BufferMatcher_Model.
Local Open Scope string_scope. Local Open Scope list_scope. Local Open Scope Z_scope.

(** * Configurations *)

(** config.rs lines 696-716 [TagValue]. *)
Inductive tag_value := TExtract (k : string) | TFixed (v : string).
(** Lines 707-716 [TagValue::extract_value], on a [LogRef]. *)
Definition extract_value (v : tag_value) (l : log) : option string :=
  match v with TExtract k => log_ref_value l k | TFixed s => Some s end.

(** Lines 296-303 [SankeyExtraction]. *)
Record extraction := mkExtraction { x_id : string; x_value : tag_value; x_counts : bool; x_limit : nat }.
(** Lines 484-492 [Streaming]. *)
Record streaming_cfg := mkStreaming { sc_dest : list string; sc_max : option N }.
(** Lines 463-474 [ActionFlushBuffers]. *)
Record action_flush := mkFlush { af_id : string; af_buffers : list string; af_streaming : option streaming_cfg }.
(** Lines 682-690 [ValueIncrement]. *)
Inductive increment := IncFixed (v : N) | IncExtract (k : string).
(** Lines 671-675 [MetricType]. *)
Inductive metric_type := MCounter | MHistogram.
(** Lines 539-547 [ActionEmitMetric]. *)
Record action_metric := mkMetric { am_id : string; am_tags : list (string * tag_value); am_inc : increment; am_type : metric_type }.
(** Lines 608-613 [ActionEmitSankey]. *)
Record action_sankey := mkSankeyAction { as_id : string; as_limit : N; as_tags : list (string * tag_value) }.
(** Lines 415-421 [Action]; the screenshot action is only its id (lines 654-657). *)
Inductive action := AFlush (a : action_flush) | AMetric (a : action_metric) | ASankey (a : action_sankey) | AScreenshot (id : string).
(** Lines 407-411 [Predicate]. *)
Inductive predicate := LogMatch (t : tree) (count : N) | TimeoutMatch (ms : N).
(** Lines 321-327 [Transition]. *)
Record transition := mkTransition { tr_target : nat; tr_rule : predicate; tr_actions : list action; tr_sankeys : list extraction }.
(** Lines 215-219 [State]. *)
Record state := mkState { s_id : string; s_transitions : list transition }.
(** Lines 263-267 [Execution]. *)
Inductive execution := Exclusive | Parallel.
(** Lines 78-86 [Config]; the duration limit is in the unit of [l_time] (nanoseconds). *)
Record config := mkConfig { c_id : string; c_states : list state; c_exec : execution; c_duration : option Z; c_matched : option N }.

(** The protobuf configuration (bd-proto, workflow.proto); [None] stands for a missing field or oneof. *)
Inductive rule_proto := PLogMatch (m : matcher_cfg) (count : N) | PTimeout (ms : N).
(** bd-proto/src/protos/workflow/workflow.rs 1741-4032 [Action]. *)
Inductive action_proto :=
| PFlush (id : string) (buffers : list string) (streaming : option (list string * list (option N)))
| PMetric (id : string) (tags : list (string * option tag_value)) (inc : option increment) (ty : option metric_type)
| PSankey (id : string) (limit : N) (tags : list (string * option tag_value))
| PScreenshot (id : string).
(** bd-proto/src/protos/workflow/workflow.rs 957-1477 [TransitionExtension]. *)
Record extension_proto := mkExtensionP { pe_id : string; pe_value : option tag_value; pe_counts : bool }.
(** bd-proto/src/protos/workflow/workflow.rs 500-678 [Transition]. *)
Record transition_proto := mkTransitionP { pt_target : string; pt_rule : option rule_proto; pt_actions : list (option action_proto); pt_extensions : list (option extension_proto) }.
(** bd-proto/src/protos/workflow/workflow.rs 359-499 [State]. *)
Record state_proto := mkStateP { ps_id : string; ps_transitions : list transition_proto }.
(** bd-proto/src/protos/workflow/workflow.rs 159-358 [Workflow]. *)
Record workflow_proto := mkWorkflowP { pw_id : string; pw_states : list state_proto; pw_exec : option execution; pw_duration : option N; pw_matched : option N }.

(** [collect::<BTreeSet<_>>]. *)
Definition to_set (l : list string) : list string := fold_left (fun s x => set_insert x s) l [].

(** [Iterator::min] of an iterator over [u64]. *)
Fixpoint min_list (l : list N) : option N :=
  match l with [] => None | x :: l' => match min_list l' with None => Some x | Some y => Some (N.min x y) end end.

(** [filter_map] with the identity. *)
Fixpoint catSomes {A} (l : list (option A)) : list A :=
  match l with [] => [] | Some x :: l' => x :: catSomes l' | None :: l' => catSomes l' end.

(** [enumerate] then [collect] into a [HashMap]: the last element with the key wins. *)
Fixpoint last_index (id : string) (ids : list string) (i : nat) : option nat :=
  match ids with
  | [] => None
  | x :: ids' => match last_index id ids' (S i) with Some j => Some j | None => if String.eqb x id then Some i else None end
  end.

(** Lines 494-532 [Streaming::new]. *)
Definition streaming_new (dest : list string) (criteria : list (option N)) : option streaming_cfg :=
  match min_list (catSomes criteria) with
  | Some 0%N => None
  | m => Some (mkStreaming (to_set dest) m)
  end.

(** The tags of lines 553-567 and 619-635: a tag of unknown type is an error. *)
Definition tags_new (l : list (string * option tag_value)) : option (list (string * tag_value)) :=
  all_some (map (fun p => match snd p with Some v => Some (fst p, v) | None => None end) l).

(** Lines 423-457 [Action::try_from_proto]. *)
Definition action_new (p : option action_proto) : option action :=
  match p with
  | None => None
  | Some (PFlush id buffers None) => Some (AFlush (mkFlush id (to_set buffers) None))
  | Some (PFlush id buffers (Some (dest, criteria))) =>
      match streaming_new dest criteria with Some s => Some (AFlush (mkFlush id (to_set buffers) (Some s))) | None => None end
  | Some (PMetric id tags inc ty) =>
      match tags_new tags, ty, inc with Some tags, Some ty, Some inc => Some (AMetric (mkMetric id tags inc ty)) | _, _, _ => None end
  | Some (PSankey id limit tags) => match tags_new tags with Some tags => Some (ASankey (mkSankeyAction id limit tags)) | None => None end
  | Some (PScreenshot id) => Some (AScreenshot id)
  end.

(** Lines 101-114: the limit of a Sankey diagram is the one of the last action with its id. *)
Fixpoint limit_by_id (l : list (option action_proto)) (id : string) : option N :=
  match l with
  | [] => None
  | a :: l' => match limit_by_id l' id with
               | Some n => Some n
               | None => match a with Some (PSankey i n _) => if String.eqb i id then Some n else None | _ => None end
               end
  end.

(** Lines 358-385 and 305-327: one extension of a transition; [None] is an error, [Some None] an extension of unknown type. *)
Definition extension_new (limits : string -> option N) (p : option extension_proto) : option (option extraction) :=
  match p with
  | None => Some None
  | Some p => match limits (pe_id p), pe_value p with
              | Some n, Some v => Some (Some (mkExtraction (pe_id p) v (pe_counts p) (N.to_nat n)))
              | _, _ => None
              end
  end.

Section Parse.
Variable re_ok : string -> bool.

(** Lines 330-396 [Transition::new], with the lookup of the target of lines 240-246. *)
Definition transition_new (ids : list string) (limits : string -> option N) (p : transition_proto) : option transition :=
  match last_index (pt_target p) ids 0 with
  | None => None
  | Some target =>
    match pt_rule p with
    | None => None
    | Some rule =>
      match (match rule with PLogMatch m n => option_map (fun t => LogMatch t n) (tree_new re_ok m) | PTimeout ms => Some (TimeoutMatch ms) end),
            all_some (map action_new (pt_actions p)), all_some (map (extension_new limits) (pt_extensions p)) with
      | Some rule, Some actions, Some extensions => Some (mkTransition target rule actions (catSomes extensions))
      | _, _, _ => None
      end
    end
  end.

(** Lines 221-247 [State::try_from_proto]. *)
Definition state_new (ids : list string) (limits : string -> option N) (p : state_proto) : option state :=
  option_map (mkState (ps_id p)) (all_some (map (transition_new ids limits) (ps_transitions p))).

(** Lines 154-168 and 170-191: a limit of 0 is an error. *)
Definition duration_new (d : option N) : option (option Z) :=
  match d with None => Some None | Some n => if (n =? 0)%N then None else Some (Some (Z.of_N n * 1000000)) end.
(** config.rs lines 169-184. *)
Definition matched_new (d : option N) : option (option N) :=
  match d with None => Some None | Some n => if (n =? 0)%N then None else Some (Some n) end.

(** Lines 89-132 [Config::new]. *)
Definition config_new (p : workflow_proto) : option config :=
  match pw_states p with
  | [] => None
  | _ =>
    let ids := map ps_id (pw_states p) in
    let limits := limit_by_id (flat_map pt_actions (flat_map ps_transitions (pw_states p))) in
    match all_some (map (state_new ids limits) (pw_states p)), pw_exec p, duration_new (pw_duration p), matched_new (pw_matched p) with
    | Some states, Some e, Some d, Some m => Some (mkConfig (pw_id p) states e d m)
    | _, _, _, _ => None
    end
  end.

(** Lines 56-64 [WorkflowsConfiguration::new]: invalid workflows are left out. *)
Definition configs_new (l : list workflow_proto) : list config := catSomes (map config_new l).
End Parse.

(** * Sankey paths *)

(** workflow.rs lines 486-490 [SankeyNodeState] and 492-496 [SankeyState]. *)
Record node := mkNode { n_value : string; n_counts : bool }.
(** workflow.rs lines 496-500 [SankeyState]. *)
Record sankey := mkSankey { sk_nodes : list node; sk_trimmed : bool }.
(** [Default]. *)
Definition sankey_empty : sankey := mkSankey [] false.
(** Removes the first element that satisfies [f]: [find_position] then [remove]. *)
Fixpoint remove_first {A} (f : A -> bool) (l : list A) : list A :=
  match l with [] => [] | x :: l' => if f x then l' else x :: remove_first f l' end.
(** Lines 499-521 [SankeyState::push]. *)
Definition sankey_push (s : sankey) (v : string) (limit : nat) (counts : bool) : sankey :=
  let nodes := sk_nodes s ++ [mkNode v counts] in
  if counts && (limit <? List.length (filter n_counts nodes))%nat then mkSankey (remove_first n_counts nodes) true
  else mkSankey nodes (sk_trimmed s).

(** The [BTreeMap] from diagram ids to paths. *)
Definition sankeys := list (string * sankey).
(** [entry(id).or_default().push(…)]. *)
Fixpoint sankeys_push (m : sankeys) (id v : string) (limit : nat) (counts : bool) : sankeys :=
  match m with
  | [] => [(id, sankey_push sankey_empty v limit counts)]
  | (i, s) :: m' => if String.eqb i id then (i, sankey_push s v limit counts) :: m' else (i, s) :: sankeys_push m' id v limit counts
  end.
(** [remove(id)]. *)
Fixpoint sankeys_take (m : sankeys) (id : string) : option (sankey * sankeys) :=
  match m with
  | [] => None
  | (i, s) :: m' => if String.eqb i id then Some (s, m') else match sankeys_take m' id with Some (r, m'') => Some (r, (i, s) :: m'') | None => None end
  end.

(** Lines 457-463 [SankeyPath]. *)
Record path := mkPath { p_sankey : string; p_nodes : list string; p_id : string; p_trimmed : bool }.
(** Lines 961-985 [TriggeredAction]. *)
Inductive triggered := TFlush (a : action_flush) | TMetric (a : action_metric) | TSankey (a : action_sankey) (p : path) | TScreenshot (id : string).

(** * Traversals *)

(** Lines 788-800 [Traversal]. *)
Record traversal := mkTraversal { t_state : nat; t_counts : list N; t_sankeys : option sankeys }.

(** Lines 803-821 [Traversal::new]: the outer [None] is a panic, the inner one a final state. *)
Definition traversal_new (c : config) (i : nat) (m : option sankeys) : option (option traversal) :=
  match nth_error (c_states c) i with
  | None => None
  | Some s => match s_transitions s with [] => Some None | trs => Some (Some (mkTraversal i (repeat 0%N (List.length trs)) m)) end
  end.

(** Lines 952-955. *)
Definition t_initial (t : traversal) : bool := (t_state t =? 0)%nat && forallb (fun n => (n =? 0)%N) (t_counts t).

(** Lines 885-907 [Traversal::sankey_states]. *)
Definition sankey_states (m : option sankeys) (xs : list extraction) (l : log) : option sankeys :=
  fold_left (fun m x => match extract_value (x_value x) l with
                        | None => m
                        | Some v => Some (sankeys_push (match m with Some m => m | None => [] end) (x_id x) v (x_limit x) (x_counts x))
                        end) xs m.

(** Lines 987-1003 [TraversalResult]. *)
Record tresult := mkTresult { res_out : list traversal; res_actions : list triggered; res_matched : N; res_followed : N }.

(** [counts[i] += 1]; [None]: index out of range. *)
Fixpoint bump (i : nat) (l : list N) : option (N * list N) :=
  match l, i with
  | [], _ => None
  | n :: l', O => Some ((n + 1)%N, (n + 1)%N :: l')
  | n :: l', S i' => match bump i' l' with Some (m, r) => Some (m, n :: r) | None => None end
  end.

(** Lines 530-547 [Run]. *)
Record run := mkRun { r_traversals : list traversal; r_matched : N; r_first : option Z }.
(** Lines 740-750 [RunState]. *)
Inductive run_state := Running | Completed | Stopped.
(** Lines 756-779 [RunResult]. *)
Record rresult := mkRresult { rr_state : run_state; rr_actions : list triggered; rr_created : Z; rr_advanced : Z; rr_completed : Z; rr_matched : N }.

(** Length of a list, workflow.rs lines 566-699. *)
Definition count {A} (l : list A) : Z := Z.of_nat (List.length l).
(** Lines 728-732. *)
Definition run_count (r : run) : Z := count (r_traversals r).
(** Lines 714-726. *)
Definition r_initial (r : run) : bool := forallb t_initial (r_traversals r).

(** Lines 549-559 [Run::new]. *)
Definition run_new (c : config) : option run :=
  match traversal_new c 0 None with
  | None => None
  | Some None => Some (mkRun [] 0 None)
  | Some (Some t) => Some (mkRun [t] 0 None)
  end.

(** The [i]-th limit checks of [Run::process_log]: lines 591-605 and 607-639. [duration_since] of an earlier time is an error, which is
    ignored; that is a negative difference here. *)
Definition over_matched (c : config) (matched : N) : bool := match c_matched c with Some n => (n <? matched)%N | None => false end.
(** workflow.rs lines 607-639: the limit of the duration. *)
Definition over_duration (c : config) (first : option Z) (now : Z) : bool :=
  match c_duration c, first with Some d, Some f => d <? now - f | _, _ => false end.

(** Lines 40-55 [Workflow]. *)
Record workflow := mkWorkflow { w_id : string; w_runs : list run }.
(** Lines 417-437 [WorkflowResultStats]. *)
Inductive stat := CreatedRuns | AdvancedRuns | StoppedRuns | CompletedRuns | CreatedTraversals | AdvancedTraversals | StoppedTraversals
                | CompletedTraversals | LimitHits | Resets | PotentialForks | MatchedLogs.
(** Equality of [stat], workflow.rs lines 417-437. *)
Definition stat_eqb (a b : stat) : bool :=
  match a, b with
  | CreatedRuns, CreatedRuns | AdvancedRuns, AdvancedRuns | StoppedRuns, StoppedRuns | CompletedRuns, CompletedRuns
  | CreatedTraversals, CreatedTraversals | AdvancedTraversals, AdvancedTraversals | StoppedTraversals, StoppedTraversals
  | CompletedTraversals, CompletedTraversals | LimitHits, LimitHits | Resets, Resets | PotentialForks, PotentialForks | MatchedLogs, MatchedLogs => true
  | _, _ => false
  end.
(** workflow.rs lines 417-437 [WorkflowResultStats]. *)
Definition stats := stat -> Z.
(** workflow.rs lines 417-437: the default. *)
Definition no_stats : stats := fun _ => 0.
(** workflow.rs lines 417-437: a counter is increased. *)
Definition inc (s : stats) (k : stat) (n : Z) : stats := fun x => if stat_eqb k x then s x + n else s x.
(** Lines 440-452 [did_make_progress]. *)
Definition progressed (s : stats) : bool :=
  existsb (fun k => 0 <? s k) [CreatedRuns; AdvancedRuns; StoppedRuns; CompletedRuns; CreatedTraversals; AdvancedTraversals; StoppedTraversals;
                               CompletedTraversals; MatchedLogs; Resets].
(** [u32::saturating_sub]. *)
Definition sat_sub (a b : Z) : Z := Z.max 0 (a - b).
(** [Vec::remove(1)]; [None]: index out of range. *)
Definition remove_second {A} (l : list A) : option (A * list A) := match l with x :: y :: l' => Some (y, x :: l') | _ => None end.

(** Lines 283-285. *)
Definition workflow_count (w : workflow) : Z := fold_right Z.add 0 (map run_count (w_runs w)).
(** Lines 287-297. *)
Definition needs_new_run (w : workflow) : bool := match w_runs w with [] => true | l => negb (existsb r_initial l) end.
(** Lines 299-317. *)
Definition workflow_optimized (w : workflow) : workflow := mkWorkflow (w_id w) (filter (fun r => negb (r_initial r)) (w_runs w)).
(** Lines 326-338. *)
Definition w_initial (w : workflow) : bool := forallb r_initial (w_runs w).

Section Process.
(** The regex crate and the number parser of the matcher, and SHA-256 in hexadecimal (lines 474-482). *)
Variables (re_match : string -> string -> bool) (to_i32 : string -> option Z) (sha : string -> string).

(** bd-log-matcher/src/matcher.rs [Tree::do_match] on the parts of the log, as called by line 836. *)
Definition matches (t : tree) (l : log) : bool := do_match re_match to_i32 t (l_level l) (l_type l) (l_message l) (fields_ref_value (l_fields l) (l_matching l)).

(** Lines 465-482 [SankeyPath::new]. *)
Definition path_new (id : string) (s : sankey) : path :=
  mkPath id (map n_value (sk_nodes s)) (sha (String.concat "" (map n_value (sk_nodes s)))) (sk_trimmed s).

(** Lines 909-950 [Traversal::triggered_actions]. *)
Fixpoint triggered_actions (acts : list action) (m : option sankeys) : list triggered * option sankeys :=
  match acts with
  | [] => ([], m)
  | AFlush a :: acts' => let (r, m') := triggered_actions acts' m in (TFlush a :: r, m')
  | AMetric a :: acts' => let (r, m') := triggered_actions acts' m in (TMetric a :: r, m')
  | AScreenshot i :: acts' => let (r, m') := triggered_actions acts' m in (TScreenshot i :: r, m')
  | ASankey a :: acts' =>
      match m with
      | None => triggered_actions acts' m
      | Some mm => match sankeys_take mm (as_id a) with
                   | None => triggered_actions acts' m
                   | Some (s, mm') => let (r, m') := triggered_actions acts' (Some mm') in (TSankey a (path_new (as_id a) s) :: r, m')
                   end
      end
  end.

(** Lines 823-883 [Traversal::process_log]: the loop over the transitions, from transition [i] on. *)
Fixpoint t_loop (c : config) (l : log) (i : nat) (trs : list transition) (t : traversal) (r : tresult) : option (traversal * tresult) :=
  match trs with
  | [] => Some (t, r)
  | tr :: trs' =>
    match tr_rule tr with
    | TimeoutMatch _ => t_loop c l (S i) trs' t r
    | LogMatch m n =>
      if matches m l then
        match bump i (t_counts t) with
        | None => None
        | Some (k, counts) =>
          let t := mkTraversal (t_state t) counts (t_sankeys t) in
          if (k =? n)%N then
            let (acts, sk) := triggered_actions (tr_actions tr) (sankey_states (t_sankeys t) (tr_sankeys tr) l) in
            match traversal_new c (tr_target tr) sk with
            | None => None
            | Some next =>
              t_loop c l (S i) trs' t
                (mkTresult (res_out r ++ match next with Some t' => [t'] | None => [] end) (res_actions r ++ acts) (res_matched r + 1) (res_followed r + 1))
            end
          else t_loop c l (S i) trs' t (mkTresult (res_out r) (res_actions r) (res_matched r + 1) (res_followed r))
        end
      else t_loop c l (S i) trs' t r
    end
  end.
(** workflow.rs lines 823-883 [Traversal::process_log]. *)
Definition t_process (c : config) (l : log) (t : traversal) : option (traversal * tresult) :=
  match nth_error (c_states c) (t_state t) with
  | None => None
  | Some s => t_loop c l 0 (s_transitions s) t (mkTresult [] [] 0 0)
  end.

(** * Runs *)

(** Lines 566-699 [Run::process_log]: the loop over the traversals in reversed order. [rest]: the traversals not yet processed, last one
    first; [done]: what the processed ones became, in the order of the vector. *)
Fixpoint r_loop (c : config) (l : log) (rest done : list traversal) (matched : N) (first : option Z)
    (acts : list triggered) (created advanced completed : Z) (run_matched : N) : option (run * rresult) :=
  match rest with
  | [] => Some (mkRun done matched first,
                mkRresult (match done with [] => Completed | _ => Running end) acts created advanced completed run_matched)
  | t :: rest' =>
    match t_process c l t with
    | None => None
    | Some (t, res) =>
      let acts := acts ++ res_actions res in
      let matched := (matched + res_matched res)%N in
      let run_matched := (run_matched + res_matched res)%N in
      if over_matched c matched || over_duration c first (l_time l) then
        Some (mkRun (rev rest' ++ t :: done) matched first, mkRresult Stopped [] 0 0 0 run_matched)
      else
        let first := match first with None => if (0 <? res_matched res)%N then Some (l_time l) else None | _ => first end in
        if (res_followed res =? 0)%N then r_loop c l rest' (t :: done) matched first acts created advanced completed run_matched
        else
          r_loop c l rest' (res_out res ++ done) matched first acts
            (created + match res_out res with [] => 0 | o => count o - 1 end) (advanced + 1)
            (completed + match res_out res with [] => 1 | _ => 0 end) run_matched
    end
  end.
(** workflow.rs lines 566-699 [Run::process_log]. *)
Definition r_process (c : config) (l : log) (r : run) : option (run * rresult) :=
  r_loop c l (rev (r_traversals r)) [] (r_matched r) (r_first r) [] 0 0 0 0.

(** * Workflows *)

(** Lines 382-386 [WorkflowResult]. *)
Record wresult := mkWresult { wr_actions : list triggered; wr_stats : stats }.

(** Lines 247-281 [maybe_add_run]. *)
Definition maybe_add_run (c : config) (runs : list run) (r : run) (current limit : Z) (st : stats) : list run * Z * stats :=
  if run_count r + current <=? limit then
    (match c_exec c with Exclusive => r :: runs | Parallel => runs ++ [r] end, current + run_count r,
     inc (inc st CreatedRuns 1) CreatedTraversals (run_count r))
  else (runs, current, inc st LimitHits 1).

(** Lines 101-243: the loop over the runs in reversed order. [rest]: the runs not yet processed, last one first; [done]: the processed runs
    that are kept. [kept] is the list of the processed run, or empty if it was removed. *)
Fixpoint w_loop (c : config) (l : log) (rest done : list run) (current limit : Z) (progress : bool) (res : wresult) : option (list run * Z * wresult) :=
  match rest with
  | [] => Some (done, current, res)
  | r :: rest' =>
    match r_process c l r with
    | None => None
    | Some (r, rr) =>
      let acts := wr_actions res ++ rr_actions rr in
      let st := inc (inc (inc (inc (wr_stats res) CreatedTraversals (rr_created rr)) AdvancedTraversals (rr_advanced rr))
                     CompletedTraversals (rr_completed rr)) MatchedLogs (Z.of_N (rr_matched rr)) in
      let current := sat_sub (current + rr_created rr) (rr_completed rr) in
      let over := limit <? current in
      let '(kept, current, progress, st) :=
        match rr_state rr, over with
        | Stopped, _ | _, true =>
            ([], sat_sub current (run_count r), progress,
             inc (inc (if over then inc st LimitHits 1 else st) StoppedRuns 1) StoppedTraversals (run_count r))
        | Completed, _ => ([], current, true, inc (inc st AdvancedRuns 1) CompletedRuns 1)
        | Running, _ => ([r], current, progress || (0 <? rr_matched rr)%N, if 0 <? rr_advanced rr then inc st AdvancedRuns 1 else st)
        end in
      match c_exec c with
      | Parallel => w_loop c l rest' (kept ++ done) current limit progress (mkWresult acts st)
      | Exclusive =>
          if (1 <? count rest' + count (kept ++ done)) && progress then
            match rest' with
            | [] =>
                match remove_second (kept ++ done) with
                | None => None
                | Some (x, done') =>
                    Some (done', sat_sub current (run_count x),
                          mkWresult acts (inc (inc (inc st StoppedRuns 1) StoppedTraversals (run_count x)) Resets 1))
                end
            | _ =>
                match run_new c with
                | None => None
                | Some i => match r_process c l i with
                            | None => None
                            | Some (_, ir) => Some (rev rest' ++ kept ++ done, current,
                                                    mkWresult acts (if (0 <? rr_matched ir)%N then inc st PotentialForks 1 else st))
                            end
                end
            end
          else w_loop c l rest' (kept ++ done) current limit progress (mkWresult acts st)
      end
    end
  end.

(** Lines 80-245 [Workflow::process_log]. *)
Definition w_process (c : config) (l : log) (w : workflow) (current limit : Z) : option (workflow * Z * wresult) :=
  match (if needs_new_run w then
           match run_new c with None => None | Some r => Some (maybe_add_run c (w_runs w) r current limit no_stats) end
         else Some (w_runs w, current, no_stats)) with
  | None => None
  | Some (runs, current, st) =>
    match w_loop c l (rev runs) [] current limit false (mkWresult [] st) with
    | None => None
    | Some (runs, current, res) => Some (mkWorkflow (w_id w) runs, current, res)
    end
  end.
End Process.
