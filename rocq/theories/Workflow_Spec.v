(** Vocabulary of the statements about workflows. *)
From Verif Require Import Base Str_Base Log_Model LogMatcher_Model Workflow_Model.
Local Open Scope string_scope. Local Open Scope list_scope. Local Open Scope Z_scope.

(** A configuration that [Config::new] can produce: there is a first state, every transition leads to a state, and the
    duration limit is positive. *)
Definition well_formed (c : config) : Prop :=
  c_states c <> [] /\ (forall s tr, In s (c_states c) -> In tr (s_transitions s) -> (tr_target tr < List.length (c_states c))%nat) /\
  forall d, c_duration c = Some d -> 0 < d.

(** A traversal that stands in a state of the configuration and has a counter for each of its transitions. *)
Definition fits (c : config) (t : traversal) : Prop :=
  exists s, nth_error (c_states c) (t_state t) = Some s /\ List.length (t_counts t) = List.length (s_transitions s).
Definition run_fits (c : config) (r : run) : Prop := Forall (fits c) (r_traversals r).
Definition workflow_fits (c : config) (w : workflow) : Prop := Forall (run_fits c) (w_runs w).

Section Spec.
Variables (re_match : string -> string -> bool) (to_i32 : string -> option Z) (sha : string -> string).

(** The transition is a log rule whose matcher matches the log. *)
Definition hit (tr : transition) (l : log) : bool :=
  match tr_rule tr with LogMatch m _ => matches re_match to_i32 m l | TimeoutMatch _ => false end.
(** The number of logs of the list that match. *)
Fixpoint hits (tr : transition) (ls : list log) : N :=
  match ls with [] => 0 | l :: ls' => (if hit tr l then 1 else 0) + hits tr ls' end%N.
(** The number of matches the transition needs. *)
Definition needed (tr : transition) : option N := match tr_rule tr with LogMatch _ n => Some n | TimeoutMatch _ => None end.
(** After the logs [ls], [l] is the match that the transition waits for. *)
Definition due (tr : transition) (ls : list log) (l : log) : bool :=
  hit tr l && match needed tr with Some n => (hits tr (ls ++ [l]) =? n)%N | None => false end.
(** None of the logs was the match a transition of the list waits for. *)
Definition quiet (trs : list transition) (ls : list log) : Prop :=
  forall tr pre l post, In tr trs -> ls = pre ++ l :: post -> due tr pre l = false.

(** The traversal processes the logs one after the other without leaving its state. *)
Fixpoint stays (c : config) (t : traversal) (ls : list log) : option traversal :=
  match ls with
  | [] => Some t
  | l :: ls' => match t_process re_match to_i32 sha c l t with
                | Some (t', r) => if (res_followed r =? 0)%N then stays c t' ls' else None
                | None => None
                end
  end.
End Spec.

(** The action, if it is not the emission of a Sankey path, as it is triggered. *)
Definition plain (a : action) : option triggered :=
  match a with AFlush a => Some (TFlush a) | AMetric a => Some (TMetric a) | AScreenshot i => Some (TScreenshot i) | ASankey _ => None end.

(** * Sankey paths *)
(** The number of nodes that count. *)
Definition counting (xs : list node) : nat := List.length (filter n_counts xs).
(** Of a sequence of extracted values: those that do not count, and the last [limit] of those that count, in order. *)
Fixpoint recent (limit : nat) (xs : list node) : list node :=
  match xs with [] => [] | x :: xs' => if n_counts x && (limit <=? counting xs')%nat then recent limit xs' else x :: recent limit xs' end.
(** The path of a sequence of extracted values. *)
Definition path_of (limit : nat) (xs : list node) : sankey := fold_left (fun s x => sankey_push s (n_value x) limit (n_counts x)) xs sankey_empty.

(** All extractions of a configuration. *)
Definition extractions (c : config) : list extraction := flat_map tr_sankeys (flat_map s_transitions (c_states c)).
(** The values a transition extracts from a log for a diagram, in order. *)
Definition extracted (id : string) (tr : transition) (l : log) : list node :=
  flat_map (fun x => if String.eqb (x_id x) id then match extract_value (x_value x) l with Some v => [mkNode v (x_counts x)] | None => [] end else []) (tr_sankeys tr).
(** The transition emits the path of the diagram. *)
Definition emits (id : string) (tr : transition) : bool := existsb (fun a => match a with ASankey s => String.eqb (as_id s) id | _ => false end) (tr_actions tr).

Section Trail.
Variables (re_match : string -> string -> bool) (to_i32 : string -> option Z).
(** [trail c id i xs]: there is a way from the first state to state [i], along transitions whose rules matched some logs, on which [xs] are
    the values extracted for the diagram since its path was emitted the last time. *)
Inductive trail (c : config) (id : string) : nat -> list node -> Prop :=
| trail_start : trail c id 0 []
| trail_step i xs s tr l : trail c id i xs -> nth_error (c_states c) i = Some s -> In tr (s_transitions s) -> hit re_match to_i32 tr l = true ->
    trail c id (tr_target tr) (if emits id tr then [] else xs ++ extracted id tr l).
(** The path is the one of the most recent of the values extracted on a way that ends with a transition that matched [l]. *)
Definition path_follows (c : config) (lim : string -> nat) (l : log) (a : action_sankey) (p : path) : Prop :=
  exists i xs s tr, trail c (as_id a) i xs /\ nth_error (c_states c) i = Some s /\ In tr (s_transitions s) /\ hit re_match to_i32 tr l = true /\ In (ASankey a) (tr_actions tr) /\
  let ys := xs ++ extracted (as_id a) tr l in
  p_sankey p = as_id a /\ p_nodes p = map n_value (recent (lim (as_id a)) ys) /\ (p_trimmed p = true <-> (lim (as_id a) < counting ys)%nat).
End Trail.

(** No transition leads to the first state. *)
Definition no_return (c : config) : Prop := forall s tr, In s (c_states c) -> In tr (s_transitions s) -> tr_target tr <> 0%nat.
