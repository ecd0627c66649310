(** What the definition of a workflow says, and which definitions are complete. *)
From Verif Require Import Base Str_Base Log_Model LogMatcher_Model BufferMatcher_Model Matcher_Spec Workflow_Model.
Local Open Scope string_scope. Local Open Scope list_scope.

(** The elements that are there, each with its counterpart. *)
Inductive those {A B} (R : A -> B -> Prop) : list (option A) -> list B -> Prop :=
| those_nil : those R [] []
| those_none l m : those R l m -> those R (None :: l) m
| those_some x l y m : R x y -> those R l m -> those R (Some x :: l) (y :: m).
(** A set holds the names of the list. *)
Definition names (l s : list string) : Prop := (forall x, In x s <-> In x l) /\ NoDup s.
(** The smallest of the bounds that are given, if one is given. *)
Definition smallest (l : list (option N)) (m : option N) : Prop :=
  match m with None => forall x, ~ In (Some x) l | Some n => In (Some n) l /\ forall x, In (Some x) l -> (n <= x)%N end.
(** The position of the last of the states with this name. *)
Definition position (id : string) (p : workflow_proto) (i : nat) : Prop :=
  (exists s, nth_error (pw_states p) i = Some s /\ ps_id s = id) /\ forall j s, nth_error (pw_states p) j = Some s -> ps_id s = id -> (j <= i)%nat.
(** All actions of a definition, in order. *)
Definition all_actions (p : workflow_proto) : list (option action_proto) := concat (map (fun s => concat (map pt_actions (ps_transitions s))) (pw_states p)).
(** The limit of a diagram: that of the last action that emits it. *)
Definition diagram_limit (p : workflow_proto) (id : string) (n : N) : Prop :=
  exists before tags after, all_actions p = before ++ Some (PSankey id n tags) :: after /\ forall m t, ~ In (Some (PSankey id m t)) after.

Section Means.
Variable re_ok : string -> bool.
(** A tag means itself. *)
Definition means_tags (l : list (string * option tag_value)) (m : list (string * tag_value)) : Prop := Forall2 (fun a b => fst a = fst b /\ snd a = Some (snd b)) l m.
(** An action. *)
Inductive means_action : option action_proto -> action -> Prop :=
| means_flush id bs s : names bs s -> means_action (Some (PFlush id bs None)) (AFlush (mkFlush id s None))
| means_stream id bs s dest d crit m : names bs s -> names dest d -> smallest crit m -> m <> Some 0%N ->
    means_action (Some (PFlush id bs (Some (dest, crit)))) (AFlush (mkFlush id s (Some (mkStreaming d m))))
| means_metric id tags t inc ty : means_tags tags t -> means_action (Some (PMetric id tags (Some inc) (Some ty))) (AMetric (mkMetric id t inc ty))
| means_sankey id n tags t : means_tags tags t -> means_action (Some (PSankey id n tags)) (ASankey (mkSankeyAction id n t))
| means_screenshot id : means_action (Some (PScreenshot id)) (AScreenshot id).
(** A rule. *)
Inductive means_rule : rule_proto -> predicate -> Prop :=
| means_log m n t : tree_new re_ok m = Some t -> means_rule (PLogMatch m n) (LogMatch t n)
| means_timeout ms : means_rule (PTimeout ms) (TimeoutMatch ms).
(** An extraction. *)
Definition means_extension (p : workflow_proto) (e : extension_proto) (x : extraction) : Prop :=
  x_id x = pe_id e /\ pe_value e = Some (x_value x) /\ x_counts x = pe_counts e /\ diagram_limit p (pe_id e) (N.of_nat (x_limit x)).
(** A transition. *)
Definition means_transition (p : workflow_proto) (t : transition_proto) (u : transition) : Prop :=
  position (pt_target t) p (tr_target u) /\ (exists r, pt_rule t = Some r /\ means_rule r (tr_rule u)) /\
  Forall2 means_action (pt_actions t) (tr_actions u) /\ those (means_extension p) (pt_extensions t) (tr_sankeys u).
(** A workflow. *)
Definition means (p : workflow_proto) (c : config) : Prop :=
  c_id c = pw_id p /\ pw_states p <> [] /\
  Forall2 (fun s t => s_id t = ps_id s /\ Forall2 (means_transition p) (ps_transitions s) (s_transitions t)) (pw_states p) (c_states c) /\
  pw_exec p = Some (c_exec c) /\
  (** milliseconds to nanoseconds *)
  match pw_duration p with None => c_duration c = None | Some ms => ms <> 0%N /\ c_duration c = Some (1000 * 1000 * Z.of_N ms)%Z end /\
  c_matched c = pw_matched p /\ pw_matched p <> Some 0%N.

(** An action is complete. *)
Definition complete (a : option action_proto) : Prop :=
  match a with
  | None => False
  | Some (PFlush _ _ None) => True
  | Some (PFlush _ _ (Some (_, crit))) => ~ In (Some 0%N) crit
  | Some (PMetric _ tags inc ty) => (forall k, ~ In (k, None) tags) /\ inc <> None /\ ty <> None
  | Some (PSankey _ _ tags) => forall k, ~ In (k, None) tags
  | Some (PScreenshot _) => True
  end.
(** A transition is complete. *)
Definition complete_transition (p : workflow_proto) (t : transition_proto) : Prop :=
  (exists s, In s (pw_states p) /\ ps_id s = pt_target t) /\
  match pt_rule t with None => False | Some (PLogMatch m _) => tree_new re_ok m <> None | Some (PTimeout _) => True end /\
  (forall a, In a (pt_actions t) -> complete a) /\
  (forall e, In (Some e) (pt_extensions t) -> pe_value e <> None /\ exists n tags, In (Some (PSankey (pe_id e) n tags)) (all_actions p)).
(** A definition is complete. *)
Definition complete_definition (p : workflow_proto) : Prop :=
  pw_states p <> [] /\ pw_exec p <> None /\ pw_duration p <> Some 0%N /\ pw_matched p <> Some 0%N /\
  forall s t, In s (pw_states p) -> In t (ps_transitions s) -> complete_transition p t.

(** The workflows of the complete definitions, in order. *)
Inductive accepted : list workflow_proto -> list config -> Prop :=
| accepted_nil : accepted [] []
| accepted_skip p l m : ~ complete_definition p -> accepted l m -> accepted (p :: l) m
| accepted_take p l c m : complete_definition p -> means p c -> accepted l m -> accepted (p :: l) (c :: m).
End Means.
