(** Vocabulary of the statement that matching fields stay on the device. *)
From Verif Require Import Base Str_Base Log_Model Workflow_Model WorkflowEngine_Model Pipeline_Model.
From Verif Require Filter_Model.
Import Filter_Model(transform, CaptureField, SetField, RemoveField, RegexMatchAndSubstitute, StringValue, ExistingField, Captured, MatchingOnly, fi_transforms).
Local Open Scope string_scope. Local Open Scope list_scope.

(** All records a step hands to buffers and streams. *)
Definition sent (es : list effect) : list record := flat_map (fun e => match e with EWrite _ r _ | EStream r _ => [r] | _ => [] end) es.

(** * What the filters may make of the fields of a log *)
Section Filters.
Variables (re_replace : string -> string -> string -> string) (ts : list transform) (l : log).
(** The captured and the matching fields the log may have, and the texts known under a name. *)
Inductive kept : field -> Prop :=
| K_own f : In f (l_fields l) -> kept f
| K_text n s o : In (SetField n (StringValue s) Captured o) ts -> kept (mkField n (VStr s))
| K_copy n k s o : In (SetField n (ExistingField k) Captured o) ts -> known k s -> kept (mkField n (VStr s))
| K_sub n p r s : In (RegexMatchAndSubstitute n p r) ts -> kept (mkField n (VStr s)) -> kept (mkField n (VStr (re_replace p r s)))
| K_capture n v : In (CaptureField n) ts -> hidden (mkField n v) -> kept (mkField n v)
with hidden : field -> Prop :=
| H_own f : In f (l_matching l) -> hidden f
| H_text n s o : In (SetField n (StringValue s) MatchingOnly o) ts -> hidden (mkField n (VStr s))
| H_copy n k s o : In (SetField n (ExistingField k) MatchingOnly o) ts -> known k s -> hidden (mkField n (VStr s))
| H_sub n p r s : In (RegexMatchAndSubstitute n p r) ts -> hidden (mkField n (VStr s)) -> hidden (mkField n (VStr (re_replace p r s)))
with known : string -> string -> Prop :=
| N_message s : l_message l = VStr s -> known "_message" s
| N_level : known "log_level" (dec_string (l_level l))
| N_type : known "log_type" (dec_string (l_type l))
| N_kept k s : kept (mkField k (VStr s)) -> known k s
| N_hidden k s : hidden (mkField k (VStr s)) -> known k s.

(** The fields that are derived without any matching field. *)
Inductive open_field : field -> Prop :=
| O_own f : In f (l_fields l) -> open_field f
| O_text n s o : In (SetField n (StringValue s) Captured o) ts -> open_field (mkField n (VStr s))
| O_copy n k s o : In (SetField n (ExistingField k) Captured o) ts -> open_text k s -> open_field (mkField n (VStr s))
| O_sub n p r s : In (RegexMatchAndSubstitute n p r) ts -> open_field (mkField n (VStr s)) -> open_field (mkField n (VStr (re_replace p r s)))
with open_text : string -> string -> Prop :=
| T_message s : l_message l = VStr s -> open_text "_message" s
| T_level : open_text "log_level" (dec_string (l_level l))
| T_type : open_text "log_type" (dec_string (l_type l))
| T_field k s : open_field (mkField k (VStr s)) -> open_text k s.

(** The name of a matching field of the log, or of one that a filter sets. *)
Definition hidden_name (k : string) : Prop := In k (map f_key (l_matching l)) \/ exists v o, In (SetField k v MatchingOnly o) ts.
(** No filter captures a matching field, or copies one to a captured field. *)
Definition discreet : Prop := forall k, hidden_name k -> ~ In (CaptureField k) ts /\ forall n o, ~ In (SetField n (ExistingField k) Captured o) ts.
End Filters.

(** The transforms in force. *)
Definition transforms (on : bool) (fs : list Filter_Model.filter) : list transform := if on then flat_map fi_transforms fs else [].

(** * What the workflows may report *)
(** The transitions of the configurations. *)
Definition transitions (cs : list config) (tr : transition) : Prop := exists c s, In c cs /\ In s (c_states c) /\ In tr (s_transitions s).
(** The tags and values that the configurations ask for: texts, and names of fields. *)
Definition asks (cs : list config) (v : tag_value) : Prop := exists tr, transitions cs tr /\
  ((exists a t, In (AMetric a) (tr_actions tr) /\ In (t, v) (am_tags a)) \/ (exists a k, In (AMetric a) (tr_actions tr) /\ am_inc a = IncExtract k /\ v = TExtract k) \/
   (exists a t, In (ASankey a) (tr_actions tr) /\ In (t, v) (as_tags a)) \/ exists x, In x (tr_sankeys tr) /\ x_value x = v).
(** The ids of their metrics. *)
Definition metric_id (cs : list config) (i : string) : Prop :=
  exists tr, transitions cs tr /\ ((exists a, In (AMetric a) (tr_actions tr) /\ am_id a = i) \/ exists a, In (ASankey a) (tr_actions tr) /\ as_id a = i).
(** A text of the configuration, or of the log without its matching fields. *)
Definition shown (cs : list config) (l : log) (s : string) : Prop :=
  asks cs (TFixed s) \/ s = dec_string (l_level l) \/ s = dec_string (l_type l) \/ exists k, asks cs (TExtract k) /\ In (mkField k (VStr s)) (l_fields l).
(** No configuration asks for the value of a matching field of the log. *)
Definition unasked (cs : list config) (l : log) : Prop := forall k, asks cs (TExtract k) -> ~ In k (map f_key (l_matching l)).
(** The logs of a history. *)
Definition logs (ops : list op) : list log := flat_map (fun o => match o with Log l _ => [l] | _ => [] end) ops.
