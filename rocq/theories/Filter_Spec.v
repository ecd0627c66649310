(** Where the fields of a filtered log may come from. *)
From Verif Require Import Base Str_Base Version_Model Log_Model LogMatcher_Model Filter_Model.
Local Open Scope string_scope.

(** Everything but the two field lists. *)
Definition same_but_fields (a b : log) : Prop :=
  l_level a = l_level b /\ l_type a = l_type b /\ l_message a = l_message b /\ l_session a = l_session b /\ l_time a = l_time b.

Section Origin.
Variables (re_replace : string -> string -> string -> string) (ts : list transform) (l : log).
(** [origin Captured f]: [f] may be uploaded; [origin MatchingOnly f]: [f] may be used for matching. *)
Inductive origin : field_type -> field -> Prop :=
| from_log_captured f : In f (l_fields l) -> origin Captured f
| from_log_matching f : In f (l_matching l) -> origin MatchingOnly f
| by_capture k v : In (CaptureField k) ts -> origin MatchingOnly (mkField k v) -> origin Captured (mkField k v)
| by_set_literal k s ft o : In (SetField k (StringValue s) ft o) ts -> origin ft (mkField k (VStr s))
| by_set_copy k k' s ft o : In (SetField k (ExistingField k') ft o) ts -> shown k' s -> origin ft (mkField k (VStr s))
| by_rewrite k p r s ft : In (RegexMatchAndSubstitute k p r) ts -> origin ft (mkField k (VStr s)) -> origin ft (mkField k (VStr (re_replace p r s)))
with shown : string -> string -> Prop :=
| shown_message s : l_message l = VStr s -> shown "_message" s
| shown_level : shown "log_level" (dec_string (l_level l))
| shown_type : shown "log_type" (dec_string (l_type l))
| shown_field ft k s : origin ft (mkField k (VStr s)) -> shown k s.
End Origin.

(** The transform a configuration asks for, if it can be read. *)
Section Asked.
Variable re_ok : string -> bool.
Inductive asks : option transform_cfg -> transform -> Prop :=
| asks_capture k : asks (Some (CaptureFieldCfg k)) (CaptureField k)
| asks_literal k s (b : bool) o : asks (Some (SetFieldCfg k (Some (Some (StringValueCfg s))) (if b then FTCaptured else FTMatchingOnly) o)) (SetField k (StringValue s) (if b then Captured else MatchingOnly) o)
| asks_copy k k' (b : bool) o : asks (Some (SetFieldCfg k (Some (Some (ExistingFieldCfg k'))) (if b then FTCaptured else FTMatchingOnly) o)) (SetField k (ExistingField k') (if b then Captured else MatchingOnly) o)
| asks_remove k : asks (Some (RemoveFieldCfg k)) (RemoveField k)
| asks_rewrite k p r : re_ok p = true -> asks (Some (RegexCfg k p r)) (RegexMatchAndSubstitute k p r).
(** The same for a filter; matchers are C24's and C25's. *)
Definition asks_filter (c : filter_cfg) (f : filter) : Prop :=
  exists m, fl_matcher c = Some m /\ tree_new re_ok m = Some (fi_matcher f) /\ Forall2 asks (fl_transforms c) (fi_transforms f).
(** A configuration gives the filters that can be read, in their order; the others are counted. *)
Inductive gives : list filter_cfg -> list filter -> N -> Prop :=
| gives_nil : gives [] [] 0
| gives_filter c f l fs n : asks_filter c f -> gives l fs n -> gives (c :: l) (f :: fs) n
| gives_ignored c l fs n : (forall f, ~ asks_filter c f) -> gives l fs n -> gives (c :: l) fs (n + 1).
End Asked.

(** No field of that name. *)
Definition without (k : string) (fs : list field) : Prop := forall f, In f fs -> f_key f <> k.
(** The fields of other names. *)
Definition others (k : string) (fs : list field) : list field := List.filter (fun f => negb (String.eqb (f_key f) k)) fs.

(** The transform puts a field called [k] somewhere. *)
Definition sets (k : string) (t : transform) : Prop := match t with SetField k' _ _ _ => k' = k | _ => False end.
(** The filter applies to the log. *)
Definition selects (re_match : string -> string -> bool) (to_i32 : string -> option Z) (f : filter) (l : log) : bool :=
  do_match re_match to_i32 (fi_matcher f) (l_level l) (l_type l) (l_message l) (fields_ref_value (l_fields l) (l_matching l)).
Definition has_field (k : string) (fs : list field) : Prop := exists f, In f fs /\ f_key f = k.
