(** Model of bd-log-filter/src/lib.rs. The regex crate is a parameter. *)
From Verif Require Import Base Str_Base Version_Model Log_Model LogMatcher_Model.
Local Open Scope string_scope.

(** The protobuf configuration (bd-proto, filter.proto). Missing messages and oneofs are [None]. *)
Inductive set_value_cfg := StringValueCfg (s : string) | ExistingFieldCfg (name : string).
(** The enum [FieldType]; values unknown to the client become UNKNOWN. *)
Inductive field_type_cfg := FTUnknown | FTCaptured | FTMatchingOnly.
(** bd-proto/src/protos/filter/filter.rs 303-1842 [Transform]. *)
Inductive transform_cfg :=
| CaptureFieldCfg (name : string)
| SetFieldCfg (name : string) (value : option (option set_value_cfg)) (ft : field_type_cfg) (allow_override : bool)
| RemoveFieldCfg (name : string)
| RegexCfg (name pattern substitution : string).
(** bd-proto/src/protos/filter/filter.rs 159-302 [Filter]. *)
Record filter_cfg := mkFilterCfg { fl_matcher : option matcher_cfg; fl_transforms : list (option transform_cfg) }.

(** Lines 213-216. *)
Inductive field_type := MatchingOnly | Captured.
(** Lines 222-225. *)
Inductive set_value := StringValue (s : string) | ExistingField (name : string).
(** Lines 133-138 with the fields of the four structures; a compiled regex is represented by its source. *)
Inductive transform :=
| CaptureField (name : string)
| SetField (name : string) (value : set_value) (ft : field_type) (override : bool)
| RemoveField (name : string)
| RegexMatchAndSubstitute (name pattern substitution : string).
(** Lines 104-107. *)
Record filter := mkFilter { fi_matcher : tree; fi_transforms : list transform }.

(** Setters of the two field lists. *)
Definition with_fields (l : log) (fs : list field) : log := mkLog (l_level l) (l_type l) (l_message l) fs (l_matching l) (l_session l) (l_time l).
(** Setter of the matching fields (used for lib.rs, the transforms). *)
Definition with_matching (l : log) (fs : list field) : log := mkLog (l_level l) (l_type l) (l_message l) (l_fields l) fs (l_session l) (l_time l).

(** Lines 391-396. *)
Definition set_field (fs : list field) (f : field) : list field := List.filter (fun g => negb (String.eqb (f_key g) (f_key f))) fs ++ [f].

(** Lines 402-417. *)
Definition log_field_value (l : log) (k : string) : option string :=
  if String.eqb k LOG_FIELD_NAME_MESSAGE then as_str (l_message l)
  else if String.eqb k LOG_FIELD_NAME_LEVEL then Some (dec_string (l_level l))
  else if String.eqb k LOG_FIELD_NAME_TYPE then Some (dec_string (l_type l))
  else match find_field k (l_fields l ++ l_matching l) with Some f => as_str (f_val f) | None => None end.

(** Lines 195-204: [position] followed by [remove]. *)
Fixpoint take_first (k : string) (fs : list field) : option (field * list field) :=
  match fs with
  | [] => None
  | f :: fs' => if String.eqb (f_key f) k then Some (f, fs') else match take_first k fs' with Some (g, r) => Some (g, f :: r) | None => None end
  end.

Section Filters.
(** [Regex::new] succeeds, [Regex::is_match], [Regex::replace_all], the number a field is read as. *)
Variables (re_ok : string -> bool) (re_match : string -> string -> bool) (re_replace : string -> string -> string -> string) (to_i32 : string -> option Z).

(** Lines 186-190, 258-275 (with 228-242), 320-323, 342-348. *)
Definition transform_new (c : option transform_cfg) : option transform :=
  match c with
  | None => None
  | Some (CaptureFieldCfg n) => Some (CaptureField n)
  | Some (SetFieldCfg n v ft o) =>
      match v, ft with
      | Some (Some v), FTCaptured => Some (SetField n match v with StringValueCfg s => StringValue s | ExistingFieldCfg s => ExistingField s end Captured o)
      | Some (Some v), FTMatchingOnly => Some (SetField n match v with StringValueCfg s => StringValue s | ExistingFieldCfg s => ExistingField s end MatchingOnly o)
      | _, _ => None
      end
  | Some (RemoveFieldCfg n) => Some (RemoveField n)
  | Some (RegexCfg n p s) => if re_ok p then Some (RegexMatchAndSubstitute n p s) else None
  end.
(** Lines 110-127. *)
Definition filter_new (c : filter_cfg) : option filter :=
  match fl_matcher c with
  | None => None
  | Some m => match tree_new re_ok m with
              | None => None
              | Some t => option_map (mkFilter t) (all_some (map transform_new (fl_transforms c)))
              end
  end.
(** Lines 47-75: the chain and the number of ignored filters. *)
Fixpoint chain_new (l : list filter_cfg) : list filter * N :=
  match l with
  | [] => ([], 0%N)
  | c :: l' => let (fs, n) := chain_new l' in match filter_new c with Some f => (f :: fs, n) | None => (fs, (n + 1)%N) end
  end.

(** Lines 350-384: the value of the first field with that name is rewritten if it is text. [None]: no such field. *)
Fixpoint substitute (k pat sub : string) (fs : list field) : option (list field) :=
  match fs with
  | [] => None
  | f :: fs' =>
      if String.eqb (f_key f) k then
        Some (match f_val f with VStr s => mkField (f_key f) (VStr (re_replace pat sub s)) | VBytes _ => f end :: fs')
      else option_map (cons f) (substitute k pat sub fs')
  end.

(** Lines 163-173 with 193-206, 277-306, 325-328 and 350-384. *)
Definition transform_apply (t : transform) (l : log) : log :=
  match t with
  | CaptureField n => match take_first n (l_matching l) with Some (f, rest) => with_fields (with_matching l rest) (set_field (l_fields l) f) | None => l end
  | SetField n v ft o =>
      if negb o && match log_field_value l n with Some _ => true | None => false end then l
      else match (match v with StringValue s => Some s | ExistingField k => log_field_value l k end) with
           | None => l
           | Some s => match ft with
                       | MatchingOnly => with_matching l (set_field (l_matching l) (mkField n (VStr s)))
                       | Captured => with_fields l (set_field (l_fields l) (mkField n (VStr s)))
                       end
           end
  | RemoveField n =>
      let keep := List.filter (fun f => negb (String.eqb (f_key f) n)) in
      with_fields (with_matching l (keep (l_matching l))) (keep (l_fields l))
  | RegexMatchAndSubstitute n p s =>
      match substitute n p s (l_fields l) with
      | Some fs => with_fields l fs
      | None => match substitute n p s (l_matching l) with Some fs => with_matching l fs | None => l end
      end
  end.
(** Lines 92-94. *)
Definition apply_all (ts : list transform) (l : log) : log := fold_left (fun l t => transform_apply t l) ts l.
(** Lines 79-95. *)
Definition filter_apply (f : filter) (l : log) : log :=
  if do_match re_match to_i32 (fi_matcher f) (l_level l) (l_type l) (l_message l) (fields_ref_value (l_fields l) (l_matching l))
  then apply_all (fi_transforms f) l else l.
(** Lines 77-97. *)
Definition process (fs : list filter) (l : log) : log := fold_left (fun l f => filter_apply f l) fs l.
End Filters.
