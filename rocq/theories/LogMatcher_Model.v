(** Model of bd-log-matcher/src/matcher.rs (matchers of workflows, filters and tail streams).
    The regex crate and [str::parse::<f64>] followed by [as i32] are parameters. *)
From Verif Require Import Base Str_Base Version_Model Log_Model.
Local Open Scope string_scope.

(** The protobuf configuration (bd-proto, log_matcher.proto). [option operator]: an enum value unknown to the client is [None]. A missing
    oneof is [None]. *)
Inductive value_match_cfg :=
| IntValueMatch (o : option operator) (v : Z)
| StringValueMatch (o : option operator) (v : string)
| SemVerValueMatch (o : option operator) (v : string)
| IsSetMatch.
(** bd-proto/src/protos/log_matcher/log_matcher.rs 450-725 [BaseLogMatcher]. *)
Inductive base_cfg :=
| MessageMatch (o : option operator) (v : string)
| TagMatch (key : string) (m : option value_match_cfg).
(** log_matcher.rs 36-449 [LogMatcher]. *)
Inductive matcher_cfg :=
| CBase (b : option base_cfg)
| COr (l : list matcher_cfg)
| CAnd (l : list matcher_cfg)
| CNot (c : matcher_cfg)
| CMissing.

(** Lines 127-130. *)
Record int_match := mkInt { im_op : operator; im_value : Z }.
(** Lines 160-164; the compiled regex is represented by its source, which is [sm_value]. *)
Record string_match := mkString { sm_op : operator; sm_value : string }.
(** Lines 218-221. *)
Inductive input_type := IMessage | IField (k : string).
(** Lines 239-257. *)
Inductive leaf :=
| LLogLevel (m : int_match)
| LIntValue (i : input_type) (m : int_match)
| LStringValue (i : input_type) (m : string_match)
| LVersionValue (i : input_type) (m : version_match)
| LLogType (t : N)
| LIsSetValue (i : input_type).
(** Lines 39-52. *)
Inductive tree := TBase (l : leaf) | TOr (l : list tree) | TAnd (l : list tree) | TNot (t : tree).

(** [collect::<Result<Vec<_>>>]. *)
Fixpoint all_some {A} (l : list (option A)) : option (list A) :=
  match l with [] => Some [] | Some x :: l' => match all_some l' with Some r => Some (x :: r) | None => None end | None :: _ => None end.

(** Lines 134-140. *)
Definition int_match_new (o : operator) (v : Z) : option int_match := match o with OpRegex => None | _ => Some (mkInt o v) end.
(** Lines 142-155. *)
Definition int_evaluate (m : int_match) (c : Z) : bool :=
  match im_op m with
  | OpUnspecified => false
  | OpLt => (c <? im_value m)%Z
  | OpLe => (c <=? im_value m)%Z
  | OpGt => (im_value m <? c)%Z
  | OpGe => (im_value m <=? c)%Z
  | OpNe => negb (c =? im_value m)%Z
  | OpEq | OpRegex => (c =? im_value m)%Z
  end.

Section Matcher.
Variables (re_ok : string -> bool) (re_match : string -> string -> bool) (to_i32 : string -> option Z).

(** Lines 180-198. *)
Definition string_match_new (o : operator) (v : string) : option string_match :=
  match o with
  | OpUnspecified => None
  | OpRegex => if re_ok v then Some (mkString o v) else None
  | _ => Some (mkString o v)
  end.
(** Lines 200-213. *)
Definition string_evaluate (m : string_match) (c : string) : bool :=
  match sm_op m with
  | OpUnspecified => false
  | OpLt => str_lt c (sm_value m)
  | OpLe => str_le c (sm_value m)
  | OpEq => String.eqb c (sm_value m)
  | OpGt => str_lt (sm_value m) c
  | OpGe => str_le (sm_value m) c
  | OpNe => negb (String.eqb c (sm_value m))
  | OpRegex => re_match (sm_value m) c
  end.

(** Lines 260-336. *)
Definition leaf_new (b : option base_cfg) : option leaf :=
  match b with
  | None => None
  | Some (MessageMatch (Some o) v) => option_map (LStringValue IMessage) (string_match_new o v)
  | Some (MessageMatch None _) => None
  | Some (TagMatch k None) => None
  | Some (TagMatch k (Some vm)) =>
      match vm with
      | IntValueMatch o v =>
          if String.eqb k "log_level" then match o with Some o => option_map LLogLevel (int_match_new o v) | None => None end
          else if String.eqb k "log_type" then if (v <? 0)%Z then None else Some (LLogType (Z.to_N v))
          else match o with Some o => option_map (LIntValue (IField k)) (int_match_new o v) | None => None end
      | StringValueMatch (Some o) v => option_map (LStringValue (IField k)) (string_match_new o v)
      | SemVerValueMatch (Some o) v => option_map (LVersionValue (IField k)) (version_match_new re_ok o v)
      | StringValueMatch None _ | SemVerValueMatch None _ => None
      | IsSetMatch => Some (LIsSetValue (IField k))
      end
  end.

(** Lines 56-79. *)
Fixpoint tree_new (c : matcher_cfg) : option tree :=
  match c with
  | CBase b => option_map TBase (leaf_new b)
  | COr l => option_map TOr (all_some (map tree_new l))
  | CAnd l => option_map TAnd (all_some (map tree_new l))
  | CNot c => option_map TNot (tree_new c)
  | CMissing => None
  end.

(** Lines 224-233. *)
Definition input_get (i : input_type) (message : value) (fields : string -> option string) : option string :=
  match i with IMessage => as_str message | IField k => fields k end.

(** Lines 92-113. [u32::try_into::<i32>] fails from 2^31 on. *)
Definition leaf_match (l : leaf) (level ltype : N) (message : value) (fields : string -> option string) : bool :=
  match l with
  | LLogLevel m => if (level <? 2147483648)%N then int_evaluate m (Z.of_N level) else false
  | LLogType t => (t =? ltype)%N
  | LIntValue i m => match input_get i message fields with Some s => match to_i32 s with Some v => int_evaluate m v | None => false end | None => false end
  | LStringValue i m => match input_get i message fields with Some s => string_evaluate m s | None => false end
  | LVersionValue i m => match input_get i message fields with Some s => version_evaluate re_match m s | None => false end
  | LIsSetValue i => match input_get i message fields with Some _ => true | None => false end
  end.
(** Lines 84-122. *)
Fixpoint do_match (t : tree) (level ltype : N) (message : value) (fields : string -> option string) : bool :=
  match t with
  | TBase l => leaf_match l level ltype message fields
  | TOr l => existsb (fun t => do_match t level ltype message fields) l
  | TAnd l => forallb (fun t => do_match t level ltype message fields) l
  | TNot t => negb (do_match t level ltype message fields)
  end.
End Matcher.

(** Derived and hand written equalities, lines 38, 126, 167-174, 217, 238. *)
Definition operator_eqb (a b : operator) : bool :=
  match a, b with
  | OpUnspecified, OpUnspecified | OpLt, OpLt | OpLe, OpLe | OpEq, OpEq | OpGt, OpGt | OpGe, OpGe | OpNe, OpNe | OpRegex, OpRegex => true
  | _, _ => false
  end.
(** Lines 126 and 167-174: derived equality. *)
Definition int_match_eqb (a b : int_match) : bool := operator_eqb (im_op a) (im_op b) && (im_value a =? im_value b)%Z.
(** Lines 167-174: hand written equality. *)
Definition string_match_eqb (a b : string_match) : bool := operator_eqb (sm_op a) (sm_op b) && String.eqb (sm_value a) (sm_value b).
(** Line 238: derived equality. *)
Definition input_eqb (a b : input_type) : bool := match a, b with IMessage, IMessage => true | IField x, IField y => String.eqb x y | _, _ => false end.
(** Line 217: derived equality. *)
Definition leaf_eqb (a b : leaf) : bool :=
  match a, b with
  | LLogLevel x, LLogLevel y => int_match_eqb x y
  | LIntValue i x, LIntValue j y => input_eqb i j && int_match_eqb x y
  | LStringValue i x, LStringValue j y => input_eqb i j && string_match_eqb x y
  | LVersionValue i x, LVersionValue j y => input_eqb i j && version_match_eqb x y
  | LLogType x, LLogType y => (x =? y)%N
  | LIsSetValue i, LIsSetValue j => input_eqb i j
  | _, _ => false
  end.
(** Line 38: derived equality. *)
Fixpoint tree_eqb (a b : tree) : bool :=
  let fix list_eqb (l m : list tree) := match l, m with [], [] => true | x :: l', y :: m' => tree_eqb x y && list_eqb l' m' | _, _ => false end in
  match a, b with
  | TBase x, TBase y => leaf_eqb x y
  | TOr l, TOr m => list_eqb l m
  | TAnd l, TAnd m => list_eqb l m
  | TNot x, TNot y => tree_eqb x y
  | _, _ => false
  end.
