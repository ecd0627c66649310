(** Model of bd-matcher/src/matcher.rs and bd-matcher/src/buffer_selector.rs: routing of logs to buffers. *)
From Verif Require Import Base Str_Base Log_Model LogMatcher_Model.
Local Open Scope string_scope.

(** The protobuf configuration (bd-proto, config.proto); [None]: an enum value unknown to the client. *)
Inductive str_type := Exact | Prefix | Regex.
(** bd-proto/src/protos/config/v1/config.rs 933-1234 [LogLevelMatch], its comparison. *)
Inductive cmp_op := BLt | BLe | BEq | BGt | BGe.
(** config.rs 450-932 [BaseLogMatcher] with the matches of 933-1825. *)
Inductive bbase_cfg :=
| BLogLevelMatch (o : option cmp_op) (level : Z)
| BMessageMatch (t : option str_type) (v : string)
| BTagMatch (k : string) (t : option str_type) (v : string)
| BAnyMatch
| BTypeMatch (t : N).
(** config.rs 36-449 [LogMatcher]. *)
Inductive bmatcher_cfg := BBase (b : option bbase_cfg) | BOr (l : list bmatcher_cfg) | BAnd (l : list bmatcher_cfg) | BNot (c : bmatcher_cfg) | BMissing.
(** One filter of a buffer: an id and an optional matcher; one buffer: its id and filters. *)
Record filter_cfg := mkFilterCfg { fc_id : string; fc_matcher : option bmatcher_cfg }.
(** config.rs 1950-2166 [BufferConfig]. *)
Record buffer_cfg := mkBufferCfg { bc_id : string; bc_filters : list filter_cfg }.

(** matcher.rs lines 94-103. *)
Inductive str := SRegex (r : string) | SPrefix (s : string) | SExact (s : string).
(** Lines 168-180. *)
Inductive bleaf := BLLevel (o : cmp_op) (v : N) | BLString (i : input_type) (s : str) | BLType (t : N) | BLAny.
(** Lines 25-38. *)
Inductive btree := BTBase (l : bleaf) | BTOr (l : list btree) | BTAnd (l : list btree) | BTNot (t : btree).

(** Lines 135-143. *)
Definition level_match (o : cmp_op) (v level : N) : bool :=
  match o with BLt => (level <? v)%N | BLe => (level <=? v)%N | BEq => (level =? v)%N | BGt => (v <? level)%N | BGe => (v <=? level)%N end.

Section Matcher.
Variables (re_ok : string -> bool) (re_match : string -> string -> bool).

(** Lines 106-112. *)
Definition str_new (t : option str_type) (v : string) : option str :=
  match t with
  | Some Exact => Some (SExact v)
  | Some Prefix => Some (SPrefix v)
  | Some Regex => if re_ok v then Some (SRegex v) else None
  | None => None
  end.
(** Lines 114-120. *)
Definition str_evaluate (s : str) (c : string) : bool :=
  match s with SRegex r => re_match r c | SPrefix p => starts_with c p | SExact e => String.eqb c e end.

(** Lines 183-219. *)
Definition bleaf_new (b : option bbase_cfg) : option bleaf :=
  match b with
  | None => None
  | Some (BLogLevelMatch (Some o) v) => if (v <? 0)%Z then None else Some (BLLevel o (Z.to_N v))
  | Some (BLogLevelMatch None _) => None
  | Some (BMessageMatch t v) => option_map (BLString IMessage) (str_new t v)
  | Some (BTagMatch k t v) => option_map (BLString (IField k)) (str_new t v)
  | Some BAnyMatch => Some BLAny
  | Some (BTypeMatch t) => Some (BLType t)
  end.
(** Lines 42-61. *)
Fixpoint btree_new (c : bmatcher_cfg) : option btree :=
  match c with
  | BBase b => option_map BTBase (bleaf_new b)
  | BOr l => option_map BTOr (all_some (map btree_new l))
  | BAnd l => option_map BTAnd (all_some (map btree_new l))
  | BNot c => option_map BTNot (btree_new c)
  | BMissing => None
  end.
(** Lines 73-80. *)
Definition bleaf_match (l : bleaf) (ltype level : N) (message : value) (fields : string -> option string) : bool :=
  match l with
  | BLLevel o v => level_match o v level
  | BLType t => (t =? ltype)%N
  | BLString i s => match input_get i message fields with Some c => str_evaluate s c | None => false end
  | BLAny => true
  end.
(** Lines 65-89. *)
Fixpoint bdo_match (t : btree) (ltype level : N) (message : value) (fields : string -> option string) : bool :=
  match t with
  | BTBase l => bleaf_match l ltype level message fields
  | BTOr l => existsb (fun t => bdo_match t ltype level message fields) l
  | BTAnd l => forallb (fun t => bdo_match t ltype level message fields) l
  | BTNot t => negb (bdo_match t ltype level message fields)
  end.

(** buffer_selector.rs lines 18-26. *)
Record buffer_filter := mkBufferFilter { bf_id : string; bf_matchers : list (string * btree) }.
(** Lines 40-44. *)
Fixpoint filters_new (l : list filter_cfg) : option (list (string * btree)) :=
  match l with
  | [] => Some []
  | f :: l' =>
      match fc_matcher f with
      | None => filters_new l'
      | Some m => match btree_new m with
                  | Some t => option_map (cons (fc_id f, t)) (filters_new l')
                  | None => None
                  end
      end
  end.
(** Lines 35-53. *)
Fixpoint selector_new (l : list buffer_cfg) : option (list buffer_filter) :=
  match l with
  | [] => Some []
  | b :: l' => match filters_new (bc_filters b) with
               | Some ms => option_map (cons (mkBufferFilter (bc_id b) ms)) (selector_new l')
               | None => None
               end
  end.

(** [BTreeSet::insert]: the set as its sorted list. *)
Fixpoint set_insert (x : string) (l : list string) : list string :=
  match l with
  | [] => [x]
  | y :: l' => match str_cmp x y with Lt => x :: l | Eq => l | Gt => y :: set_insert x l' end
  end.

(** Lines 58-80: the inner loop stops at the first match. *)
Fixpoint any_matches (ms : list (string * btree)) (ltype level : N) (message : value) (fields : string -> option string) : bool :=
  match ms with
  | [] => false
  | (_, t) :: ms' => if bdo_match t ltype level message fields then true else any_matches ms' ltype level message fields
  end.
(** buffer_selector.rs lines 58-80: the outer loop. *)
Fixpoint buffers_loop (l : list buffer_filter) (ltype level : N) (message : value) (fields : string -> option string) (acc : list string) : list string :=
  match l with
  | [] => acc
  | b :: l' => buffers_loop l' ltype level message fields (if any_matches (bf_matchers b) ltype level message fields then set_insert (bf_id b) acc else acc)
  end.
(** buffer_selector.rs lines 58-80 [buffers]. *)
Definition buffers (l : list buffer_filter) (ltype level : N) (message : value) (fields : string -> option string) : list string :=
  buffers_loop l ltype level message fields [].
End Matcher.
