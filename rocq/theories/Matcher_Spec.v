(** What matcher configurations mean. *)
From Verif Require Import Base Str_Base Version_Model Log_Model LogMatcher_Model BufferMatcher_Model.
Local Open Scope string_scope.

(** The value of the first field called [k]. *)
Inductive first (k : string) : list field -> value -> Prop :=
| first_here v l : first k (mkField k v :: l) v
| first_later k' v' l v : k' <> k -> first k l v -> first k (mkField k' v' :: l) v.
Definition absent (k : string) (l : list field) : Prop := Forall (fun f => f_key f <> k) l.

(** The text a log shows under the name [k]: captured fields hide matching fields. *)
Definition visible (captured matching : list field) (k s : string) : Prop :=
  first k captured (VStr s) \/ (absent k captured /\ first k matching (VStr s)).

Definition compares (o : operator) (c : comparison) : Prop :=
  match o with
  | OpLt => c = Lt | OpLe => c <> Gt | OpEq => c = Eq | OpGt => c = Gt | OpGe => c <> Lt | OpNe => c <> Eq
  | OpUnspecified | OpRegex => False
  end.

Section Meaning.
Variables (re_match : string -> string -> bool) (to_i32 : string -> option Z).
(** The log: [shows k s], the field [k] has the text [s]. *)
Variables (level ltype : N) (message : value) (shows : string -> string -> Prop).

Definition text_holds (o : operator) (s v : string) : Prop :=
  match o with OpRegex => re_match v s = true | _ => compares o (str_cmp s v) end.
Definition version_holds (o : operator) (s v : string) : Prop :=
  match o with OpRegex => re_match v s = true | _ => compares o (version_cmp (version_new s) (version_new v)) end.
(** Integer conditions on levels concern levels that fit 31 bits (the code knows five). *)
Definition base_holds (b : base_cfg) : Prop :=
  match b with
  | MessageMatch (Some o) v => exists s, message = VStr s /\ text_holds o s v
  | TagMatch k (Some (IntValueMatch (Some o) v)) =>
      (k = "log_level" /\ (level < 2147483648)%N /\ compares o (Z.compare (Z.of_N level) v)) \/
      (k = "log_type" /\ compares o (Z.compare (Z.of_N ltype) v)) \/
      (k <> "log_level" /\ k <> "log_type" /\ exists s n, shows k s /\ to_i32 s = Some n /\ compares o (Z.compare n v))
  | TagMatch k (Some (StringValueMatch (Some o) v)) => exists s, shows k s /\ text_holds o s v
  | TagMatch k (Some (SemVerValueMatch (Some o) v)) => exists s, shows k s /\ version_holds o s v
  | TagMatch k (Some IsSetMatch) => exists s, shows k s
  | _ => False
  end.
Fixpoint holds (c : matcher_cfg) : Prop :=
  match c with
  | CBase (Some b) => base_holds b
  | COr l => (fix any l := match l with [] => False | c :: l' => holds c \/ any l' end) l
  | CAnd l => (fix all l := match l with [] => True | c :: l' => holds c /\ all l' end) l
  | CNot c => ~ holds c
  | CBase None | CMissing => False
  end.

(** The same for the configurations of buffers. *)
Definition str_holds (t : str_type) (s v : string) : Prop :=
  match t with Exact => s = v | Prefix => exists r, s = v ++ r | Regex => re_match v s = true end.
Definition bcompares (o : cmp_op) (a b : Z) : Prop :=
  match o with BLt => (a < b)%Z | BLe => (a <= b)%Z | BEq => a = b | BGt => (a > b)%Z | BGe => (a >= b)%Z end.
Definition bbase_holds (b : bbase_cfg) : Prop :=
  match b with
  | BLogLevelMatch (Some o) v => bcompares o (Z.of_N level) v
  | BMessageMatch (Some t) v => exists s, message = VStr s /\ str_holds t s v
  | BTagMatch k (Some t) v => exists s, shows k s /\ str_holds t s v
  | BAnyMatch => True
  | BTypeMatch t => t = ltype
  | _ => False
  end.
Fixpoint bholds (c : bmatcher_cfg) : Prop :=
  match c with
  | BBase (Some b) => bbase_holds b
  | BOr l => (fix any l := match l with [] => False | c :: l' => bholds c \/ any l' end) l
  | BAnd l => (fix all l := match l with [] => True | c :: l' => bholds c /\ all l' end) l
  | BNot c => ~ bholds c
  | BBase None | BMissing => False
  end.
(** The log goes to the buffer [id]. *)
Definition routed (cfg : list buffer_cfg) (id : string) : Prop :=
  exists b f m, In b cfg /\ bc_id b = id /\ In f (bc_filters b) /\ fc_matcher f = Some m /\ bholds m.
End Meaning.

(** Conditions on the type of the log only ask for equality. *)
Definition type_by_equality (b : base_cfg) : Prop :=
  match b with TagMatch k (Some (IntValueMatch o _)) => k = "log_type" -> o = Some OpEq | _ => True end.
Fixpoint types_by_equality (c : matcher_cfg) : Prop :=
  match c with
  | CBase (Some b) => type_by_equality b
  | COr l | CAnd l => (fix all l := match l with [] => True | c :: l' => types_by_equality c /\ all l' end) l
  | CNot c => types_by_equality c
  | CBase None | CMissing => True
  end.
