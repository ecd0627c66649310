(** What the rules mean, from the documentation of protoc-gen-validate, independently of the code that checks them. *)
From Verif Require Import Base Str_Base Validate_Model.
Local Open Scope Z_scope.

(** The messages directly in a value, in a content, in a message. *)
Inductive in_value : value msg -> msg -> Prop := | iv : forall m, in_value (VMsg m) m.
Inductive in_content : content msg -> msg -> Prop :=
| ic_sing : forall k v m, in_value v m -> in_content (CSing k (Some v)) m
| ic_rep : forall vs v m, In v vs -> in_value v m -> in_content (CRep vs) m
| ic_map : forall vs v m, In v vs -> in_value v m -> in_content (CMap vs) m.
Definition fields_of (m : msg) : list (field msg) := match m with Msg _ fs => fs end.
Definition oneofs_of (m : msg) : list (bool * list nat) := match m with Msg os _ => os end.
Definition child (m m' : msg) : Prop := exists f, In f (fields_of m) /\ in_content (fl_content f) m'.
(** The messages found in a message at any depth, itself included. *)
Inductive within : msg -> msg -> Prop :=
| w_self : forall m, within m m
| w_child : forall m m' m'', child m m' -> within m' m'' -> within m m''.

(** The number of characters of a UTF-8 string: the bytes that are not continuation bytes. *)
Fixpoint chars (s : string) : Z :=
  match s with
  | EmptyString => 0
  | String c s' => let n := Ascii.N_of_ascii c in (if (128 <=? n)%N && (n <? 192)%N then 0 else 1) + chars s'
  end.
Fixpoint ascii_only (s : string) : Prop :=
  match s with EmptyString => True | String c s' => (Ascii.N_of_ascii c < 128)%N /\ ascii_only s' end.

Definition opt_holds {A} (o : option A) (P : A -> Prop) : Prop := match o with Some a => P a | None => True end.

Section Meaning.
(** The meaning of the rules not modelled one by one: any. *)
Variable other_string : string_rules -> string -> Prop.
Variable other_enum : enum_rules -> Z -> Prop.
Variable other_repeated : repeated_rules -> list (value msg) -> Prop.
Variable other_duration : duration_rules -> Z * Z -> Prop.
(** Of the kinds the code does not check at all. *)
Variable other_kind : rule_type -> content msg -> Prop.

(** Both bounds given: the inside when the lower is below the upper, the outside when not. *)
Definition range (r : int_rules) (n : Z) : Prop :=
  let low := match i_gt r, i_gte r with Some g, _ => Some (g, g < n) | None, Some g => Some (g, g <= n) | None, None => None end in
  let up := match i_lt r, i_lte r with Some l, _ => Some (l, n < l) | None, Some l => Some (l, n <= l) | None, None => None end in
  match low, up with
  | None, None => True
  | Some (_, p), None | None, Some (_, p) => p
  | Some (g, p), Some (l, q) => if g <? l then p /\ q else p \/ q
  end.
Definition int_holds (r : int_rules) (n : Z) : Prop :=
  (i_ignore_empty r = Some true /\ n = 0)
  \/ (opt_holds (i_const r) (fun c => n = c) /\ range r n /\ (i_in r <> [] -> In n (i_in r)) /\ ~ In n (i_not_in r)).
Definition string_holds (r : string_rules) (s : string) : Prop :=
  (s_ignore_empty r = Some true /\ s = EmptyString)
  \/ (opt_holds (s_min r) (fun n => n <= chars s) /\ opt_holds (s_max r) (fun n => chars s <= n) /\ (s_other r = true -> other_string r s)).
Definition enum_holds (r : enum_rules) (defined : list Z) (n : Z) : Prop :=
  (e_defined_only r = true -> In n defined) /\ (e_other r = true -> other_enum r n).
Definition repeated_holds (r : repeated_rules) (vs : list (value msg)) : Prop :=
  opt_holds (r_min r) (fun n => n <= Z.of_nat (length vs)) /\ (r_other r = true -> other_repeated r vs).
(** Durations are compared as times. *)
Definition duration_holds (r : duration_rules) (v : option (Z * Z)) : Prop :=
  (forall s n, v = Some (s, n) -> opt_holds (d_gt r) (fun g => fst g * 1000000000 + snd g < s * 1000000000 + n))
  /\ (d_other r = true -> forall x, v = Some x -> other_duration r x)
  /\ (d_required r = Some true -> v <> None).

(** The value the rules of a field that is not a message are about: that of a field with presence if it is set, else the value or zero. *)
Definition subject {A} (optional : bool) (zero : A) (v : option A) (P : A -> Prop) : Prop :=
  match v, optional with Some x, _ => P x | None, true => True | None, false => P zero end.
Definition as_int (v : value msg) : option Z := match v with VInt n => Some n | _ => None end.
Definition as_str (v : value msg) : option string := match v with VStr n => Some n | _ => None end.
Definition as_bool (v : value msg) : option bool := match v with VBool n => Some n | _ => None end.
Definition as_enum (v : value msg) : option Z := match v with VEnum n => Some n | _ => None end.
Definition as_dur (v : value msg) : option (Z * Z) := match v with VDur s n => Some (s, n) | _ => None end.
Definition get {A B} (g : A -> option B) (v : option A) : option B := match v with Some x => g x | None => None end.

(** Whether the rules of a field hold of its content. *)
Definition field_holds (f : field msg) : Prop :=
  match fl_rules f with
  | None => True
  | Some r =>
      (f_required r = true -> forall k v, fl_content f = CSing k v -> v <> None)
      /\ match f_type r, fl_content f with
         | RNone, _ => True
         | RNum _ i, CSing _ v => subject (fl_optional f) 0 (get as_int v) (int_holds i)
         | RString s, CSing _ v => subject (fl_optional f) EmptyString (get as_str v) (string_holds s)
         | RBool c, CSing _ v => subject (fl_optional f) false (get as_bool v) (fun b => opt_holds c (fun c => b = c))
         | REnum e, CSing (KEnum defined) v => subject (fl_optional f) 0 (get as_enum v) (enum_holds e defined)
         | RRepeated rr, CRep vs => repeated_holds rr vs
         | RDuration d, CSing _ v => duration_holds d (get as_dur v)
         | t, c => other_kind t c
         end
  end.
Definition oneof_holds (m : msg) (o : bool * list nat) : Prop :=
  fst o = true -> exists i f, In i (snd o) /\ nth_error (fields_of m) i = Some f
    /\ match fl_content f with CSing _ v => v <> None | CRep vs | CMap vs => vs <> [] end.
(** A message meets its own rules. *)
Definition meets (m : msg) : Prop :=
  (forall o, In o (oneofs_of m) -> oneof_holds m o) /\ (forall f, In f (fields_of m) -> field_holds f).
End Meaning.

(** A field as protoc-gen-validate lets it be declared: the rules are of its own type, and its value is too. [signed]: whether the rules of
    the types sint32 and sint64 count. *)
Definition num_ok (signed : bool) (n : num) (k : kind) : Prop :=
  match n, k with
  | NInt32, KI32 | NInt64, KI64 | NUInt32, KU32 | NUInt64, KU64 | NFixed, _ => True
  | NSInt32, KI32 | NSInt64, KI64 => signed = true
  | _, _ => False
  end.
Definition declared (signed : bool) (f : field msg) : Prop :=
  (match fl_content f with
   | CSing KString (Some v) => as_str v <> None
   | CSing KBool (Some v) => as_bool v <> None
   | CSing (KEnum _) (Some v) => as_enum v <> None
   | CSing (KI32 | KI64 | KU32 | KU64) (Some v) => as_int v <> None
   | _ => True
   end)
  /\ match fl_rules f with
     | None => True
     | Some r =>
         (f_required r = true -> match fl_content f with CSing KMessage _ => True | _ => False end)
         /\ match f_type r, fl_content f with
            | RNone, _ | RAny, _ | RTimestamp, _ => True
            | RNum n _, CSing k _ => num_ok signed n k
            | RFloat, CSing KF32 _ | RDouble, CSing KF64 _ | RBytes, CSing KBytes _ | RMap, CMap _ => True
            | RString _, CSing KString _ | RBool _, CSing KBool _ | REnum _, CSing (KEnum _) _ => True
            | RRepeated _, CRep _ => True
            | RDuration _, CSing KMessage v => opt_holds v (fun x => as_dur x <> None)
            | _, _ => False
            end
     end.
Definition string_of (f : field msg) : option string := match fl_content f with CSing _ v => get as_str v | _ => None end.

(** Only rules the code supports, and none that it does not look at. *)
Definition supported (f : field msg) : Prop :=
  opt_holds (fl_rules f) (fun r =>
    match f_type r with
    | RNone | RBool _ => True
    | RNum NFixed _ => False
    | RNum _ i => i_const i = None /\ i_lt i = None /\ i_lte i = None /\ i_gte i = None /\ i_in i = [] /\ i_not_in i = [] /\ i_ignore_empty i = None
    | RString s => s_other s = false /\ s_ignore_empty s <> Some true
    | REnum e => e_other e = false
    | RRepeated rr => r_other rr = false
    | RDuration d => d_other d = false /\ d_required d = None
        /\ opt_holds (d_gt d) (fun g => 0 <= fst g /\ 0 <= snd g)
        /\ match fl_content f with CSing _ (Some (VDur s n)) => 0 <= s /\ 0 <= n | _ => True end
    | _ => False
    end).

(** A property of all the fields at any depth. *)
Definition everywhere (P : field msg -> Prop) (m : msg) : Prop := forall m' f, within m m' -> In f (fields_of m') -> P f.
(** Its string, if it is one, is ASCII: bytes and characters are the same. *)
Definition ascii_field (f : field msg) : Prop := opt_holds (string_of f) ascii_only.
(** It is not a duration that must be there. *)
Definition duration_not_required (f : field msg) : Prop :=
  opt_holds (fl_rules f) (fun r => match f_type r with RDuration d => d_required d <> Some true | _ => True end).
