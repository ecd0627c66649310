(** Model of bd-pgv/src/proto_validate.rs: validation of a message against the rules in its descriptor.

    A message is the list of its fields, each with what its descriptor says and with its content; the value of a field of the type
    [google.protobuf.Duration] is its two numbers. Numbers are [Z]; a string is the list of its bytes. The rules of a string, an enum, a
    repeated field or a duration that the code only reports as not implemented are one flag. Texts of errors are their kinds. *)
From Verif Require Import Base Str_Base.
Local Open Scope Z_scope.

(** proto_validate.rs:115-208, with [Int32Rules] and its siblings in bd-pgv/src/generated/protos/validate.rs. *)
Record int_rules := mkInt { i_const : option Z; i_lt : option Z; i_lte : option Z; i_gt : option Z; i_gte : option Z; i_in : list Z; i_not_in : list Z; i_ignore_empty : option bool }.
(** [StringRules], proto_validate.rs:216-269; [s_other]: one of the rules of lines 241-265 is there; [s_ignore_empty] is not looked at. *)
Record string_rules := mkStr { s_min : option Z; s_max : option Z; s_other : bool; s_ignore_empty : option bool }.
(** [EnumRules], proto_validate.rs:68-92; [e_other]: const, in or not_in. *)
Record enum_rules := mkEnum { e_defined_only : bool; e_other : bool }.
(** [RepeatedRules], proto_validate.rs:272-295; [r_other]: max_items, unique, items or ignore_empty. *)
Record repeated_rules := mkRep { r_min : option Z; r_other : bool }.
(** [DurationRules], proto_validate.rs:298-330: seconds and nanoseconds of gt; [d_required]: line 304 (its presence is what is asked); [d_other]: any other rule. *)
Record duration_rules := mkDur { d_gt : option (Z * Z); d_required : option bool; d_other : bool }.

(** The numeric kinds of [FieldRules]; [NFixed] stands for the four fixed ones, proto_validate.rs:354-357. *)
Inductive num := NInt32 | NInt64 | NUInt32 | NUInt64 | NSInt32 | NSInt64 | NFixed.
(** The oneof of [FieldRules], asked at proto_validate.rs:349-481. *)
Inductive rule_type :=
| RNone | RNum (n : num) (r : int_rules) | RFloat | RDouble | RBool (const : option bool) | RString (r : string_rules) | RBytes | REnum (r : enum_rules)
| RRepeated (r : repeated_rules) | RMap | RAny | RDuration (r : duration_rules) | RTimestamp.
(** [FieldRules], proto_validate.rs:339-371: the message rules and the others. [f_skip] is not looked at. *)
Record rules := mkRules { f_required : bool; f_skip : bool; f_type : rule_type }.

(** [RuntimeType], proto_validate.rs:361-468; an enum with its defined numbers, line 77. *)
Inductive kind := KMessage | KString | KI32 | KI64 | KU32 | KU64 | KF32 | KF64 | KBool | KBytes | KEnum (defined : list Z).

(** [ReflectValueRef]: proto_validate.rs:74, 101, 222, 381-391, 407, 520. *)
Inductive value (M : Type) := VInt (n : Z) | VStr (s : string) | VBool (b : bool) | VEnum (n : Z) | VOther | VDur (secs nanos : Z) | VMsg (m : M).
Arguments VInt {M}. Arguments VStr {M}. Arguments VBool {M}. Arguments VEnum {M}. Arguments VOther {M}. Arguments VDur {M}. Arguments VMsg {M}.
(** Singular, repeated or map (its values), proto_validate.rs:359-360, 470, 480 and 518-537. *)
Inductive content (M : Type) := CSing (k : kind) (v : option (value M)) | CRep (vs : list (value M)) | CMap (vs : list (value M)).
Arguments CSing {M}. Arguments CRep {M}. Arguments CMap {M}.
(** [fl_optional]: in a oneof, real or synthetic, proto_validate.rs:53-58. *)
Record field (M : Type) := mkField { fl_optional : bool; fl_rules : option rules; fl_content : content M }.
Arguments mkField {M}. Arguments fl_optional {M}. Arguments fl_rules {M}. Arguments fl_content {M}.
(** A message: its oneofs (required or not, and the positions of their fields) and its fields, proto_validate.rs:489-511. *)
Inductive msg := Msg (oneofs : list (bool * list nat)) (fields : list (field msg)).

(** The kinds of errors, proto_validate.rs:41, 78, 103, 137, 224, 233, 281, 313-325, 372, 503. *)
Inductive verr := ENotImplemented | EEnum | EConst | EGt | EMinLen | EMaxLen | EMinItems | ENegative | EDuration | ERequired | EOneof.

(** proto_validate.rs:38-46. *)
Definition not_implemented (b : bool) : option verr := if b then Some ENotImplemented else None.
(** [?] of proto_validate.rs:86-88 and others: the first error. *)
Definition orelse (a b : option verr) : option verr := match a with Some e => Some e | None => b end.
(** [is_some], proto_validate.rs:150-158. *)
Definition some {A} (o : option A) : bool := match o with Some _ => true | None => false end.

(** proto_validate.rs:63: the default of a kind. *)
Definition default (k : kind) : value msg :=
  match k with KString => VStr "" | KI32 | KI64 | KU32 | KU64 => VInt 0 | KBool => VBool false | KEnum _ => VEnum 0 | _ => VOther end.
(** proto_validate.rs:48-65. *)
Definition current (optional : bool) (k : kind) (v : option (value msg)) : option (value msg) :=
  if optional then v else Some (match v with Some x => x | None => default k end).

(** proto_validate.rs:67-92. *)
Definition validate_enum (r : enum_rules) (defined : list Z) (v : option (value msg)) : option verr :=
  match v with
  | Some (VEnum n) => if e_defined_only r && negb (existsb (Z.eqb n) defined) then Some EEnum else not_implemented (e_other r)
  | _ => None
  end.

(** proto_validate.rs:94-113. *)
Definition validate_bool (const : option bool) (v : option (value msg)) : option verr :=
  match v, const with Some (VBool b), Some c => if Bool.eqb c b then None else Some EConst | _, _ => None end.

(** proto_validate.rs:127-174 [validate_all_int_rules]. *)
Definition validate_int (r : int_rules) (v : option (value msg)) : option verr :=
  match v with
  | Some (VInt n) =>
      if match i_gt r with Some g => n <=? g | None => false end then Some EGt
      else not_implemented (some (i_const r) || some (i_lt r) || some (i_lte r) || some (i_gte r) || negb (match i_in r with [] => true | _ => false end)
                            || negb (match i_not_in r with [] => true | _ => false end) || some (i_ignore_empty r))
  | _ => None
  end.

(** proto_validate.rs:215-269. *)
Definition validate_string (r : string_rules) (v : option (value msg)) : option verr :=
  match v with
  | Some (VStr s) =>
      let len := Z.of_nat (String.length s) in
      if match s_min r with Some n => len <? n | None => false end then Some EMinLen
      else if match s_max r with Some n => n <? len | None => false end then Some EMaxLen
      else not_implemented (s_other r)
  | _ => None
  end.

(** proto_validate.rs:271-295. *)
Definition validate_repeated (r : repeated_rules) (items : nat) : option verr :=
  if match r_min r with Some n => Z.of_nat items <? n | None => false end then Some EMinItems else not_implemented (r_other r).

(** The conversion of proto_validate.rs:312-318 (of the protobuf library): the time in nanoseconds; [None]: negative. *)
Definition to_duration (secs nanos : Z) : option Z := if (secs <? 0) || (nanos <? 0) then None else Some (secs * 1000000000 + nanos).
(** proto_validate.rs:297-330. *)
Definition validate_duration (r : duration_rules) (secs nanos : Z) : option verr :=
  orelse (not_implemented (some (d_required r) || d_other r))
    (match to_duration secs nanos with
     | None => Some ENegative
     | Some d =>
         match d_gt r with
         | None => None
         | Some (s, n) => match to_duration s n with None => Some ENegative | Some g => if d <=? g then Some EDuration else None end
         end
     end).

(** proto_validate.rs:332-486. The error, or whether to go into the field. *)
Definition validate_field (f : field msg) : verr + bool :=
  match fl_rules f with
  | None => inr true
  | Some r =>
      let plain e := match e with Some e => inl e | None => inr true end in
      match f_type r with
      | RAny | RTimestamp | RNum NFixed _ => inl ENotImplemented
      | t =>
          match fl_content f with
          | CSing KMessage v =>
              if f_required r && negb (some v) then inl ERequired
              else match t, v with
                   | RDuration d, Some (VDur secs nanos) => match validate_duration d secs nanos with Some e => inl e | None => inr false end
                   | _, _ => inr true
                   end
          | CSing k v =>
              let cur := current (fl_optional f) k v in
              match k, t with
              | KString, RString s => plain (validate_string s cur)
              | KI32, RNum NInt32 i | KI64, RNum NInt64 i | KU32, RNum NUInt32 i | KU64, RNum NUInt64 i => plain (validate_int i cur)
              | KF32, RFloat | KF64, RDouble | KBytes, RBytes => inl ENotImplemented
              | KBool, RBool c => plain (validate_bool c cur)
              | KEnum defined, REnum e => plain (validate_enum e defined cur)
              | _, _ => inr true
              end
          | CRep vs => match t with RRepeated rr => plain (validate_repeated rr (length vs)) | _ => inr true end
          | CMap _ => match t with RMap => inl ENotImplemented | _ => inr true end
          end
      end
  end.

(** [has_field], proto_validate.rs:501. *)
Definition has_field (f : field msg) : bool := match fl_content f with CSing _ v => some v | CRep vs | CMap vs => negb (match vs with [] => true | _ => false end) end.
(** proto_validate.rs:493-509. *)
Definition oneof_ok (fields : list (field msg)) (o : bool * list nat) : bool :=
  negb (fst o) || existsb (fun i => match nth_error fields i with Some f => has_field f | None => false end) (snd o).

(** proto_validate.rs:488-542. *)
Fixpoint validate (m : msg) : option verr :=
  match m with
  | Msg oneofs fields =>
      let into_value (v : value msg) := match v with VMsg m' => validate m' | _ => None end in
      let into_values := fix go (vs : list (value msg)) := match vs with [] => None | v :: vs' => orelse (into_value v) (go vs') end in
      let into (c : content msg) := match c with CSing _ (Some v) => into_value v | CSing _ None => None | CRep vs | CMap vs => into_values vs end in
      let go := fix go (fs : list (field msg)) :=
        match fs with
        | [] => None
        | f :: fs' => match validate_field f with inl e => Some e | inr recurse => orelse (if recurse then into (fl_content f) else None) (go fs') end
        end in
      if forallb (oneof_ok fields) oneofs then go fields else Some EOneof
  end.
