(** Model of bd-log-primitives/src/lib.rs and of the field lookups of bd-matcher/src/lib.rs. *)
From Verif Require Import Base Str_Base.
Local Open Scope string_scope.

(** bd-log-primitives/src/lib.rs lines 17-20 [StringOrBytes]. *)
Inductive value := VStr (s : string) | VBytes (b : string).
(** Lines 24-30. *)
Definition as_str (v : value) : option string := match v with VStr s => Some s | VBytes _ => None end.
(** Lines 122-125 [LogField]. *)
Record field := mkField { f_key : string; f_val : value }.
(** Lines 152-167 [Log]; the level and the type are [u32]. *)
Record log := mkLog { l_level : N; l_type : N; l_message : value; l_fields : list field; l_matching : list field; l_session : string; l_time : Z }.

(** Lines 10-12. *)
Definition LOG_FIELD_NAME_TYPE : string := "log_type".
(** Lines 10-12. *)
Definition LOG_FIELD_NAME_LEVEL : string := "log_level".
(** Lines 10-12. *)
Definition LOG_FIELD_NAME_MESSAGE : string := "_message".

(** [find] on the key. *)
Definition find_field (k : string) (l : list field) : option field := List.find (fun f => String.eqb (f_key f) k) l.

(** Lines 209-215 [FieldsRef::matching_field_value]. *)
Definition matching_field_value (matching : list field) (k : string) : option string :=
  match find_field k matching with Some f => as_str (f_val f) | None => None end.

(** bd-matcher/src/lib.rs lines 39-54: [FieldProvider for FieldsRef]. *)
Definition fields_ref_value (captured matching : list field) (k : string) : option string :=
  match (match find_field k captured with Some f => as_str (f_val f) | None => None end) with
  | Some v => Some v
  | None => matching_field_value matching k
  end.

(** bd-matcher/src/lib.rs lines 56-64: [FieldProvider for LogRef]. *)
Definition log_ref_value (l : log) (k : string) : option string :=
  if String.eqb k LOG_FIELD_NAME_LEVEL then Some (dec_string (l_level l))
  else if String.eqb k LOG_FIELD_NAME_TYPE then Some (dec_string (l_type l))
  else fields_ref_value (l_fields l) (l_matching l) k.
