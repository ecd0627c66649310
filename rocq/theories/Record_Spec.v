(** What a reader of a record sees: it follows the offsets from the root. *)
From Verif Require Import Base Str_Base Record_Model.
Local Open Scope Z_scope.

(** A record as a reader sees it; the ids are those of the vector, none without one. *)
Record seen := { s_level : N; s_type : N; s_message : payload; s_fields : list (string * payload); s_session : string; s_seconds : Z; s_nanos : Z; s_actions : list string; s_streams : list string }.

Inductive sees_string (h : list object) : nat -> string -> Prop :=
| ss : forall o s, nth_error h o = Some (OString s) -> sees_string h o s.
Inductive sees_payload (h : list object) : nat -> data_type -> payload -> Prop :=
| sp_string : forall o d s, nth_error h o = Some (OStringData d) -> sees_string h d s -> sees_payload h o string_data (PString s)
| sp_bytes : forall o d b, nth_error h o = Some (OBinaryData d) -> nth_error h d = Some (OBytes b) -> sees_payload h o binary_data (PBytes b).
Inductive sees_field (h : list object) : nat -> string * payload -> Prop :=
| sf : forall o k t v key value, nth_error h o = Some (OField k t v) -> sees_string h k key -> sees_payload h v t value -> sees_field h o (key, value).
Inductive sees_strings (h : list object) : option nat -> list string -> Prop :=
| sn : sees_strings h None []
| sv : forall o os l, nth_error h o = Some (OVector os) -> Forall2 (sees_string h) os l -> sees_strings h (Some o) l.
Inductive sees (h : list object) : nat -> seen -> Prop :=
| sl : forall o level type mt m f s t ai si message fields fs session seconds nanos actions streams,
    nth_error h o = Some (OLog level type mt m f s t ai si) ->
    sees_payload h m mt message -> nth_error h f = Some (OVector fs) -> Forall2 (sees_field h) fs fields ->
    sees_string h s session -> nth_error h t = Some (OTimestamp seconds nanos) -> sees_strings h ai actions -> sees_strings h si streams ->
    sees h o {| s_level := level; s_type := type; s_message := message; s_fields := fields; s_session := session; s_seconds := seconds; s_nanos := nanos; s_actions := actions; s_streams := streams |}.

(** The record of a log: all of its parts, in their order, and a time that is that of the log to the nanosecond, with nanoseconds below a second. *)
Definition tells (r : seen) (a : args) : Prop :=
  s_level r = a_level a /\ s_type r = a_type a /\ s_message r = a_message a /\ s_fields r = a_fields a /\ s_session r = a_session a /\
  s_actions r = a_actions a /\ s_streams r = a_streams a /\ s_seconds r * 1000000000 + s_nanos r = a_time a /\ 0 <= s_nanos r < 1000000000.
