(** The record of a log: bd-client-common/src/fb.rs. A flatbuffer is kept as the list of the objects that the builder made, an offset as a position in it;
    the layout in bytes, default values that are left out and the verifier are flatbuffers' and not modelled. *)
From Verif Require Import Base Str_Base.
Local Open Scope Z_scope.

(** bd-log-primitives/src/lib.rs:17-20, [StringOrBytes]. *)
Inductive payload := PString (s : string) | PBytes (b : list N).

(** The discriminant of the union [Data] of the generated flatbuffer code: fb.rs:131, 145. *)
Inductive data_type := string_data | binary_data.

(** The objects that fb.rs makes in the builder: lines 43, 49 (strings and vectors of strings), 70-77 ([Field]), 82 (vector of fields), 85-95 ([Timestamp]), 100-113 ([Log]), 130 ([StringData]), 135 (vector of bytes), 137-143 ([BinaryData]). *)
Inductive object :=
| OString (s : string)
| OBytes (b : list N)
| OStringData (data : nat)
| OBinaryData (data : nat)
| OField (key : nat) (value_type : data_type) (value : nat)
| OVector (offsets : list nat)
| OTimestamp (seconds nanos : Z)
| OLog (level : N) (type : N) (message_type : data_type) (message fields session_id timestamp : nat) (action_ids stream_ids : option nat).

(** [FlatBufferBuilder] as far as used (fb.rs:53): what was made, and the root once finished. *)
Record builder := { made : list object; root : option nat }.
(** bd-logger/src/logging_state.rs:354, [FlatBufferBuilder::new]. *)
Definition builder_new : builder := {| made := []; root := None |}.
(** [Builder::create_*] and [X::create] (fb.rs:43, 49, 68, 70, 82, 84, 85, 100, 128, 130, 135, 137): adds an object and gives its offset. *)
Definition create (b : builder) (o : object) : builder * nat := ({| made := made b ++ [o]; root := root b |}, length (made b)).
(** [Builder::reset] (fb.rs:116). *)
Definition reset (b : builder) : builder := builder_new.
(** [Builder::finish_minimal] (fb.rs:114): asserts that the builder is not finished. *)
Definition finish_minimal (b : builder) (r : nat) : option builder :=
  match root b with Some _ => None | None => Some {| made := made b; root := Some r |} end.

(** fb.rs:120-149, [string_or_bytes_union]. *)
Definition string_or_bytes_union (v : payload) (b : builder) : builder * (nat * data_type) :=
  match v with
  | PString s => let '(b, value) := create b (OString s) in let '(b, o) := create b (OStringData value) in (b, (o, string_data))
  | PBytes x => let '(b, value) := create b (OBytes x) in let '(b, o) := create b (OBinaryData value) in (b, (o, binary_data))
  end.

(** fb.rs:41-44: the loop of [create_string_vector]. *)
Fixpoint create_strings (b : builder) (strings : list string) : builder * list nat :=
  match strings with
  | [] => (b, [])
  | s :: r => let '(b, o) := create b (OString s) in let '(b, os) := create_strings b r in (b, o :: os)
  end.
(** fb.rs:37-50, [create_string_vector]. *)
Definition create_string_vector (b : builder) (strings : list string) : builder * option nat :=
  let '(b, offsets) := create_strings b strings in
  match offsets with [] => (b, None) | _ => let '(b, o) := create b (OVector offsets) in (b, Some o) end.

(** fb.rs:66-78: the loop over the fields. *)
Fixpoint create_fields (b : builder) (fields : list (string * payload)) : builder * list nat :=
  match fields with
  | [] => (b, [])
  | (key, value) :: r =>
      let '(b, key) := create b (OString key) in
      let '(b, (value, value_type)) := string_or_bytes_union value b in
      let '(b, o) := create b (OField key value_type value) in
      let '(b, os) := create_fields b r in (b, o :: os)
  end.

(** [as i32] (fb.rs:92-93). *)
Definition as_i32 (z : Z) : Z := (z + 2147483648) mod 4294967296 - 2147483648.
(** [OffsetDateTime::unix_timestamp] (fb.rs:88): the whole seconds, rounded down; [t] is the time in nanoseconds since 1970, [unix_timestamp_nanos]. *)
Definition unix_timestamp (t : Z) : Z := t / 1000000000.

(** The arguments of [make_log] (fb.rs:52-62) but for the builder and the output. *)
Record args := { a_level : N; a_type : N; a_message : payload; a_fields : list (string * payload); a_session : string; a_time : Z; a_actions : list string; a_streams : list string }.

(** The outcome of a call of [make_log] (fb.rs:52-118): the builder left, what was given to [log_output], and what it answered; or a panic of the builder. *)
Inductive outcome (R : Type) := Panic | Done (b : builder) (data : list object * nat) (r : R).
Arguments Panic {R}. Arguments Done {R} _ _ _.

(** fb.rs:52-118, [make_log]. *)
Definition make_log {R : Type} (b : builder) (a : args) (log_output : list object * nat -> R) : outcome R :=
  let '(b, (message, message_type)) := string_or_bytes_union (a_message a) b in
  let '(b, all_fields) := create_fields b (a_fields a) in
  let '(b, stream_ids) := create_string_vector b (a_streams a) in
  let '(b, all_fields) := create b (OVector all_fields) in
  let '(b, session_id) := create b (OString (a_session a)) in
  let '(b, timestamp) := create b (OTimestamp (unix_timestamp (a_time a)) (as_i32 (a_time a - unix_timestamp (a_time a) * 1000000000))) in
  let '(b, action_ids) := create_string_vector b (a_actions a) in
  let '(b, log) := create b (OLog (a_level a) (a_type a) message_type message all_fields session_id timestamp action_ids stream_ids) in
  match finish_minimal b log with
  | None => Panic
  | Some b => let data := (made b, log) in let result := log_output data in Done (reset b) data result
  end.

(** The use of one builder for log after log (bd-logger/src/log_replay.rs:382-392, 462-472; logging_state.rs:323): what was given out, log by log; [None] if the builder panics. *)
Fixpoint make_logs {R : Type} (b : builder) (l : list (args * (list object * nat -> R))) : option (list ((list object * nat) * R)) :=
  match l with
  | [] => Some []
  | (a, f) :: r => match make_log b a f with Panic => None | Done b d x => option_map (cons (d, x)) (make_logs b r) end
  end.
