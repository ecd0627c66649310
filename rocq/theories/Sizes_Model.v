(** Model of bd-logger/src/size.rs and of the sizes of bd-logger/src/async_log_buffer.rs lines 52-62 and 106-136: what a message is counted
    with by the channel of the log buffer and by the buffer of the time before the configuration.

    A string or a vector of bytes is its length and its capacity. The sizes of the types, which depend on the target, are a parameter. *)
From Verif Require Import Base.
Local Open Scope N_scope.

(** [String] and [Vec<u8>]: [len] and [capacity]; the capacity is the length and some spare bytes. *)
Record text := mkText { x_len : N; x_spare : N }.
(** The capacity of a string or a vector of bytes (size.rs line 57). *)
Definition x_cap (x : text) : N := x_len x + x_spare x.
(** bd-log-primitives/src/lib.rs lines 17-20, 60 and 93. *)
Inductive value := VString (x : text) | VBytes (x : text).
(** bd-log-primitives/src/lib.rs lines 122-125. *)
Record field := mkField { f_key : text; f_value : value }.
(** [Vec] of fields, bd-log-primitives/src/lib.rs lines 95-107: the elements, and the places that are reserved beyond them; the kind of an
    annotated field (line 114) has no content of variable size. *)
Record fields := mkFields { v_items : list field; v_spare : N }.
(** async_log_buffer.rs lines 77-104: a log line as it is offered; [l_hint]: the session id of [attributes_overrides]. *)
Record line := mkLine { l_message : value; l_fields : fields; l_matching : fields; l_hint : option text }.
(** async_log_buffer.rs lines 45-50: the messages of the channel. *)
Inductive message := EmitLog (l : line) | AddLogField (f : field) | RemoveLogField (name : text) | FlushState.
(** bd-log-primitives/src/lib.rs lines 152-170 [Log], as the buffer of the time before the configuration holds it. *)
Record log := mkLog { g_message : value; g_fields : fields; g_matching : fields; g_session : text }.

(** [size_of] of the types: [LogFieldValue], [LogField], [AnnotatedLogField], [LogFieldKind], [Vec], the pair of size.rs lines 39 and 47,
    [AsyncLogBufferMessage], the log level, the log type, the overrides, the sender of a flush, [Log]. *)
Record layout := mkLayout { z_value : N; z_field : N; z_annotated : N; z_kind : N; z_vec : N; z_pair : N; z_msg : N; z_level : N; z_type : N; z_over : N; z_sender : N; z_log : N }.

Section Sizes.
Variable z : layout.
(** size.rs lines 52-60. *)
Definition value_size (v : value) : N := z_value z + match v with VString x => x_len x | VBytes x => x_cap x end.
(** size.rs lines 24-28. *)
Definition field_size (f : field) : N := z_field z + x_len (f_key f) + value_size (f_value f).
(** size.rs lines 30-34. *)
Definition annotated_size (f : field) : N := z_annotated z + field_size f + z_kind z.
(** The sum of size.rs lines 40 and 48. *)
Fixpoint sum (g : field -> N) (l : list field) : N := match l with [] => 0 | f :: l => g f + sum g l end.
(** size.rs lines 36-42. *)
Definition fields_size (v : fields) : N := z_vec z + sum field_size (v_items v) + v_spare v * z_pair z.
(** size.rs lines 44-50. *)
Definition annotated_fields_size (v : fields) : N := z_vec z + sum annotated_size (v_items v) + v_spare v * z_pair z.
(** async_log_buffer.rs lines 106-124. *)
Definition line_size (l : line) : N :=
  z_level z + z_type z + value_size (l_message l) + annotated_fields_size (l_fields l) + annotated_fields_size (l_matching l) + z_over z + 48 + 24.
(** async_log_buffer.rs lines 52-62; the field of [AddLogField] is a [LogField]. *)
Definition message_size (m : message) : N :=
  z_msg z + match m with EmitLog l => line_size l | AddLogField f => field_size f | RemoveLogField x => x_len x | FlushState => z_sender z end.
(** async_log_buffer.rs lines 126-136. *)
Definition log_size (g : log) : N := z_log z + value_size (g_message g) + fields_size (g_fields g) + fields_size (g_matching g) + x_len (g_session g).
End Sizes.
