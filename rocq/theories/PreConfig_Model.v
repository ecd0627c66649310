(** Model of bd-logger/src/pre_config_buffer.rs and of the part of bd-logger/src/async_log_buffer.rs that uses it.

    A configuration and the processing of one log by the pipeline ([replay_log]) are abstract: processing is recorded as the pair of the
    configuration in force and the log. Sizes are unbounded [N] ([usize] additions would need 2^64 bytes to overflow). *)
From Verif Require Import Base.

Section PreConfig.
(** [L]: logs as built by [process_log]; [M]: log lines as received; [F]: the metadata state changed by field messages; [C]: configurations. *)
Variables (L M F C : Type) (size : L -> N).
(** async_log_buffer.rs lines 354-463 [process_log]: what is written for a log line, given the metadata: the log, the internal log about a
    mismatching override, or nothing when the metadata provider fails. *)
Variable build : F -> M -> option L.

(** pre_config_buffer.rs lines 33-40. *)
Record pre := mkPre { p_max_count : N; p_max_size : N; p_size : N; p_items : list L }.

(** Lines 43-50. *)
Definition pre_new (max_count max_size : N) : pre := mkPre max_count max_size 0 [].

(** Lines 15-24: the result of [push]. *)
Inductive push_result := PushOk | FullCountOverflow | FullSizeOverflow.

(** Lines 52-76. *)
Definition push (p : pre) (l : L) : pre * push_result :=
  if (p_max_count p <=? N.of_nat (length (p_items p)))%N then (p, FullCountOverflow)
  else if (p_max_size p <? p_size p + size l)%N then (p, FullSizeOverflow)
  else (mkPre (p_max_count p) (p_max_size p) (p_size p + size l) (p_items p ++ [l]), PushOk).

(** Lines 78-81. *)
Definition pop_all (p : pre) : list L := p_items p.

(** logging_state.rs lines 41-64. *)
Inductive state := Uninitialized (p : pre) | Initialized (c : C).

(** The async log buffer, async_log_buffer.rs; [a_out]: every log handed to the pipeline, with the configuration it was processed with. *)
Record alb := mkAlb { a_state : state; a_fields : F; a_out : list (C * L) }.
(** async_log_buffer.rs lines 167-240: before the first configuration. *)
Definition alb_new (max_count max_size : N) (f : F) : alb := mkAlb (Uninitialized (pre_new max_count max_size)) f [].

(** Lines 465-506 [write_log]. *)
Definition write_log (a : alb) (l : L) : alb :=
  match a_state a with
  | Uninitialized p => mkAlb (Uninitialized (fst (push p l))) (a_fields a) (a_out a)
  | Initialized c => mkAlb (a_state a) (a_fields a) (a_out a ++ [(c, l)])
  end.

(** Lines 508-528 [update]. *)
Definition update (a : alb) (c : C) : alb * option pre :=
  match a_state a with
  | Uninitialized p => (mkAlb (Initialized c) (a_fields a) (a_out a), Some p)
  | Initialized _ => (mkAlb (Initialized c) (a_fields a) (a_out a), None)
  end.

(** Lines 530-551 [maybe_replay_pre_config_buffer_logs]: a failing log does not stop the replay. *)
Definition replay (a : alb) (p : pre) : alb :=
  match a_state a with
  | Uninitialized _ => a
  | Initialized c => mkAlb (a_state a) (a_fields a) (a_out a ++ map (fun l => (c, l)) (pop_all p))
  end.

(** Messages taken by the select loop, lines 583-640; the other branches do not touch the logging state. *)
Inductive msg := Config (c : C) | EmitLog (m : M) | ChangeFields (f : F).

(** One message, async_log_buffer.rs lines 583-640. *)
Definition step (a : alb) (m : msg) : alb :=
  match m with
  | Config c => match update a c with (a', Some p) => replay a' p | (a', None) => a' end
  | EmitLog m => match build (a_fields a) m with Some l => write_log a l | None => a end
  | ChangeFields f => mkAlb (a_state a) f (a_out a)
  end.

(** A history of messages, async_log_buffer.rs lines 583-640. *)
Definition run (a : alb) (l : list msg) : alb := fold_left step l a.

End PreConfig.
Arguments mkPre {L}. Arguments p_max_count {L}. Arguments p_max_size {L}. Arguments p_size {L}. Arguments p_items {L}.
Arguments pre_new {L}. Arguments push {L}. Arguments pop_all {L}.
Arguments Uninitialized {L C}. Arguments Initialized {L C}.
Arguments mkAlb {L F C}. Arguments a_state {L F C}. Arguments a_fields {L F C}. Arguments a_out {L F C}. Arguments alb_new {L F C}.
Arguments Config {M F C}. Arguments EmitLog {M F C}. Arguments ChangeFields {M F C}.
Arguments step {L M F C}. Arguments run {L M F C}. Arguments write_log {L F C}. Arguments update {L F C}. Arguments replay {L F C}.
