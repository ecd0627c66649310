(** Model of when the API task connects, pings and gives up: the loops of
    bd-api/src/api.rs 574-765 (maintain_active_stream) with their clocks, the
    pings (223-254), the network quality (78-81, 118-142), the backoff (554-569,
    994-1006) and the task's counters (334-357).

    Simplifications.
    - What responses other than pongs, handshakes and error shutdowns do is
      Api_Model's; here such a response either is handled or fails the task.
    - Time is a number of nanoseconds. Between two steps any time may pass
      ([Pass]); a step takes none, except that a backoff and a ping wait for the
      clock.
    - The crate backoff is modelled as it is documented and implemented there: a
      randomization factor of 0.5, a multiplier of 1.5, intervals rounded down to
      nanoseconds; the random delay is part of the schedule.
    - The kill file is Api_Model's; here a client may be killed at the start.
    - Every place where the code uses [?] on an I/O operation is part of the
      schedule. *)
From Verif Require Export Str_Base.
From Coq Require Export ZArith Bool.
Export ListNotations.
Open Scope string_scope.
Open Scope Z_scope.
Open Scope list_scope.

(** bd-network-quality/src/lib.rs 8-26 *)
Inductive quality := Unknown | Online | Offline.

(** api.rs 78-81 (DISCONNECTED_OFFLINE_GRACE_PERIOD): 15 seconds *)
Definition GRACE : Z := 15000000000.
(** api.rs 752: Duration::minutes(1) *)
Definition MINUTE : Z := 60000000000.

(** ** The backoff *)

(** The crate's ExponentialBackoff, api.rs 994-1006: the interval the next delay is
    drawn from, the initial interval and the largest. *)
Record backoff := mkBackoff { b_current : Z; b_initial : Z; b_max : Z }.
(** api.rs 994-1006 (backoff_policy): [build] starts at the initial interval. *)
Definition backoff_policy (initial max : Z) : backoff := mkBackoff (Z.abs initial) (Z.abs initial) (Z.abs max).
(** ExponentialBackoff::reset, api.rs 754 *)
Definition backoff_reset (b : backoff) : backoff := mkBackoff (b_initial b) (b_initial b) (b_max b).
(** ExponentialBackoff::next_backoff, api.rs 558: a delay between half the interval
    and one and a half of it (plus one nanosecond) is drawn, and the interval grows
    by half, up to the largest. [None]: [delay] is none that can be drawn. *)
Definition next_backoff (b : backoff) (delay : Z) : option backoff :=
  if (b_current b <=? 2 * delay) && (2 * delay <=? 3 * b_current b + 2)
  then Some (mkBackoff (if 2 * b_max b <=? 3 * b_current b then b_max b else 3 * b_current b / 2)
                       (b_initial b) (b_max b))
  else None.

(** ** The task *)

(** Where the task is in api.rs 574-765. *)
Inductive phase :=
| Handshake           (* wait_for_handshake, 668 *)
| Main                (* the inner loop, 720 *)
| Backoff (until : Z) (* do_reconnect_backoff, 554-569 *)
| Killed              (* pending until the shutdown, 610-616 *)
| Done.               (* returned *)

(** api.rs 122-125, 169-182, 334-357 and the locals of 574-765. *)
Record conn := mkConn {
  c_now : Z;
  c_phase : phase;
  c_quality : quality;
  c_killed : bool;                  (* client_killed, 393 *)
  c_disconnected : option Z;        (* disconnected_at, 595 *)
  c_reason : option string;         (* last_disconnect_reason, 596 *)
  c_backoff : backoff;
  c_intervals : Z * Z;              (* what the two watches hold *)
  c_changed : bool;                 (* has_changed of either watch *)
  c_interval : option Z;            (* ping_interval, 172 *)
  c_deadline : option Z;            (* ping_deadline, 173 *)
  c_established : Z;                (* handshake_established, 714 *)
  c_streams : Z;                    (* stream_total *)
  c_failures : Z;                   (* remote_connect_failure *)
  c_errors : Z                      (* error_shutdown_total *)
}.

(** Update of one field: the clock. *)
Definition with_now s t := mkConn t (c_phase s) (c_quality s) (c_killed s) (c_disconnected s) (c_reason s) (c_backoff s)
  (c_intervals s) (c_changed s) (c_interval s) (c_deadline s) (c_established s) (c_streams s) (c_failures s) (c_errors s).
(** Update of one field: where the task is in api.rs 574-765. *)
Definition with_phase s p := mkConn (c_now s) p (c_quality s) (c_killed s) (c_disconnected s) (c_reason s) (c_backoff s)
  (c_intervals s) (c_changed s) (c_interval s) (c_deadline s) (c_established s) (c_streams s) (c_failures s) (c_errors s).
(** Update of one field: the quality, api.rs 118-142. *)
Definition with_quality s q := mkConn (c_now s) (c_phase s) q (c_killed s) (c_disconnected s) (c_reason s) (c_backoff s)
  (c_intervals s) (c_changed s) (c_interval s) (c_deadline s) (c_established s) (c_streams s) (c_failures s) (c_errors s).
(** Update of one field: client_killed, api.rs 475-478. *)
Definition with_killed s := mkConn (c_now s) (c_phase s) (c_quality s) true (c_disconnected s) (c_reason s) (c_backoff s)
  (c_intervals s) (c_changed s) (c_interval s) (c_deadline s) (c_established s) (c_streams s) (c_failures s) (c_errors s).
(** Update of one field: disconnected_at, api.rs 595. *)
Definition with_disconnected s d := mkConn (c_now s) (c_phase s) (c_quality s) (c_killed s) d (c_reason s) (c_backoff s)
  (c_intervals s) (c_changed s) (c_interval s) (c_deadline s) (c_established s) (c_streams s) (c_failures s) (c_errors s).
(** Update of one field: last_disconnect_reason, api.rs 596. *)
Definition with_reason s r := mkConn (c_now s) (c_phase s) (c_quality s) (c_killed s) (c_disconnected s) r (c_backoff s)
  (c_intervals s) (c_changed s) (c_interval s) (c_deadline s) (c_established s) (c_streams s) (c_failures s) (c_errors s).
(** Update of one field: the backoff, api.rs 575. *)
Definition with_backoff s b := mkConn (c_now s) (c_phase s) (c_quality s) (c_killed s) (c_disconnected s) (c_reason s) b
  (c_intervals s) (c_changed s) (c_interval s) (c_deadline s) (c_established s) (c_streams s) (c_failures s) (c_errors s).
(** Update of two fields: what the watches of api.rs 376-377 hold, and whether that
    has been read. *)
Definition with_intervals s i ch := mkConn (c_now s) (c_phase s) (c_quality s) (c_killed s) (c_disconnected s) (c_reason s) (c_backoff s)
  i ch (c_interval s) (c_deadline s) (c_established s) (c_streams s) (c_failures s) (c_errors s).
(** Update of two fields: ping_interval and ping_deadline, api.rs 172-173. *)
Definition with_ping s i d := mkConn (c_now s) (c_phase s) (c_quality s) (c_killed s) (c_disconnected s) (c_reason s) (c_backoff s)
  (c_intervals s) (c_changed s) i d (c_established s) (c_streams s) (c_failures s) (c_errors s).
(** Update of one field: handshake_established, api.rs 714. *)
Definition with_established s t := mkConn (c_now s) (c_phase s) (c_quality s) (c_killed s) (c_disconnected s) (c_reason s) (c_backoff s)
  (c_intervals s) (c_changed s) (c_interval s) (c_deadline s) t (c_streams s) (c_failures s) (c_errors s).
(** The three counters, api.rs 334-357. *)
Definition count s (streams failures errors : Z) := mkConn (c_now s) (c_phase s) (c_quality s) (c_killed s) (c_disconnected s) (c_reason s) (c_backoff s)
  (c_intervals s) (c_changed s) (c_interval s) (c_deadline s) (c_established s)
  (c_streams s + streams) (c_failures s + failures) (c_errors s + errors).

(** What happens, in order. *)
Inductive item :=
| TStream (now : Z) (reason : option string)  (* start_stream and the handshake request with its reason, 648-664 *)
| THandshake (now : Z) (interval : option Z)  (* the handshake was received; the interval the server asked for *)
| TUp (now : Z)                               (* and what came with it was handled: the inner loop begins *)
| TPong (now : Z)
| TPing (now : Z)
| TErrorShutdown
| TClosed (now : Z) (reason : string)
| TRejected (now : Z)
| TResponse (now : Z)                         (* the app got an HTTP response *)
| TReturn (now : Z) (ok : bool).

(** The task returns, with or without an error. *)
Definition return_ (s : conn) (ok : bool) : conn * list item :=
  (with_phase s Done, [TReturn (c_now s) ok]).

(** api.rs 237-243 (maybe_schedule_ping) *)
Definition maybe_schedule_ping (s : conn) : conn :=
  with_ping s (c_interval s) (option_map (fun d => c_now s + d) (c_interval s)).

(** api.rs 223-235 (initialize_stream_settings): a ping interval that is no
    duration is none. *)
Definition initialize_stream_settings (s : conn) (settings : option Z) : conn :=
  maybe_schedule_ping
    (with_ping s (match settings with Some d => if d <? 0 then None else Some d | None => None end) (c_deadline s)).

(** api.rs 598-664: the top of the outer loop up to the handshake request; [ok]
    says whether the stream could be started and the request sent. *)
Definition top (s : conn) (ok : bool) : conn * list item :=
  let since := match c_disconnected s with Some t => t | None => c_now s end in
  let s := with_disconnected s (Some since) in
  let s := with_quality s (if since + GRACE <? c_now s then Offline else Unknown) in
  if c_killed s then (with_phase s Killed, [])
  else
    let s := if c_changed s
             then with_intervals (with_backoff s (backoff_policy (fst (c_intervals s)) (snd (c_intervals s)))) (c_intervals s) false
             else s in
    let s := with_ping (count s 1 0 0) None None in
    let o := TStream (c_now s) (c_reason s) in
    let s := with_reason s None in
    if ok then (with_phase s Handshake, [o])
    else let (s, o') := return_ s false in (s, o :: o').

(** bd-api/src/api.rs 574-596: the start of the task; [initial] and [max] are what
    the watches hold, [killed] what maybe_kill_client found. *)
Definition start (now initial max : Z) (killed ok : bool) : conn * list item :=
  top (mkConn now Done Unknown killed None None (backoff_policy initial max) (initial, max) false None None now 0 0 0) ok.

(** The responses this model tells apart, api.rs 769-892. *)
Inductive response :=
| Pong
| ErrorShutdown
| Other (ok : bool)  (* handled, or an error: a spurious handshake among them *).

(** api.rs 769-892 (handle_responses); [None]: the error. *)
Fixpoint handle_responses (s : conn) (rs : list response) : conn * list item * bool :=
  match rs with
  | [] => (s, [], true)
  | Other false :: _ => (s, [], false)
  | Other true :: rs => handle_responses s rs
  | Pong :: rs =>
      let '(s', o, ok) := handle_responses (maybe_schedule_ping s) rs in (s', TPong (c_now s) :: o, ok)
  | ErrorShutdown :: rs =>
      let '(s', o, ok) := handle_responses (count s 0 0 1) rs in (s', TErrorShutdown :: o, ok)
  end.

(** api.rs 554-569 (do_reconnect_backoff) up to the wait. *)
Definition begin_backoff (s : conn) (delay : Z) : option conn :=
  match next_backoff (c_backoff s) delay with
  | Some b => Some (with_phase (with_backoff s b) (Backoff (c_now s + delay)))
  | None => None
  end.

(** What can happen: time passes, the runtime's values change, the network and the
    server do something, the app logs an HTTP response, a timer fires, an upload is asked for, the logger is shut
    down. *)
Inductive event :=
| Pass (d : Z)
| Intervals (initial max : Z)
| Shake (settings : option Z) (rest : list response)  (* a handshake response and what came with it *)
| EarlyError (message : string) (delay : Z)           (* an error shutdown instead of the handshake *)
| Reject (ok : bool)                                  (* the same, unauthenticated *)
| Data (rs : list response)
| Closed (reason : string) (delay : Z) (ok : bool)
| Broken                                              (* data that cannot be decoded, or no handshake *)
| Timer (ok : bool)
| Upload (ok : bool)
| Response                                            (* a log tells of an HTTP response *)
| Shutdown.

(** One step; [None]: not possible now. *)
Definition step (s : conn) (e : event) : option (conn * list item) :=
  match e, c_phase s with
  | Pass d, _ => if 0 <=? d then Some (with_now s (c_now s + d), []) else None
  | Intervals i m, _ => Some (with_intervals s (i, m) true, [])
  (* bd-logger/src/network.rs 71-86 *)
  | Response, _ => Some (with_quality s Online, [TResponse (c_now s)])
  | _, Done => None
  | Shutdown, _ => Some (return_ s true)                                   (* 564-567, 614-615, 724-727, 923-926 *)
  | _, Killed => None
  (* 668-677 and 705-716 *)
  | Shake settings rest, Handshake =>
      let '(s1, o, ok) := handle_responses (initialize_stream_settings s settings) rest in
      if ok then
        Some (with_phase (with_disconnected (with_quality (with_established s1 (c_now s)) Online) None) Main,
              THandshake (c_now s) settings :: o ++ [TUp (c_now s)])
      else let (s', o') := return_ s1 false in
        Some (s', THandshake (c_now s) settings :: o ++ o')
  (* 969-983 and 680-688 *)
  | EarlyError m delay, Handshake =>
      let s := with_reason (count s 0 1 1) (Some (String.append "error shutdown: " m)) in
      option_map (fun s => (s, [TErrorShutdown; TClosed (c_now s) (String.append "error shutdown: " m)])) (begin_backoff s delay)
  (* 989 and 680-688 *)
  | Closed r delay _, Handshake =>
      option_map (fun s => (s, [TClosed (c_now s) r])) (begin_backoff (with_reason (count s 0 1 0) (Some r)) delay)
  (* 955-967 and 693-702 *)
  | Reject ok, Handshake => let (s', o) := top (with_killed s) ok in Some (s', TRejected (c_now s) :: o)
  | Broken, Handshake | Broken, Main => Some (return_ s false)
  (* 728-733 *)
  | Timer ok, Main =>
      match c_deadline s with
      | Some d =>
          if d <=? c_now s then
            let s := with_ping s (c_interval s) None in
            if ok then Some (s, [TPing (c_now s)])
            else let (s', o) := return_ s false in Some (s', o)
          else None
      | None => None
      end
  (* 734-737 *)
  | Upload ok, Main => if ok then Some (s, []) else Some (return_ s false)
  (* 743-746 *)
  | Data rs, Main =>
      let '(s', o, ok) := handle_responses s rs in
      if ok then Some (s', o) else let (s'', o') := return_ s' false in Some (s'', o ++ o')
  (* 747-760 *)
  | Closed r delay ok, Main =>
      let s := with_reason s (Some r) in
      if MINUTE <? c_now s - c_established s then
        let (s', o) := top (with_backoff s (backoff_reset (c_backoff s))) ok in Some (s', TClosed (c_now s) r :: o)
      else option_map (fun s => (s, [TClosed (c_now s) r])) (begin_backoff s delay)
  (* 563 *)
  | Timer ok, Backoff until => if until <=? c_now s then Some (top s ok) else None
  | _, _ => None
  end.

(** Any number of steps; [None]: the schedule is not possible. *)
Fixpoint run (s : conn) (es : list event) : option (conn * list item) :=
  match es with
  | [] => Some (s, [])
  | e :: es =>
      match step s e with
      | Some (s', o) => match run s' es with Some (s'', o') => Some (s'', o ++ o') | None => None end
      | None => None
      end
  end.

(** The whole task, api.rs 574-765. *)
Definition exec (now initial max : Z) (killed ok : bool) (es : list event) : option (conn * list item) :=
  let (s, o) := start now initial max killed ok in
  match run s es with Some (s', o') => Some (s', o ++ o') | None => None end.
