(** Model of the parts of the SDK and of how they wait for each other.

    - bd-logger/src/builder.rs:115-119 and 244-260 ("builder"): the connection, the log loop, the flushes of buffers and the statistics are parts of one task; they talk through channels that
      hold one element each, and the first part that fails ends all of them ([try_join!]).
    - bd-logger/src/async_log_buffer.rs ("loop"): the log loop. bd-logger/src/log_replay.rs ("replay"). bd-client-stats/src/stats.rs ("stats") and bd-client-stats/src/lib.rs:61-86.
      bd-api/src/api.rs ("api"). bd-buffer/src/ring_buffer.rs:191-230 ("flushes").
    - What a log does on its way through the pipeline is Pipeline_Model.v and LogBuffer_Model.v; what a flush of the buffers does is Freeze_Model.v; here such a flush is one step. The channel of
      the log loop takes a number of calls; its limit in bytes is in MemoryBound_Model.v. Uploads of logs, paths and requests of the application share the channel of the connection ([Other]).
    - The tasks of the buffer uploader are left out but for their uploads. *)
From Verif Require Import Base.

(** What the threads of the application ask for: loop:45-60 [AsyncLogBufferMessage]; [Flush b]: loop:325-352, [b]: the caller waits. *)
Inductive ask := Log (blocking : bool) | Field | Flush (blocking : bool).
(** A call with the number the application gives it. *)
Record call := mkCall { c_id : nat; c_ask : ask }.
(** loop:291-302 and 336-349: the caller waits for an answer. *)
Definition blocking (c : call) : bool := match c_ask c with Log b | Flush b => b | Field => false end.

(** What the log loop waits for: replay:346-353 and loop:632-641 (buffers), replay:357-367 and loop:618-629 (statistics). *)
Inductive wait := ForBuffers | ForStats.
(** The log loop: loop:562-668. *)
Inductive loop := Idle | Waits (c : call) (ws : list wait) | LEnded.
(** The statistics: stats:131-164; [Sending]: in line 338. *)
Inductive flusher := FIdle | Sending | FEnded.
(** The upload of statistics under way, stats:132: [Queued]: in the channel, [Handed]: taken by the connection. *)
Inductive pending := NoUpload | Queued | Handed.
(** What the channel of the connection holds: builder:119. *)
Inductive source := Stats | Other.
(** The connection: [Down]: api:592-722 (starting, connecting, backing off), [Up]: api:720-763 (the main loop), [Killed]: api:610-616, [HandsOver b]: a configuration is handed to the log loop
    (api:877-884, bd-logger/src/client_config.rs:238-283), and then the connection is up or not. *)
Inductive conn := Down | Up | Killed | HandsOver (up : bool) | CEnded.

(** All parts; [p_ask]: a request to write the statistics is in its channel; [p_up]: the channel of uploads; [p_conf]: a configuration is in its channel; [p_init]: the log loop got one already;
    [p_buf]: the flushes of buffers are served; [p_stop]: shutdown was asked for. builder:115-260. *)
Record parts := mkParts {
  p_queue : list call; p_loop : loop; p_ask : bool; p_flusher : flusher; p_pending : pending; p_up : list source; p_conn : conn; p_conf : bool; p_init : bool; p_buf : bool; p_stop : bool }.
(** builder:115-260; [mobile]: statistics are written and uploaded (builder:132-149). *)
Definition parts_new (mobile : bool) : parts := mkParts [] Idle false (if mobile then FIdle else FEnded) NoUpload [] Down false false true false.

(** Updates of the fields, builder:244-260. *)
Definition with_queue (p : parts) (q : list call) : parts := mkParts q (p_loop p) (p_ask p) (p_flusher p) (p_pending p) (p_up p) (p_conn p) (p_conf p) (p_init p) (p_buf p) (p_stop p).
(** As above: the log loop and its request. *)
Definition with_loop (p : parts) (l : loop) (a : bool) : parts := mkParts (p_queue p) l a (p_flusher p) (p_pending p) (p_up p) (p_conn p) (p_conf p) (p_init p) (p_buf p) (p_stop p).
(** As above: the statistics. *)
Definition with_flusher (p : parts) (f : flusher) (n : pending) : parts := mkParts (p_queue p) (p_loop p) (p_ask p) f n (p_up p) (p_conn p) (p_conf p) (p_init p) (p_buf p) (p_stop p).
(** As above: the channel of uploads. *)
Definition with_up (p : parts) (u : list source) : parts := mkParts (p_queue p) (p_loop p) (p_ask p) (p_flusher p) (p_pending p) u (p_conn p) (p_conf p) (p_init p) (p_buf p) (p_stop p).
(** As above: the connection. *)
Definition with_conn (p : parts) (c : conn) : parts := mkParts (p_queue p) (p_loop p) (p_ask p) (p_flusher p) (p_pending p) (p_up p) c (p_conf p) (p_init p) (p_buf p) (p_stop p).
(** As above: the channel of configurations. *)
Definition with_conf (p : parts) (b i : bool) : parts := mkParts (p_queue p) (p_loop p) (p_ask p) (p_flusher p) (p_pending p) (p_up p) (p_conn p) b i (p_buf p) (p_stop p).
(** As above: the flushes of buffers. *)
Definition with_buf (p : parts) (b : bool) : parts := mkParts (p_queue p) (p_loop p) (p_ask p) (p_flusher p) (p_pending p) (p_up p) (p_conn p) (p_conf p) (p_init p) b (p_stop p).
(** As above: shutdown. *)
Definition with_stop (p : parts) : parts := mkParts (p_queue p) (p_loop p) (p_ask p) (p_flusher p) (p_pending p) (p_up p) (p_conn p) (p_conf p) (p_init p) (p_buf p) true.

(** How far a log gets in the pipeline: it fails on the way (loop:360-455, replay:204-300), no buffer matches (replay:332-338), or some do. *)
Inductive fate := Fails | NoBuffer | Buffers.
(** What happens. [Upload]: the statistics are to be uploaded (stats:146-153); [Put]: they have room in the channel (stats:338); [OtherPut]: another upload has; [Answer more]: their upload is
    answered or given up (stats:154-160, [more]: another file is old enough); [Fetch]: the connection takes an upload (api:734-737); [ConfigIn]: a configuration came from the backend or from
    the file (api:447-449, 877-884); [HandOver]: it has room in the channel; [Fault]: a part of the task fails (api:734-757 and 771-884: a write fails, an answer cannot be decoded or is not
    expected). *)
Inductive move :=
| Call (c : call) | TakeCall (f : fate) | TakeConfig | BuffersDone (ok : bool) | StatsDone | Upload | Put | OtherPut | Answer (more : bool) | Fetch | ConfigIn | HandOver
| Connect | Disconnect | Kill | Shutdown | ConnStops | StatsStop | LoopStops | Fault.

(** What the threads of the application see, and what is written. *)
Inductive event := Accepted (c : call) | Refused (c : call) | Taken (c : call) | Returned (c : call).

(** What a call waits for: loop:360-455 and 465-503, replay:301-367, loop:618-652. *)
Definition waits_of (init : bool) (c : call) (f : fate) : list wait :=
  match c_ask c with
  | Log true => if init then match f with Fails => [] | NoBuffer => [ForStats] | Buffers => [ForBuffers; ForStats] end else []
  | Flush _ => [ForStats; ForBuffers]
  | _ => []
  end.
(** The end of a call: its caller goes on, if it waits (replay:308-316, loop:649-651, or the answer channel is dropped). *)
Definition returns (c : call) : list event := if blocking c then [Returned c] else [].
(** The waits left when those for buffers fail: a log gives up (replay:347-353), a flush of the state goes on (loop:634-641). *)
Definition after_failure (c : call) (ws : list wait) : list wait := match c_ask c with Flush _ => ws | _ => [] end.
(** The next wait that is not over at once (a part that ended refuses requests: lib.rs:79-85, replay:347-349, loop:621-636), with the request for it. *)
Fixpoint enter (p : parts) (c : call) (ws : list wait) : parts * list event :=
  match ws with
  | [] => (with_loop p Idle false, returns c)
  | ForBuffers :: ws' => if p_buf p then (with_loop p (Waits c ws) false, []) else match c_ask c with Flush _ => enter p c ws' | _ => (with_loop p Idle false, returns c) end
  | ForStats :: ws' => match p_flusher p with FEnded => enter p c ws' | _ => (with_loop p (Waits c ws) true, []) end
  end.

Section Capacity.
(** The calls the channel of the log loop takes: builder:161-162. *)
Variable cap : nat.

(** One move; [None]: it cannot be made now. builder:244-260. *)
Definition move_step (p : parts) (m : move) : option (parts * list event) :=
  match m with
  | Call c =>                                                     (* loop:243-310 and 325-352: [try_send] *)
      match p_loop p with
      | LEnded => Some (p, [Refused c])
      | _ => if length (p_queue p) <? cap then Some (with_queue p (p_queue p ++ [c]), [Accepted c]) else Some (p, [Refused c])
      end
  | TakeCall f =>                                                 (* loop:594-656 *)
      match p_loop p, p_queue p with
      | Idle, c :: q => let (p', e) := enter (with_queue p q) c (waits_of (p_init p) c f) in Some (p', Taken c :: e)
      | _, _ => None
      end
  | TakeConfig =>                                                 (* loop:585-593 *)
      match p_loop p, p_conf p with Idle, true => Some (with_conf p false true, []) | _, _ => None end
  | BuffersDone ok =>                                             (* flushes; [ok] = false: the flush names an unknown buffer, and flushes are served no more *)
      match p_loop p with
      | Waits c (ForBuffers :: ws) => Some (if ok then enter p c ws else enter (with_buf p false) c (after_failure c ws))
      | _ => None
      end
  | StatsDone =>                                                  (* stats:135-143 *)
      match p_flusher p, p_ask p, p_loop p with FIdle, true, Waits c (ForStats :: ws) => Some (enter p c ws) | _, _, _ => None end
  | Upload =>                                                     (* stats:146-153 *)
      match p_flusher p, p_pending p with FIdle, NoUpload => Some (with_flusher p Sending NoUpload, []) | _, _ => None end
  | Put =>                                                        (* stats:338-342 *)
      match p_flusher p, p_conn p, p_up p with
      | Sending, CEnded, _ => Some (with_flusher p FIdle NoUpload, [])
      | Sending, _, [] => Some (with_up (with_flusher p FIdle Queued) [Stats], [])
      | _, _, _ => None
      end
  | OtherPut =>                                                   (* builder:119 *)
      match p_conn p, p_up p with CEnded, _ => None | _, [] => Some (with_up p [Other], []) | _, _ => None end
  | Answer more =>                                                (* stats:154-160 *)
      match p_flusher p, p_pending p, p_conn p with
      | FIdle, Handed, _ | FIdle, Queued, CEnded => Some (with_flusher p (if more then Sending else FIdle) NoUpload, [])
      | _, _, _ => None
      end
  | Fetch =>                                                      (* api:734-737 *)
      match p_conn p, p_up p with
      | Up, Stats :: u => Some (with_up (with_flusher p (p_flusher p) Handed) u, [])
      | Up, Other :: u => Some (with_up p u, [])
      | _, _ => None
      end
  | ConfigIn => match p_conn p with Up => Some (with_conn p (HandsOver true), []) | Down => Some (with_conn p (HandsOver false), []) | _ => None end
  | HandOver =>
      match p_conn p, p_loop p, p_conf p with
      | HandsOver up, LEnded, _ => Some (with_conn p (if up then Up else Down), [])   (* client_config.rs:295-299: nobody takes it *)
      | HandsOver up, _, false => Some (with_conf (with_conn p (if up then Up else Down)) true (p_init p), [])
      | _, _, _ => None
      end
  | Connect => match p_conn p with Down => Some (with_conn p Up, []) | _ => None end
  | Disconnect => match p_conn p with Up => Some (with_conn p Down, []) | _ => None end
  | Kill => match p_conn p with Down => Some (with_conn p Killed, []) | _ => None end
  | Shutdown => Some (with_stop p, [])
  | ConnStops =>                                                  (* api:562-567, 612-614, 691, 724-727 *)
      if p_stop p then match p_conn p with Up | Down | Killed => Some (with_up (with_conn p CEnded) [], []) | _ => None end else None
  | StatsStop =>                                                  (* stats:144: the requests in the channel are dropped *)
      if p_stop p then
        match p_flusher p with
        | FIdle => Some (match p_loop p with Waits c (ForStats :: ws) => enter (with_flusher p FEnded NoUpload) c ws | _ => (with_flusher p FEnded NoUpload, []) end)
        | _ => None
        end
      else None
  | LoopStops =>                                                  (* loop:660-665: the calls in the channel are dropped *)
      if p_stop p then match p_loop p with Idle => Some (with_queue (with_loop p LEnded false) [], flat_map returns (p_queue p)) | _ => None end else None
  | Fault =>                                                      (* builder:244-260 *)
      match p_conn p with
      | CEnded => None
      | _ => Some (mkParts [] LEnded false FEnded NoUpload [] CEnded false (p_init p) false (p_stop p),
                   match p_loop p with Waits c _ => returns c | _ => [] end ++ flat_map returns (p_queue p))
      end
  end.
(** A history: builder:244-260. *)
Fixpoint move_run (p : parts) (ms : list move) : option (parts * list event) :=
  match ms with
  | [] => Some (p, [])
  | m :: ms => match move_step p m with Some (p1, e1) => match move_run p1 ms with Some (p2, e2) => Some (p2, e1 ++ e2) | None => None end | None => None end
  end.
End Capacity.
