(** Model of the three things the run loop of the log buffer drives (async_log_buffer.rs lines 655-657): the reporter of resource utilization
    (bd-resource-utilization/src/lib.rs, "resource" below), the session replay recorder (bd-session-replay/src/lib.rs, "replay" below) and the listener of
    platform events (bd-events/src/lib.rs, "events" below).
    - An arm of a [select] is an operation; which of the arms that are ready is taken is arbitrary, and so is when the flags change. An arm that is not ready
      has no result.
    - A runtime flag is a watch channel (bd-runtime/src/runtime.rs lines 271-325 and 382-420): a value, a version that grows when the value changes, and the
      version this reader has seen (runtime.rs lines 388-420). It is never closed. The loops and the updates are on one thread (runtime.rs lines 358-360), so an
      arm is not interrupted by an update.
    - Times are nanoseconds. The shutdown arms, [Shutdown_Model], and the log lines are left out. *)
From Verif Require Import Base.
Local Open Scope Z_scope.

(** A flag and what its reader has seen. *)
Record flag (T : Type) := mkFlag { fl_value : T; fl_version : nat; fl_seen : nat }.
Arguments mkFlag {T}. Arguments fl_value {T}. Arguments fl_version {T}. Arguments fl_seen {T}.
(** runtime.rs lines 302-325 [send_if_modified]: only a different value is announced. *)
Definition set_flag {T} (eqb : T -> T -> bool) (f : flag T) (v : T) : flag T :=
  if eqb (fl_value f) v then f else mkFlag v (S (fl_version f)) (fl_seen f).
(** runtime.rs lines 405-420 [changed]. *)
Definition changed {T} (f : flag T) : bool := negb (Nat.eqb (fl_version f) (fl_seen f)).
(** runtime.rs lines 389-396 [read_mark_update]; also what [changed] does when it returns. *)
Definition seen {T} (f : flag T) : flag T := mkFlag (fl_value f) (fl_version f) (fl_version f).

(** tokio's [Interval] with [MissedTickBehavior::Delay]: the next deadline and the period. *)
Record interval := mkInterval { iv_next : Z; iv_period : Z }.
(** resource:74-88 and replay:142-156 [create_interval]; tokio panics on a period of zero. *)
Definition create_interval (period now : Z) (fire_immediately : bool) : option interval :=
  if period =? 0 then None else Some (mkInterval (if fire_immediately then now else now + period) period).
(** tokio's [poll_tick]: a tick more than 5 ms late delays the following ones. *)
(** The 5 ms are tokio's. *)
Definition slack : Z := 5000000.
(** resource:107, replay:175. *)
Definition next_tick (v : interval) (now : Z) : interval :=
  mkInterval (if iv_next v + slack <? now then now + iv_period v else iv_next v + iv_period v) (iv_period v).

(** resource:42-51 [Reporter], and the part of replay:58-80 [Recorder] about screens. *)
Record pacer := mkPacer { p_enabled : bool; p_rate : Z; p_interval : option interval; p_enabled_flag : flag bool; p_rate_flag : flag Z }.
(** resource:54-72 and replay:95-101 and 120-135: the values of the flags are read and marked as seen. The recorder registers the flag of the rate twice, once
    to read it and once to watch it; that nothing changes in between is assumed. *)
Definition pacer_new (enabled : bool) (rate : Z) : pacer := mkPacer enabled rate None (mkFlag enabled 0 0) (mkFlag rate 0 0).

(** The arms of resource:106-126 and of replay:174-229 and the updates of the flags. *)
Inductive pop :=
| PSetEnabled (b : bool) | PSetRate (d : Z) (** updates of the runtime *)
| PRun (now : Z) (** [run] is called: resource:97-100, replay:165-168. It is called again after every other event of the log buffer. *)
| PTick (now : Z) (** resource:107-111, replay:175-183 *)
| PRate (now : Z) (** resource:112-119, replay:184-191 *)
| PEnabled. (** resource:120-122, replay:218-221 *)

(** [Panic]: the whole run loop ends. *)
Inductive res (S E : Type) := NotReady | Panic | Done (s : S) (e : list E).
Arguments NotReady {S E}. Arguments Panic {S E}. Arguments Done {S E}.

(** The event is the call of [tick] (resource:110) or of [capture_screen] (replay:182), with its time. *)
Definition pstep (p : pacer) (o : pop) : res pacer Z :=
  match o with
  | PSetEnabled b => Done (mkPacer (p_enabled p) (p_rate p) (p_interval p) (set_flag Bool.eqb (p_enabled_flag p) b) (p_rate_flag p)) []
  | PSetRate d => Done (mkPacer (p_enabled p) (p_rate p) (p_interval p) (p_enabled_flag p) (set_flag Z.eqb (p_rate_flag p) d)) []
  | PRun now =>
      match p_interval p with
      | Some _ => Done p []
      | None => match create_interval (p_rate p) now true with
                | Some v => Done (mkPacer (p_enabled p) (p_rate p) (Some v) (p_enabled_flag p) (p_rate_flag p)) []
                | None => Panic
                end
      end
  | PTick now =>
      match p_interval p with
      | Some v => if p_enabled p && (iv_next v <=? now)
                  then Done (mkPacer true (p_rate p) (Some (next_tick v now)) (p_enabled_flag p) (p_rate_flag p)) [now]
                  else NotReady
      | None => NotReady
      end
  | PRate now =>
      match p_interval p with
      | None => NotReady
      | Some _ =>
          if changed (p_rate_flag p) then
            match create_interval (fl_value (p_rate_flag p)) now false with
            | Some v => Done (mkPacer (p_enabled p) (p_rate p) (Some v) (p_enabled_flag p) (seen (p_rate_flag p))) []
            | None => Panic
            end
          else NotReady
      end
  | PEnabled =>
      match p_interval p with
      | None => NotReady
      | Some _ => if changed (p_enabled_flag p)
                  then Done (mkPacer (fl_value (p_enabled_flag p)) (p_rate p) (p_interval p) (seen (p_enabled_flag p)) (p_rate_flag p)) []
                  else NotReady
      end
  end.

(** resource:105-127, replay:173-230. *)
Fixpoint prun (p : pacer) (l : list pop) : res pacer Z :=
  match l with
  | [] => Done p []
  | o :: l => match pstep p o with
              | Done p e => match prun p l with Done p e' => Done p (e ++ e') | r => r end
              | r => r
              end
  end.

(** ** Screenshots *)
(** The rest of replay:58-80; the two channels hold at most one signal (replay:92-93). replay:238-245 [Stats]. *)
Record shots := mkShots {
  s_enabled : bool; s_flag : flag bool; s_ready : bool; s_queued : bool (** capture_screenshot_rx *); s_next : bool (** next_screenshot_rx *);
  s_success : nat; s_full : nat; s_disabled : nat; s_not_ready : nat; s_received : nat; s_unexpected : nat (** reports of replay:308-311 *) }.
(** replay:83-140. *)
Definition shots_new (enabled : bool) : shots := mkShots enabled (mkFlag enabled 0 0) true false false 0 0 0 0 0 0.

(** The arms of replay:174-229 about screenshots, and what others do. *)
Inductive sop :=
| SSetEnabled (b : bool)
| SRequest (** replay:271-281 [CaptureScreenshotHandler::capture_screenshot] *)
| SLog (** replay:293-313: a log of type Replay with the screenshot message reaches the interceptor; other logs do nothing *)
| STake (** replay:192-213 *)
| SNext (** replay:214-217 *)
| SEnabled. (** replay:222-225 *)

(** The event is the call of [capture_screenshot], replay:208. *)
Definition sstep (s : shots) (o : sop) : option (shots * bool) :=
  let '(mkShots en f rd q n c1 c2 c3 c4 c5 c6) := s in
  match o with
  | SSetEnabled b => Some (mkShots en (set_flag Bool.eqb f b) rd q n c1 c2 c3 c4 c5 c6, false)
  | SRequest => if q then Some (mkShots en f rd q n c1 (S c2) c3 c4 c5 c6, false) else Some (mkShots en f rd true n c1 c2 c3 c4 c5 c6, false)
  | SLog => if n then Some (mkShots en f rd q n c1 c2 c3 c4 (S c5) (S c6), false) else Some (mkShots en f rd q true c1 c2 c3 c4 (S c5) c6, false)
  | STake =>
      if q then
        if negb en then Some (mkShots en f rd false n c1 c2 (S c3) c4 c5 c6, false)
        else if negb rd then Some (mkShots en f rd false n c1 c2 c3 (S c4) c5 c6, false)
        else Some (mkShots en f false false n (S c1) c2 c3 c4 c5 c6, true)
      else None
  | SNext => if n then Some (mkShots en f true q false c1 c2 c3 c4 c5 c6, false) else None
  | SEnabled => if changed f then Some (mkShots (fl_value f) (seen f) rd q n c1 c2 c3 c4 c5 c6, false) else None
  end.

(** What was called and what happened, in order: replay:173-230. *)
Fixpoint srun (s : shots) (l : list sop) : option (shots * list (sop * bool)) :=
  match l with
  | [] => Some (s, [])
  | o :: l => match sstep s o with
              | None => None
              | Some (s, b) => match srun s l with None => None | Some (s, e) => Some (s, (o, b) :: e) end
              end
  end.

(** ** Platform events *)
(** events:37-47 [Listener]. *)
Record listener := mkListener { li_flag : flag bool; li_has_seen : bool }.
(** events:50-61: the flag is registered; it is not read. *)
Definition listener_new (enabled : bool) : listener := mkListener (mkFlag enabled 0 0) false.
(** The arm of events:75-92, and updates of the flag. *)
Inductive lop := LSet (b : bool) | LArm (** events:76-88 *).
(** events:80 and 84. *)
Inductive call := Start | Stop.
(** events:76-88. *)
Definition lstep (l : listener) (o : lop) : option (listener * list call) :=
  match o with
  | LSet b => Some (mkListener (set_flag Bool.eqb (li_flag l) b) (li_has_seen l), [])
  | LArm =>
      if changed (li_flag l) then
        Some (mkListener (seen (li_flag l)) true, if fl_value (li_flag l) then [Start] else if li_has_seen l then [Stop] else [])
      else None
  end.
(** events:74-93. *)
Fixpoint lrun (s : listener) (l : list lop) : option (listener * list call) :=
  match l with
  | [] => Some (s, [])
  | o :: l => match lstep s o with
              | None => None
              | Some (s, e) => match lrun s l with None => None | Some (s, e') => Some (s, e ++ e') end
              end
  end.
