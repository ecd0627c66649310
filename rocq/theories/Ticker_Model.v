(** Model of the ticker of the statistics task: [RuntimeWatchTicker] of bd-client-stats/src/stats.rs lines 42-80 with [jittered_interval_at] of
    bd-time/src/lib.rs lines 131-136, over [tokio::time::Interval] (missed ticks in a burst, the default) and a [watch] channel.

    Times are in milliseconds, the granularity of tokio's timer. The period is what the runtime says in milliseconds
    (bd-runtime/src/runtime.rs lines 96-103: a [u32]). The sender of the channel stays (it is in the loader). A call of [tick] that is dropped
    ([select!] of stats.rs lines 133-160) leaves its state in the ticker, so a poll by the next call is a poll of the same machine. *)
From Verif Require Import Base.
Local Open Scope Z_scope.

(** [tokio::time::Interval]: the next deadline and the period. *)
Record interval := mkInterval { i_next : Z; i_period : Z }.
(** Lines 46-49: the receiver (the value and whether it has changed since it was read) and the interval. *)
Record ticker := mkTicker { t_value : N; t_changed : bool; t_interval : option interval }.
(** Lines 51-59. *)
Definition ticker_new (v : N) : ticker := mkTicker v false None.

(** [thread_rng().gen_range(0 ..= millis)], bd-time/src/lib.rs line 133: any number of that range, drawn from [r]. *)
Definition draw (r : Z) (millis : N) : Z := r mod (Z.of_N millis + 1).
(** bd-time/src/lib.rs lines 131-136; [interval_at] of tokio panics if the period is zero. *)
Definition jittered_interval_at (now r : Z) (millis : N) : option interval :=
  if (millis =? 0)%N then None else Some (mkInterval (now + draw r millis) (Z.of_N millis)).

(** What a poll of [tick] gives. *)
Inductive outcome := Tick | Pending | Panic.
(** [Interval::poll_tick]: ready from the deadline on; the next deadline is one period later (line 72). *)
Definition poll_interval (now : Z) (i : interval) : option interval :=
  if i_next i <=? now then Some (mkInterval (i_next i + i_period i) (i_period i)) else None.
(** Line 73-75: the interval is made again from the value, which is marked as read. *)
Definition remake (now r : Z) (t : ticker) : option ticker :=
  match jittered_interval_at now r (t_value t) with Some i => Some (mkTicker (t_value t) false (Some i)) | None => None end.
(** Line 72 alone. *)
Definition poll_tick (now : Z) (t : ticker) : ticker * outcome :=
  match t_interval t with
  | None => (t, Panic)  (** the [unwrap] of line 72, see lines 66-68 *)
  | Some i => match poll_interval now i with Some i => (mkTicker (t_value t) (t_changed t) (Some i), Tick) | None => (t, Pending) end
  end.
(** Lines 69-77. [first]: which branch [select!] tries first. *)
Definition poll_loop (now r : Z) (first : bool) (t : ticker) : ticker * outcome :=
  if t_changed t then
    match (if first then poll_tick now t else (t, Pending)) with
    | (t', Tick) => (t', Tick)
    | _ => match remake now r t with Some t' => poll_tick now t' | None => (t, Panic) end
    end
  else poll_tick now t.
(** Lines 63-78: a poll at time [now]. *)
Definition poll (now r : Z) (first : bool) (t : ticker) : ticker * outcome :=
  match t_interval t with
  | None => match remake now r t with Some t' => poll_loop now r first t' | None => (t, Panic) end
  | Some _ => poll_loop now r first t
  end.

(** What happens: the runtime changes the value (the channel is written), or the task polls. *)
Inductive op := Update (v : N) | Poll (now r : Z) (first : bool).
(** A step; the time of a tick, if any. [None]: the task has panicked. *)
Definition step (t : ticker) (o : op) : option (ticker * list Z) :=
  match o with
  | Update v => Some (mkTicker v true (t_interval t), [])
  | Poll now r first => match poll now r first t with (t', Tick) => Some (t', [now]) | (t', Pending) => Some (t', []) | (_, Panic) => None end
  end.
(** A history with the times of its ticks. *)
Fixpoint run (t : ticker) (ops : list op) : option (ticker * list Z) :=
  match ops with
  | [] => Some (t, [])
  | o :: ops => match step t o with Some (t1, e1) => match run t1 ops with Some (t2, e2) => Some (t2, e1 ++ e2) | None => None end | None => None end
  end.
