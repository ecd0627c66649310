(** Model of bd-shutdown/src/lib.rs ("shutdown" below), of [Logger::shutdown] (bd-logger/src/logger.rs, "logger" below) and of who holds what after
    [LoggerBuilder::build] (bd-logger/src/builder.rs, "builder" below).
    - The tokio watch channel is a status with a version, a count of senders and the list of the receivers with the version each has seen.
    - An operation that the owners of the values could not do (use something dropped, or never made) has no result.
    - The signals of shutdown:8-30 are left out; a poll of a future that is not ready gives [false]. *)
From Verif Require Import Base.

(** shutdown:130-133 [ComponentShutdown]; [r_waiting]: a call of [cancelled] is past line 138. *)
Record rx := mkRx { r_id : nat; r_seen : nat; r_waiting : bool }.
(** shutdown:41-45 the status, shutdown:52-55 the handles, shutdown:71-74 the trigger, with the receivers alive.
    [w_closing]: a call of [shutdown] or [shutdown_blocking] owns the trigger and waits. *)
Record watch := mkWatch { w_pending : bool; w_version : nat; w_trigger : bool; w_closing : bool; w_handles : nat; w_rx : list rx }.

(** shutdown:76-83 [ComponentShutdownTrigger::default]. *)
Definition watch_new : watch := mkWatch false 0 true false 0 [].

(** shutdown:130-133, in the list of receivers: is it alive? *)
Definition known (i : nat) (l : list rx) : bool := existsb (fun r => Nat.eqb (r_id r) i) l.
(** shutdown:130-133, in the list of receivers: lookup. *)
Definition get (i : nat) (l : list rx) : option rx := find (fun r => Nat.eqb (r_id r) i) l.
(** shutdown:130-133, in the list of receivers: update. *)
Definition set_rx (r : rx) (l : list rx) : list rx := map (fun q => if Nat.eqb (r_id q) (r_id r) then r else q) l.
(** shutdown:130-133, in the list of receivers: drop. *)
Definition drop_rx (i : nat) (l : list rx) : list rx := filter (fun r => negb (Nat.eqb (r_id r) i)) l.
(** shutdown:130-133, in the list of receivers: the list is replaced. *)
Definition with_rx (w : watch) (l : list rx) : watch := mkWatch (w_pending w) (w_version w) (w_trigger w) (w_closing w) (w_handles w) l.
(** Is the watch of shutdown:52-55 and 71-74 closed? *)
Definition no_sender (w : watch) : bool := negb (w_trigger w) && negb (w_closing w) && Nat.eqb (w_handles w) 0.

(** What owners of the values of shutdown:41-160 can do. *)
Inductive op :=
| MakeHandle (** shutdown:86-91, of the trigger *)
| CloneHandle | DropHandle (** derived [Clone] and drop of a handle *)
| Make (i : nat) (** shutdown:93-98 [make_shutdown] of the trigger; the new receiver is [i] *)
| MakeByHandle (i : nat) (** shutdown:57-64 *)
| CloneRx (i j : nat) | DropRx (i : nat)
| Poll (i : nat) (** shutdown:136-146 [cancelled] is polled; the answer tells whether it is over *)
| Abandon (i : nat) (** the future of [cancelled] is dropped *)
| Status (i : nat) (** shutdown:148-152 [component_status]; the answer: [PendingShutdown] *)
| Request (** shutdown:102-104 and 110-112, the first statement of both *)
| Return (** the wait of shutdown:105 and of 116-118 is over, the trigger is dropped *)
| DropTrigger.

(** The result, and for [Poll] and [Status] the answer. *)
Definition step (w : watch) (o : op) : option (watch * option bool) :=
  match o with
  | MakeHandle => if w_trigger w then Some (mkWatch (w_pending w) (w_version w) true (w_closing w) (S (w_handles w)) (w_rx w), None) else None
  | CloneHandle =>
      match w_handles w with O => None | S n => Some (mkWatch (w_pending w) (w_version w) (w_trigger w) (w_closing w) (S (S n)) (w_rx w), None) end
  | DropHandle => match w_handles w with O => None | S n => Some (mkWatch (w_pending w) (w_version w) (w_trigger w) (w_closing w) n (w_rx w), None) end
  | Make i => if w_trigger w && negb (known i (w_rx w)) then Some (with_rx w (mkRx i (w_version w) false :: w_rx w), None) else None
  | MakeByHandle i =>
      if negb (Nat.eqb (w_handles w) 0) && negb (known i (w_rx w)) then Some (with_rx w (mkRx i (w_version w) false :: w_rx w), None) else None
  | CloneRx i j =>
      match get i (w_rx w) with
      | Some r => if known j (w_rx w) then None else Some (with_rx w (mkRx j (r_seen r) false :: w_rx w), None)
      | None => None
      end
  | DropRx i => if known i (w_rx w) then Some (with_rx w (drop_rx i (w_rx w)), None) else None
  | Poll i =>
      match get i (w_rx w) with
      | None => None
      | Some r =>
          let seen := if r_waiting r then r_seen r else w_version w in
          if negb (r_waiting r) && w_pending w then Some (with_rx w (set_rx (mkRx i seen false) (w_rx w)), Some true)
          else if negb (Nat.eqb seen (w_version w)) then Some (with_rx w (set_rx (mkRx i (w_version w) false) (w_rx w)), Some true)
          else if no_sender w then Some (with_rx w (set_rx (mkRx i seen false) (w_rx w)), Some true)
          else Some (with_rx w (set_rx (mkRx i seen true) (w_rx w)), Some false)
      end
  | Abandon i =>
      match get i (w_rx w) with Some r => Some (with_rx w (set_rx (mkRx i (r_seen r) false) (w_rx w)), None) | None => None end
  | Status i => if known i (w_rx w) then Some (w, Some (w_pending w)) else None
  | Request => if w_trigger w then Some (mkWatch true (S (w_version w)) false true (w_handles w) (w_rx w), None) else None
  | Return =>
      match w_rx w with
      | [] => if w_closing w then Some (mkWatch (w_pending w) (w_version w) (w_trigger w) false (w_handles w) [], None) else None
      | _ :: _ => None
      end
  | DropTrigger => if w_trigger w then Some (mkWatch (w_pending w) (w_version w) false (w_closing w) (w_handles w) (w_rx w), None) else None
  end.

(** The answers, in order, with the operations that got them. *)
Fixpoint run (w : watch) (l : list op) : option (watch * list (op * bool)) :=
  match l with
  | [] => Some (w, [])
  | o :: l => match step w o with
              | None => None
              | Some (w, a) => match run w l with
                               | None => None
                               | Some (w, e) => Some (w, match a with Some b => (o, b) :: e | None => e end)
                               end
              end
  end.

(** ** The logger *)
(** logger:428-450: [g_trigger] the [shutdown_state]; [g_alive]: the parts that hold a receiver; [g_future]: the future of builder:239-262 is alive,
    with the handle kept by the log buffer (builder:171); [g_started]: the log buffer runs; [g_wait]: a blocking [shutdown] waits. *)
Record logger := mkLogger { g_watch : watch; g_trigger : bool; g_alive : list nat; g_handle : bool; g_started : bool; g_wait : bool }.

(** The parts: 0 the log buffer (async_log_buffer.rs line 573), 1 the uploader (builder:204), 2 the api (builder:226), 3 the stats flusher, only with
    mobile features (builder:137). builder:107-113: the trigger and its handle; the clone of builder:171 stays. *)
Definition build (mobile : bool) : option logger :=
  let parts := [1; 2] ++ (if mobile then [3] else []) in
  match run watch_new (MakeHandle :: map MakeByHandle parts) with
  | Some (w, _) => Some (mkLogger w true parts true false false)
  | None => None
  end.

(** What happens to the logger: logger:486-494, builder:239-262, async_log_buffer.rs lines 571-664. *)
Inductive lop :=
| LStart (** async_log_buffer.rs lines 571-575: the log buffer begins to run *)
| LShutdown (blocking : bool) (** logger:486-494 *)
| LReturn (** the blocking call returns *)
| LDrop (** the [Logger] is dropped *)
| LPoll (i : nat) (** part [i] polls its [cancelled] *)
| LEnd (i : nat) (** part [i], told to stop, ends and drops what it holds: the log buffer (async_log_buffer.rs line 664) also its handle *)
| LFail. (** a part fails: builder:240 [try_join] drops all of them *)

(** What can be seen from outside: shutdown:136-146, builder:239-262, logger:486-494. *)
Inductive lev := Told (i : nat) | Ended (i : nat) | Returned.

(** [told]: the parts whose [cancelled] returned. *)
Definition lstep (g : logger) (told : list nat) (o : lop) : option (logger * list nat * list lev) :=
  match o with
  | LStart =>
      if g_handle g && negb (g_started g) then
        match step (g_watch g) (MakeByHandle 0) with
        | Some (w, _) => Some (mkLogger w (g_trigger g) (0 :: g_alive g) true true (g_wait g), told, [])
        | None => None
        end
      else None
  | LShutdown blocking =>
      if g_trigger g then
        match step (g_watch g) (if blocking then Request else DropTrigger) with
        | Some (w, _) => Some (mkLogger w false (g_alive g) (g_handle g) (g_started g) blocking, told, if blocking then [] else [Returned])
        | None => None
        end
      else Some (g, told, [Returned])
  | LReturn =>
      if g_wait g then
        match step (g_watch g) Return with
        | Some (w, _) => Some (mkLogger w (g_trigger g) (g_alive g) (g_handle g) (g_started g) false, told, [Returned])
        | None => None
        end
      else None
  | LDrop =>
      if g_trigger g then
        match step (g_watch g) DropTrigger with
        | Some (w, _) => Some (mkLogger w false (g_alive g) (g_handle g) (g_started g) (g_wait g), told, [])
        | None => None
        end
      else Some (g, told, [])
  | LPoll i =>
      match step (g_watch g) (Poll i) with
      | Some (w, Some true) => Some (mkLogger w (g_trigger g) (g_alive g) (g_handle g) (g_started g) (g_wait g), i :: told, [Told i])
      | Some (w, _) => Some (mkLogger w (g_trigger g) (g_alive g) (g_handle g) (g_started g) (g_wait g), told, [])
      | None => None
      end
  | LEnd i =>
      if existsb (Nat.eqb i) told && existsb (Nat.eqb i) (g_alive g) then
        match run (g_watch g) (DropRx i :: if Nat.eqb i 0 then [DropHandle] else []) with
        | Some (w, _) =>
            Some (mkLogger w (g_trigger g) (filter (fun j => negb (Nat.eqb i j)) (g_alive g)) (g_handle g && negb (Nat.eqb i 0)) (g_started g) (g_wait g), told, [Ended i])
        | None => None
        end
      else None
  | LFail =>
      match run (g_watch g) (map DropRx (g_alive g) ++ if g_handle g then [DropHandle] else []) with
      | Some (w, _) => Some (mkLogger w (g_trigger g) [] false (g_started g) (g_wait g), told, map Ended (g_alive g))
      | None => None
      end
  end.

(** A history of these: logger:486-494, builder:239-262, async_log_buffer.rs lines 571-664. *)
Fixpoint lrun (g : logger) (told : list nat) (l : list lop) : option (logger * list nat * list lev) :=
  match l with
  | [] => Some (g, told, [])
  | o :: l => match lstep g told o with
              | None => None
              | Some (g, told, e) => match lrun g told l with Some (g, told, e') => Some (g, told, e ++ e') | None => None end
              end
  end.
