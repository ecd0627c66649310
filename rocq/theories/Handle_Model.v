(** Model of the handle of the logger, bd-logger/src/logger.rs ("logger" below): the guard of the threads, the logs the SDK writes about itself, the
    application's updates, and the counters of the calls (bd-logger/src/memory_bound.rs lines 203-241, "mb" below).
    - The channel to the log buffer is outside: its answer to a message is an input ([MemoryBound_Model] tells when it is which).
    - The stored application version is that of [KeyValue_Model], with the faults of its storage as inputs; the session strategy is that of [LogBuffer_Model].
    - [show_ms] is the written form of a duration in milliseconds (a [f64] printed by Rust), [sdk_version] the version of the SDK.
    - Calls of different threads are interleaved call by call: they share the counters, which are atomic, and the store, whose two accesses in one call
      (app_version.rs lines 80-99) are taken as one. Log lines are left out. *)
From Verif Require Import Base Str_Base Log_Model Metadata_Model LogBuffer_Model.
From Verif Require KeyValue_Model.
From Coq Require Import Ascii.
Local Open Scope string_scope. Local Open Scope list_scope.

Section Handle.
Variables (show_ms : Z -> string) (sdk_version : string) (utf8 : list Z -> bool).

(** A Rust string of [KeyValue_Model] as one of [Log_Model]. *)
Definition text (l : list Z) : string := fold_right (fun c s => String (ascii_of_N (Z.to_N c)) s) "" l.
(** [i64::to_string]. *)
Definition int_text (z : Z) : string := if (z <? 0)%Z then ("-" ++ dec_string (Z.to_N (- z)))%string else dec_string (Z.to_N z).

(** bd-logger/src/app_version.rs lines 38-51: [name] and [string_value]. *)
Definition extra_name (e : KeyValue_Model.extra) : string :=
  match e with KeyValue_Model.VersionCode _ => "app_version_code" | KeyValue_Model.BuildNumber _ => "build_number" end.
(** bd-logger/src/app_version.rs lines 45-50 [string_value]. *)
Definition extra_text (e : KeyValue_Model.extra) : string :=
  match e with KeyValue_Model.VersionCode z => int_text z | KeyValue_Model.BuildNumber s => text s end.

(** The faults of the storage in one call, as in [KeyValue_Model]. *)
Record faults := mkFaults { x_read : bool; x_delete : KeyValue_Model.fault; x_set : KeyValue_Model.fault }.

(** The calls of the handle, logger:117-394. Durations are in nanoseconds. *)
Inductive api :=
| ALog (l : line) (blocking : bool) (** 117-156 *)
| AResource (fs : list annotated) (d : Z) (** 158-177 *)
| AScreen (fs : list annotated) (d : Z) (** 179-181 *)
| AScreenshot (fs : list annotated) (d : Z) (** 183-189 *)
| ASdkStart (fs : list annotated) (d : Z) (** 222-248 *)
| AShould (v : KeyValue_Model.version) (x : faults) (** 251-262 *)
| AUpdate (v : KeyValue_Model.version) (size : option N) (fs : list annotated) (d : Z) (x : faults) (** 264-327 *)
| AAdd (f : field) (** 329-349 *)
| ARemove (k : string) (** 351-370 *)
| AFlush (blocking : bool) (** 372-376 *)
| ANewSession (k : clock). (** 383-394 *)

(** logger:38-44: which counters. *)
Inductive family := FLog | FAdd | FRemove | FFlush.
(** What can be seen. *)
Inductive event :=
| Sent (t : nat) (c : call) (r : answer) (** a message is offered to the channel *)
| Refused (t : nat) (c : call) (** from within the guard *)
| SessionStarted (t : nat) | SessionRefused (t : nat)
| Changed (t : nat) (b : bool) (** the answer of [should_log_app_update] *)
| Panicked (t : nat). (** the guard is taken already, logger:89-92 *)

(** The state: the threads that hold their guard (logger:82-84), the counters (logger:36-44), the observations of the histogram, the store and the session. *)
Record handle := mkHandle { h_guards : list nat; h_count : family -> answer -> N; h_observed : list Z; h_store : KeyValue_Model.storage; h_session : strategy }.
(** logger:46-73 and 452-473. *)
Definition handle_new (st : KeyValue_Model.storage) (s : strategy) : handle := mkHandle [] (fun _ _ => 0%N) [] st s.

(** Is the thread inside its guard? logger:131. *)
Definition guarded (s : handle) (t : nat) : bool := existsb (Nat.eqb t) (h_guards s).
(** logger:38-44: are these the same counters? *)
Definition family_eqb (a b : family) : bool := match a, b with FLog, FLog | FAdd, FAdd | FRemove, FRemove | FFlush, FFlush => true | _, _ => false end.
(** mb:229-239: the counter of an answer. *)
Definition answer_eqb (a b : answer) : bool := match a, b with Accepted, Accepted | FullCount, FullCount | FullSize, FullSize | Closed, Closed => true | _, _ => false end.
(** mb:229-239 [record]. *)
Definition record (s : handle) (f : family) (r : answer) : handle :=
  mkHandle (h_guards s) (fun f' r' => if family_eqb f f' && answer_eqb r r' then (h_count s f' r' + 1)%N else h_count s f' r') (h_observed s) (h_store s) (h_session s).
(** Update of one field of the state. *)
Definition with_guards (s : handle) (g : list nat) : handle := mkHandle g (h_count s) (h_observed s) (h_store s) (h_session s).
(** logger:216-219. *)
Definition observe (s : handle) (d : Z) : handle := mkHandle (h_guards s) (h_count s) (h_observed s ++ [d]) (h_store s) (h_session s).
(** Update of one field of the state. *)
Definition with_store (s : handle) (st : KeyValue_Model.storage) : handle := mkHandle (h_guards s) (h_count s) (h_observed s) st (h_session s).
(** Update of one field of the state. *)
Definition with_session (s : handle) (x : strategy) : handle := mkHandle (h_guards s) (h_count s) (h_observed s) (h_store s) x.

(** logger:117-156 [log], 329-349 [add_log_field], 351-370 [remove_log_field]: refused inside the guard. *)
Definition offer (s : handle) (t : nat) (f : family) (c : call) (r : answer) : handle * list event :=
  if guarded s t then (s, [Refused t c]) else (record s f r, [Sent t c r]).

(** logger:160-166: an out-of-the-box field. *)
Definition sdk_field (k v : string) : annotated := mkAnnotated (mkField k (VStr v)) Ootb.
(** logger:198-204. *)
Definition duration_field (d : Z) : annotated := sdk_field "_duration_ms" (show_ms d).
(** A log the SDK writes: no matching fields, no overrides, nobody waits. *)
Definition sdk_log (level type : N) (msg : string) (fs : list annotated) : call := CLog (mkLine level type (VStr msg) fs [] None) false.

(** logger:158-177. *)
Definition resource_log (fs : list annotated) (d : Z) : call := sdk_log 1 3 "" (fs ++ [duration_field d]).
(** logger:191-214; the message is given by logger:180 or 188. *)
Definition replay_log (msg : string) (fs : list annotated) (d : Z) : call := sdk_log 2 1 msg (fs ++ [duration_field d]).
(** logger:222-248. *)
Definition start_log (fs : list annotated) (d : Z) : call := sdk_log 2 2 "SDKConfigured" (fs ++ [duration_field d; sdk_field "_sdk_version" sdk_version]).
(** logger:283-326; [p]: the previous version. *)
Definition update_log (p : KeyValue_Model.version) (size : option N) (fs : list annotated) (d : Z) : call :=
  sdk_log 2 2 "AppUpdated"
    (fs ++ [duration_field d] ++ match size with Some n => [sdk_field "_app_install_size_bytes" (dec_string n)] | None => [] end ++
     [sdk_field "_previous_app_version" (text (KeyValue_Model.av_version p));
      sdk_field ("_previous_" ++ extra_name (KeyValue_Model.av_extra p))%string (extra_text (KeyValue_Model.av_extra p))]).

(** One call of the handle by thread [t]; [r]: the channel's answer, if it is asked. *)
Definition do_api (s : handle) (t : nat) (a : api) (r : answer) : handle * list event :=
  match a with
  | ALog l blocking => offer s t FLog (CLog l blocking) r
  | AResource fs d => offer s t FLog (resource_log fs d) r
  | AScreen fs d => let (s, e) := offer s t FLog (replay_log "Screen captured" fs d) r in (observe s d, e)
  | AScreenshot fs d => let (s, e) := offer s t FLog (replay_log "Screenshot captured" fs d) r in (observe s d, e)
  | ASdkStart fs d => offer s t FLog (start_log fs d) r
  | AShould v x =>
      let (st, b) := KeyValue_Model.has_changed utf8 (h_store s) v (x_read x) (x_delete x) (x_set x) in (with_store s st, [Changed t b])
  | AUpdate v size fs d x =>
      match KeyValue_Model.record utf8 (h_store s) v (x_read x) (x_delete x) (x_set x) with
      | (st, None) => (with_store s st, [])
      | (st, Some p) => offer (with_store s st) t FLog (update_log p size fs d) r
      end
  | AAdd f => offer s t FAdd (CAdd f) r
  | ARemove k => offer s t FRemove (CRemove k) r
  | AFlush blocking => (record s FFlush r, [Sent t (CFlush blocking) r])
  | ANewSession k => if guarded s t then (s, [SessionRefused t]) else (with_session s (start_new_session (h_session s) k), [SessionStarted t])
  end.

(** What threads do: enter and leave the guard of [with_thread_local_logger_guard] (logger:93-98; the borrow ends also when the closure panics), or call. *)
Inductive label := Enter (t : nat) | Leave (t : nat) | Api (t : nat) (a : api) (r : answer).

(** One step. *)
Definition step (s : handle) (x : label) : handle * list event :=
  match x with
  | Enter t => if guarded s t then (s, [Panicked t]) else (with_guards s (t :: h_guards s), [])
  | Leave t => (with_guards s (filter (fun u => negb (Nat.eqb t u)) (h_guards s)), [])
  | Api t a r => do_api s t a r
  end.
(** A history of the calls of logger:93-394, with what was seen. *)
Fixpoint run (s : handle) (l : list label) : handle * list event :=
  match l with [] => (s, []) | x :: l => let (s, e) := step s x in let (s, e') := run s l in (s, e ++ e') end.
End Handle.
