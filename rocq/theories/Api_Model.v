(** Model of the API task: bd-api/src/upload.rs (StateTracker) and the stream
    life cycle, handshake and kill-file handling of bd-api/src/api.rs.

    Simplifications.
    - gRPC framing is Grpc_Model; here the task receives lists of decoded
      responses.
    - The configuration pipelines (the [Untyped] response) are represented by a
      flag that says whether their replies could be sent; see ClientConfig_Model
      and Runtime_Model for what they do.
    - Pings, compression, statistics and network quality are left out.
    - Every place where the code uses [?] on an I/O operation is an input flag:
      the theorems hold whatever these flags are.
    - The keys of the two hash maps of the tracker are unique, so an association
      list represents each map; [drop] order of the entries is not observable. *)
From Verif Require Export Str_Base.
From Coq Require Export ZArith Bool.
Export ListNotations.
Open Scope string_scope.
Open Scope Z_scope.
Open Scope list_scope.

(** ** upload.rs 25-138 *)

(** upload.rs 75-84: which of the two maps a request is tracked in. *)
Inductive kind := KUpload | KIntent.

(** Equality of [kind], upload.rs 75-84. *)
Definition kind_eqb (a b : kind) : bool :=
  match a, b with KUpload, KUpload | KIntent, KIntent => true | _, _ => false end.

(** upload.rs 35-71 (UploadResponse, IntentResponse, IntentDecision): what is sent
    on the response channel of a request. *)
Inductive answer :=
| AUpload (success : bool) (uuid : string)
| AIntent (uuid : string) (drop : bool).

(** upload.rs 75-84: StateTracker; the sender half of a oneshot channel is
    represented by the identity of the request that waits on the other half. *)
Definition waiter := nat.
(** upload.rs 75-84: the two maps. *)
Record tracker := { t_uploads : list (string * waiter); t_intents : list (string * waiter) }.

(** upload.rs 87-93 *)
Definition tracker_new : tracker := {| t_uploads := []; t_intents := [] |}.

(** upload.rs 75-84: the map of a kind. *)
Definition t_map (t : tracker) (k : kind) :=
  match k with KUpload => t_uploads t | KIntent => t_intents t end.
(** upload.rs 75-84: the map of a kind is replaced. *)
Definition t_set (t : tracker) (k : kind) m :=
  match k with
  | KUpload => {| t_uploads := m; t_intents := t_intents t |}
  | KIntent => {| t_uploads := t_uploads t; t_intents := m |}
  end.

(** HashMap::get / HashMap::remove, used by upload.rs 101, 110, 120, 133. *)
Fixpoint map_get (u : string) (m : list (string * waiter)) : option waiter :=
  match m with
  | [] => None
  | (v, w) :: m => if String.eqb u v then Some w else map_get u m
  end.
(** HashMap::remove, upload.rs 120 and 133. *)
Definition map_remove (u : string) (m : list (string * waiter)) :=
  filter (fun e => negb (String.eqb u (fst e))) m.

(** What a run of the task does, in order: requests tracked, responses handled,
    answers delivered to waiters, streams opened and ended, kills. *)
Inductive item :=
| TStream                                     (* manager.start_stream was called *)
| TEnd                                        (* the StreamState was dropped *)
| TTrack (k : kind) (u : string) (w : waiter)
| TResponse (k : kind) (u : string) (a : answer)
| TDeliver (w : waiter) (a : answer)          (* the receiver gets the answer *)
| TFail (w : waiter)                          (* the sender was dropped: the receiver fails *)
| TReject (now duration : Z) (written : bool) (* the server rejected the API key *)
| TError.                                     (* the task ends with an error *)

(** upload.rs 97-112 (track_intent, track_upload): the insertion drops the sender
    it replaces. *)
Definition track (t : tracker) (k : kind) (u : string) (w : waiter) : tracker * list item :=
  let m := t_map t k in
  (t_set t k ((u, w) :: map_remove u m),
   match map_get u m with Some w0 => [TFail w0] | None => [] end).

(** upload.rs 116-138 (resolve_pending_upload, resolve_intent); [None] is the
    error. *)
Definition resolve (t : tracker) (k : kind) (u : string) (a : answer)
    : option (tracker * list item) :=
  match map_get u (t_map t k) with
  | None => None
  | Some w => Some (t_set t k (map_remove u (t_map t k)), [TDeliver w a])
  end.

(** Dropping the tracker drops every sender. *)
Definition drop_tracker (t : tracker) : list item :=
  map (fun e => TFail (snd e)) (t_uploads t) ++ map (fun e => TFail (snd e)) (t_intents t).

(** ** api.rs *)

(** ResponseKind, as matched by api.rs 775-889. *)
Inductive response :=
| RHandshake
| RPong
| RErrorShutdown (status : Z)
| RAck (uuid error : string)                   (* Opaque, LogUpload, StatsUpload, SankeyPathUpload *)
| RIntent (uuid : string) (drop : option bool) (* LogUploadIntent, SankeyPathUploadIntent *)
| RFlush (sent : bool)
| RUntyped (sent : bool).

(** api.rs 769-892 (handle_responses) for one response; [None] is the error that
    ends the task. *)
Definition handle_response (t : tracker) (r : response) : list item * option tracker :=
  match r with
  | RHandshake => ([], None)
  | RPong | RErrorShutdown _ => ([], Some t)
  | RAck u e =>
      let a := AUpload (String.eqb e "") u in
      match resolve t KUpload u a with
      | Some (t', o) => (TResponse KUpload u a :: o, Some t')
      | None => ([TResponse KUpload u a], None)
      end
  | RIntent u d =>
      (* api.rs 812-824, 858-872: a missing decision is Drop *)
      let a := AIntent u (match d with Some b => b | None => true end) in
      match resolve t KIntent u a with
      | Some (t', o) => (TResponse KIntent u a :: o, Some t')
      | None => ([TResponse KIntent u a], None)
      end
  | RFlush ok | RUntyped ok => ([], if ok then Some t else None)
  end.

(** api.rs 774: the loop over the responses of one network event. On an error the
    tracker as it was then is dropped. *)
Fixpoint handle_responses (t : tracker) (rs : list response) : list item * bool * tracker :=
  match rs with
  | [] => ([], true, t)
  | r :: rs =>
      match handle_response t r with
      | (o, None) => (o, false, t)
      | (o, Some t') => let '(o', ok, t'') := handle_responses t' rs in (o ++ o', ok, t'')
      end
  end.

(** The kill file, api.rs 461-463 and ClientKillFile: absent, unreadable, or a
    time and the hash of an API key. *)
Inductive disk :=
| NoFile
| Garbage
| KillFile (until : Z) (hash : list Z).

(** The result of tokio::fs::write, api.rs 549: a failed write leaves the old file
    or a damaged one. *)
Inductive write := WOk | WKept | WDamaged.
(** tokio::fs::write of the kill file, api.rs 549. *)
Definition do_write (d : disk) (w : write) (d' : disk) : disk :=
  match w with WOk => d' | WKept => d | WDamaged => Garbage end.

(** Where the task is in api.rs 574-765. *)
Inductive phase :=
| PHandshake  (* wait_for_handshake, 660 *)
| PMain       (* the inner loop, 717 *)
| PBackoff    (* do_reconnect_backoff, 678 and 754; the StreamState is still alive *)
| PKilled     (* pending until the shutdown, 606-612 *)
| PDone.      (* returned *)

(** api.rs 366-397 and the locals of 574-765. *)
Record api := {
  a_hash : list Z;  (* hash_api_key, 465-473 *)
  a_killed : bool;  (* client_killed, 393 *)
  a_phase : phase;
  a_disk : disk;
  a_tracker : tracker
}.
(** Update of one field: where the task is in api.rs 574-765. *)
Definition set_phase s p := {| a_hash := a_hash s; a_killed := a_killed s; a_phase := p;
                               a_disk := a_disk s; a_tracker := a_tracker s |}.
(** Update of one field: the tracker of the StreamState, api.rs 169-182. *)
Definition set_tracker s t := {| a_hash := a_hash s; a_killed := a_killed s; a_phase := a_phase s;
                                 a_disk := a_disk s; a_tracker := t |}.

(** api.rs 538-552 (write_kill_file): the flag is set before the write, whose
    failure the callers only log. *)
Definition write_kill_file (s : api) (now duration : Z) (w : write) : api :=
  {| a_hash := a_hash s; a_killed := true; a_phase := a_phase s;
     a_disk := do_write (a_disk s) w (KillFile (now + duration) (a_hash s));
     a_tracker := a_tracker s |}.

(** The task returns: the StreamState is dropped, and with it the tracker. *)
Definition finish (s : api) : api * list item :=
  (set_tracker (set_phase s PDone) tracker_new, drop_tracker (a_tracker s) ++ [TEnd]).
(** The task returns an error: the question marks of api.rs 574-765. *)
Definition fail (s : api) : api * list item :=
  let (s, o) := finish s in (s, TError :: o).

(** api.rs 594-657: the top of the outer loop. A killed client stops here; anyone
    else opens a stream and sends the handshake; [ok] says whether that worked. *)
Definition top (s : api) (ok : bool) : api * list item :=
  if a_killed s then (set_phase s PKilled, [])
  else if ok then (set_tracker (set_phase s PHandshake) tracker_new, [TStream])
  else (set_tracker (set_phase s PDone) tracker_new, [TStream; TError; TEnd]).

(** The end of an iteration of the outer loop: the StreamState goes out of scope. *)
Definition next_stream (s : api) (ok : bool) : api * list item :=
  let o := drop_tracker (a_tracker s) ++ [TEnd] in
  let (s, o') := top (set_tracker s tracker_new) ok in
  (s, o ++ o').

(** What can happen to the running task. *)
Inductive event :=
| EData (rs : list response) (now duration : Z) (w : write) (ok : bool)
| EBadData                            (* a frame could not be decoded: handle_upstream_event fails *)
| EClosed (long_lived : bool) (ok : bool)
| EBackoffDone (ok : bool)
| ERequest (k : kind) (u : string) (w : waiter) (sent : bool)
| EShutdown.

(** One event. An event the task does not listen to in its phase changes
    nothing. *)
Definition step (s : api) (e : event) : api * list item :=
  match a_phase s, e with
  (* api.rs 917-992 and 660-702 *)
  | PHandshake, EData [] _ _ _ _ => (s, [])
  | PHandshake, EData (RHandshake :: rest) _ _ _ _ =>
      let '(o, ok, t) := handle_responses (a_tracker s) rest in
      let s := set_tracker s t in
      if ok then (set_phase s PMain, o)
      else let (s, o') := fail s in (s, o ++ o')
  | PHandshake, EData (RErrorShutdown status :: _) now duration w ok =>
      if status =? 16 then
        let s := write_kill_file s now duration w in
        let (s, o) := next_stream s ok in
        (s, TReject now duration (match w with WOk => true | _ => false end) :: o)
      else (set_phase s PBackoff, [])
  | PHandshake, EData (_ :: _) _ _ _ _ => fail s
  | PHandshake, EBadData => fail s
  | PHandshake, EClosed _ _ => (set_phase s PBackoff, [])
  | PHandshake, EShutdown => finish s
  (* api.rs 717-764 *)
  | PMain, EData rs _ _ _ _ =>
      let '(o, ok, t) := handle_responses (a_tracker s) rs in
      let s := set_tracker s t in
      if ok then (s, o) else let (s, o') := fail s in (s, o ++ o')
  | PMain, EBadData => fail s
  | PMain, EClosed long ok => if long then next_stream s ok else (set_phase s PBackoff, [])
  | PMain, ERequest k u w sent =>
      (* api.rs 283-310: the request is tracked before it is sent *)
      let (t, o) := track (a_tracker s) k u w in
      let s := set_tracker s t in
      if sent then (s, TTrack k u w :: o)
      else let (s, o') := fail s in (s, TTrack k u w :: o ++ o')
  | PMain, EShutdown => finish s
  (* api.rs 555-570 *)
  | PBackoff, EBackoffDone ok => next_stream s ok
  | PBackoff, EShutdown => finish s
  | PKilled, EShutdown => (set_phase s PDone, [])
  | _, _ => (s, [])
  end.

(** A history of events, api.rs 574-765. *)
Fixpoint steps (s : api) (es : list event) : api * list item :=
  match es with
  | [] => (s, [])
  | e :: es => let (s, o) := step s e in let (s, o') := steps s es in (s, o ++ o')
  end.

(** One life of the process: what it finds when it starts, and what happens to
    it. [p_read] is false if the kill file cannot be read for an I/O error. *)
Record process := {
  p_key : string;
  p_now : Z;
  p_generic : Z;    (* client_kill::GenericKillDuration *)
  p_read : bool;
  p_removed : bool;
  p_write : write;
  p_open : bool;
  p_events : list event
}.

Section Api.
(** DefaultHasher over the API key, api.rs 465-473. *)
Variable hash : string -> list Z.

(** Comparison of two hashes of API keys, api.rs 480-523. *)
Definition list_Z_eqb (a b : list Z) : bool :=
  if list_eq_dec Z.eq_dec a b then true else false.

(** api.rs 526-536 (read_kill_file); an error counts as no file, 483-489. *)
Definition read_kill_file (d : disk) (ok : bool) : option (Z * list Z) :=
  match d with
  | KillFile until h => if ok then Some (until, h) else None
  | _ => None
  end.

(** api.rs 480-524 (maybe_kill_client) *)
Definition maybe_kill_client (s : api) (p : process) : api :=
  match read_kill_file (a_disk s) (p_read p) with
  | Some (until, h) =>
      if (p_now p <? until) && list_Z_eqb (a_hash s) h then
        {| a_hash := a_hash s; a_killed := true; a_phase := a_phase s;
           a_disk := a_disk s; a_tracker := a_tracker s |}
      else
        {| a_hash := a_hash s; a_killed := a_killed s; a_phase := a_phase s;
           a_disk := if p_removed p then NoFile else a_disk s; a_tracker := a_tracker s |}
  | None =>
      if negb (p_generic p =? 0) then write_kill_file s (p_now p) (p_generic p) (p_write p)
      else s
  end.

(** api.rs 444-459 (start) and everything the process does after it. *)
Definition run_process (d : disk) (p : process) : disk * list item :=
  let s := {| a_hash := hash (p_key p); a_killed := false; a_phase := PHandshake;
              a_disk := d; a_tracker := tracker_new |} in
  let s := maybe_kill_client s p in
  let (s, o) := top s (p_open p) in
  let (s, o') := steps s (p_events p) in
  (a_disk s, o ++ o').

(** Any number of lives. *)
Fixpoint run_processes (d : disk) (ps : list process) : disk * list (list item) :=
  match ps with
  | [] => (d, [])
  | p :: ps => let (d, o) := run_process d p in
               let (d, os) := run_processes d ps in (d, o :: os)
  end.
End Api.
