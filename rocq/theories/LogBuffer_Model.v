(** Model of the log buffer: bd-logger/src/async_log_buffer.rs ("alb" below), the calls of bd-logger/src/logger.rs that reach it ("logger" below), its
    interceptors bd-logger/src/internal_report.rs ("report" below) and bd-logger/src/network.rs ("network" below), and bd-session/src/lib.rs
    ("session" below), on top of the models of the metadata, the sessions, the traffic counters and the pre-config buffer.
    - The processing pipeline (bd-logger/src/log_replay.rs) is a parameter: its state, what it does with a log and what it does on its own. [Pipeline_Model] is
      an instance.
    - A call is one step: the answer of the channel is an input ([MemoryBound_Model] tells when it is which), but a closed channel accepts nothing and an open
      one never claims to be closed.
    - What the loop does with one message is one step, except that it waits inside a flush; other threads are then free to act. The provider's answers, the
      clocks, fresh session ids and the flag of the internal report are inputs. The reporter, the recorder and the listener are in [Recorder_Model].
    - The counters of the calls (logger:36-73) and log lines are left out. *)
From Verif Require Import Base Str_Base Log_Model Metadata_Model.
From Verif Require Network_Model Session_Model PreConfig_Model.
Local Open Scope string_scope. Local Open Scope list_scope.

(** alb:74-89 [LogLine]. *)
Record line := mkLine { ln_level : N; ln_type : N; ln_message : value; ln_fields : list annotated; ln_matching : list annotated;
  ln_override : option (string * Z) (** alb:95-102: the expected previous session and the time *) }.
(** alb:45-51 [AsyncLogBufferMessage] and the calls that make them, logger:117-156 and 329-376. [blocking]: the caller waits. *)
Inductive call := CLog (l : line) (blocking : bool) | CAdd (f : field) | CRemove (k : string) | CFlush (blocking : bool).
(** A message in the channel, with the number of the call. *)
Record message := mkMessage { ms_id : nat; ms_call : call }.
(** memory_bound.rs lines 89-119: the answers of [try_send]. *)
Inductive answer := Accepted | FullCount | FullSize | Closed.

(** ** The session strategies *)
(** session:23-26. *)
Inductive strategy := Fixed (f : Session_Model.fixed) | Activity (a : Session_Model.act).
(** The wall clock and the identifiers generated if needed. *)
Record clock := mkClock { k_now : Z; k_first : string; k_next : string }.

(** ** The interceptors *)
(** report:89-148: the name of a counter and the log type it counts (report:47-82), all of them for the first. *)
Definition report_kinds : list (string * option N) :=
  [("_logs", None); ("_device_logs", Some 6); ("_internal_logs", Some 4); ("_network_logs", Some 8); ("_normal_logs", Some 0);
   ("_lifecycle_logs", Some 2); ("_replay_logs", Some 1); ("_resource_logs", Some 3)]%N.
(** report:171-195 [State]: for each of them the count since the last report and the total. *)
Definition report := list (N * N).
(** report:171-195 [Default]. *)
Definition report_new : report := map (fun _ => (0, 0)%N) report_kinds.
(** [u32] in a release build. *)
Definition U32 : N := 4294967296.
(** report:47-82. *)
Definition report_count (ty : N) (r : report) : report :=
  map (fun x => let '((_, t), (a, b)) := x in
                if match t with None => true | Some t => (t =? ty)%N end then ((a + 1) mod U32, (b + 1) mod U32)%N else (a, b)) (combine report_kinds r).
(** report:155-163 [create_field]. *)
Definition ootb (f : field) : annotated := mkAnnotated f Ootb.
(** report:89-148: the fields. *)
Definition report_fields (r : report) : list field :=
  flat_map (fun x => let '((n, _), (a, b)) := x in
                     [mkField (n ++ "_count")%string (VStr (dec_string a)); mkField (n ++ "_total_count")%string (VStr (dec_string b))]) (combine report_kinds r).
(** report:198-207 [clear]. *)
Definition report_clear (r : report) : report := map (fun x => (0%N, snd x)) r.
(** report:40-152 [process]; [on]: the flag. *)
Definition report_process (on : bool) (r : report) (ty : N) (msg : value) (fields : list annotated) : report * list annotated :=
  let r := report_count ty r in
  match msg with
  | VStr m => if (ty =? 3)%N && String.eqb m "" && on then (report_clear r, fields ++ map ootb (report_fields r)) else (r, fields)
  | VBytes _ => (r, fields)
  end.

(** bd-network-quality/src/lib.rs. *)
Inductive quality := Unknown | Online | Offline.
(** network:70-82 and 153-171: the traffic tracker, which also takes a response with a status code as a sign of being online. *)
Definition traffic_process (now : N) (c : list Network_Model.sample) (q : quality) (ty : N) (msg : value) (fields : list annotated)
    : list Network_Model.sample * quality * list annotated :=
  match msg with
  | VBytes _ => (c, q, fields)
  | VStr m =>
      if (ty =? 8)%N && String.eqb m "HTTPResponse" then
        (Network_Model.process_http_response_log c (map a_field fields),
         (match Network_Model.get_int_field_value (map a_field fields) "_status_code" with Some _ => Online | None => q end), fields)
      else if (ty =? 3)%N && String.eqb m "" then
        let (c, added) := Network_Model.process_resource_utilization_log now c in (c, q, fields ++ map ootb added)
      else (c, q, fields)
  end.
(** network:356-387 [NetworkQualityInterceptor]. *)
Definition quality_process (q : quality) (ty : N) (fields : list annotated) : list annotated :=
  if (ty =? 3)%N || (ty =? 1)%N || (ty =? 4)%N then fields
  else match q with Offline => fields ++ [ootb (mkField "_network_quality" (VStr "offline"))] | _ => fields end.
(** bd-session-replay/src/lib.rs lines 293-313: is the recorder told? *)
Definition shot_process (ty : N) (msg : value) : bool :=
  (ty =? 1)%N && match msg with VStr m => String.eqb m "Screenshot captured" | VBytes _ => false end.

(** The state of the interceptors, alb:222-227. *)
Record icept := mkIcept { i_report : report; i_traffic : list Network_Model.sample; i_quality : quality }.
(** alb:597-604: the interceptors in order. *)
Definition intercept (on : bool) (now : N) (i : icept) (l : line) : icept * line * bool :=
  let (r, fs) := report_process on (i_report i) (ln_type l) (ln_message l) (ln_fields l) in
  let '(c, q, fs) := traffic_process now (i_traffic i) (i_quality i) (ln_type l) (ln_message l) fs in
  let fs := quality_process q (ln_type l) fs in
  (mkIcept r c q, mkLine (ln_level l) (ln_type l) (ln_message l) fs (ln_matching l) (ln_override l), shot_process (ln_type l) (ln_message l)).

Section Buffer.
(** [C] configurations, [P] the pipeline's state, [V] what it is told by its surroundings, [E] its effects, [R] what it does on its own. *)
Variables (C P V E R : Type).
(** log_replay.rs lines 107-170, 172-202, 204-317, 495-539 and the engine's [maybe_persist]; [None]: it panics. *)
Variables (p_new : C -> P) (p_update : P -> C -> P) (p_log : P -> log -> bool -> V -> option (P * list E)) (p_run : P -> R -> option (P * list E))
  (p_persist : P -> P).
(** The thresholds of the activity based strategy, the size of a log, the written form of a time, and: are there stats to flush (logging_state.rs lines 73-78)? *)
Variables (threshold write_interval : Z) (size : log -> N) (show_time : Z -> string) (has_stats : bool).

(** session:28-35. *)
Definition session_id (s : strategy) (k : clock) : strategy * string :=
  match s with
  | Fixed f => let (f, i) := Session_Model.fixed_session_id f (k_first k) in (Fixed f, i)
  | Activity a => let (a, i) := Session_Model.session_id threshold write_interval a (k_now k) (k_first k) (k_next k) in (Activity a, i)
  end.
(** session:37-47. *)
Definition start_new_session (s : strategy) (k : clock) : strategy :=
  match s with
  | Fixed f => Fixed (fst (Session_Model.fixed_start_new_session f (k_next k)))
  | Activity a => Activity (fst (Session_Model.start_new_session a (k_now k) (k_next k)))
  end.
(** session:49-53. *)
Definition session_flush (s : strategy) : strategy := match s with Fixed f => Fixed f | Activity a => Activity (Session_Model.flush a) end.
(** session:56-61. *)
Definition previous_process_session_id (s : strategy) : option string :=
  match s with Fixed f => Session_Model.fixed_previous f | Activity a => Session_Model.previous_process_session_id a end.

(** What the loop is told while it takes a message: the two clocks, the flag of the report, the provider's answers, the calls the provider makes (with the
    channel's answers), and what the pipeline is told. *)
Record tenv := mkTenv { t_now : N; t_clock : clock; t_report : bool; t_time : option Z; t_provider : option (list annotated); t_inner : list (call * answer); t_pipe : V }.

(** Where a log ends: kept in the pre-config buffer, refused by it, or given to the pipeline. *)
Inductive fate := Kept | Dropped | Piped (es : list E).
(** What can be seen. *)
Inductive event :=
| Called (k : nat) (c : call) (a : answer) (** a call, with the channel's answer *)
| Guarded (c : call) (** a call refused because it comes from the provider, logger:148-154, 340-347 and 361-368 *)
| Taken (k : nat) (c : call) (t : tenv) (** the loop takes the message of call [k], alb:594 *)
| QualitySet (q : quality) (** somebody else tells the network quality *)
| Wrote (k : nat) (l : log) (h : fate) | WroteInternal (k : nat) (l : log) (h : fate) (** the log of call [k], or the log about it *)
| Failed (k : nat) (** the provider failed, alb:455-460 *)
| Replayed (l : log) (es : list E) | Ran (es : list E)
| Shot
| StatsAsked | StatsAnswered | BuffersAsked | BuffersAnswered | SessionSaved | Persisted
| Returned (k : nat) (** the caller of a blocking call continues *)
| Died. (** the loop panics *)

(** logging_state.rs lines 41-64. *)
Inductive lstate := Waiting (p : PreConfig_Model.pre log) | Ready (p : P).
(** Where the loop is: at the [select], in a flush (alb:619-630 or 631-641) or gone. *)
Inductive place := Idle | InStats (k : nat) (blocking : bool) | InBuffers (k : nat) (blocking : bool) | Gone.
(** alb:141-165 [AsyncLogBuffer], the channel and the number of the next call. *)
Record buf := mkBuf { b_next : nat; b_queue : list message; b_globals : list field; b_icept : icept; b_session : strategy; b_state : lstate; b_place : place }.

(** alb:167-240 and builder.rs lines 144-166. [now]: the monotonic clock. *)
Definition buf_new (max_count max_size : N) (now : N) (s : strategy) : buf :=
  mkBuf 0 [] [] (mkIcept report_new (Network_Model.new now) Unknown) s (Waiting (PreConfig_Model.pre_new max_count max_size)) Idle.

(** Update of one field, alb:141-165. *)
Definition with_state (b : buf) (s : lstate) : buf := mkBuf (b_next b) (b_queue b) (b_globals b) (b_icept b) (b_session b) s (b_place b).
(** Update of one field, alb:141-165. *)
Definition with_session (b : buf) (s : strategy) : buf := mkBuf (b_next b) (b_queue b) (b_globals b) (b_icept b) s (b_state b) (b_place b).
(** Update of one field, alb:141-165. *)
Definition with_globals (b : buf) (g : list field) : buf := mkBuf (b_next b) (b_queue b) g (b_icept b) (b_session b) (b_state b) (b_place b).
(** Update of one field, alb:141-165. *)
Definition with_icept (b : buf) (i : icept) : buf := mkBuf (b_next b) (b_queue b) (b_globals b) i (b_session b) (b_state b) (b_place b).
(** Update of one field, alb:141-165. *)
Definition with_place (b : buf) (p : place) : buf := mkBuf (b_next b) (b_queue b) (b_globals b) (b_icept b) (b_session b) (b_state b) p.
(** The channel gets another message or one is taken. *)
Definition with_queue (b : buf) (n : nat) (q : list message) : buf := mkBuf n q (b_globals b) (b_icept b) (b_session b) (b_state b) (b_place b).

(** Does the caller wait? alb:253-260 and 329-334. *)
Definition waits (c : call) : bool := match c with CLog _ b | CFlush b => b | CAdd _ | CRemove _ => false end.
(** The callers of these messages continue: their channels are dropped. *)
Definition release (q : list message) : list event := map (fun m => Returned (ms_id m)) (filter (fun m => waits (ms_call m)) q).
(** The caller being served continues. *)
Definition release_place (p : place) : list event := match p with InStats k true | InBuffers k true => [Returned k] | _ => [] end.
(** The loop ends and all it owns is dropped. *)
Definition gone (b : buf) : buf * list event := (with_place (with_queue b (b_next b) []) Gone, release_place (b_place b) ++ release (b_queue b)).

(** logger:117-156 and 329-376 with alb:243-352 up to the wait. A closed channel accepts nothing. *)
Definition do_call (b : buf) (c : call) (a : answer) : option (buf * list event) :=
  match b_place b, a with
  | Gone, Accepted => None
  | Gone, _ => Some (with_queue b (S (b_next b)) (b_queue b), [Called (b_next b) c a])
  | _, Closed => None
  | _, Accepted => Some (with_queue b (S (b_next b)) (b_queue b ++ [mkMessage (b_next b) c]), [Called (b_next b) c Accepted])
  | _, _ => Some (with_queue b (S (b_next b)) (b_queue b), [Called (b_next b) c a])
  end.

(** Calls made by the provider, inside the guard of logger:93-98. [flush_state] is not guarded (logger:372-376); if it has to wait (alb:340-341), tokio panics, as the
    provider runs inside the runtime. The last component: it panicked. *)
Fixpoint inner (b : buf) (l : list (call * answer)) : buf * list event * bool :=
  match l with
  | [] => (b, [], false)
  | (CFlush w, a) :: l =>
      let e := Called (b_next b) (CFlush w) a in
      match a with
      | Accepted =>
          let b := with_queue b (S (b_next b)) (b_queue b ++ [mkMessage (b_next b) (CFlush w)]) in
          if w then (b, [e], true) else let '(b, es, x) := inner b l in (b, e :: es, x)
      | _ => let '(b, es, x) := inner (with_queue b (S (b_next b)) (b_queue b)) l in (b, e :: es, x)
      end
  | (c, _) :: l => let '(b, es, x) := inner b l in (b, Guarded c :: es, x)
  end.

(** alb:465-506 [write_log]; [None]: the pipeline panics. *)
Definition write_log (b : buf) (l : log) (blocking : bool) (v : V) : option (buf * fate) :=
  match b_state b with
  | Waiting p => match PreConfig_Model.push size p l with
                 | (p, PreConfig_Model.PushOk) => Some (with_state b (Waiting p), Kept)
                 | (p, _) => Some (with_state b (Waiting p), Dropped)
                 end
  | Ready p => match p_log p l blocking v with Some (p, es) => Some (with_state b (Ready p), Piped es) | None => None end
  end.

(** The panic of the loop while it serves a call. *)
Definition dies (b : buf) (k : nat) (blocking : bool) (e : list event) : buf * list event :=
  let (b, r) := gone b in (b, e ++ Died :: (if blocking then [Returned k] else []) ++ r).

(** alb:354-463 [process_log], and 670-692 [write_log_internal]; the caller continues at the end: it is told so or its channel is dropped. *)
Definition process_log (b : buf) (k : nat) (l : line) (blocking : bool) (t : tenv) : buf * list event :=
  let r := if blocking then [Returned k] else [] in
  let '(b, ie, died) := inner b (t_inner t) in
  if died then dies b k blocking ie
  else
    match normalized_metadata (b_globals b) (t_time t) (t_provider t) (ln_fields l) (ln_matching l) (ln_type l) with
    | None => (b, ie ++ Failed k :: r)
    | Some m =>
        let write b l' internal :=
          match write_log b l' (blocking && negb internal) (t_pipe t) with
          | None => dies b k blocking ie
          | Some (b, h) => (b, ie ++ (if internal then WroteInternal k l' h else Wrote k l' h) :: r)
          end in
        match ln_override l with
        | Some (expected, occurred_at) =>
            if match previous_process_session_id (b_session b) with Some p => String.eqb expected p | None => false end then
              write b (mkLog (ln_level l) (ln_type l) (ln_message l) (m_fields m ++ [mkField "_logged_at" (VStr (show_time (m_time m)))]) (m_matching m) expected occurred_at) false
            else
              let (s, id) := session_id (b_session b) (t_clock t) in
              write (with_session b s)
                (mkLog 3 4 (VStr "failed to override log attributes, provided override attributes do not match expectations")
                   (m_fields m ++ [mkField "_original_session_id" (VStr id); mkField "_override_session_id" (VStr expected)]) (m_matching m) id (m_time m)) true
        | None =>
            let (s, id) := session_id (b_session b) (t_clock t) in
            write (with_session b s) (mkLog (ln_level l) (ln_type l) (ln_message l) (m_fields m) (m_matching m) id (m_time m)) false
        end
    end.

(** alb:618-631: the flush begins. *)
Definition begin_flush (b : buf) (k : nat) (blocking : bool) : buf * list event :=
  if has_stats then (with_place b (InStats k blocking), [StatsAsked]) else (with_place b (InBuffers k blocking), [BuffersAsked]).
(** alb:643-651: the end of the flush, when the buffers answered or cannot. *)
Definition end_flush (b : buf) (k : nat) (blocking : bool) : buf * list event :=
  let b := with_place (with_session b (session_flush (b_session b))) Idle in
  let (b, e) := match b_state b with Waiting _ => (b, []) | Ready p => (with_state b (Ready (p_persist p)), [Persisted]) end in
  (b, BuffersAnswered :: SessionSaved :: e ++ if blocking then [Returned k] else []).

(** alb:594-653: one message. *)
Definition take (b : buf) (t : tenv) : option (buf * list event) :=
  match b_place b, b_queue b with
  | Idle, m :: q =>
      let b := with_queue b (b_next b) q in
      match ms_call m with
      | CLog l blocking =>
          let '(i, l, shot) := intercept (t_report t) (t_now t) (b_icept b) l in
          let (b, e) := process_log (with_icept b i) (ms_id m) l blocking t in
          Some (b, Taken (ms_id m) (ms_call m) t :: (if shot then [Shot] else []) ++ e)
      | CAdd f => Some (with_globals b (fst (add_field (b_globals b) f)), [Taken (ms_id m) (ms_call m) t])
      | CRemove k => Some (with_globals b (remove_field (b_globals b) k), [Taken (ms_id m) (ms_call m) t])
      | CFlush blocking => let (b, e) := begin_flush b (ms_id m) blocking in Some (b, Taken (ms_id m) (ms_call m) t :: e)
      end
  | _, _ => None
  end.

(** alb:530-551 [maybe_replay_pre_config_buffer_logs]: nobody waits. *)
Fixpoint replay (p : P) (l : list log) (vs : nat -> V) : option (P * list event) :=
  match l with
  | [] => Some (p, [])
  | x :: l => match p_log p x false (vs 0) with
              | None => None
              | Some (p, es) => match replay p l (fun n => vs (S n)) with Some (p, e) => Some (p, Replayed x es :: e) | None => None end
              end
  end.
(** alb:508-528 [update] and alb:585-593. *)
Definition configure (b : buf) (c : C) (vs : nat -> V) : option (buf * list event) :=
  match b_place b with
  | Idle =>
      match b_state b with
      | Waiting p => match replay (p_new c) (PreConfig_Model.pop_all p) vs with
                     | Some (p, e) => Some (with_state b (Ready p), e)
                     | None => let (b, e) := gone b in Some (b, Died :: e)
                     end
      | Ready p => Some (with_state b (Ready (p_update p c)), [])
      end
  | _ => None
  end.

(** Who moves. *)
Inductive label :=
| Call (c : call) (a : answer) (** another thread, not inside the provider *)
| SetQuality (q : quality) (** api.rs, bd-network-quality *)
| NewSession (k : clock) (** logger:383-394 *)
| SessionId (k : clock) (** logger:379-381, and the other users of the strategy *)
| Config (c : C) (vs : nat -> V)
| Take (t : tenv)
| StatsDone (** the flusher answers or is gone, alb:621-629 *)
| BuffersDone (** the buffer manager answers or is gone, alb:631-641 *)
| Run (r : R) (** alb:655-656 *)
| Stop. (** alb:660-665; also the drop of the whole future, which can come while the loop waits *)

(** One step, alb:562-668. *)
Definition step (b : buf) (x : label) : option (buf * list event) :=
  match x with
  | Call c a => do_call b c a
  | SetQuality q => Some (with_icept b (mkIcept (i_report (b_icept b)) (i_traffic (b_icept b)) q), [QualitySet q])
  | NewSession k => Some (with_session b (start_new_session (b_session b) k), [])
  | SessionId k => Some (with_session b (fst (session_id (b_session b) k)), [])
  | Config c vs => configure b c vs
  | Take t => take b t
  | StatsDone => match b_place b with InStats k w => Some (with_place b (InBuffers k w), [StatsAnswered; BuffersAsked]) | _ => None end
  | BuffersDone => match b_place b with InBuffers k w => Some (end_flush b k w) | _ => None end
  | Run r => match b_place b, b_state b with
             | Idle, Ready p => match p_run p r with
                                | Some (p, es) => Some (with_state b (Ready p), [Ran es])
                                | None => let (b, e) := gone b in Some (b, Died :: e)
                                end
             | _, _ => None
             end
  | Stop => match b_place b with Gone => None | _ => Some (gone b) end
  end.

(** A history, with what was seen. *)
Fixpoint run (b : buf) (l : list label) : option (buf * list event) :=
  match l with
  | [] => Some (b, [])
  | x :: l => match step b x with
              | None => None
              | Some (b, e) => match run b l with Some (b, e') => Some (b, e ++ e') | None => None end
              end
  end.
End Buffer.
Arguments Waiting {P}. Arguments Ready {P}.
Arguments Kept {E}. Arguments Dropped {E}. Arguments Piped {E}.
Arguments mkBuf {P}. Arguments b_next {P}. Arguments b_queue {P}. Arguments b_globals {P}. Arguments b_icept {P}. Arguments b_session {P}. Arguments b_state {P}. Arguments b_place {P}.
Arguments with_state {P}. Arguments with_session {P}. Arguments with_globals {P}. Arguments with_icept {P}. Arguments with_place {P}. Arguments with_queue {P}. Arguments buf_new {P}.
Arguments mkTenv {V}. Arguments t_now {V}. Arguments t_clock {V}. Arguments t_report {V}. Arguments t_time {V}. Arguments t_provider {V}. Arguments t_inner {V}. Arguments t_pipe {V}.
Arguments Called {V E}. Arguments Guarded {V E}. Arguments Taken {V E}. Arguments QualitySet {V E}. Arguments Wrote {V E}. Arguments WroteInternal {V E}. Arguments Failed {V E}. Arguments Replayed {V E}. Arguments Ran {V E}.
Arguments Shot {V E}. Arguments StatsAsked {V E}. Arguments StatsAnswered {V E}. Arguments BuffersAsked {V E}. Arguments BuffersAnswered {V E}. Arguments SessionSaved {V E}. Arguments Persisted {V E}.
Arguments Returned {V E}. Arguments Died {V E}.
Arguments Call {C V R}. Arguments SetQuality {C V R}. Arguments NewSession {C V R}. Arguments SessionId {C V R}. Arguments Config {C V R}. Arguments Take {C V R}. Arguments StatsDone {C V R}.
Arguments BuffersDone {C V R}. Arguments Run {C V R}. Arguments Stop {C V R}.
