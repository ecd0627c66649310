(** Vocabulary for Parts_Props.v: what is seen of the calls, and what the moves made so far say about the channels. *)
From Verif Require Import Base Parts_Model.

Definition accepted (es : list event) : list call := flat_map (fun e => match e with Accepted c => [c] | _ => [] end) es.
Definition taken (es : list event) : list call := flat_map (fun e => match e with Taken c => [c] | _ => [] end) es.
Definition returned (es : list event) : list call := flat_map (fun e => match e with Returned c => [c] | _ => [] end) es.
Definition refused (es : list event) : list call := flat_map (fun e => match e with Refused c => [c] | _ => [] end) es.
(** The calls whose callers wait. *)
Definition waiting (c : call) : bool := match c_ask c with Log true | Flush true => true | _ => false end.
(** All calls accepted were taken, in order, and all callers that wait were answered, in order. *)
Definition settled (es : list event) : Prop := taken es = accepted es /\ returned es = filter waiting (accepted es).

(** Moves the SDK makes by itself: nothing comes from the application or the network. *)
Definition own (m : move) : Prop := match m with TakeCall _ | TakeConfig | BuffersDone true | StatsDone | Put | Fetch | HandOver => True | _ => False end.
(** Moves it makes by itself when it was asked to shut down. *)
Definition closing (m : move) : Prop := own m \/ m = ConnStops \/ m = StatsStop \/ m = LoopStops.
(** By its own moves the SDK can deal with all calls accepted so far. *)
Definition settles (cap : nat) (p : parts) (es : list event) : Prop := exists ms p' es', Forall own ms /\ move_run cap p ms = Some (p', es') /\ settled (es ++ es').

(** * What the moves say *)
(** An upload is in the channel of the connection. *)
Fixpoint channel_full (b : bool) (ms : list move) : bool :=
  match ms with [] => b | Put :: ms | OtherPut :: ms => channel_full true ms | Fetch :: ms | ConnStops :: ms => channel_full false ms | _ :: ms => channel_full b ms end.
(** The statistics are to be uploaded and were not yet put in that channel. *)
Fixpoint stats_wait (b : bool) (ms : list move) : bool :=
  match ms with [] => b | Upload :: ms | Answer true :: ms => stats_wait true ms | Put :: ms => stats_wait false ms | _ :: ms => stats_wait b ms end.
(** The connection is established. *)
Fixpoint linked (b : bool) (ms : list move) : bool :=
  match ms with [] => b | Connect :: ms => linked true ms | Disconnect :: ms => linked false ms | _ :: ms => linked b ms end.
(** A configuration came and was not yet put in its channel. *)
Fixpoint conf_wait (b : bool) (ms : list move) : bool :=
  match ms with [] => b | ConfigIn :: ms => conf_wait true ms | HandOver :: ms => conf_wait false ms | _ :: ms => conf_wait b ms end.
(** A configuration is in its channel. *)
Fixpoint conf_full (b : bool) (ms : list move) : bool :=
  match ms with [] => b | HandOver :: ms => conf_full true ms | TakeConfig :: ms => conf_full false ms | _ :: ms => conf_full b ms end.
(** The statistics wait for room, and the connection does not make any: it is not established, or it waits for the log loop. *)
Definition cycle (ms : list move) : bool := channel_full false ms && stats_wait false ms && conf_wait false ms && conf_full false ms.
Definition jammed (ms : list move) : bool := channel_full false ms && stats_wait false ms && negb (linked false ms) || cycle ms.

(** Calls that need no other part: logs that do not block, and fields. *)
Definition quiet (m : move) : Prop := match m with Call c => match c_ask c with Log false | Field => True | _ => False end | _ => True end.
(** No call is taken and no caller is answered, whatever moves are made, as long as none of [back] is among them. *)
Definition frozen (cap : nat) (back : move -> Prop) (p : parts) : Prop :=
  forall ms p' es, Forall (fun m => ~ back m) ms -> move_run cap p ms = Some (p', es) -> taken es = [] /\ returned es = [] /\ p_loop p' <> LEnded.
(** All parts have ended. *)
Definition over (p : parts) : Prop := p_loop p = LEnded /\ p_flusher p = FEnded /\ p_conn p = CEnded.
