(** Model of bd-hyper-network/src/lib.rs (the network task) together with the task that uses it, bd-api/src/api.rs lines 577-765 and 917-992
    (the loop of [maintain_active_stream] reduced to what it does with the network: starting streams, sending blocks, receiving events,
    giving a stream up). The URI and the headers are taken to be legal ones (line 276).

    The two tasks run at once; each label of [step] is one step of one of them, of the HTTP transport, or the shutdown signal, so a list of
    labels is one scheduling. A label that does not apply in a state gives [None]. What the API task makes of a received block (decoding and
    handling the responses) is part of the label: the codec and the handling are modelled in Grpc_Model and Api_Model. Blocks of bytes are of
    any type [B]. Streams are numbered in the order in which they were started. *)
From Verif Require Import Base.

Section Hyper.
Variable B : Type.

(** Why the network closes a stream, lines 152-154, 164-166, 178-180, 240-242, 256-262. *)
Inductive why := WConnect | WStatus | WGrpc | WUpstreamClose | WUpstreamClosed.

(** bd-api/src/lib.rs lines 164-171 [StreamEvent]: what the network tells the API. *)
Inductive event := EData (b : B) | EClosed (w : why).

(** Lines 44-48 [StreamEvent]: what goes through the channel of the handle. [MStart k]: start stream [k] (the event sender it carries is the
    one of stream [k]). *)
Inductive msg := MStart (k : nat) | MData (b : B).

(** The network task: where it is in [start] (lines 99-134) and [process_stream] (lines 136-222). *)
Inductive net :=
| NIdle (* lines 111-123: waits for a start *)
| NConnecting (k : nat) (* line 147 *)
| NStream (k : nat) (* lines 184-198: the select *)
| NBody (k : nat) (b : B) (* lines 233-236: hands a block to the request body *)
| NEvent (k : nat) (b : B) (* lines 208-215: hands a block to the API *)
| NClose (k : nat) (w : why) (* lines 129-132 *)
| NDone (* the task has returned *)
| NPanicked. (* line 231 *)

(** The API task. [ASend m rest next]: waits in [start_stream] (lines 295-299) or [send_data] (lines 312-316) with [m], then sends [rest], then
    goes on as [next]. *)
Inductive api :=
| ATop (* api.rs lines 598-646 *)
| ASend (m : msg) (rest : list msg) (next : api)
| AWait (* api.rs lines 921-928 *)
| AMain (* api.rs lines 720-741 *)
| ABackoff (* api.rs lines 555-569 *)
| AKilled (* api.rs lines 612-616 *)
| ADone (* the task has returned; its handles are dropped *)
| APanicked. (* the [unwrap] of lines 299 and 316 *)

(** Both tasks with everything between them: line 84 and api.rs line 648 (channels), line 268 (request body). *)
Record st := {
  s_net : net;
  s_api : api;
  s_chan : list msg; (* the channel of the handle, line 84: capacity 1 *)
  s_count : nat; (* streams created so far by the API task *)
  s_rx : option (list event); (* the event channel of the last stream created, if its receiver still exists; api.rs line 648: capacity 16 *)
  s_body : list B; (* the request body of the stream the network is on, line 268: capacity 1 *)
  s_open : bool; (* the transport still reads that body *)
  s_shutdown : bool }.

(** Line 84. *)
Definition CHAN_CAP := 1.
(** Line 268. *)
Definition BODY_CAP := 1.
(** api.rs line 648. *)
Definition EVENT_CAP := 16.

(** Both tasks at their start. *)
Definition init : st := {| s_net := NIdle; s_api := ATop; s_chan := []; s_count := 0; s_rx := None; s_body := []; s_open := false; s_shutdown := false |}.

(** Updates of one part of the state (the tasks of lines 99-222 and api.rs lines 577-765). *)
Definition set_net s n := {| s_net := n; s_api := s_api s; s_chan := s_chan s; s_count := s_count s; s_rx := s_rx s; s_body := s_body s; s_open := s_open s; s_shutdown := s_shutdown s |}.
(** The same for the API task. *)
Definition set_api s a := {| s_net := s_net s; s_api := a; s_chan := s_chan s; s_count := s_count s; s_rx := s_rx s; s_body := s_body s; s_open := s_open s; s_shutdown := s_shutdown s |}.
(** The same for the channel of the handle, line 84. *)
Definition set_chan s c := {| s_net := s_net s; s_api := s_api s; s_chan := c; s_count := s_count s; s_rx := s_rx s; s_body := s_body s; s_open := s_open s; s_shutdown := s_shutdown s |}.
(** The same for the event channel, api.rs line 648. *)
Definition set_rx s r := {| s_net := s_net s; s_api := s_api s; s_chan := s_chan s; s_count := s_count s; s_rx := r; s_body := s_body s; s_open := s_open s; s_shutdown := s_shutdown s |}.
(** The same for the request body, line 268. *)
Definition set_body s b o := {| s_net := s_net s; s_api := s_api s; s_chan := s_chan s; s_count := s_count s; s_rx := s_rx s; s_body := b; s_open := o; s_shutdown := s_shutdown s |}.

(** What can be observed. *)
Inductive item :=
| OStart (k : nat) (* [start_stream] returned *)
| OSent (k : nat) (b : B) (* [send_data] returned on stream [k] *)
| OWire (k : nat) (b : B) (* the transport took the block from the request of stream [k] *)
| OFrame (k : nat) (b : B) (* a frame of the response of stream [k] arrived *)
| OEvent (k : nat) (e : event). (* the API task received the event of stream [k] *)

(** What comes out of [client.request], lines 147-182. *)
Inductive response := RFail | RBadStatus | RBadGrpc | ROk.

(** What the API task makes of a block (api.rs lines 930-986 while waiting for the handshake, lines 743-746 afterwards). *)
Inductive decoded :=
| DNothing (* no complete message *)
| DHandled (acks : list B) (* handshake / responses; [acks]: the requests sent in return *)
| DErrorShutdown (* before the handshake, api.rs lines 955-983; afterwards it is only counted, lines 780-787: [DHandled] *)
| DUnauthenticated (* before the handshake, api.rs line 966 *)
| DFail. (* an error: the task ends (the acknowledgements sent before it was found are left out) *)

(** The moves of the tasks, lines 99-243 and api.rs lines 577-765, of the transport and of the one who gives the shutdown signal. *)
Inductive label :=
| LShutdown (* the shutdown signal is given *)
(* network task *)
| LRecv (* receives from the channel of the handle *)
| LHung (* finds that channel closed *)
| LStop (* takes the shutdown branch of a select *)
| LResponse (r : response)
| LFrame (b : B) (* a data frame of the response *)
| LEnd (* end of the response, an error, or trailers *)
| LGive (* the pending send into the request body gets its turn *)
| LTell (* the pending send into the event channel gets its turn *)
(* transport *)
| LTake (* reads a block of the request body *)
| LHangUp (* stops reading the request body *)
(* API task *)
| LStart (b : B) (* api.rs lines 647-663; [b]: the handshake request *)
| LPut (* the pending send into the channel of the handle gets its turn *)
| LGet (d : decoded) (quick : bool) (* receives an event; [quick]: the stream lived for more than a minute, api.rs lines 752-754 *)
| LUpload (b : B) (* an upload or a ping, api.rs lines 729-737 *)
| LAgain (* the backoff is over *)
| LLeave. (* takes the shutdown branch *)

(** The channel of the handle is closed for the network when the API task is gone, lines 121, 189. *)
Definition hung_up (a : api) : bool := match a with ADone | APanicked => true | _ => false end.
(** It is closed for the API task when the network task is gone, lines 299, 316. *)
Definition net_gone (n : net) : bool := match n with NDone | NPanicked => true | _ => false end.

(** The event receiver of stream [k]: it exists as long as the API task is on that stream. *)
Definition events_of (s : st) (k : nat) : option (list event) := if Nat.eqb (s_count s) (S k) then s_rx s else None.

(** [event_tx.send(e).await] of stream [k], lines 129 and 209-212: [None] while it has to wait; [Some None]: the receiver is gone. *)
Definition tell (s : st) (k : nat) (e : event) : option (option st) :=
  match events_of s k with
  | None => Some None
  | Some q => if Nat.ltb (length q) EVENT_CAP then Some (Some (set_rx s (Some (q ++ [e])))) else None
  end.

(** The request, its body and the response are dropped when [process_stream] returns, lines 136-222. *)
Definition drop_request (s : st) : st := set_body s [] false.

(** The stream of the block that is in the channel: the last one started before it. *)
Definition stream_of (s : st) : nat := pred (s_count s).

(** [ASend] of a list of messages. *)
Definition sending (ms : list msg) (next : api) : api := match ms with [] => next | m :: rest => ASend m rest next end.

(** One step of one of the tasks. *)
Definition step (s : st) (l : label) : option (st * list item) :=
  match l with
  | LShutdown => Some ({| s_net := s_net s; s_api := s_api s; s_chan := s_chan s; s_count := s_count s; s_rx := s_rx s; s_body := s_body s;
                          s_open := s_open s; s_shutdown := true |}, [])
  | LRecv =>
      match s_net s, s_chan s with
      | NIdle, MStart k :: c => Some (set_body (set_net (set_chan s c) (NConnecting k)) [] true, []) (* lines 118, 144-147, 267-277 *)
      | NIdle, MData _ :: c => Some (set_chan s c, []) (* line 119 *)
      | NStream k, MStart _ :: c => Some (set_net (set_chan s c) NPanicked, []) (* line 231 *)
      | NStream k, MData b :: c => Some (set_net (set_chan s c) (NBody k b), []) (* lines 187-190 *)
      | _, _ => None
      end
  | LHung =>
      match s_net s, s_chan s, hung_up (s_api s) with
      | NIdle, [], true => Some (set_net s NDone, []) (* line 121 *)
      | NStream _, [], true => Some (drop_request (set_net s NDone), []) (* lines 189, 125-127 *)
      | _, _, _ => None
      end
  | LStop =>
      match s_net s, s_shutdown s with
      | NIdle, true => Some (set_net s NDone, []) (* line 114 *)
      | NStream _, true => Some (drop_request (set_net s NDone), []) (* lines 194-197, 125-127 *)
      | _, _ => None
      end
  | LResponse r =>
      match s_net s with
      | NConnecting k =>
          match r with
          | RFail => Some (drop_request (set_net s (NClose k WConnect)), []) (* lines 149-155 *)
          | RBadStatus => Some (drop_request (set_net s (NClose k WStatus)), []) (* lines 158-167 *)
          | RBadGrpc => Some (drop_request (set_net s (NClose k WGrpc)), []) (* lines 169-182 *)
          | ROk => Some (set_net s (NStream k), [])
          end
      | _ => None
      end
  | LFrame b =>
      match s_net s with
      | NStream k => Some (set_net s (NEvent k b), [OFrame k b]) (* lines 191-193, 264 *)
      | _ => None
      end
  | LEnd =>
      match s_net s with
      | NStream k => Some (drop_request (set_net s (NClose k WUpstreamClosed)), []) (* lines 256-262, 217-219 *)
      | _ => None
      end
  | LGive =>
      match s_net s with
      | NBody k b =>
          if s_open s then
            if Nat.ltb (length (s_body s)) BODY_CAP then Some (set_net (set_body s (s_body s ++ [b]) true) (NStream k), []) else None
          else Some (drop_request (set_net s (NClose k WUpstreamClose)), []) (* lines 236-243, 217-219 *)
      | _ => None
      end
  | LTell =>
      match s_net s with
      | NEvent k b =>
          match tell s k (EData b) with
          | None => None
          | Some None => Some (drop_request (set_net s NDone), []) (* lines 212-215, 125-127: the task returns *)
          | Some (Some s') => Some (set_net s' (NStream k), [])
          end
      | NClose k w =>
          match tell s k (EClosed w) with
          | None => None
          | Some None => Some (set_net s NDone, []) (* lines 129-132 *)
          | Some (Some s') => Some (set_net s' NIdle, [])
          end
      | _ => None
      end
  | LTake =>
      match s_net s, s_open s, s_body s with
      | NConnecting k, true, b :: q | NStream k, true, b :: q | NBody k _, true, b :: q | NEvent k _, true, b :: q => Some (set_body s q true, [OWire k b])
      | _, _, _ => None
      end
  | LHangUp => Some (set_body s [] false, [])
  | LStart b =>
      match s_api s with
      | ATop => Some (set_api {| s_net := s_net s; s_api := s_api s; s_chan := s_chan s; s_count := S (s_count s); s_rx := Some []; s_body := s_body s;
                                 s_open := s_open s; s_shutdown := s_shutdown s |} (ASend (MStart (s_count s)) [MData b] AWait), [])
      | _ => None
      end
  | LPut =>
      match s_api s with
      | ASend m rest next =>
          if net_gone (s_net s) then Some (set_rx (set_api s APanicked) None, []) (* lines 299, 316 *)
          else if Nat.ltb (length (s_chan s)) CHAN_CAP then
            Some (set_api (set_chan s (s_chan s ++ [m])) (sending rest next),
                  [match m with MStart k => OStart k | MData b => OSent (stream_of s) b end])
          else None
      | _ => None
      end
  | LGet d quick =>
      match s_rx s with
      | Some (e :: q) =>
          let s1 := set_rx s (Some q) in
          let out := [OEvent (stream_of s) e] in
          match s_api s, e, d with
          | AWait, EData _, DNothing => Some (s1, out) (* api.rs lines 932-935 *)
          | AWait, EData _, DHandled acks => Some (set_api s1 (sending (map MData acks) AMain), out) (* api.rs lines 947-953, 671-678 *)
          | AWait, EData _, DErrorShutdown => Some (set_api s1 ABackoff, out) (* api.rs lines 980-983, 682-687 *)
          | AWait, EData _, DUnauthenticated => Some (set_rx (set_api s1 AKilled) None, out) (* api.rs lines 966, 693-702 *)
          | AWait, EData _, DFail => Some (set_rx (set_api s1 ADone) None, out) (* api.rs lines 931, 984 *)
          | AWait, EClosed _, _ => Some (set_api s1 ABackoff, out) (* api.rs lines 989, 680-687 *)
          | AMain, EData _, DNothing => Some (s1, out)
          | AMain, EData _, DHandled acks => Some (set_api s1 (sending (map MData acks) AMain), out) (* api.rs lines 744-746 *)
          | AMain, EData _, DFail => Some (set_rx (set_api s1 ADone) None, out)
          | AMain, EClosed _, _ => if quick then Some (set_rx (set_api s1 ATop) None, out) else Some (set_api s1 ABackoff, out) (* api.rs lines 747-760 *)
          | _, _, _ => None
          end
      | _ => None
      end
  | LUpload b =>
      match s_api s with
      | AMain => Some (set_api s (ASend (MData b) [] AMain), []) (* api.rs lines 729-737 *)
      | _ => None
      end
  | LAgain =>
      match s_api s with
      | ABackoff => Some (set_rx (set_api s ATop) None, []) (* api.rs lines 685, 759: the stream state is dropped *)
      | _ => None
      end
  | LLeave =>
      match s_api s, s_shutdown s with
      | AWait, true | AMain, true | ABackoff, true | AKilled, true => Some (set_rx (set_api s ADone) None, []) (* api.rs lines 614, 564-566, 724-727, 923-926 *)
      | _, _ => None
      end
  end.

(** A run: the observations of a list of labels; [None] if one does not apply. *)
Fixpoint run (s : st) (ls : list label) : option (st * list item) :=
  match ls with
  | [] => Some (s, [])
  | l :: ls' =>
      match step s l with
      | None => None
      | Some (s1, o1) => match run s1 ls' with None => None | Some (s2, o2) => Some (s2, o1 ++ o2) end
      end
  end.
End Hyper.
Arguments EData {B}. Arguments EClosed {B}. Arguments MStart {B}. Arguments MData {B}.
Arguments NIdle {B}. Arguments NConnecting {B}. Arguments NStream {B}. Arguments NBody {B}. Arguments NEvent {B}. Arguments NClose {B}. Arguments NDone {B}. Arguments NPanicked {B}.
Arguments ATop {B}. Arguments ASend {B}. Arguments AWait {B}. Arguments AMain {B}. Arguments ABackoff {B}. Arguments AKilled {B}. Arguments ADone {B}. Arguments APanicked {B}.
Arguments s_net {B}. Arguments s_api {B}. Arguments s_chan {B}. Arguments s_count {B}. Arguments s_rx {B}. Arguments s_body {B}. Arguments s_open {B}. Arguments s_shutdown {B}.
Arguments init {B}. Arguments set_net {B}. Arguments set_api {B}. Arguments set_chan {B}. Arguments set_rx {B}. Arguments set_body {B}.
Arguments OStart {B}. Arguments OSent {B}. Arguments OWire {B}. Arguments OFrame {B}. Arguments OEvent {B}.
Arguments DNothing {B}. Arguments DHandled {B}. Arguments DErrorShutdown {B}. Arguments DUnauthenticated {B}. Arguments DFail {B}.
Arguments LShutdown {B}. Arguments LRecv {B}. Arguments LHung {B}. Arguments LStop {B}. Arguments LResponse {B}. Arguments LFrame {B}. Arguments LEnd {B}. Arguments LGive {B}.
Arguments LTell {B}. Arguments LTake {B}. Arguments LHangUp {B}. Arguments LStart {B}. Arguments LPut {B}. Arguments LGet {B}. Arguments LUpload {B}. Arguments LAgain {B}. Arguments LLeave {B}.
Arguments hung_up {B}. Arguments net_gone {B}. Arguments events_of {B}. Arguments tell {B}. Arguments drop_request {B}. Arguments stream_of {B}. Arguments sending {B}.
Arguments step {B}. Arguments run {B}.
