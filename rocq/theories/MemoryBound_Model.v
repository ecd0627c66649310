(** Model of bd-logger/src/memory_bound.rs: a channel bounded in count and in memory.

    Interleavings are at the granularity of the atomic operations: the [fetch_add], the [try_send] of the underlying tokio channel
    (taken as one atomic step on a bounded FIFO), the [fetch_sub], the [recv] of the tokio channel. The usage counter is an
    unbounded [N]; a [u64] wrap-around would need 2^64 bytes of messages in flight. The counters of lines 207-246 are left out. *)
From Verif Require Import Base.

Section Channel.
Variable T : Type.
(** [MemorySized::size] (bd-logger/src/size.rs); a message does not change its size while queued. *)
Variable size : T -> N.

(** Where a sender thread is inside [try_send] (lines 89-119). *)
Inductive pc :=
| Reserved (m : T)      (* memory reserved, about to call the tokio [try_send], line 97 *)
| VoidSize (m : T)      (* reservation exceeded the capacity, about to void it, line 143 *)
| VoidCount (m : T)     (* tokio channel full, about to void, line 115 *)
| VoidClosed (m : T).   (* tokio channel closed, about to void, line 107 *)

(** The message a call of [try_send] (lines 89-119) is about. *)
Definition pc_msg (p : pc) : T := match p with Reserved m | VoidSize m | VoidCount m | VoidClosed m => m end.

(** Lines 27-45 [channel], 81-85 [Sender], 181-184 [Receiver]. [ch_flight]: calls of [try_send] in progress, by thread; [ch_recv]: the item
    taken by [recv] whose memory is not released yet (between line 187 and line 191). *)
Record chan := mkChan { ch_queue : list T; ch_usage : N; ch_closed : bool; ch_flight : list (nat * pc); ch_recv : option T }.
(** Lines 27-45 [channel]. *)
Definition chan_new : chan := mkChan [] 0 false [] None.

(** Results seen by callers. *)
Inductive event := Accepted (t : nat) (m : T) | FullCount (t : nat) (m : T) | FullSize (t : nat) (m : T) | Closed (t : nat) (m : T) | Received (m : T).

(** Where a thread is (lines 89-119). *)
Fixpoint lookup (t : nat) (l : list (nat * pc)) : option pc :=
  match l with [] => None | (u, p) :: l' => if Nat.eqb u t then Some p else lookup t l' end.
(** A thread is through (lines 89-119). *)
Fixpoint remove (t : nat) (l : list (nat * pc)) : list (nat * pc) :=
  match l with [] => [] | (u, p) :: l' => if Nat.eqb u t then l' else (u, p) :: remove t l' end.

(** Atomic steps of the senders and of the receiver. *)
Inductive op := Start (t : nat) (m : T) | Continue (t : nat) | RecvTake | RecvRelease | CloseReceiver.

(** One atomic step of lines 89-164 or 186-205. *)
Definition step (count_cap mem_cap : N) (c : chan) (o : op) : chan * list event :=
  match o with
  | Start t m => (* lines 90-91, 121-145: fetch_add and the decision taken from its result *)
      match lookup t (ch_flight c) with
      | Some _ => (c, [])
      | None =>
          let post := (ch_usage c + size m)%N in
          let p := if (mem_cap <? post)%N then VoidSize m else Reserved m in
          (mkChan (ch_queue c) post (ch_closed c) ((t, p) :: ch_flight c) (ch_recv c), [])
      end
  | Continue t =>
      match lookup t (ch_flight c) with
      | None => (c, [])
      | Some (Reserved m) => (* line 97 *)
          let fl := remove t (ch_flight c) in
          if ch_closed c then (mkChan (ch_queue c) (ch_usage c) true ((t, VoidClosed m) :: fl) (ch_recv c), [])
          else if (count_cap <=? N.of_nat (length (ch_queue c)))%N
          then (mkChan (ch_queue c) (ch_usage c) false ((t, VoidCount m) :: fl) (ch_recv c), [])
          else (mkChan (ch_queue c ++ [m]) (ch_usage c) false fl (ch_recv c), [Accepted t m])
      | Some (VoidSize m) => (* lines 143-144, 95 and 158-163 *)
          (mkChan (ch_queue c) (ch_usage c - size m) (ch_closed c) (remove t (ch_flight c)) (ch_recv c), [FullSize t m])
      | Some (VoidCount m) => (* lines 115-116 *)
          (mkChan (ch_queue c) (ch_usage c - size m) (ch_closed c) (remove t (ch_flight c)) (ch_recv c), [FullCount t m])
      | Some (VoidClosed m) => (* lines 107-108 *)
          (mkChan (ch_queue c) (ch_usage c - size m) (ch_closed c) (remove t (ch_flight c)) (ch_recv c), [Closed t m])
      end
  | RecvTake => (* line 187 *)
      match ch_recv c, ch_closed c, ch_queue c with
      | None, false, m :: q => (mkChan q (ch_usage c) false (ch_flight c) (Some m), [])
      | _, _, _ => (c, [])
      end
  | RecvRelease => (* lines 189-199 *)
      match ch_recv c with
      | Some m => (mkChan (ch_queue c) (ch_usage c - size m) (ch_closed c) (ch_flight c) None, [Received m])
      | None => (c, [])
      end
  | CloseReceiver => (* dropping the receiver drops the queued messages *)
      match ch_recv c with
      | None => (mkChan [] (ch_usage c) true (ch_flight c) None, [])
      | Some _ => (c, [])
      end
  end.

(** A history of atomic steps of lines 89-164 and 186-205. *)
Fixpoint run (count_cap mem_cap : N) (c : chan) (l : list op) : chan * list event :=
  match l with
  | [] => (c, [])
  | o :: l' => let (c1, e1) := step count_cap mem_cap c o in let (c2, e2) := run count_cap mem_cap c1 l' in (c2, e1 ++ e2)
  end.

End Channel.
Arguments Reserved {T}. Arguments VoidSize {T}. Arguments VoidCount {T}. Arguments VoidClosed {T}. Arguments pc_msg {T}.
Arguments ch_queue {T}. Arguments ch_usage {T}. Arguments ch_closed {T}. Arguments ch_flight {T}. Arguments ch_recv {T}.
Arguments mkChan {T}. Arguments chan_new {T}.
Arguments Accepted {T}. Arguments FullCount {T}. Arguments FullSize {T}. Arguments Closed {T}. Arguments Received {T}.
Arguments Start {T}. Arguments Continue {T}. Arguments RecvTake {T}. Arguments RecvRelease {T}. Arguments CloseReceiver {T}.
Arguments lookup {T}. Arguments remove {T}. Arguments step {T}. Arguments run {T}.
