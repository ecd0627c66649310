(** Model of bd-buffer/src/buffer/aggregate_ring_buffer.rs ("aggregate" below): a volatile buffer in front of a non-volatile one, and the thread that
    moves records from the first to the second. It drives the models of the two buffers; the results of the calls it makes are part of the trace.

    - The callers, the flush thread and the caller of [shutdown] are scheduled freely; every call on one of the buffers is one step.
    - A call that waits on a condition variable reports [WouldBlock] (reading, reserving) or a wait ([wait_for_drain]). The thread waiting in [reserve]
      goes on only after it was signalled ([g_wake]), [shutdown] waiting in [flush] only when a finished read releases it. A blocked read is tried again at
      any time.
    - [shutdown] is modelled for its first caller; later callers return at once (aggregate:247-249). [Drop] (aggregate:204-209) calls [shutdown] and
      waits for the thread. *)
From Verif Require Import Base Ring_Model Volatile_Model Nonvolatile_Model.
Open Scope Z_scope.

(** Position of the flush thread in aggregate:54-112. [FReserved]: it holds the slice of the non-volatile buffer; [FCopied]: it was filled. *)
Inductive fpos := FNew | FNew2 | FLoop | FRead | FReserve (size : Z) | FWait | FReserved | FCopied | FFinish | FExit | FExit2 | FDone.

(** Position of the caller of [shutdown] in aggregate:240-276. *)
Inductive spos := SIdle | SAwait | SFlush | SWaiting | SStop | SVolatile | SNonVolatile | SDone.

(** aggregate:43-51 [SharedData] and aggregate:124-128 [RingBufferImpl]; [g_handles] are the lock handles handed out by [lock]; [g_wake]: the
    thread waiting in [reserve] was signalled. *)
Record agg := mkG { g_v : vbuf; g_n : nbuf; g_pos : fpos; g_shut : spos; g_stop : bool; g_handles : nat; g_wake : bool }.
(** Update of one field of the state, aggregate:43-51 and 124-128. *)
Definition g_set_v v g := mkG v (g_n g) (g_pos g) (g_shut g) (g_stop g) (g_handles g) (g_wake g).
(** Update of one field of the state, aggregate:43-51 and 124-128. *)
Definition g_set_n n g := mkG (g_v g) n (g_pos g) (g_shut g) (g_stop g) (g_handles g) (g_wake g).
(** Update of one field of the state, aggregate:43-51 and 124-128. *)
Definition g_set_pos p g := mkG (g_v g) (g_n g) p (g_shut g) (g_stop g) (g_handles g) (g_wake g).
(** Update of one field of the state, aggregate:43-51 and 124-128. *)
Definition g_set_shut p g := mkG (g_v g) (g_n g) (g_pos g) p (g_stop g) (g_handles g) (g_wake g).
(** Update of one field of the state, aggregate:43-51 and 124-128. *)
Definition g_set_stop b g := mkG (g_v g) (g_n g) (g_pos g) (g_shut g) b (g_handles g) (g_wake g).
(** Update of one field of the state, aggregate:43-51 and 124-128. *)
Definition g_set_handles h g := mkG (g_v g) (g_n g) (g_pos g) (g_shut g) (g_stop g) h (g_wake g).
(** Update of one field of the state, aggregate:43-51 and 124-128. *)
Definition g_set_wake b g := mkG (g_v g) (g_n g) (g_pos g) (g_shut g) (g_stop g) (g_handles g) b.

(** A call made on one of the two buffers, with its result. *)
Inductive call := VCall (o : vop) (out : vout) | NCall (o : nop) (out : nout).

Section Checksums.
Variable rcrc : list Z -> Z.
Variable hcrc : Z -> option Z -> option Z -> option Z -> Z.

(** A call on the volatile buffer: aggregate:54-112 and 228-281. *)
Definition on_v (g : agg) (o : vop) : agg * vout := let (v, out) := v_step (g_v g) o in (g_set_v v g, out).
(** A call on the non-volatile buffer: aggregate:54-112 and 212-226. *)
Definition on_n (g : agg) (o : nop) : agg * nout := let (n, out) := n_step rcrc hcrc (g_n g) o in (g_set_n n g, out).

(** aggregate:131-196 [RingBufferImpl::new]: the sizes are checked, the file is opened; [mem] is the uninitialised memory. *)
Definition g_new (f : option file) (mem : Z -> Z) (vsize nsize : Z) (ow : overwrite) (check : bool) (st : stats) : res agg :=
  if (nsize <? header_size) || (nsize - header_size <? vsize) then Err InvalidArgument
  else
    match n_open hcrc f nsize ow true check st with
    | Ok n => Ok (mkG (v_new mem vsize) n FNew SIdle false 0 false)
    | Err e => Err e
    | Panic => Panic
    end.

(** Does the call signal a thread waiting in [reserve]? The end of a read does (non_volatile_ring_buffer.rs:421 and 590, common_ring_buffer.rs:641), a
    shutdown does (non_volatile_ring_buffer.rs:972, common_ring_buffer.rs:871), and if it waits for room also a read that removes a record with a wrong checksum
    (common_ring_buffer.rs:641). Dropping a consumer (non_volatile_ring_buffer.rs:427-437, 595-606) does not. *)
Definition signals (n n' : nbuf) (o : nop) (out : nout) : bool :=
  match o, out with
  | NFinishRead, NFin (Ok _) | NAdvance, NFin (Ok _) | NShutdown, _ => true
  | NStartRead _, _ =>
      match n_wait n with
      | Some w => w_second w && (s_records_corrupted (c_stats (n_c n)) <? s_records_corrupted (c_stats (n_c n')))
      | None => false
      end
  | _, _ => false
  end.
(** The same, with the signal of the condition variable, common_ring_buffer.rs:641. *)
Definition on_n_signal (g : agg) (o : nop) : agg * nout :=
  let (n, out) := n_step rcrc hcrc (g_n g) o in (g_set_wake (g_wake g || signals (g_n g) n o out) (g_set_n n g), out).

(** aggregate:81-104: the outcome of [reserve] in the non-volatile buffer. *)
Definition reserved (g : agg) (r : res range) : agg :=
  match r with
  | Ok _ => g_set_pos FReserved g
  | Err WouldBlock => g_set_wake false (g_set_pos FWait g)
  | Err Unavailable => g_set_pos FFinish g
  | _ => g_set_pos FExit g
  end.

(** One step of the flush thread (aggregate:54-112). The consumer and the producer are dropped when the function ends. The copy (aggregate:86) is one
    step: both slices are in the thread's hands. The [unwrap] of lines 87 and 109 do not fail (see [C80_records]); a failure would end the thread. *)
Definition thread_step (g : agg) : agg * list call :=
  match g_pos g with
  | FNew => let (g, out) := on_v g VRegisterConsumer in
      (match out with ORes (Ok _) => g_set_pos FNew2 g | _ => g_set_pos FDone g end, [VCall VRegisterConsumer out])
  | FNew2 => let (g, out) := on_n g NRegisterProducer in
      (match out with NRes (Ok _) => g_set_pos FLoop g | _ => g_set_pos FDone g end, [NCall NRegisterProducer out])
  | FLoop => (g_set_pos (if g_stop g then FExit else FRead) g, [])
  | FRead => let (g, out) := on_v g (VStartRead true) in
      (match out with
       | ORange (Ok r) => g_set_pos (FReserve (r_size r)) g
       | ORange (Err WouldBlock) => g
       | _ => g_set_pos FExit g
       end, [VCall (VStartRead true) out])
  | FReserve size => let (g, out) := on_n g (NReserve size true) in
      (match out with NRange r => reserved g r | _ => g_set_pos FExit g end, [NCall (NReserve size true) out])
  | FWait =>
      if g_wake g then
        let (g, out) := on_n g NResume in
        (match out with NRange r => reserved g r | _ => g_set_pos FExit g end, [NCall NResume out])
      else (g, [])
  | FReserved => let (g, out) := on_v g VPeek in
      match out with
      | OBytes (Some bs) => let (g, out') := on_n g (NWrite 0 bs) in (g_set_pos FCopied g, [VCall VPeek out; NCall (NWrite 0 bs) out'])
      | _ => (g_set_pos FExit g, [VCall VPeek out])
      end
  | FCopied => let (g, out) := on_n g NCommit in
      (match out with NRes (Ok _) => g_set_pos FFinish g | _ => g_set_pos FExit g end, [NCall NCommit out])
  | FFinish => let (g, out) := on_v g VFinishRead in
      (match out with
       | OFin (Ok b) =>
           (* a waiting [flush] of [shutdown] is released with the others *)
           let g := if b then match g_shut g with SWaiting => g_set_shut SStop g | _ => g end else g in
           g_set_pos FLoop g
       | _ => g_set_pos FExit g
       end, [VCall VFinishRead out])
  | FExit => let (g, out) := on_n g NDropProducer in (g_set_pos FExit2 g, [NCall NDropProducer out])
  | FExit2 => let (g, out) := on_v g VDropConsumer in (g_set_pos FDone g, [VCall VDropConsumer out])
  | FDone => (g, [])
  end.

(** One step of [shutdown] (aggregate:240-276). *)
Definition shutdown_step (g : agg) : agg * list call :=
  match g_shut g with
  | SIdle => let (g, out) := on_v g VLock in (g_set_shut SAwait g, [VCall VLock out])
  | SAwait =>
      if v_must_await_reservations (g_v g) then (g, [])
      else (g_set_shut (match c_ow (n_c (g_n g)) with OYes => SFlush | OBlock => SStop end) g, [])
  | SFlush => let (g, out) := on_v g VWaitForDrain in
      (g_set_shut (match out with OWait true => SWaiting | _ => SStop end) g, [VCall VWaitForDrain out])
  | SWaiting => (g, [])
  | SStop => (g_set_shut SVolatile (g_set_stop true g), [])
  | SVolatile => let (g, out) := on_v g VShutdown in (g_set_shut SNonVolatile g, [VCall VShutdown out])
  | SNonVolatile => let (g, out) := on_n_signal g NShutdown in (g_set_shut SDone g, [NCall NShutdown out])
  | SDone => (g, [])
  end.

(** What callers may do: calls on a producer handle (aggregate:228-230: of the volatile buffer), on a consumer or cursor (aggregate:212-226: of the
    non-volatile buffer), [wait_for_drain] (aggregate:232-234), [flush] (aggregate:236-238), [lock] and the drop of a handle (aggregate:278-280). *)
Definition producer_call (o : vop) : bool :=
  match o with VReserve _ _ _ | VWrite _ _ _ | VCommit _ | VDropProducer _ => true | _ => false end.
(** aggregate:212-226: the calls of consumers and cursor consumers. *)
Definition consumer_call (o : nop) : bool :=
  match o with
  | NRegisterConsumer | NRegisterCursor | NDropConsumer | NStartRead _ | NPeek | NFinishRead | NAdvance | NWaitForDrain => true
  | _ => false
  end.

(** Who moves: callers (aggregate:211-281), shutdown (aggregate:240-276), the flush thread (aggregate:54-112). *)
Inductive label := Produce (o : vop) | Consume (o : nop) | Flush | Lock | Unlock | Shutdown | Thread.

(** One step of any of them: aggregate:54-112 and 211-281. *)
Definition g_step (g : agg) (l : label) : agg * list call :=
  match l with
  | Produce o => if producer_call o then let (g, out) := on_v g o in (g, [VCall o out]) else (g, [])
  | Consume o => if consumer_call o then let (g, out) := on_n_signal g o in (g, [NCall o out]) else (g, [])
  | Flush => let (g, out) := on_v g VWaitForDrain in (g, [VCall VWaitForDrain out])
  | Lock => let (g, out) := on_v g VLock in (g_set_handles (S (g_handles g)) g, [VCall VLock out])
  | Unlock =>
      match g_handles g with
      | O => (g, [])
      | S h => let (g, out) := on_v g VUnlock in (g_set_handles h g, [VCall VUnlock out])
      end
  | Shutdown => shutdown_step g
  | Thread => thread_step g
  end.

(** A history of steps, with all calls made and their results: aggregate:54-112 and 211-281. *)
Fixpoint g_run (g : agg) (l : list label) : agg * list call :=
  match l with
  | [] => (g, [])
  | a :: l => let (g1, c1) := g_step g a in let (g2, c2) := g_run g1 l in (g2, c1 ++ c2)
  end.
End Checksums.
