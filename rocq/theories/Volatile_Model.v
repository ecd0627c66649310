(** Model of bd-buffer/src/buffer/volatile_ring_buffer.rs ("volatile" below). *)
From Verif Require Import Base Ring_Model IntrusiveQueue_Model.
Open Scope Z_scope.

(** volatile:45-48 [Reservation]. *)
Record reservation := mkRes { rv_range : range; rv_committed : bool }.

(** volatile:375-383 [ExtraLockedData] with the common part; [v_cons] is the registered consumer and its read reservation.
    [v_prod p] is the reservation pointer of producer [p] (volatile:60-63, null = [None]); producers are numbered and can be
    registered at any time without effect on the buffer (volatile:493-503). *)
Record vbuf := mkV {
  v_c : common;
  v_res : iq reservation;
  v_cons : option (option range);
  v_prod : nat -> option addr }.

(** Update of one field of the state, volatile:375-390. *)
Definition v_set_c c v := mkV c (v_res v) (v_cons v) (v_prod v).
(** Update of one field of the state, volatile:375-390. *)
Definition v_set_cons k v := mkV (v_c v) (v_res v) k (v_prod v).
(** Update of one field of the state, volatile:375-390 and 60-63. *)
Definition v_set_prod p a v := mkV (v_c v) (v_res v) (v_cons v) (fun q => if Nat.eqb q p then a else v_prod v q).

(** volatile:473 the data loss callback does nothing; volatile:474-481 the two reservation callbacks. *)
Definition v_cb (c : common) : common := c.
(** volatile:474-481. *)
Definition v_read_reservation (v : vbuf) : option range := match v_cons v with Some (Some r) => Some r | _ => None end.
(** volatile:474-481: is there a read or a write reservation? *)
Definition v_busy (v : vbuf) : bool :=
  match v_read_reservation v with Some _ => true | None => false end || negb (iq_is_empty (v_res v)).

(** volatile:445-489 [RingBufferImpl::new]: memory is uninitialised, hence arbitrary. *)
Definition v_new (mem : Z -> Z) (size : Z) : vbuf :=
  mkV (common_new mem size 0 None None None 0 OYes 0) iq_empty None (fun _ => None).

(** volatile:66-161 [ProducerImpl::reserve]; returns start and size of the memory slice handed out.
    (The buffer being dropped, lines 74-79, is not modelled.) *)
Definition v_reserve (v : vbuf) (p : nat) (size : Z) (block : bool) : vbuf * res range :=
  match v_prod v p with
  | Some _ => (v, Err InvalidArgument)
  | None =>
      match start_reserve_common (v_c v) size with
      | (c, Panic) => (v_set_c c v, Panic)
      | (c, Err e) => (v_set_c c v, Err e)
      | (c, Ok actual) =>
          match calculate_next_write_start c actual with
          | None => (v_set_c c v, Panic)
          | Some t =>
              if match v_read_reservation v with Some r => intersect_reservation c t r | None => false end
              then (v_set_c (count_refused size c) v, Err ResourceExhausted)
              else if match iq_front (v_res v) with Some r => intersect_reservation c t (rv_range r) | None => false end
              then (v_set_c (count_refused size c) v, Err ResourceExhausted)
              else
                match advance_due_to_write (loop_fuel c) v_cb (v_busy v) c t block with
                | (c, Panic) => (v_set_c c v, Panic)
                | (c, Err e) => (v_set_c c v, Err e)
                | (c, Ok _) =>
                    let c := set_nws (t_nws t) c in
                    let c := match t_lwe t with Some l => set_lwe (Some l) c | None => c end in
                    match finish_reservation c (t_range t) size with
                    | None => (v_set_c c v, Panic)
                    | Some (c, data_start) =>
                        let (q, a) := iq_emplace_back (v_res v) (mkRes (t_range t) false) in
                        (v_set_prod p (Some a) (mkV c q (v_cons v) (v_prod v)), Ok (mkRange data_start size))
                    end
                end
          end
      end
  end.

(** volatile:189-209: pop the committed prefix of the reservations. *)
Fixpoint v_pop_committed (fuel : nat) (c : common) (q : iq reservation) : common * iq reservation :=
  match fuel with
  | O => (c, q)
  | S fuel =>
      match iq_front q with
      | None => (c, q)
      | Some f =>
          if negb (rv_committed f) then (c, q)
          else v_pop_committed fuel (advance_committed c (rv_range f)) (iq_pop_front q)
      end
  end.

(** volatile:163-218 [ProducerImpl::commit]. The loop pops at most as many entries as the queue holds. *)
Definition v_commit (v : vbuf) (p : nat) : vbuf * res unit :=
  match v_prod v p with
  | None => (v, Err InvalidArgument)
  | Some a =>
      match iq_map_mut (v_res v) a (fun r => mkRes (rv_range r) true) with
      | (_, None) => (v, Panic)
      | (q, Some r) =>
          let c := finish_commit_common (v_c v) (rv_range r) in
          let (c, q) := v_pop_committed (S (length (iq_queue q))) c q in
          (v_set_prod p None (mkV c q (v_cons v) (v_prod v)), Ok tt)
      end
  end.

(** The producer writes [bs] at offset [off] of the slice it was handed (no lock is held; volatile:429-430). Only legal within the
    slice; Rust's bounds check makes anything else a panic of the producer, modelled as no effect. *)
Definition v_write (v : vbuf) (p : nat) (off : Z) (bs : list Z) : vbuf :=
  match v_prod v p with
  | None => v
  | Some a =>
      match iq_map_mut (v_res v) a (fun r => r) with
      | (_, None) => v
      | (_, Some r) =>
          let c := v_c v in
          let data := r_start (rv_range r) + c_extra c in
          let size := r_size (rv_range r) - c_extra c in
          if (0 <=? off) && (off + Z.of_nat (length bs) <=? size)
          then v_set_c (set_mem (mem_set (c_mem c) (data + off) bs) c) v
          else v
      end
  end.

(** volatile:505-521 [register_consumer], volatile:361-369 drop of the consumer. *)
Definition v_register_consumer (v : vbuf) : vbuf * res unit :=
  match v_cons v with
  | Some _ => (v, Err FailedPrecondition)
  | None => (v_set_cons (Some None) v, Ok tt)
  end.
(** volatile:361-369. *)
Definition v_drop_consumer (v : vbuf) : vbuf := v_set_cons None v.

(** volatile:306-320 [start_read] with volatile:231-264 [inner_start_read]. Returns the slice (record data only). The
    async [read] (volatile:269-304) retries the non-blocking call. *)
Definition v_start_read (v : vbuf) (block : bool) : vbuf * res range :=
  match v_cons v with
  | None => (v, Panic)
  | Some existing =>
      let reserved := match existing with Some _ => true | None => false end in
      match start_read v_cb (v_busy v) (v_c v) block reserved CursorNo with
      | (c, Ok r) =>
          (v_set_cons (Some (Some r)) (v_set_c c v), Ok (mkRange (r_start r + c_extra c) (r_size r - c_extra c)))
      | (c, Err e) => (v_set_c c v, Err e)
      | (c, Panic) => (v_set_c c v, Panic)
      end
  end.

(** volatile:322-358 [finish_read]; the boolean: a waiting flush was released. *)
Definition v_finish_read (v : vbuf) : vbuf * res bool :=
  match v_cons v with
  | None => (v, Panic)
  | Some None => (v, Err InvalidArgument)
  | Some (Some r) =>
      let v := v_set_cons (Some None) v in
      match finish_read_common v_cb (v_busy v) (v_c v) r with
      | None => (v, Panic)
      | Some (c, drained) => (v_set_c c v, Ok drained)
      end
  end.

(** The bytes the consumer sees through the slice it holds. *)
Definition v_peek (v : vbuf) : option (list Z) :=
  match v_read_reservation v with
  | None => None
  | Some r => Some (mem_get (c_mem (v_c v)) (r_start r + c_extra (v_c v)) (r_size r - c_extra (v_c v)))
  end.

(** volatile:530-533, 537-547 and 411-420: drain, shutdown, lock; dropping a lock handle; dropping a producer, which leaves its
    reservation in place (TODO at volatile:58-59). *)
Definition v_wait_for_drain (v : vbuf) : vbuf * bool :=
  let (c, b) := wait_for_drain (v_c v) (match v_read_reservation v with Some _ => true | None => false end) in (v_set_c c v, b).
(** volatile:537-540 [shutdown]. *)
Definition v_shutdown (v : vbuf) : vbuf := v_set_c (shutdown_common (v_c v)) v.
(** volatile:542-548 [lock]. *)
Definition v_lock (v : vbuf) : vbuf := v_set_c (lock_common (v_c v)) v.
(** Drop of a lock handle, common_ring_buffer.rs:90-95. *)
Definition v_unlock (v : vbuf) : vbuf := v_set_c (unlock_common (v_c v)) v.
(** A producer is dropped (volatile:60-63; there is no [Drop]). *)
Definition v_drop_producer (v : vbuf) (p : nat) : vbuf := v_set_prod p None v.
(** volatile:411-430. *)
Definition v_must_await_reservations (v : vbuf) : bool := negb (iq_is_empty (v_res v)).

(** The interface as a transition system. A schedule is any list of operations: calls of different threads are serialised by
    the mutex, writes into handed-out slices happen at any time. *)
Inductive vop :=
| VReserve (p : nat) (size : Z) (block : bool)
| VWrite (p : nat) (off : Z) (bs : list Z)
| VCommit (p : nat)
| VDropProducer (p : nat)
| VRegisterConsumer
| VDropConsumer
| VStartRead (block : bool)
| VPeek
| VFinishRead
| VWaitForDrain
| VLock
| VUnlock
| VShutdown.

(** What a caller observes. *)
Inductive vout :=
| OUnit
| ORange (r : res range)
| ORes (r : res unit)
| OBytes (b : option (list Z))
| OFin (r : res bool)
| OWait (b : bool).

(** One call: volatile:65-370 and 492-548. *)
Definition v_step (v : vbuf) (o : vop) : vbuf * vout :=
  match o with
  | VReserve p size block => let (v, r) := v_reserve v p size block in (v, ORange r)
  | VWrite p off bs => (v_write v p off bs, OUnit)
  | VCommit p => let (v, r) := v_commit v p in (v, ORes r)
  | VDropProducer p => (v_drop_producer v p, OUnit)
  | VRegisterConsumer => let (v, r) := v_register_consumer v in (v, ORes r)
  | VDropConsumer => (v_drop_consumer v, OUnit)
  | VStartRead block => let (v, r) := v_start_read v block in (v, ORange r)
  | VPeek => (v, OBytes (v_peek v))
  | VFinishRead => let (v, r) := v_finish_read v in (v, OFin r)
  | VWaitForDrain => let (v, b) := v_wait_for_drain v in (v, OWait b)
  | VLock => (v_lock v, OUnit)
  | VUnlock => (v_unlock v, OUnit)
  | VShutdown => (v_shutdown v, OUnit)
  end.

(** A history of calls: volatile:65-370 and 492-548. *)
Fixpoint v_run (v : vbuf) (l : list vop) : vbuf * list vout :=
  match l with
  | [] => (v, [])
  | o :: l' => let (v1, out) := v_step v o in let (v2, outs) := v_run v1 l' in (v2, out :: outs)
  end.
