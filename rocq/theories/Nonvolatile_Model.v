(** Model of bd-buffer/src/buffer/non_volatile_ring_buffer.rs ("nonvolatile" below), on top of Ring_Model.v.

    - The two checksums (crc32 of a record, crc32 of the index fields of the header) are parameters.
    - The mapped file is its length, the header fields, and the record memory; the byte encoding of the
      header is left out.
    - The queue of read reservations of the cursor consumer (an intrusive queue, see IntrusiveQueue_Props.v) is a list.
    - A producer thread that waits on a condition variable inside [reserve] is recorded in [n_wait]; the schedule decides when
      it wakes up. *)
From Verif Require Import Base Ring_Model.
Open Scope Z_scope.

(** nonvolatile:630-633 [ConsumerType]. *)
Inductive consumer := Plain (r : option range) | Ahead (q : list range).

(** A [reserve] waiting on a condition variable, with its local variables: nonvolatile:141-143 ([w_second] false) or
    common:413-415 ([w_second] true). *)
Record waiting := mkWaiting { w_temp : temp; w_size : Z; w_block : bool; w_second : bool }.

(** nonvolatile:643-655 [ExtraLockedData] with the common part. [n_prod]: the registered producer and its reservation. [n_hold]:
    [block_when_reserving_into_concurrent_read]. [n_check]: [per_record_crc32_check]. *)
Record nbuf := mkN {
  n_c : common;
  n_prod : option (option range);
  n_cons : option consumer;
  n_hold : bool;
  n_check : bool;
  n_wait : option waiting }.

(** Update of one field of the state, nonvolatile:643-655. *)
Definition n_set_c c n := mkN c (n_prod n) (n_cons n) (n_hold n) (n_check n) (n_wait n).
(** Update of one field of the state, nonvolatile:643-655. *)
Definition n_set_prod p n := mkN (n_c n) p (n_cons n) (n_hold n) (n_check n) (n_wait n).
(** Update of one field of the state, nonvolatile:643-655. *)
Definition n_set_cons k n := mkN (n_c n) (n_prod n) k (n_hold n) (n_check n) (n_wait n).
(** Update of one field of the state, nonvolatile:643-655. *)
Definition n_set_wait w n := mkN (n_c n) (n_prod n) (n_cons n) (n_hold n) (n_check n) w.

(** nonvolatile:105-112: the read reservation a writer has to respect. *)
Definition n_read_reservation (n : nbuf) : option range :=
  match n_cons n with Some (Plain r) => r | Some (Ahead q) => hd_error q | None => None end.

(** nonvolatile:866-883: the two reservation callbacks. *)
Definition n_reading (n : nbuf) : bool :=
  match n_cons n with
  | Some (Plain (Some _)) => true
  | Some (Ahead (_ :: _)) => true
  | _ => false
  end.
(** nonvolatile:866-883: is there a read or a write reservation? *)
Definition n_busy (n : nbuf) : bool :=
  n_reading n || match n_prod n with Some (Some _) => true | _ => false end.

(** nonvolatile:1113-1115. *)
Definition count_corrupted (c : common) : common :=
  let st := c_stats c in
  set_stats (mkStats (s_records_written st) (s_bytes_written st) (s_total_bytes_written st)
                     (s_records_read st) (s_bytes_read st) (s_total_bytes_read st)
                     (s_records_overwritten st) (s_bytes_overwritten st)
                     (s_records_refused st) (s_bytes_refused st)
                     (s_total_data_loss st) (s_records_corrupted st + 1)) c.

(** The mapped file: nonvolatile:612-622 [FileHeader] and the record memory behind it. *)
Record file := mkFile {
  fl_len : Z; fl_version : Z; fl_size : Z;
  fl_nws : Z; fl_cws : option Z; fl_lwe : option Z; fl_nrs : option Z; fl_crc : Z;
  fl_mem : Z -> Z }.

(** nonvolatile:716 size of [FileHeader], nonvolatile:624 version. *)
Definition header_size : Z := 40.
(** nonvolatile:624. *)
Definition current_version : Z := 1.

(** What the file contains while the buffer is in use: indices live in the mapped header (nonvolatile:848-851). *)
Definition n_file (n : nbuf) : file :=
  let c := n_c n in
  mkFile (c_len c + header_size) current_version (c_len c + header_size)
         (c_nws c) (c_cws c) (c_lwe c) (c_nrs c) (c_hcrc c) (c_mem c).

Section Checksums.

Variable rcrc : list Z -> Z.
Variable hcrc : Z -> option Z -> option Z -> option Z -> Z.

(** nonvolatile:1014-1023 [per_record_crc32]: over the size and the data. *)
Definition record_crc (c : common) (r : range) : Z :=
  rcrc (mem_get (c_mem c) (r_start r + (c_extra c - 4)) (r_size r - (c_extra c - 4))) mod U32.

(** nonvolatile:1026-1038 [write_header_crc32]. *)
Definition write_header_crc (c : common) : common :=
  set_hcrc (hcrc (c_nws c) (c_cws c) (c_lwe c) (c_nrs c)) c.

(** nonvolatile:652-654 [on_total_data_loss]. *)
Definition n_cb (c : common) : common := set_hcrc (hcrc 0 None None None) c.

(** nonvolatile:160-197: [reserve] from the removal of old records to its end. *)
Definition n_reserve_tail (n : nbuf) (t : temp) (size : Z) (block : bool) : nbuf * res range :=
  match advance_due_to_write (loop_fuel (n_c n)) n_cb (n_busy n) (n_c n) t block with
  | (c, Panic) => (n_set_wait None (n_set_c c n), Panic)
  | (c, Err WouldBlock) => (n_set_wait (Some (mkWaiting t size block true)) (n_set_c c n), Err WouldBlock)
  | (c, Err e) => (n_set_wait None (n_set_c c n), Err e)
  | (c, Ok _) =>
      let c := set_nws (t_nws t) c in
      let c := match t_lwe t with Some l => set_lwe (Some l) c | None => c end in
      match finish_reservation c (t_range t) size with
      | None => (n_set_wait None (n_set_c c n), Panic)
      | Some (c, data_start) =>
          (n_set_wait None (n_set_prod (Some (Some (t_range t))) (n_set_c (write_header_crc c) n)), Ok (mkRange data_start size))
      end
  end.

(** nonvolatile:103-158: [reserve] from the check for a concurrent read. *)
Definition n_reserve_loop (n : nbuf) (t : temp) (size : Z) (block : bool) : nbuf * res range :=
  if match n_read_reservation n with Some r => intersect_reservation (n_c n) t r | None => false end
  then
    if n_hold n
    then (n_set_wait (Some (mkWaiting t size block false)) n, Err WouldBlock)
    else (n_set_wait None (n_set_c (count_refused size (n_c n)) n), Err ResourceExhausted)
  else n_reserve_tail n t size block.

(** nonvolatile:77-197 [ProducerImpl::reserve] by the producer, if there is one; the slice handed out. *)
Definition n_reserve (n : nbuf) (size : Z) (block : bool) : nbuf * res range :=
  match n_prod n with
  | Some (Some _) => (n, Err InvalidArgument)
  | _ =>
      match start_reserve_common (n_c n) size with
      | (c, Panic) => (n_set_c c n, Panic)
      | (c, Err e) => (n_set_c c n, Err e)
      | (c, Ok actual) =>
          match calculate_next_write_start c actual with
          | None => (n_set_c c n, Panic)
          | Some t => n_reserve_loop (n_set_c c n) t size block
          end
      end
  end.

(** A waiting [reserve] wakes up: nonvolatile:145-150 or common:416-423. *)
Definition n_resume (n : nbuf) (w : waiting) : nbuf * res range :=
  if c_shutdown (n_c n) then (n_set_wait None n, Err Aborted)
  else if w_second w then n_reserve_tail n (w_temp w) (w_size w) (w_block w)
  else n_reserve_loop n (w_temp w) (w_size w) (w_block w).

(** The producer writes [bs] at offset [off] of the slice it was handed; only legal within the slice. *)
Definition n_write (n : nbuf) (off : Z) (bs : list Z) : nbuf :=
  match n_prod n with
  | Some (Some r) =>
      let c := n_c n in
      if (0 <=? off) && (off + Z.of_nat (length bs) <=? r_size r - c_extra c)
      then n_set_c (set_mem (mem_set (c_mem c) (r_start r + c_extra c + off) bs) c) n
      else n
  | _ => n
  end.

(** nonvolatile:199-263 [ProducerImpl::commit]. *)
Definition n_commit (n : nbuf) : nbuf * res unit :=
  match n_prod n with
  | Some (Some r) =>
      let c := finish_commit_common (advance_committed (n_c n) r) r in
      match (if n_check n
             then if slice_ok c (r_start r) (r_start r + c_extra c - 4) && slice_ok c (r_start r + (c_extra c - 4)) (r_start r + r_size r)
                  then Some (set_mem (mem_set (c_mem c) (r_start r) (to_bytes (record_crc c r))) c)
                  else None
             else Some c) with
      | None => (n, Panic)
      | Some c =>
          let n := n_set_prod (Some None) n in
          (n_set_c (write_header_crc (maybe_do_total_data_loss_reset n_cb (n_busy n) c)) n, Ok tt)
      end
  | _ => (n, Err InvalidArgument)
  end.

(** nonvolatile:1076-1134 [common_consumer_start_read]. The loop runs on fuel; running out of it is [Panic]. *)
Fixpoint consumer_start_read (fuel : nat) (check busy : bool) (c : common) (block reserved : bool) (cu : cursor) : common * res range :=
  match fuel with
  | O => (c, Panic)
  | S fuel =>
      match start_read n_cb busy c block reserved cu with
      | (c, Panic) => (c, Panic)
      | (c, Err e) => (c, Err e)
      | (c, Ok r) =>
          if check then
            let equal := record_crc c r =? from_bytes (mem_get (c_mem c) (r_start r) 4) in
            match (match cu with CursorNo => zero_extra_data c (r_start r) | CursorYes => Some c end) with
            | None => (c, Panic)
            | Some c =>
                if equal then (c, Ok r)
                else
                  let c := count_corrupted c in
                  match cu with
                  | CursorNo =>
                      match finish_read_common n_cb busy c r with
                      | None => (c, Panic)
                      | Some (c, _) => consumer_start_read fuel check busy (write_header_crc c) block false cu
                      end
                  | CursorYes => consumer_start_read fuel check busy c block false cu
                  end
            end
          else (c, Ok r)
      end
  end.

(** The data part of a record. *)
Definition data_of (c : common) (r : range) : range := mkRange (r_start r + c_extra c) (r_size r - c_extra c).

(** nonvolatile:286-323 [ConsumerImpl::inner_start_read] and nonvolatile:469-502 [CursorConsumerImpl::inner_start_read]; the
    slice handed out. The asynchronous [read] (nonvolatile:328-361, 507-544) repeats the non-blocking call. *)
Definition n_start_read_fuel (fuel : nat) (n : nbuf) (k : consumer) (block : bool) : nbuf * res range :=
  match k with
  | Plain existing =>
      let reserved := match existing with Some _ => true | None => false end in
      match consumer_start_read fuel (n_check n) (n_busy n) (n_c n) block reserved CursorNo with
      | (c, Ok r) => (n_set_cons (Some (Plain (Some r))) (n_set_c c n), Ok (data_of c r))
      | (c, Err e) => (n_set_c c n, Err e)
      | (c, Panic) => (n_set_c c n, Panic)
      end
  | Ahead q =>
      match consumer_start_read fuel (n_check n) (n_busy n) (n_c n) block false CursorYes with
      | (c, Ok r) => (n_set_cons (Some (Ahead (q ++ [r]))) (n_set_c c n), Ok (data_of c r))
      | (c, Err e) => (n_set_c c n, Err e)
      | (c, Panic) => (n_set_c c n, Panic)
      end
  end.
(** nonvolatile:286-323 and 469-502 [inner_start_read]. *)
Definition n_start_read (n : nbuf) (k : consumer) (block : bool) : nbuf * res range :=
  n_start_read_fuel (loop_fuel (n_c n)) n k block.

(** nonvolatile:380-424 [ConsumerImpl::finish_read]; the boolean: a waiting flush was released. *)
Definition n_finish_read (n : nbuf) (existing : option range) : nbuf * res bool :=
  match existing with
  | None => (n, Err InvalidArgument)
  | Some r =>
      let n := n_set_cons (Some (Plain None)) n in
      match finish_read_common n_cb (n_busy n) (n_c n) r with
      | None => (n, Panic)
      | Some (c, drained) => (n_set_c (write_header_crc c) n, Ok drained)
      end
  end.

(** nonvolatile:563-592 [CursorConsumerImpl::advance_read_pointer]. *)
Definition n_advance (n : nbuf) (q : list range) : nbuf * res bool :=
  match q with
  | [] => (n, Err FailedPrecondition)
  | r :: q =>
      let n := n_set_cons (Some (Ahead q)) n in
      match finish_read_common n_cb (n_busy n) (n_c n) r with
      | None => (n, Panic)
      | Some (c, drained) => (n_set_c (write_header_crc c) n, Ok drained)
      end
  end.

(** nonvolatile:890-960: registration. *)
Definition n_register_producer (n : nbuf) : nbuf * res unit :=
  match n_prod n with
  | Some _ => (n, Err FailedPrecondition)
  | None => (n_set_prod (Some None) n, Ok tt)
  end.
(** nonvolatile:909-926. *)
Definition n_register_consumer (n : nbuf) : nbuf * res unit :=
  match n_cons n with
  | Some _ => (n, Err FailedPrecondition)
  | None => (n_set_cons (Some (Plain None)) n, Ok tt)
  end.
(** nonvolatile:928-960. *)
Definition n_register_cursor (n : nbuf) : nbuf * res unit :=
  match n_cons n with
  | Some _ => (n, Err FailedPrecondition)
  | None =>
      match c_ow (n_c n) with
      | OYes => (n, Err FailedPrecondition)
      | OBlock => (n_set_cons (Some (Ahead [])) n, Ok tt)
      end
  end.

(** nonvolatile:266-273, 427-437, 595-606: dropping the producer or the consumer. *)
Definition n_drop_producer (n : nbuf) : nbuf := n_set_prod None n.
(** nonvolatile:427-437 and 595-606: the consumer is dropped. *)
Definition n_drop_consumer (n : nbuf) : nbuf := n_set_cons None n.

(** The bytes the consumer sees through the slice it was handed last. *)
Definition n_peek (n : nbuf) : option (list Z) :=
  match (match n_cons n with
         | Some (Plain r) => r
         | Some (Ahead q) => match rev q with r :: _ => Some r | [] => None end
         | None => None
         end) with
  | None => None
  | Some r => Some (mem_get (c_mem (n_c n)) (r_start r + c_extra (n_c n)) (r_size r - c_extra (n_c n)))
  end.

(** nonvolatile:962-980: drain, shutdown, lock; dropping a lock handle. *)
Definition n_wait_for_drain (n : nbuf) : nbuf * bool :=
  let (c, b) := wait_for_drain (n_c n) (n_reading n) in (n_set_c c n, b).
(** nonvolatile:969-973. *)
Definition n_shutdown (n : nbuf) : nbuf := n_set_c (shutdown_common (n_c n)) n.
(** nonvolatile:975-981. *)
Definition n_lock (n : nbuf) : nbuf := n_set_c (lock_common (n_c n)) n.
(** Drop of a lock handle, common_ring_buffer.rs:90-95. *)
Definition n_unlock (n : nbuf) : nbuf := n_set_c (unlock_common (n_c n)) n.

(** nonvolatile:768-806 and 809-814: resizing the file to [size] and a new header ([resized] is the content of the record memory after
    [set_len]). *)
Definition fresh_file (size : Z) (resized : Z -> Z) : file :=
  mkFile size current_version size 0 None None None (hcrc 0 None None None) resized.

(** nonvolatile:705-887 [RingBufferImpl::new]; [None] for [f]: there is no file (its new content is zero). Failures of the file system are not
    modelled. [st] are the counters passed in. *)
Definition n_open (f : option file) (size : Z) (ow : overwrite) (hold check : bool) (st : stats) : res nbuf :=
  if size <? header_size then Err InvalidArgument
  else
    let opened := match f with
                  | None => Ok (fresh_file size (fun _ => 0))
                  | Some f =>
                      if negb (size =? fl_len f) then Ok (fresh_file size (fl_mem f))
                      else if negb (fl_version f =? current_version) || negb (fl_size f =? size) then Err DataLoss
                      else Ok f
                  end in
    match opened with
    | Err e => Err e
    | Panic => Panic
    | Ok f =>
        if negb (hcrc (fl_nws f) (fl_cws f) (fl_lwe f) (fl_nrs f) =? fl_crc f) then Err DataLoss
        else
          let c := common_new (fl_mem f) (size - header_size) (fl_nws f) (fl_cws f) (fl_lwe f) (fl_nrs f)
                              (if check then 4 else 0) ow (fl_crc f) in
          Ok (mkN (set_stats st c) None None hold check None)
    end.

(** bd-buffer/src/ring_buffer.rs:606-683 [RingBuffer::new]: after [DataLoss] the file is removed and the buffer recreated; the
    boolean: it was. (Removing the file succeeds.) *)
Definition rb_open (f : option file) (size : Z) (ow : overwrite) (hold check : bool) (st : stats) : res nbuf * bool :=
  match n_open f size ow hold check st with
  | Err DataLoss => (n_open None size ow hold check st, true)
  | r => (r, false)
  end.

(** * Stores to the mapped file *)

(** A store of the code to the mapped file. Header fields are stored whole; record memory byte by byte. *)
Inductive store :=
| StNws (v : Z) | StCws (v : option Z) | StLwe (v : option Z) | StNrs (v : option Z) | StCrc (v : Z)
| StByte (a v : Z).

(** One store to the mapped file: a field of the header (nonvolatile:614-628) or a byte of the record memory. *)
Definition put (f : file) (s : store) : file :=
  match s with
  | StNws v => mkFile (fl_len f) (fl_version f) (fl_size f) v (fl_cws f) (fl_lwe f) (fl_nrs f) (fl_crc f) (fl_mem f)
  | StCws v => mkFile (fl_len f) (fl_version f) (fl_size f) (fl_nws f) v (fl_lwe f) (fl_nrs f) (fl_crc f) (fl_mem f)
  | StLwe v => mkFile (fl_len f) (fl_version f) (fl_size f) (fl_nws f) (fl_cws f) v (fl_nrs f) (fl_crc f) (fl_mem f)
  | StNrs v => mkFile (fl_len f) (fl_version f) (fl_size f) (fl_nws f) (fl_cws f) (fl_lwe f) v (fl_crc f) (fl_mem f)
  | StCrc v => mkFile (fl_len f) (fl_version f) (fl_size f) (fl_nws f) (fl_cws f) (fl_lwe f) (fl_nrs f) v (fl_mem f)
  | StByte a v => mkFile (fl_len f) (fl_version f) (fl_size f) (fl_nws f) (fl_cws f) (fl_lwe f) (fl_nrs f) (fl_crc f)
                         (fun i => if i =? a then v else fl_mem f i)
  end.
(** Several stores in order. *)
Definition puts (f : file) (l : list store) : file := fold_left put l f.

(** Stores of some bytes to the record memory (common_ring_buffer.rs:213-216). *)
Fixpoint byte_stores (a : Z) (bs : list Z) : list store :=
  match bs with [] => [] | b :: bs => StByte a b :: byte_stores (a + 1) bs end.

(** The header checksum store at the end of most operations (nonvolatile:1041-1058). *)
Definition crc_stores (c : common) : list store := [StCrc (hcrc (c_nws c) (c_cws c) (c_lwe c) (c_nrs c))].

(** Stores of [zero_extra_data] (common:245-247). *)
Definition zero_stores (c : common) (start : Z) : list store := byte_stores start (repeat 0 (Z.to_nat (c_extra c - 4))).

(** Stores of [advance_next_read] (common:596-632) for the regular read position. *)
Definition advance_stores (c : common) (size : Z) : list store :=
  match c_nrs c, c_cws c with
  | Some start, Some cws =>
      if negb (start =? cws)
      then if match c_lwe c with Some l => l =? start + size - 1 | None => false end
           then [StLwe None; StNrs (Some 0)]
           else [StNrs (Some (start + size))]
      else [StNrs None; StCws None]
  | _, _ => []
  end.

(** Stores of the loop of [advance_next_read_due_to_write] (common:368-441), without data loss. *)
Fixpoint evict_stores (fuel : nat) (c : common) (t : temp) : list store :=
  match fuel with
  | O => []
  | S fuel =>
      match c_nrs c, load_next_read_size c CursorNo, c_ow c with
      | Some start, Ok size, OYes =>
          if intersect_reservation c t (mkRange start (size + c_extra c)) then
            match zero_extra_data (count_overwritten size c) start with
            | None => []
            | Some c1 =>
                zero_stores c start ++ advance_stores c1 (size + c_extra c) ++
                match advance_next_read c1 (size + c_extra c) CursorNo with
                | None => []
                | Some c2 => evict_stores fuel c2 t
                end
            end
          else []
      | _, _, _ => []
      end
  end.

(** Stores of [finish_reservation] (common:250-280). *)
Definition finish_reservation_stores (c : common) (r : range) (size : Z) : list store :=
  byte_stores (r_start r + (c_extra c - 4)) (to_bytes size) ++ zero_stores c (r_start r) ++
  match c_lwe c with
  | Some l => if l <? r_start r + size + c_extra c - 1 then [StLwe None] else []
  | None => []
  end.

(** Stores of the end of [reserve] (nonvolatile:160-197). *)
Definition reserve_tail_stores (n : nbuf) (t : temp) (size : Z) (block : bool) : list store :=
  evict_stores (loop_fuel (n_c n)) (n_c n) t ++
  match advance_due_to_write (loop_fuel (n_c n)) n_cb (n_busy n) (n_c n) t block with
  | (c, Ok _) =>
      let c1 := set_nws (t_nws t) c in
      let c2 := match t_lwe t with Some l => set_lwe (Some l) c1 | None => c1 end in
      [StNws (t_nws t)] ++ match t_lwe t with Some l => [StLwe (Some l)] | None => [] end ++
      finish_reservation_stores c2 (t_range t) size ++
      match finish_reservation c2 (t_range t) size with Some (c, _) => crc_stores c | None => [] end
  | _ => []
  end.
(** Stores of [reserve], nonvolatile:77-197, once a candidate range is known. *)
Definition reserve_loop_stores (n : nbuf) (t : temp) (size : Z) (block : bool) : list store :=
  if match n_read_reservation n with Some r => intersect_reservation (n_c n) t r | None => false end
  then [] else reserve_tail_stores n t size block.
(** Stores of [reserve], nonvolatile:77-197. *)
Definition reserve_stores (n : nbuf) (size : Z) (block : bool) : list store :=
  match n_prod n with
  | Some (Some _) => []
  | _ =>
      match start_reserve_common (n_c n) size with
      | (c, Ok actual) =>
          match calculate_next_write_start c actual with
          | None => []
          | Some t => reserve_loop_stores (n_set_c c n) t size block
          end
      | _ => []
      end
  end.
(** Stores of [reserve] after a wait, nonvolatile:77-197. *)
Definition resume_stores (n : nbuf) (w : waiting) : list store :=
  if c_shutdown (n_c n) then []
  else if w_second w then reserve_tail_stores n (w_temp w) (w_size w) (w_block w)
  else reserve_loop_stores n (w_temp w) (w_size w) (w_block w).

(** Stores of a producer filling its slice. *)
Definition write_stores (n : nbuf) (off : Z) (bs : list Z) : list store :=
  match n_prod n with
  | Some (Some r) =>
      let c := n_c n in
      if (0 <=? off) && (off + Z.of_nat (length bs) <=? r_size r - c_extra c)
      then byte_stores (r_start r + c_extra c + off) bs else []
  | _ => []
  end.

(** Stores of [commit] (nonvolatile:199-263; common:551-562), without a pending reset. *)
Definition commit_stores (n : nbuf) : list store :=
  match n_prod n with
  | Some (Some r) =>
      let c := advance_committed (n_c n) r in
      [StCws (Some (r_start r))] ++
      match c_nrs (n_c n) with None => [StNrs (Some (r_start r))] | Some _ => [] end ++
      (if n_check n then byte_stores (r_start r) (to_bytes (record_crc c r)) else []) ++
      crc_stores c
  | _ => []
  end.

(** Stores of [common_consumer_start_read] (nonvolatile:1076-1134) for the regular consumer, without data loss. *)
Fixpoint start_read_stores (fuel : nat) (check busy : bool) (c : common) (block reserved : bool) : list store :=
  match fuel with
  | O => []
  | S fuel =>
      match start_read n_cb busy c block reserved CursorNo with
      | (c, Ok r) =>
          if check then
            zero_stores c (r_start r) ++
            if record_crc c r =? from_bytes (mem_get (c_mem c) (r_start r) 4) then []
            else
              match zero_extra_data c (r_start r) with
              | None => []
              | Some c =>
                  advance_stores c (r_size r) ++
                  match finish_read_common n_cb busy (count_corrupted c) r with
                  | None => []
                  | Some (c, _) => crc_stores c ++ start_read_stores fuel check busy (write_header_crc c) block false
                  end
              end
          else []
      | _ => []
      end
  end.

(** Stores of [finish_read] and [advance_read_pointer]; [n] is the state in which the reservation was cleared. *)
Definition finish_stores (n : nbuf) (r : range) : list store :=
  advance_stores (n_c n) (r_size r) ++
  match finish_read_common n_cb (n_busy n) (n_c n) r with
  | None => []
  | Some (c, _) => crc_stores c
  end.

(** * Transition system *)

(** The calls of nonvolatile:77-262, 285-425, 469-594 and 890-981. *)
Inductive nop :=
| NReserve (size : Z) (block : bool)
| NResume
| NWrite (off : Z) (bs : list Z)
| NCommit
| NRegisterProducer
| NDropProducer
| NRegisterConsumer
| NRegisterCursor
| NDropConsumer
| NStartRead (block : bool)
| NPeek
| NFinishRead
| NAdvance
| NWaitForDrain
| NLock
| NUnlock
| NShutdown
| NReopen
| NCrash (o : nop) (k : nat).

(** What a caller observes. [NoCall]: there is no handle to make this call on, or its owner is waiting in [reserve]. *)
Inductive nout :=
| NoCall
| NUnit
| NRange (r : res range)
| NRes (r : res unit)
| NBytes (b : option (list Z))
| NFin (r : res bool)
| NMust (b : bool)
| NOpened (deleted : bool)
| NFailed.

(** The stores of an operation, in order. *)
Definition n_stores (n : nbuf) (o : nop) : list store :=
  match o with
  | NReserve size block =>
      match n_prod n, n_wait n with Some _, None => reserve_stores n size block | _, _ => [] end
  | NResume => match n_wait n with Some w => resume_stores n w | None => [] end
  | NWrite off bs => match n_wait n with None => write_stores n off bs | Some _ => [] end
  | NCommit => match n_wait n with None => commit_stores n | Some _ => [] end
  | NStartRead block =>
      match n_cons n with
      | Some (Plain e) =>
          start_read_stores (loop_fuel (n_c n)) (n_check n) (n_busy n) (n_c n) block (match e with Some _ => true | None => false end)
      | _ => []
      end
  | NFinishRead =>
      match n_cons n with Some (Plain (Some r)) => finish_stores (n_set_cons (Some (Plain None)) n) r | _ => [] end
  | NAdvance =>
      match n_cons n with Some (Ahead (r :: q)) => finish_stores (n_set_cons (Some (Ahead q)) n) r | _ => [] end
  | _ => []
  end.

(** Opening file [f] with the parameters and counters of [n]. *)
Definition n_reload (n : nbuf) (f : file) : nbuf * nout :=
  match rb_open (Some f) (c_len (n_c n) + header_size) (c_ow (n_c n)) (n_hold n) (n_check n) (c_stats (n_c n)) with
  | (Ok n', deleted) => (n', NOpened deleted)
  | _ => (n, NFailed)
  end.

(** One call: nonvolatile:77-981. *)
Definition n_step (n : nbuf) (o : nop) : nbuf * nout :=
  match o with
  | NReserve size block =>
      match n_prod n, n_wait n with
      | Some _, None => let (n, r) := n_reserve n size block in (n, NRange r)
      | _, _ => (n, NoCall)
      end
  | NResume =>
      match n_wait n with
      | Some w => let (n, r) := n_resume n w in (n, NRange r)
      | None => (n, NoCall)
      end
  | NWrite off bs =>
      match n_prod n, n_wait n with Some _, None => (n_write n off bs, NUnit) | _, _ => (n, NoCall) end
  | NCommit =>
      match n_prod n, n_wait n with
      | Some _, None => let (n, r) := n_commit n in (n, NRes r)
      | _, _ => (n, NoCall)
      end
  | NRegisterProducer => let (n, r) := n_register_producer n in (n, NRes r)
  | NDropProducer =>
      match n_prod n, n_wait n with Some _, None => (n_drop_producer n, NUnit) | _, _ => (n, NoCall) end
  | NRegisterConsumer => let (n, r) := n_register_consumer n in (n, NRes r)
  | NRegisterCursor => let (n, r) := n_register_cursor n in (n, NRes r)
  | NDropConsumer => match n_cons n with Some _ => (n_drop_consumer n, NUnit) | None => (n, NoCall) end
  | NStartRead block =>
      match n_cons n with Some k => let (n, r) := n_start_read n k block in (n, NRange r) | None => (n, NoCall) end
  | NPeek => (n, NBytes (n_peek n))
  | NFinishRead =>
      match n_cons n with Some (Plain e) => let (n, r) := n_finish_read n e in (n, NFin r) | _ => (n, NoCall) end
  | NAdvance =>
      match n_cons n with Some (Ahead q) => let (n, r) := n_advance n q in (n, NFin r) | _ => (n, NoCall) end
  | NWaitForDrain => let (n, b) := n_wait_for_drain n in (n, NMust b)
  | NLock => (n_lock n, NUnit)
  | NUnlock => (n_unlock n, NUnit)
  | NShutdown => (n_shutdown n, NUnit)
  | NReopen => n_reload n (n_file n)
  | NCrash o k => n_reload n (puts (n_file n) (firstn k (n_stores n o)))
  end.

(** A history of calls: nonvolatile:77-981. *)
Fixpoint n_run (n : nbuf) (l : list nop) : nbuf * list nout :=
  match l with
  | [] => (n, [])
  | o :: l' => let (n1, out) := n_step n o in let (n2, outs) := n_run n1 l' in (n2, out :: outs)
  end.

End Checksums.
