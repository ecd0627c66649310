(** Model of the code shared by the ring buffers: bd-buffer/src/buffer/common_ring_buffer.rs ("common" below).

    - [u32] values are [Z]; every [u32] addition or subtraction of the code that feeds an index is checked
      ([add32], [sub32]); an overflow, a slice out of bounds or an [unwrap] of [None] is [Panic].
    - The record memory is a total function from index to byte; [c_len] is its length, and every slice access is checked
      against it.
    - Functions run under the buffer's mutex, hence atomically. Waiting on a condition variable is reported
      as [WouldBlock] and leaves the decision to retry to the schedule.
    - Tracing, [name], and the test-only thread synchroniser are left out. *)
From Verif Require Import Base.
Open Scope Z_scope.

(** crate::AbslCode (bd-buffer/src/lib.rs), the codes used by the ring buffers, plus [WouldBlock] for a condition wait. *)
Inductive code := InvalidArgument | FailedPrecondition | ResourceExhausted | Unavailable | Aborted | DataLoss | Unimplemented | WouldBlock.

(** Outcome of a call. *)
Inductive res (A : Type) := Ok (a : A) | Err (e : code) | Panic.
Arguments Ok {A}. Arguments Err {A}. Arguments Panic {A}.

(** Range of [u32], common:58-62. *)
Definition U32 : Z := 4294967296.
(** common:179-186 [overflow_add] and checked additions of [u32]. *)
Definition add32 (a b : Z) : option Z := if a + b <? U32 then Some (a + b) else None.
(** Checked subtraction of [u32], common:219-842. *)
Definition sub32 (a b : Z) : option Z := if b <=? a then Some (a - b) else None.

(** common:58-62 [Range]. *)
Record range := mkRange { r_start : Z; r_size : Z }.

(** common:23-30 [intersect]. (The operands are below 2^32 at every call; see [add32] at the callers.) *)
Definition intersect (a b : range) : bool :=
  let end_a := r_start a + r_size a - 1 in
  let end_b := r_start b + r_size b - 1 in
  (r_start a <=? end_b) && (r_start b <=? end_a).

(** common:48-51 [AllowOverwrite]. *)
Inductive overwrite := OBlock | OYes.

(** common:37-41 [Cursor]. *)
Inductive cursor := CursorNo | CursorYes.

(** common:76-80 [TempReservationData]. *)
Record temp := mkTemp { t_range : range; t_nws : Z; t_lwe : option Z }.

(** bd-buffer/src/buffer/mod.rs [RingBufferStats]: the record and byte counters. *)
Record stats := mkStats {
  s_records_written : Z; s_bytes_written : Z; s_total_bytes_written : Z;
  s_records_read : Z; s_bytes_read : Z; s_total_bytes_read : Z;
  s_records_overwritten : Z; s_bytes_overwritten : Z;
  s_records_refused : Z; s_bytes_refused : Z;
  s_total_data_loss : Z; s_records_corrupted : Z }.
(** All counters are zero, bd-buffer/src/buffer/mod.rs [RingBufferStats]. *)
Definition stats0 : stats := mkStats 0 0 0 0 0 0 0 0 0 0 0 0.

(** common:120-171 [LockedData]. [c_hcrc] is the header checksum cell of the non-volatile buffer (its [ExtraLockedData.crc32],
    non_volatile_ring_buffer.rs:646); the volatile buffer does not use it. [c_wait] is [wait_for_drain_data]. [c_locks] is
    [lock_count] and [c_shutdown] whether [shutdown_lock] is set (that lock is included in [c_locks]). *)
Record common := mkCommon {
  c_mem : Z -> Z; c_len : Z;
  c_nws : Z; c_cws : option Z; c_lwe : option Z; c_nrs : option Z; c_cur : option Z;
  c_wait : option (option Z); c_pending : bool; c_locks : Z; c_shutdown : bool;
  c_extra : Z; c_ow : overwrite; c_readable : bool; c_hcrc : Z; c_stats : stats }.

(** Update of one field of the state, common:120-171. *)
Definition set_mem v c := mkCommon v (c_len c) (c_nws c) (c_cws c) (c_lwe c) (c_nrs c) (c_cur c) (c_wait c) (c_pending c) (c_locks c) (c_shutdown c) (c_extra c) (c_ow c) (c_readable c) (c_hcrc c) (c_stats c).
(** Update of one field of the state, common:120-171. *)
Definition set_nws v c := mkCommon (c_mem c) (c_len c) v (c_cws c) (c_lwe c) (c_nrs c) (c_cur c) (c_wait c) (c_pending c) (c_locks c) (c_shutdown c) (c_extra c) (c_ow c) (c_readable c) (c_hcrc c) (c_stats c).
(** Update of one field of the state, common:120-171. *)
Definition set_cws v c := mkCommon (c_mem c) (c_len c) (c_nws c) v (c_lwe c) (c_nrs c) (c_cur c) (c_wait c) (c_pending c) (c_locks c) (c_shutdown c) (c_extra c) (c_ow c) (c_readable c) (c_hcrc c) (c_stats c).
(** Update of one field of the state, common:120-171. *)
Definition set_lwe v c := mkCommon (c_mem c) (c_len c) (c_nws c) (c_cws c) v (c_nrs c) (c_cur c) (c_wait c) (c_pending c) (c_locks c) (c_shutdown c) (c_extra c) (c_ow c) (c_readable c) (c_hcrc c) (c_stats c).
(** Update of one field of the state, common:120-171. *)
Definition set_nrs v c := mkCommon (c_mem c) (c_len c) (c_nws c) (c_cws c) (c_lwe c) v (c_cur c) (c_wait c) (c_pending c) (c_locks c) (c_shutdown c) (c_extra c) (c_ow c) (c_readable c) (c_hcrc c) (c_stats c).
(** Update of one field of the state, common:120-171. *)
Definition set_cur v c := mkCommon (c_mem c) (c_len c) (c_nws c) (c_cws c) (c_lwe c) (c_nrs c) v (c_wait c) (c_pending c) (c_locks c) (c_shutdown c) (c_extra c) (c_ow c) (c_readable c) (c_hcrc c) (c_stats c).
(** Update of one field of the state, common:120-171. *)
Definition set_wait v c := mkCommon (c_mem c) (c_len c) (c_nws c) (c_cws c) (c_lwe c) (c_nrs c) (c_cur c) v (c_pending c) (c_locks c) (c_shutdown c) (c_extra c) (c_ow c) (c_readable c) (c_hcrc c) (c_stats c).
(** Update of one field of the state, common:120-171. *)
Definition set_pending v c := mkCommon (c_mem c) (c_len c) (c_nws c) (c_cws c) (c_lwe c) (c_nrs c) (c_cur c) (c_wait c) v (c_locks c) (c_shutdown c) (c_extra c) (c_ow c) (c_readable c) (c_hcrc c) (c_stats c).
(** Update of one field of the state, common:120-171. *)
Definition set_locks v c := mkCommon (c_mem c) (c_len c) (c_nws c) (c_cws c) (c_lwe c) (c_nrs c) (c_cur c) (c_wait c) (c_pending c) v (c_shutdown c) (c_extra c) (c_ow c) (c_readable c) (c_hcrc c) (c_stats c).
(** Update of one field of the state, common:120-171. *)
Definition set_shutdown v c := mkCommon (c_mem c) (c_len c) (c_nws c) (c_cws c) (c_lwe c) (c_nrs c) (c_cur c) (c_wait c) (c_pending c) (c_locks c) v (c_extra c) (c_ow c) (c_readable c) (c_hcrc c) (c_stats c).
(** Update of one field of the state, common:120-171. *)
Definition set_readable v c := mkCommon (c_mem c) (c_len c) (c_nws c) (c_cws c) (c_lwe c) (c_nrs c) (c_cur c) (c_wait c) (c_pending c) (c_locks c) (c_shutdown c) (c_extra c) (c_ow c) v (c_hcrc c) (c_stats c).
(** Update of one field of the state, common:120-171. *)
Definition set_hcrc v c := mkCommon (c_mem c) (c_len c) (c_nws c) (c_cws c) (c_lwe c) (c_nrs c) (c_cur c) (c_wait c) (c_pending c) (c_locks c) (c_shutdown c) (c_extra c) (c_ow c) (c_readable c) v (c_stats c).
(** Update of one field of the state, common:120-171. *)
Definition set_stats v c := mkCommon (c_mem c) (c_len c) (c_nws c) (c_cws c) (c_lwe c) (c_nrs c) (c_cur c) (c_wait c) (c_pending c) (c_locks c) (c_shutdown c) (c_extra c) (c_ow c) (c_readable c) (c_hcrc c) v.

(** Byte access. [mem_get]/[mem_set] are slice reads and writes of [memory()] (common:213-216). *)
Definition mem_get (m : Z -> Z) (a n : Z) : list Z := map (fun k => m (a + Z.of_nat k)) (seq 0 (Z.to_nat n)).
(** Slice write of [memory()], common:213-216. *)
Definition mem_set (m : Z -> Z) (a : Z) (bs : list Z) : Z -> Z :=
  fun i => if (a <=? i) && (i <? a + Z.of_nat (length bs)) then nth (Z.to_nat (i - a)) bs 0 else m i.
(** [u32::to_ne_bytes] / [from_ne_bytes] (common:254, 299), taken little-endian. *)
Definition to_bytes (z : Z) : list Z := [z mod 256; (z / 256) mod 256; (z / 65536) mod 256; (z / 16777216) mod 256].
(** [u32::from_ne_bytes], common:299. *)
Definition from_bytes (l : list Z) : Z := nth 0 l 0 + 256 * nth 1 l 0 + 65536 * nth 2 l 0 + 16777216 * nth 3 l 0.
(** Rust slice bounds check for [memory()[a .. b]]. *)
Definition slice_ok (c : common) (a b : Z) : bool := (0 <=? a) && (a <=? b) && (b <=? c_len c).

(** common:219-224 [next_read_start_to_use]. *)
Definition rd_start (cu : cursor) (c : common) : option Z := match cu with CursorNo => c_nrs c | CursorYes => c_cur c end.
(** common:219-224, through the reference it returns. *)
Definition set_rd_start (cu : cursor) (v : option Z) (c : common) : common :=
  match cu with CursorNo => set_nrs v c | CursorYes => set_cur v c end.

(** common:230-233 [record_size_offset]. *)
Definition record_size_offset (c : common) (start : Z) : option Z := add32 start (c_extra c - 4).

(** common:245-247 [zero_extra_data] (with [extra_data], common:237-242). *)
Definition zero_extra_data (c : common) (start : Z) : option common :=
  if slice_ok c start (start + c_extra c - 4)
  then Some (set_mem (mem_set (c_mem c) start (repeat 0 (Z.to_nat (c_extra c - 4)))) c)
  else None.

(** common:250-280 [finish_reservation]: writes the size, zeroes the extra data, drops an outdated
    [last_write_end_before_wrap]; returns the start of the caller's slice (its size is [original_size]). *)
Definition finish_reservation (c : common) (r : range) (original_size : Z) : option (common * Z) :=
  match record_size_offset c (r_start r) with
  | None => None
  | Some offset =>
      if negb (slice_ok c offset (offset + 4)) then None
      else
        let c := set_mem (mem_set (c_mem c) offset (to_bytes original_size)) c in
        match zero_extra_data c (r_start r) with
        | None => None
        | Some c =>
            let c := match c_lwe c with
                     | Some l => if l <? r_start r + original_size + c_extra c - 1 then set_lwe None c else c
                     | None => c
                     end in
            let data_start := r_start r + c_extra c in
            if slice_ok c data_start (data_start + original_size) then Some (c, data_start) else None
        end
  end.

(** common:284-320 [load_next_read_size]; [Err DataLoss] as in the code. *)
Definition load_next_read_size (c : common) (cu : cursor) : res Z :=
  match rd_start cu c with
  | None => Panic
  | Some start =>
      match record_size_offset c start with
      | None => Panic
      | Some size_index =>
          match add32 size_index 4 with
          | None => Panic
          | Some e =>
              if c_len c <? e then Err DataLoss
              else
                let size := from_bytes (mem_get (c_mem c) size_index 4) in
                if (size =? 0) || negb (start + c_extra c + size <? U32) || (c_len c <? start + c_extra c + size)
                then Err DataLoss
                else Ok size
          end
      end
  end.

(** common:324-338 [intersect_in_wrap_gap]. *)
Definition intersect_in_wrap_gap (c : common) (t : temp) (r : range) : bool :=
  match t_lwe t with
  | None => false
  | Some l => intersect (mkRange (l + 1) (c_len c - (l + 1))) r
  end.

(** common:341-347 [intersect_reservation]. *)
Definition intersect_reservation (c : common) (t : temp) (r : range) : bool :=
  intersect r (t_range t) || intersect_in_wrap_gap c t r.

(** common:596-632 [advance_next_read]. *)
Definition advance_next_read (c : common) (size : Z) (cu : cursor) : option common :=
  match rd_start cu c, c_cws c with
  | Some start, Some cws =>
      if negb (start =? cws) then
        match add32 start size with
        | None => None
        | Some e =>
            match sub32 e 1 with
            | None => None
            | Some last =>
                if match c_lwe c with Some l => l =? last | None => false end
                then
                  let c := match cu with CursorNo => set_lwe None c | CursorYes => c end in
                  Some (set_rd_start cu (Some 0) c)
                else Some (set_rd_start cu (Some e) c)
            end
        end
      else
        let c := set_rd_start cu None c in
        Some (match cu with CursorNo => set_cws None c | CursorYes => c end)
  | _, _ => None
  end.

(** common:697-710 [total_data_loss_reset]; [cb] is [on_total_data_loss_cb]. *)
Definition total_data_loss_reset (cb : common -> common) (c : common) : common :=
  cb (set_mem (fun _ => 0) (set_cur None (set_nrs None (set_lwe None (set_cws None (set_nws 0 c)))))).

(** common:713-732 [on_total_data_loss]; [busy] = some read or write reservation exists. *)
Definition on_total_data_loss (cb : common -> common) (busy : bool) (c : common) : common :=
  let st := c_stats c in
  let c := set_stats (mkStats (s_records_written st) (s_bytes_written st) (s_total_bytes_written st)
                              (s_records_read st) (s_bytes_read st) (s_total_bytes_read st)
                              (s_records_overwritten st) (s_bytes_overwritten st)
                              (s_records_refused st) (s_bytes_refused st)
                              (s_total_data_loss st + 1) (s_records_corrupted st)) c in
  if busy then set_pending true c else total_data_loss_reset cb c.

(** common:670-683 [maybe_do_total_data_loss_reset]. *)
Definition maybe_do_total_data_loss_reset (cb : common -> common) (busy : bool) (c : common) : common :=
  if negb (c_pending c) then c
  else if busy then c
  else total_data_loss_reset cb (set_pending false c).

(** common:686-694 [return_record_refused] (the statistics; the error code is returned by the caller). *)
Definition count_refused (size : Z) (c : common) : common :=
  let st := c_stats c in
  set_stats (mkStats (s_records_written st) (s_bytes_written st) (s_total_bytes_written st)
                     (s_records_read st) (s_bytes_read st) (s_total_bytes_read st)
                     (s_records_overwritten st) (s_bytes_overwritten st)
                     (s_records_refused st + 1) (s_bytes_refused st + size)
                     (s_total_data_loss st) (s_records_corrupted st)) c.

(** common:429-434: statistics of one overwritten record. *)
Definition count_overwritten (size : Z) (c : common) : common :=
  let st := c_stats c in
  set_stats (mkStats (s_records_written st) (s_bytes_written st) (s_total_bytes_written st)
                     (s_records_read st) (s_bytes_read st) (s_total_bytes_read st)
                     (s_records_overwritten st + 1) (s_bytes_overwritten st + size)
                     (s_records_refused st) (s_bytes_refused st)
                     (s_total_data_loss st) (s_records_corrupted st)) c.

(** common:358-446 [advance_next_read_due_to_write]. The [while] loop runs on [fuel]; running out of it is [Panic] (proved
    unreachable). In blocking mode the condition wait is [Err WouldBlock]; common:415-423: if the buffer is shut down the result
    is [Aborted]. *)
Fixpoint advance_due_to_write (fuel : nat) (cb : common -> common) (busy : bool) (c : common) (t : temp) (block : bool) : common * res unit :=
  match fuel with
  | O => (c, Panic)
  | S fuel =>
      match c_nrs c with
      | None => (c, Ok tt)
      | Some start =>
          match load_next_read_size c CursorNo with
          | Panic => (c, Panic)
          | Err _ => (count_refused (r_size (t_range t)) (on_total_data_loss cb busy c), Err Unavailable)
          | Ok size =>
              let actual := size + c_extra c in
              let next_read := mkRange start actual in
              if intersect_reservation c t next_read then
                match c_ow c with
                | OBlock =>
                    if negb block then (c, Err Unavailable)
                    else if c_shutdown c then (c, Err Aborted)
                    else (c, Err WouldBlock)
                | OYes =>
                    let c := count_overwritten size c in
                    match zero_extra_data c start with
                    | None => (c, Panic)
                    | Some c =>
                        match advance_next_read c actual CursorNo with
                        | None => (c, Panic)
                        | Some c => advance_due_to_write fuel cb busy c t block
                        end
                    end
                end
              else (c, Ok tt)
          end
      end
  end.

(** Fuel that is always enough: see the proofs. *)
Definition loop_fuel (c : common) : nat := S (S (Z.to_nat (2 * c_len c + 2))).

(** common:450-474 [calculate_next_write_start]. *)
Definition calculate_next_write_start (c : common) (write_size : Z) : option temp :=
  match add32 (c_nws c) write_size with
  | None => None
  | Some e =>
      if e <=? c_len c
      then Some (mkTemp (mkRange (c_nws c) write_size) e None)
      else match sub32 (c_nws c) 1 with
           | None => None
           | Some l => Some (mkTemp (mkRange 0 write_size) write_size (Some l))
           end
  end.

(** common:477-528 [start_reserve_common]. *)
Definition start_reserve_common (c : common) (size : Z) : common * res Z :=
  if 0 <? c_locks c then (count_refused size c, Err FailedPrecondition)
  else if c_pending c then (count_refused size c, Err Unavailable)
  else
    match add32 size (c_extra c) with
    | None => (count_refused 0 c, Err InvalidArgument)
    | Some actual =>
        if (size =? 0) || (c_len c <? actual) then (count_refused 0 c, Err InvalidArgument)
        else (c, Ok actual)
    end.

(** common:531-543 [finish_commit_common]: marks the buffer readable (the extra space it returns is
    addressed by the caller directly). *)
Definition finish_commit_common (c : common) (r : range) : common := set_readable true c.

(** common:546-593 [advance_next_commited_write_start]. *)
Definition advance_committed (c : common) (r : range) : common :=
  let c := set_cws (Some (r_start r)) c in
  let c := match c_nrs c with None => set_nrs (c_cws c) c | Some _ => c end in
  let c := match c_cur c with None => set_cur (c_cws c) c | Some _ => c end in
  let st := c_stats c in
  set_stats (mkStats (s_records_written st + 1) (s_bytes_written st + (r_size r - c_extra c)) (s_total_bytes_written st + r_size r)
                     (s_records_read st) (s_bytes_read st) (s_total_bytes_read st)
                     (s_records_overwritten st) (s_bytes_overwritten st)
                     (s_records_refused st) (s_bytes_refused st)
                     (s_total_data_loss st) (s_records_corrupted st)) c.

(** common:635-667 [finish_read_common]; the boolean tells whether a waiting flush was released
    ([drain_complete.notify_all], lines 657-664). [busy] is evaluated by the caller after its reservation was cleared. *)
Definition finish_read_common (cb : common -> common) (busy : bool) (c : common) (r : range) : option (common * bool) :=
  match advance_next_read c (r_size r) CursorNo with
  | None => None
  | Some c =>
      let st := c_stats c in
      let c := set_stats (mkStats (s_records_written st) (s_bytes_written st) (s_total_bytes_written st)
                     (s_records_read st + 1) (s_bytes_read st + (r_size r - c_extra c)) (s_total_bytes_read st + r_size r)
                     (s_records_overwritten st) (s_bytes_overwritten st)
                     (s_records_refused st) (s_bytes_refused st)
                     (s_total_data_loss st) (s_records_corrupted st)) c in
      let drained := match c_wait c with
                     | None => false
                     | Some None => true
                     | Some (Some w) => w =? r_start r
                     end in
      let c := if drained then set_wait None c else c in
      Some (maybe_do_total_data_loss_reset cb busy c, drained)
  end.

(** common:736-842 [start_read]; [reserved] tells whether the caller already holds a read reservation. Returns the range (whole record)
    of the reservation. The [loop] makes at most two rounds: after a data loss the buffer is either pending
    ([Unavailable]) or empty (no data). A blocking wait is [WouldBlock]; [Aborted] if shut down. After a wait, the code
    re-enters at line 798 while the model retries the call, i.e. also re-evaluates [pending]. *)
Definition no_data (c : common) (block : bool) : common * res range :=
  if block then (c, if c_shutdown c then Err Aborted else Err WouldBlock)
  else (set_readable false c, Err Unavailable).

(** common:736-842 [start_read]. *)
Definition start_read (cb : common -> common) (busy : bool) (c : common) (block : bool) (reserved : bool) (cu : cursor) : common * res range :=
  if reserved then (c, Err InvalidArgument)
  else if c_pending c then (c, Err Unavailable)
  else match rd_start cu c with
  | None => no_data c block
  | Some start =>
      match load_next_read_size c cu with
      | Panic => (c, Panic)
      | Err _ =>
          let c := on_total_data_loss cb busy c in
          if c_pending c then (c, Err Unavailable)
          else no_data c block
      | Ok size =>
          let r := mkRange start (size + c_extra c) in
          match (match cu with CursorYes => advance_next_read c (r_size r) cu | CursorNo => Some c end) with
          | None => (c, Panic)
          | Some c =>
              if slice_ok c start (start + c_extra c - 4) && slice_ok c (start + c_extra c) (start + c_extra c + size)
              then (c, Ok r)
              else (c, Panic)
          end
      end
  end.

(** common:845-861 [wait_for_drain]: [true] = has to wait. *)
Definition wait_for_drain (c : common) (has_read_reservation : bool) : common * bool :=
  if has_read_reservation || match c_nrs c with Some _ => true | None => false end
  then (set_wait (Some (c_cws c)) c, true)
  else (c, false).

(** common:875-885 [lock_common] and common:90-95 (drop of a lock handle). *)
Definition lock_common (c : common) : common := set_locks (c_locks c + 1) c.
(** common:90-95: drop of a lock handle. *)
Definition unlock_common (c : common) : common := set_locks (c_locks c - 1) c.

(** common:864-872 [shutdown_common]. *)
Definition shutdown_common (c : common) : common :=
  if c_shutdown c then c else set_shutdown true (lock_common c).

(** common:920-969 [CommonRingBuffer::new]. *)
Definition common_new (mem : Z -> Z) (len nws : Z) (cws lwe nrs : option Z) (extra : Z) (ow : overwrite) (hcrc : Z) : common :=
  mkCommon mem len nws cws lwe nrs nrs None false 0 false (extra + 4) ow true hcrc stats0.
