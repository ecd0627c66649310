(** C01, C02, C03, C05, C10, C11, C12 for the volatile ring buffer. *)
From Verif Require Import Base Ring_Model Volatile_Model Volatile_Spec Volatile_Proofs.
Open Scope Z_scope.

(** C01: every history of calls is a history of the lossy FIFO of Volatile_Spec.v with the same results (sizes and bytes seen by the
    consumer included), and every such history satisfies [history]. *)
Theorem C01_volatile_lossy_fifo : forall mem cap ops v outs,
  0 <= cap < 2147483648 -> Forall vop_ok ops -> v_run (v_new mem cap) ops = (v, outs) ->
  exists s, run cap fifo_init ops outs s /\ history s.
Proof. exact v_fifo. Qed.
Print Assumptions C01_volatile_lossy_fifo.

(** Two producers, commits out of order, wrap-around and overwriting in 40 bytes. *)
Definition demo : list vop :=
  [VRegisterConsumer; VReserve 0 6 false; VReserve 1 4 false; VWrite 1 0 [11; 12; 13; 14]; VCommit 1; VStartRead false;
   VWrite 0 0 [1; 2; 3]; VWrite 0 3 [4; 5; 6]; VCommit 0; VStartRead false; VPeek; VFinishRead;
   VReserve 0 12 false; VWrite 0 0 (repeat 7 12); VCommit 0; VReserve 0 10 false; VWrite 0 0 (repeat 9 10); VCommit 0;
   VStartRead false; VPeek; VFinishRead; VStartRead false; VPeek; VFinishRead; VStartRead false].

Example demo_ok : Forall vop_ok demo /\ snd (v_run (v_new (fun _ => 255) 40) demo) =
  [ORes (Ok tt); ORange (Ok (mkRange 4 6)); ORange (Ok (mkRange 14 4)); OUnit; ORes (Ok tt); ORange (Err Unavailable);
   OUnit; OUnit; ORes (Ok tt); ORange (Ok (mkRange 4 6)); OBytes (Some [1; 2; 3; 4; 5; 6]); OFin (Ok false);
   ORange (Ok (mkRange 22 12)); OUnit; ORes (Ok tt); ORange (Ok (mkRange 4 10)); OUnit; ORes (Ok tt);
   ORange (Ok (mkRange 22 12)); OBytes (Some (repeat 7 12)); OFin (Ok false);
   ORange (Ok (mkRange 4 10)); OBytes (Some (repeat 9 10)); OFin (Ok false); ORange (Err Unavailable)].
Proof. split; [repeat constructor; cbn; lia|vm_compute; reflexivity]. Qed.

(** C02: whatever callers hold according to the results they got is inside the buffer and pairwise apart, bookkeeping bytes included. *)
Theorem C02_volatile_handed_out : forall mem cap ops v outs,
  0 <= cap < 2147483648 -> Forall vop_ok ops -> v_run (v_new mem cap) ops = (v, outs) ->
  handed_out_ok cap (ledger_run ledger0 ops outs).
Proof. exact v_handed_out. Qed.
Print Assumptions C02_volatile_handed_out.

Example C02_case :
  let ops := firstn 10 demo ++ [VReserve 0 6 false; VReserve 1 4 false] in
  let l := ledger_run ledger0 ops (snd (v_run (v_new (fun _ => 255) 40) ops)) in
  l_prod l 0 = Some (mkRange 22 6) /\ l_prod l 1 = Some (mkRange 32 4) /\ l_cons l = Some (mkRange 4 6).
Proof. vm_compute. auto. Qed.

(** C03: whatever was ever visible is older than every reservation not yet visible; whatever is older than all uncommitted
    reservations has become visible. *)
Theorem C03_volatile_committed_prefix : forall mem cap ops v outs,
  0 <= cap < 2147483648 -> Forall vop_ok ops -> v_run (v_new mem cap) ops = (v, outs) ->
  exists s, run cap fifo_init ops outs s /\
  (forall x i, In x (f_consumed s ++ f_lost s ++ f_unread s) -> In i (slot_ids (f_slots s)) -> (rec_id x < i)%nat) /\
  (forall i, (i < f_next s)%nat -> (forall sl, In sl (f_slots s) -> sl_done sl = false -> (i < rec_id (sl_rec sl))%nat) ->
     In i (ids (f_consumed s ++ f_lost s ++ f_unread s))).
Proof. exact v_prefix. Qed.
Print Assumptions C03_volatile_committed_prefix.

(** In [demo] producer 1 commits first and nothing can be read until producer 0 commits: results 6 and 10 above. *)
Example C03_case : nth 5 (snd (v_run (v_new (fun _ => 255) 40) demo)) OUnit = ORange (Err Unavailable) /\
  nth 9 (snd (v_run (v_new (fun _ => 255) 40) demo)) OUnit = ORange (Ok (mkRange 4 6)).
Proof. vm_compute. auto. Qed.

(** C05: the statistics count exactly the overwritten, the delivered and the written records, and their bytes (the totals with four bytes of
    bookkeeping each); an overwritten record is never delivered. *)
Theorem C05_volatile_accounting : forall mem cap ops v outs,
  0 <= cap < 2147483648 -> Forall vop_ok ops -> v_run (v_new mem cap) ops = (v, outs) ->
  exists s, run cap fifo_init ops outs s /\
  s_records_overwritten (c_stats (v_c v)) = Z.of_nat (length (f_lost s)) /\
  s_records_read (c_stats (v_c v)) = Z.of_nat (length (f_consumed s)) /\
  s_records_written (c_stats (v_c v)) = Z.of_nat (length (f_consumed s) + length (f_lost s) + length (f_unread s)) /\
  s_bytes_overwritten (c_stats (v_c v)) = bytes (f_lost s) /\
  s_bytes_read (c_stats (v_c v)) = bytes (f_consumed s) /\
  s_bytes_written (c_stats (v_c v)) = bytes (f_consumed s) + bytes (f_lost s) + bytes (f_unread s) /\
  s_total_bytes_read (c_stats (v_c v)) = s_bytes_read (c_stats (v_c v)) + 4 * s_records_read (c_stats (v_c v)) /\
  s_total_bytes_written (c_stats (v_c v)) = s_bytes_written (c_stats (v_c v)) + 4 * s_records_written (c_stats (v_c v)) /\
  NoDup (ids (f_consumed s) ++ ids (f_lost s) ++ ids (f_unread s)) /\
  (forall ops2 outs2 s2 x, run cap s ops2 outs2 s2 -> In x (f_lost s) -> ~ In (rec_id x) (ids (f_consumed s2 ++ f_unread s2))).
Proof. exact v_accounting. Qed.
Print Assumptions C05_volatile_accounting.

Example C05_case : let st := c_stats (v_c (fst (v_run (v_new (fun _ => 255) 40) demo))) in
  (s_records_written st, s_records_read st, s_records_overwritten st) = (4, 3, 1).
Proof. vm_compute. reflexivity. Qed.

(** C10: with a lock held a reservation fails and changes nothing ([s] explains the history with and without it); without one it
    is accepted as soon as the request is legal and there is room (or neither a reader nor another reservation is in the way);
    reading does not depend on locks. *)
Theorem C10_volatile_locked : forall mem cap ops v outs p size block v' out,
  0 <= cap < 2147483648 -> Forall vop_ok ops -> 0 <= size < 4294967296 ->
  v_run (v_new mem cap) ops = (v, outs) -> 0 < locks_held 0 false ops -> v_step v (VReserve p size block) = (v', out) ->
  failed out /\ exists s, run cap fifo_init (ops ++ [VReserve p size block]) (outs ++ [out]) s /\ run cap fifo_init ops outs s.
Proof. exact v_locked. Qed.
Print Assumptions C10_volatile_locked.

Theorem C10_volatile_unlocked : forall mem cap ops v outs p size block v' out,
  0 <= cap < 2147483648 -> Forall vop_ok ops -> 0 <= size < 4294967296 ->
  v_run (v_new mem cap) ops = (v, outs) -> locks_held 0 false ops <= 0 -> v_step v (VReserve p size block) = (v', out) ->
  exists s, run cap fifo_init ops outs s /\
  (~ owns p s -> 0 < size -> size + 4 <= cap ->
   (~ reading s /\ f_slots s = [] \/ ~ short_of_room cap (contents (f_unread s) (f_slots s)) size) ->
   exists a, out = ORange (Ok (mkRange a size))).
Proof. exact v_unlocked. Qed.
Print Assumptions C10_volatile_unlocked.

Theorem C10_volatile_read : forall mem cap ops v outs block v' out,
  0 <= cap < 2147483648 -> Forall vop_ok ops -> v_run (v_new mem cap) ops = (v, outs) -> v_step v (VStartRead block) = (v', out) ->
  exists s, run cap fifo_init ops outs s /\
  forall x l, f_reader s = Some false -> f_unread s = x :: l -> exists a, out = ORange (Ok (mkRange a (Z.of_nat (length (rec_data x))))).
Proof. exact v_read_any_lock. Qed.
Print Assumptions C10_volatile_read.

Example C10_case :
  let ops := [VRegisterConsumer; VReserve 0 3 false; VCommit 0; VLock; VLock; VUnlock; VReserve 0 3 false; VStartRead false; VUnlock; VReserve 0 3 false; VShutdown; VUnlock] in
  locks_held 0 false (firstn 6 ops) = 1 /\
  snd (v_run (v_new (fun _ => 0) 100) ops) =
  [ORes (Ok tt); ORange (Ok (mkRange 4 3)); ORes (Ok tt); OUnit; OUnit; OUnit; ORange (Err FailedPrecondition); ORange (Ok (mkRange 4 3)); OUnit;
   ORange (Ok (mkRange 11 3)); OUnit; OUnit].
Proof. vm_compute. auto. Qed.

(** C11: a call that reports failure leaves the FIFO as it was. *)
Theorem C11_volatile_failed_call : forall mem cap ops v outs o v' out,
  0 <= cap < 2147483648 -> Forall vop_ok ops -> vop_ok o ->
  v_run (v_new mem cap) ops = (v, outs) -> v_step v o = (v', out) -> failed out ->
  exists s, run cap fifo_init ops outs s /\ step cap s o out s.
Proof. exact v_failed. Qed.
Print Assumptions C11_volatile_failed_call.

Example C11_case :
  let ops := [VRegisterConsumer; VReserve 0 20 false; VCommit 0; VStartRead false; VReserve 1 30 false; VCommit 1; VReserve 1 0 false; VPeek] in
  snd (v_run (v_new (fun _ => 3) 40) ops) =
  [ORes (Ok tt); ORange (Ok (mkRange 4 20)); ORes (Ok tt); ORange (Ok (mkRange 4 20)); ORange (Err ResourceExhausted); ORes (Err InvalidArgument);
   ORange (Err InvalidArgument); OBytes (Some (repeat 3 20))].
Proof. vm_compute. reflexivity. Qed.

(** C12: a flush that does not wait finds nothing unread; one that waits and is released by a finished read (the first one reported as
    releasing after it) leaves every record unread at its start consumed or overwritten. The records that were committed but not
    yet visible at its start are not covered: see [C12_flush_refuted]. *)
Theorem C12_flush_waits_partial : forall mem cap ops1 ops2 v outs, 0 <= cap < 2147483648 ->
  Forall vop_ok (ops1 ++ VWaitForDrain :: ops2 ++ [VFinishRead]) ->
  v_run (v_new mem cap) (ops1 ++ VWaitForDrain :: ops2 ++ [VFinishRead]) = (v, outs) ->
  exists outs1 w outs2 f s1 s2,
    outs = outs1 ++ OWait w :: outs2 ++ [f] /\ length outs1 = length ops1 /\ length outs2 = length ops2 /\
    run cap fifo_init ops1 outs1 s1 /\ run cap fifo_init (ops1 ++ VWaitForDrain :: ops2 ++ [VFinishRead]) outs s2 /\
    (w = false -> f_unread s1 = []) /\
    (w = true -> ~ In (OFin (Ok true)) outs2 -> f = OFin (Ok true) ->
     forall x, In x (f_unread s1) -> In (rec_id x) (ids (f_consumed s2) ++ ids (f_lost s2))).
Proof. exact v_flush. Qed.
Print Assumptions C12_flush_waits_partial.

Example C12_case :
  snd (v_run (v_new (fun _ => 0) 100)
    ([VRegisterConsumer; VReserve 0 3 false; VCommit 0; VReserve 0 4 false; VCommit 0] ++ VWaitForDrain ::
     [VReserve 1 5 false; VCommit 1; VStartRead false; VFinishRead; VStartRead false] ++ [VFinishRead])) =
  [ORes (Ok tt); ORange (Ok (mkRange 4 3)); ORes (Ok tt); ORange (Ok (mkRange 11 4)); ORes (Ok tt); OWait true;
   ORange (Ok (mkRange 19 5)); ORes (Ok tt); ORange (Ok (mkRange 4 3)); OFin (Ok false); ORange (Ok (mkRange 11 4)); OFin (Ok true)].
Proof. vm_compute. reflexivity. Qed.

(** A flush does not wait for a record whose commit succeeded before it, if an older reservation is still open: here the flush returns
    at once although the record of producer 1 was committed and never read. *)
Theorem C12_flush_refuted : exists cap ops v a b, Forall vop_ok ops /\
  ops = [VRegisterConsumer; VReserve 0 3 false; VReserve 1 3 false; VCommit 1; VWaitForDrain] /\
  v_run (v_new (fun _ => 0) cap) ops = (v, [ORes (Ok tt); ORange (Ok a); ORange (Ok b); ORes (Ok tt); OWait false]).
Proof.
  exists 100, [VRegisterConsumer; VReserve 0 3 false; VReserve 1 3 false; VCommit 1; VWaitForDrain].
  eexists _, _, _. split; [repeat constructor; cbn; lia|]. split; [reflexivity|]. vm_compute. reflexivity.
Qed.
Print Assumptions C12_flush_refuted.

(** C63: a flush that waits is not always released by the time everything has been read: its target record can be overwritten
    (the TODO at common:655). Here the buffer ends up empty and idle, no finished read ever released the flush, and it
    is still waiting. *)
Theorem C63_flush_completes_refuted : exists cap ops v outs, Forall vop_ok ops /\
  v_run (v_new (fun _ => 0) cap) ops = (v, outs) /\
  nth 5 outs OUnit = OWait true /\ ~ In (OFin (Ok true)) outs /\
  snd (v_step v (VStartRead false)) = ORange (Err Unavailable) /\ snd (v_step v VWaitForDrain) = OWait false /\
  c_wait (v_c v) <> None.
Proof.
  exists 20, [VRegisterConsumer; VReserve 0 4 false; VCommit 0; VReserve 0 4 false; VCommit 0; VWaitForDrain;
              VReserve 0 12 false; VCommit 0; VStartRead false; VFinishRead].
  eexists _, _. split; [repeat constructor; cbn; lia|]. split; [vm_compute; reflexivity|].
  split; [reflexivity|]. split; [|split; [vm_compute; reflexivity|split; [vm_compute; reflexivity|vm_compute; discriminate]]].
  cbn. intuition discriminate.
Qed.
Print Assumptions C63_flush_completes_refuted.
