(** What a non-volatile ring buffer is supposed to be: a queue of records that survives closing and crashes. No indices, no memory,
    no wrap-around here; only the interface vocabulary ([nop], [nout], [code]) is shared with the model. *)
From Verif Require Import Base Ring_Model Nonvolatile_Model.
Open Scope Z_scope.

(** A record: the serial number of its reservation, its bytes, the checksum stored with it, whether it was committed. *)
Record entry := mkEntry { e_id : nat; e_data : list Z; e_sum : Z; e_done : bool }.

(** Why a record left the buffer. *)
Inductive fate :=
| Consumed      (* the consumer finished or released it *)
| Skipped       (* a consumer came across it, its checksum did not match *)
| Overwritten   (* removed to make room *)
| Forgotten     (* its producer went away before committing it *)
| Destroyed.    (* the file was found damaged and recreated *)

(** The registered consumer: a regular one, which may hold the oldest record; or a cursor, which has read [k] records that were not released. *)
Inductive reader := Nobody | Regular (holding : bool) | Cursor (k : nat).

Record queue := mkQ {
  q_unread : list entry;                      (* up to the newest committed one; oldest first *)
  q_gone : list entry;                        (* abandoned after the newest committed one *)
  q_slot : option (nat * list Z);             (* the producer's reservation *)
  q_next : nat;                               (* serial number of the next reservation *)
  q_prod : bool;                              (* a producer is registered *)
  q_wait : option (Z * bool * bool);          (* it waits in [reserve]: size, block, waiting for room (not for the reader) *)
  q_reader : reader;
  q_sync : bool;                              (* a cursor would read the right records *)
  q_locks : Z;
  q_shut : bool;
  q_past : list (fate * entry) }.             (* history: what left the buffer, in that order *)

Record config := mkCfg { k_cap : Z; k_ow : overwrite; k_hold : bool; k_check : bool }.
Definition k_extra (k : config) : Z := if k_check k then 8 else 4.

Definition queue_init (k : config) : queue :=
  mkQ [] [] None 0 false None Nobody (match k_ow k with OBlock => true | OYes => false end) 0 false [].

Definition set_slot x s := mkQ (q_unread s) (q_gone s) x (q_next s) (q_prod s) (q_wait s) (q_reader s) (q_sync s) (q_locks s) (q_shut s) (q_past s).
Definition set_prod x s := mkQ (q_unread s) (q_gone s) (q_slot s) (q_next s) x (q_wait s) (q_reader s) (q_sync s) (q_locks s) (q_shut s) (q_past s).
Definition set_qwait x s := mkQ (q_unread s) (q_gone s) (q_slot s) (q_next s) (q_prod s) x (q_reader s) (q_sync s) (q_locks s) (q_shut s) (q_past s).
Definition set_reader x s := mkQ (q_unread s) (q_gone s) (q_slot s) (q_next s) (q_prod s) (q_wait s) x (q_sync s) (q_locks s) (q_shut s) (q_past s).
Definition set_sync x s := mkQ (q_unread s) (q_gone s) (q_slot s) (q_next s) (q_prod s) (q_wait s) (q_reader s) x (q_locks s) (q_shut s) (q_past s).
Definition set_qlocks x y s := mkQ (q_unread s) (q_gone s) (q_slot s) (q_next s) (q_prod s) (q_wait s) (q_reader s) (q_sync s) x y (q_past s).

(** The records [fs] leave, [u] is what remains unread. Abandoned reservations are forgotten once nothing unread is left before them. *)
Definition leave (fs : list (fate * entry)) (u : list entry) (s : queue) : queue :=
  match u with
  | [] => mkQ [] [] (q_slot s) (q_next s) (q_prod s) (q_wait s) (q_reader s) (q_sync s) (q_locks s) (q_shut s)
              (q_past s ++ fs ++ map (pair Forgotten) (q_gone s))
  | _ => mkQ u (q_gone s) (q_slot s) (q_next s) (q_prod s) (q_wait s) (q_reader s) (q_sync s) (q_locks s) (q_shut s) (q_past s ++ fs)
  end.

(** A new reservation. *)
Definition take_slot (d : list Z) (s : queue) : queue :=
  mkQ (q_unread s) (q_gone s) (Some (q_next s, d)) (S (q_next s)) (q_prod s) (q_wait s) (q_reader s) (q_sync s) (q_locks s) (q_shut s) (q_past s).

(** The reservation is given up. *)
Definition abandon (s : queue) : queue :=
  match q_slot s with
  | None => s
  | Some (i, d) =>
      let e := mkEntry i d 0 false in
      match q_unread s with
      | [] => mkQ [] [] None (q_next s) (q_prod s) (q_wait s) (q_reader s) (q_sync s) (q_locks s) (q_shut s) (q_past s ++ [(Forgotten, e)])
      | _ => mkQ (q_unread s) (q_gone s ++ [e]) None (q_next s) (q_prod s) (q_wait s) (q_reader s) false (q_locks s) (q_shut s) (q_past s)
      end
  end.

(** Some consumer holds the oldest record. *)
Definition reading (s : queue) : Prop :=
  match q_reader s with Nobody => False | Regular b => b = true | Cursor k => k <> 0%nat end.

(** Room: a record takes its bytes and [ex] more. The buffer is short of room for [size] more bytes when it holds [l]: adding the record
    and leaving the largest record's worth of unused space (fragmentation at the end of the ring) exceeds the capacity. It is not when it
    holds nothing. *)
Definition need (ex : Z) (d : list Z) : Z := Z.of_nat (length d) + ex.
Definition total (ex : Z) (l : list (list Z)) : Z := fold_right (fun d a => need ex d + a) 0 l.
Definition largest (ex m : Z) (l : list (list Z)) : Z := fold_right (fun d a => Z.max (need ex d) a) m l.
Definition short_of_room (k : config) (l : list entry) (size : Z) : Prop :=
  l <> [] /\ k_cap k < total (k_extra k) (map e_data l) + (size + k_extra k) + largest (k_extra k) (size + k_extra k) (map e_data l).

Definition overwrite_bytes (l : list Z) (off : Z) (bs : list Z) : list Z :=
  firstn (Z.to_nat off) l ++ bs ++ skipn (Z.to_nat off + length bs) l.

(** A checksum some of whose bytes were already cleared. *)
Definition torn (e e' : entry) : Prop :=
  e_id e' = e_id e /\ e_data e' = e_data e /\ e_done e' = e_done e /\
  exists j, (j <= 4)%nat /\ e_sum e' = from_bytes (repeat 0 j ++ skipn j (to_bytes (e_sum e))).

Section Spec.

Variable k : config.
Variable sum : list Z -> Z.     (* the checksum of a record with these bytes *)

(** A consumer that comes across this record gets it. *)
Definition shown (e : entry) : Prop := k_check k = true -> e_sum e = sum (e_data e).

(** Its checksum is cleared when a regular consumer gets it. *)
Definition dim (e : entry) : entry := if k_check k then mkEntry (e_id e) (e_data e) 0 (e_done e) else e.

(** The state after opening the file again. [b]: a cursor may be used. *)
Definition reopened (b : bool) (s : queue) : queue :=
  let s := abandon s in mkQ (q_unread s) (q_gone s) None (q_next s) false None Nobody b 0 false (q_past s).
Definition cursor_usable (s : queue) : Prop := k_ow k = OBlock /\ Forall shown (q_unread s) /\ q_gone s = [].

(** Operations that change the header of the file; that pass over records; that clear the checksum of the oldest record. *)
Definition storing (o : nop) : Prop :=
  match o with NReserve _ _ | NResume | NCommit | NStartRead _ | NFinishRead | NAdvance => True | _ => False end.
Definition passing (o : nop) : Prop := match o with NStartRead _ => True | _ => False end.
Definition clearing (o : nop) : Prop := match o with NStartRead _ => True | NReserve _ _ | NResume => k_ow k = OYes | _ => False end.
Definition filling (o : nop) : Prop := match o with NWrite _ _ => True | _ => False end.

(** [reserve] once its argument was accepted; [second]: the reader was checked already. *)
Inductive attempt (s : queue) (size : Z) (block second : bool) : nout -> queue -> Prop :=
| A_ok : forall a init lost kept,
    Z.of_nat (length init) = size ->
    q_unread s = lost ++ kept ->
    (reading s \/ k_ow k = OBlock -> lost = []) ->
    (forall pre x, lost = pre ++ [x] -> short_of_room k (x :: kept ++ q_gone s) size) ->
    attempt s size block second (NRange (Ok (mkRange a size)))
      (set_qwait None (take_slot init (leave (map (pair Overwritten) lost) kept s)))
| A_refused : second = false -> reading s -> k_hold k = false -> short_of_room k (q_unread s ++ q_gone s) size ->
    attempt s size block second (NRange (Err ResourceExhausted)) (set_qwait None s)
| A_held : second = false -> reading s -> k_hold k = true -> short_of_room k (q_unread s ++ q_gone s) size ->
    attempt s size block second (NRange (Err WouldBlock)) (set_qwait (Some (size, block, false)) s)
| A_full : k_ow k = OBlock -> block = false -> short_of_room k (q_unread s ++ q_gone s) size ->
    attempt s size block second (NRange (Err Unavailable)) (set_qwait None s)
| A_blocked : k_ow k = OBlock -> block = true -> q_shut s = false -> short_of_room k (q_unread s ++ q_gone s) size ->
    attempt s size block second (NRange (Err WouldBlock)) (set_qwait (Some (size, block, true)) s)
| A_aborted : k_ow k = OBlock -> block = true -> q_shut s = true -> short_of_room k (q_unread s ++ q_gone s) size ->
    attempt s size block second (NRange (Err Aborted)) (set_qwait None s).

Definition idle (s : queue) : Prop := q_prod s = true /\ q_wait s = None.
Definition nothing (s : queue) (block : bool) : nout :=
  NRange (Err (if block then (if q_shut s then Aborted else WouldBlock) else Unavailable)).

Inductive step (s : queue) : nop -> nout -> queue -> Prop :=
| S_reserve : forall size block out s', idle s -> q_slot s = None -> q_locks s <= 0 -> 0 < size -> size + k_extra k <= k_cap k ->
    attempt s size block false out s' -> step s (NReserve size block) out s'
| S_reserve_twice : forall size block, idle s -> q_slot s <> None -> step s (NReserve size block) (NRange (Err InvalidArgument)) s
| S_reserve_locked : forall size block, idle s -> q_slot s = None -> 0 < q_locks s ->
    step s (NReserve size block) (NRange (Err FailedPrecondition)) s
| S_reserve_size : forall size block, idle s -> q_slot s = None -> q_locks s <= 0 -> size = 0 \/ k_cap k < size + k_extra k ->
    step s (NReserve size block) (NRange (Err InvalidArgument)) s
| S_reserve_nocall : forall size block, ~ idle s -> step s (NReserve size block) NoCall s
| S_resume : forall size block second out s', q_wait s = Some (size, block, second) -> q_shut s = false ->
    attempt s size block second out s' -> step s NResume out s'
| S_resume_aborted : q_wait s <> None -> q_shut s = true -> step s NResume (NRange (Err Aborted)) (set_qwait None s)
| S_resume_nocall : q_wait s = None -> step s NResume NoCall s
| S_write : forall off bs i d, idle s -> q_slot s = Some (i, d) ->
    step s (NWrite off bs) NUnit
      (if (0 <=? off) && (off + Z.of_nat (length bs) <=? Z.of_nat (length d)) then set_slot (Some (i, overwrite_bytes d off bs)) s else s)
| S_write_none : forall off bs, idle s -> q_slot s = None -> step s (NWrite off bs) NUnit s
| S_write_nocall : forall off bs, ~ idle s -> step s (NWrite off bs) NoCall s
| S_commit : forall i d, idle s -> q_slot s = Some (i, d) ->
    step s NCommit (NRes (Ok tt))
      (mkQ (q_unread s ++ q_gone s ++ [mkEntry i d (sum d) true]) [] None (q_next s) (q_prod s) (q_wait s) (q_reader s) (q_sync s)
           (q_locks s) (q_shut s) (q_past s))
| S_commit_none : idle s -> q_slot s = None -> step s NCommit (NRes (Err InvalidArgument)) s
| S_commit_nocall : ~ idle s -> step s NCommit NoCall s
| S_producer : q_prod s = false -> step s NRegisterProducer (NRes (Ok tt)) (set_prod true s)
| S_producer_twice : q_prod s = true -> step s NRegisterProducer (NRes (Err FailedPrecondition)) s
| S_drop_producer : idle s -> step s NDropProducer NUnit (set_prod false (abandon s))
| S_drop_producer_nocall : ~ idle s -> step s NDropProducer NoCall s
| S_register : q_reader s = Nobody -> step s NRegisterConsumer (NRes (Ok tt)) (set_sync false (set_reader (Regular false) s))
| S_register_twice : q_reader s <> Nobody -> step s NRegisterConsumer (NRes (Err FailedPrecondition)) s
| S_cursor : q_reader s = Nobody -> k_ow k = OBlock -> q_sync s = true -> step s NRegisterCursor (NRes (Ok tt)) (set_reader (Cursor 0) s)
| S_cursor_overwriting : q_reader s = Nobody -> k_ow k = OYes -> step s NRegisterCursor (NRes (Err FailedPrecondition)) s
| S_cursor_twice : q_reader s <> Nobody -> step s NRegisterCursor (NRes (Err FailedPrecondition)) s
| S_drop_consumer : q_reader s <> Nobody ->
    step s NDropConsumer NUnit
      (set_sync (match q_reader s with Cursor 0 => q_sync s | _ => false end) (set_reader Nobody s))
| S_drop_consumer_nocall : q_reader s = Nobody -> step s NDropConsumer NoCall s
| S_read : forall block a skip x l, q_reader s = Regular false -> q_unread s = skip ++ x :: l ->
    Forall (fun e => ~ shown e) skip -> shown x ->
    step s (NStartRead block) (NRange (Ok (mkRange a (Z.of_nat (length (e_data x))))))
      (set_reader (Regular true) (leave (map (pair Skipped) skip) (dim x :: l) s))
| S_read_nothing : forall block, q_reader s = Regular false -> Forall (fun e => ~ shown e) (q_unread s) ->
    step s (NStartRead block) (nothing s block) (leave (map (pair Skipped) (q_unread s)) [] s)
| S_read_twice : forall block, q_reader s = Regular true -> step s (NStartRead block) (NRange (Err InvalidArgument)) s
| S_read_nocall : forall block, q_reader s = Nobody -> step s (NStartRead block) NoCall s
| S_ahead : forall block a n x, q_reader s = Cursor n -> q_sync s = true -> nth_error (q_unread s) n = Some x ->
    step s (NStartRead block) (NRange (Ok (mkRange a (Z.of_nat (length (e_data x)))))) (set_reader (Cursor (S n)) s)
| S_ahead_nothing : forall block n, q_reader s = Cursor n -> q_sync s = true -> nth_error (q_unread s) n = None ->
    step s (NStartRead block) (nothing s block) s
| S_peek : forall x l, q_reader s = Regular true -> q_unread s = x :: l -> step s NPeek (NBytes (Some (e_data x))) s
| S_peek_ahead : forall n x, q_reader s = Cursor (S n) -> nth_error (q_unread s) n = Some x -> step s NPeek (NBytes (Some (e_data x))) s
| S_peek_none : ~ reading s -> step s NPeek (NBytes None) s
| S_finish : forall x l b, q_reader s = Regular true -> q_unread s = x :: l ->
    step s NFinishRead (NFin (Ok b)) (set_reader (Regular false) (leave [(Consumed, x)] l s))
| S_finish_none : q_reader s = Regular false -> step s NFinishRead (NFin (Err InvalidArgument)) s
| S_finish_nocall : (forall b, q_reader s <> Regular b) -> step s NFinishRead NoCall s
| S_advance : forall n x l b, q_reader s = Cursor (S n) -> q_unread s = x :: l ->
    step s NAdvance (NFin (Ok b)) (set_reader (Cursor n) (leave [(Consumed, x)] l s))
| S_advance_none : q_reader s = Cursor 0 -> step s NAdvance (NFin (Err FailedPrecondition)) s
| S_advance_nocall : (forall n, q_reader s <> Cursor n) -> step s NAdvance NoCall s
| S_drain : step s NWaitForDrain (NMust (match q_unread s with [] => false | _ => true end)) s
| S_lock : step s NLock NUnit (set_qlocks (q_locks s + 1) (q_shut s) s)
| S_unlock : step s NUnlock NUnit (set_qlocks (q_locks s - 1) (q_shut s) s)
| S_shutdown : step s NShutdown NUnit (set_qlocks (if q_shut s then q_locks s else q_locks s + 1) true s)
| S_reopen : forall b, (b = true <-> cursor_usable (abandon s)) ->
    step s NReopen (NOpened false) (reopened b s)
  (* a crash after the operation took effect *)
| S_crash_after : forall o j out s1 b, step s o out s1 -> (b = true <-> cursor_usable (abandon s1)) ->
    step s (NCrash o j) (NOpened false) (reopened b s1)
  (* a crash before: some records with wrong checksums may be skipped, the checksum of the then oldest one may be partly cleared, the
     producer's bytes may be partly written *)
| S_crash_before : forall o j b skip u u' slot, q_unread s = skip ++ u -> Forall (fun e => ~ shown e) skip -> (skip <> [] -> passing o) ->
    (u' = u \/ clearing o /\ exists e e' r, u = e :: r /\ u' = e' :: r /\ torn e e') ->
    (slot <> q_slot s -> filling o) ->
    (match q_slot s, slot with
     | None, None => True
     | Some (i, d), Some (i', d') => i' = i /\ length d' = length d
     | _, _ => False
     end) ->
    let s1 := set_slot slot (leave (map (pair Skipped) skip) u' s) in
    (b = true <-> cursor_usable (abandon s1)) ->
    step s (NCrash o j) (NOpened false) (reopened b s1)
  (* a crash in between: the damage is detected when the file is opened *)
| S_crash_lost : forall o j, storing o -> j <> 0%nat ->
    step s (NCrash o j) (NOpened true)
      (mkQ [] [] None (q_next s) false None Nobody (match k_ow k with OBlock => true | OYes => false end) 0 false
           (q_past s ++ map (pair Destroyed) (q_unread s ++ q_gone s ++ match q_slot s with Some (i, d) => [mkEntry i d 0 false] | None => [] end))).

(** Uses the code does not support (TODO at nonvolatile:936-939): a cursor after other consumption, or across an abandoned reservation. *)
Definition misuse (s : queue) (o : nop) : Prop :=
  q_sync s = false /\
  match o with
  | NRegisterCursor => q_reader s = Nobody /\ k_ow k = OBlock
  | NStartRead _ => exists n, q_reader s = Cursor n
  | _ => False
  end.

Inductive run : queue -> list nop -> list nout -> queue -> Prop :=
| R_nil : forall s, run s [] [] s
| R_cons : forall s o out s' l outs s'', step s o out s' -> run s' l outs s'' -> run s (o :: l) (out :: outs) s''.

(** What every history satisfies: the records ever reserved leave in the order of their reservation, none is missing and none appears twice. *)
Definition slot_ids (s : queue) : list nat := match q_slot s with Some (i, _) => [i] | None => [] end.
Definition in_order (s : queue) : Prop :=
  map (fun p => e_id (snd p)) (q_past s) ++ map e_id (q_unread s) ++ map e_id (q_gone s) ++ slot_ids s = seq 0 (q_next s).

End Spec.

(** The checksum in the header found after a crash was computed for another header, which was in the file earlier, and matches all the same. *)
Definition header (f : file) : Z * option Z * option Z * option Z := (fl_nws f, fl_cws f, fl_lwe f, fl_nrs f).
Definition header_sum (hcrc : Z -> option Z -> option Z -> option Z -> Z) (f : file) : Z := hcrc (fl_nws f) (fl_cws f) (fl_lwe f) (fl_nrs f).
Definition undetected (rcrc : list Z -> Z) (hcrc : Z -> option Z -> option Z -> option Z -> Z) (n : nbuf) (o : nop) (j : nat) : Prop :=
  let after i := puts (n_file n) (firstn i (n_stores rcrc hcrc n o)) in
  fl_crc (after j) = header_sum hcrc (after j) /\
  exists i, (i <= j)%nat /\ fl_crc (after j) = header_sum hcrc (after i) /\ header (after i) <> header (after j).

(** Sizes passed to [reserve] are [u32]. *)
Fixpoint nop_ok (o : nop) : Prop :=
  match o with NReserve size _ => 0 <= size < 4294967296 | NCrash o _ => nop_ok o | _ => True end.

(** Calls of histories without crashes and cursors; calls when a cursor is the only consumer, neither it nor the producer goes away. *)
Definition plain_op (o : nop) : Prop := match o with NRegisterCursor | NCrash _ _ => False | _ => True end.
Definition cursor_op (o : nop) : Prop :=
  match o with NRegisterConsumer | NDropConsumer | NDropProducer | NReopen | NCrash _ _ => False | _ => True end.

(** The memory of the records the producer and the consumer hold, bookkeeping bytes included. *)
Definition held (n : nbuf) : list range :=
  match n_prod n with Some (Some r) => [r] | _ => [] end ++
  match n_cons n with Some (Plain (Some r)) => [r] | Some (Ahead q) => q | _ => [] end.
Definition within (cap : Z) (r : range) : Prop := 0 <= r_start r /\ 0 < r_size r /\ r_start r + r_size r <= cap.
Definition disjunct (a b : range) : Prop := r_start a + r_size a <= r_start b \/ r_start b + r_size b <= r_start a.
Definition held_ok (cap : Z) (l : list range) : Prop :=
  Forall (within cap) l /\ forall a x b y c, l = a ++ x :: b ++ y :: c -> disjunct x y.

(** Locks held after a sequence of calls: handles taken minus handles dropped, plus one for the first shutdown; none after opening. *)
Fixpoint locks_after (n : Z) (shut : bool) (ops : list nop) : Z :=
  match ops with
  | [] => n
  | NLock :: l => locks_after (n + 1) shut l
  | NUnlock :: l => locks_after (n - 1) shut l
  | NShutdown :: l => locks_after (if shut then n else n + 1) true l
  | NReopen :: l => locks_after 0 false l
  | NCrash _ _ :: l => locks_after 0 false l
  | _ :: l => locks_after n shut l
  end.

(** A call that reported failure, or could not be made. *)
Definition refused (out : nout) : Prop :=
  match out with NoCall | NRange (Err _) | NRes (Err _) | NFin (Err _) => True | _ => False end.

(** The history reaches a use that is not supported, or a crash whose damage is hidden by a collision of the header's checksum. *)
Definition troubled (rcrc : list Z -> Z) (hcrc : Z -> option Z -> option Z -> option Z -> Z) (k : config) (sum : list Z -> Z) (n : nbuf) (l : list nop) : Prop :=
  exists l1 o l2 s, l = l1 ++ o :: l2 /\ run k sum (queue_init k) l1 (snd (n_run rcrc hcrc n l1)) s /\
    (misuse k s o \/ exists o' j, o = NCrash o' j /\ undetected rcrc hcrc (fst (n_run rcrc hcrc n l1)) o' j).

(** * The statistics
    Sums of a weight of the bytes over records: those that left with fate [f]; those ever committed. *)
Definition fate_is (f g : fate) : bool :=
  match f, g with
  | Consumed, Consumed | Skipped, Skipped | Overwritten, Overwritten | Forgotten, Forgotten | Destroyed, Destroyed => true
  | _, _ => false
  end.
Definition weigh (w : list Z -> Z) (l : list entry) : Z := fold_right (fun e a => w (e_data e) + a) 0 l.
Definition tally (f : fate) (w : list Z -> Z) (s : queue) : Z := weigh w (map snd (filter (fun p => fate_is f (fst p)) (q_past s))).
Definition committed (w : list Z -> Z) (s : queue) : Z := weigh w (filter e_done (map snd (q_past s) ++ q_unread s ++ q_gone s)).
Definition one (d : list Z) : Z := 1.
Definition size_of (d : list Z) : Z := Z.of_nat (length d).

(** The counters [st], relative to their values [b] when the buffer was created: records and bytes committed; handed to consumers and given
    back or passed over because of a wrong checksum; removed to make room; passed over. *)
Record counted (ex : Z) (b st : stats) (s : queue) : Prop := {
  ct_written : s_records_written st = s_records_written b + committed one s;
  ct_bytes_written : s_bytes_written st = s_bytes_written b + committed size_of s;
  ct_total_written : s_total_bytes_written st = s_total_bytes_written b + committed (need ex) s;
  ct_read : s_records_read st = s_records_read b + tally Consumed one s + tally Skipped one s;
  ct_bytes_read : s_bytes_read st = s_bytes_read b + tally Consumed size_of s + tally Skipped size_of s;
  ct_total_read : s_total_bytes_read st = s_total_bytes_read b + tally Consumed (need ex) s + tally Skipped (need ex) s;
  ct_overwritten : s_records_overwritten st = s_records_overwritten b + tally Overwritten one s;
  ct_bytes_overwritten : s_bytes_overwritten st = s_bytes_overwritten b + tally Overwritten size_of s;
  ct_corrupted : s_records_corrupted st = s_records_corrupted b + tally Skipped one s }.
