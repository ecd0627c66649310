(** C02, C04, C05, C06, C07, C08, C10, C11 for the non-volatile ring buffer. *)
From Verif Require Import Base Ring_Model Nonvolatile_Model Nonvolatile_Spec NonvolatileClient_Spec NonvolatileUse_Proofs NonvolatileClient_Proofs.
Open Scope Z_scope.

(** Concrete checksums and sizes for the examples. *)
Definition rc (l : list Z) : Z := fold_left (fun a b => (a * 31 + b + 1) mod 4294967296) l 7.
Definition oz (o : option Z) : Z := match o with Some x => x + 2 | None => 1 end.
Definition hc (a : Z) (b c d : option Z) : Z := rc [a; oz b; oz c; oz d].
Definition st0 : stats := mkStats 0 0 0 0 0 0 0 0 0 0 0 0.
Definition calls (k : config) (l : list nop) : list nout :=
  match n_open hc None (k_cap k + header_size) (k_ow k) (k_hold k) (k_check k) st0 with Ok n => snd (n_run rc hc n l) | _ => [] end.
Definition answers (k : config) (l : list event) : list answer :=
  match created rc hc k st0 with Some n => snd (client rc hc n l) | None => [] end.
Definition canswers (k : config) (l : list cevent) : list canswer :=
  match ccreated rc hc k st0 with Some n => snd (cclient rc hc n l) | None => [] end.
Definition keep : config := mkCfg 60 OBlock false true.
Definition over : config := mkCfg 60 OYes false true.

(** * Single calls
    Every history of calls on a new buffer, including closing, opening again and crashes between any two stores to the file, is a
    history of the queue of Nonvolatile_Spec.v with the same results (the bytes the consumer sees included), unless it is [troubled]:
    a cursor is used where the code does not support it, or the damage of a crash is hidden by a collision of the header's checksum.
    Records leave in the order of their reservation, none is missing and none appears twice ([in_order]). A record in the hands of the
    consumer was committed, or its bytes have checksum 0 ([holding_ok]). The memory in the hands of the producer and the consumer is
    inside the buffer and disjoint ([held_ok]). *)
Theorem C08_crash_queue rcrc hcrc : forall k st n l, 0 <= k_cap k < 2147483648 ->
  n_open hcrc None (k_cap k + header_size) (k_ow k) (k_hold k) (k_check k) st = Ok n -> Forall nop_ok l ->
  (exists s, run k (record_sum rcrc) (queue_init k) l (snd (n_run rcrc hcrc n l)) s /\ in_order s /\
     (q_reader s = Regular true -> exists x u, q_unread s = x :: u /\ (k_check k = true -> e_done x = true \/ record_sum rcrc (e_data x) = 0)) /\
     held_ok (k_cap k) (held (fst (n_run rcrc hcrc n l)))) \/
  troubled rcrc hcrc k (record_sum rcrc) n l.
Proof. exact (new_queue rcrc hcrc). Qed.
Print Assumptions C08_crash_queue.

Theorem C02_non_volatile_held rcrc hcrc : forall k st n l, 0 <= k_cap k < 2147483648 ->
  n_open hcrc None (k_cap k + header_size) (k_ow k) (k_hold k) (k_check k) st = Ok n -> Forall nop_ok l ->
  held_ok (k_cap k) (held (fst (n_run rcrc hcrc n l))) \/ troubled rcrc hcrc k (record_sum rcrc) n l.
Proof. exact (new_held rcrc hcrc). Qed.
Print Assumptions C02_non_volatile_held.

(** Two records in the hands of a cursor and one in those of the producer. *)
Example held_case : match n_open hc None 100 OBlock false true st0 with
  | Ok n => held (fst (n_run rc hc n ([NRegisterProducer; NRegisterCursor] ++ steps (Put [1; 2; 3]) ++ steps (Put [4; 5]) ++ [NStartRead false; NStartRead false; NReserve 4 false]))) =
            [mkRange 21 12; mkRange 0 11; mkRange 11 10]
  | _ => False end.
Proof. vm_compute. reflexivity. Qed.

(** Crashes: in the middle of a commit (all stores but the last, the header's checksum), and of a write. *)
Example crash_case : calls keep ([NRegisterProducer; NRegisterConsumer] ++ steps (Put [1; 2; 3]) ++
    [NReserve 4 false; NCrash (NWrite 0 [7; 7; 7; 7]) 2; NRegisterProducer; NRegisterConsumer] ++ steps (Put [4; 5]) ++
    [NStartRead false; NPeek; NFinishRead; NStartRead false; NPeek; NFinishRead; NReserve 2 false; NCrash NCommit 3]) =
  [NRes (Ok tt); NRes (Ok tt); NRange (Ok (mkRange 8 3)); NUnit; NRes (Ok tt);
   NRange (Ok (mkRange 19 4)); NOpened false; NRes (Ok tt); NRes (Ok tt); NRange (Ok (mkRange 31 2)); NUnit; NRes (Ok tt);
   NRange (Ok (mkRange 8 3)); NBytes (Some [1; 2; 3]); NFin (Ok false); NRange (Ok (mkRange 31 2)); NBytes (Some [4; 5]); NFin (Ok false);
   NRange (Ok (mkRange 41 2)); NOpened true].
Proof. vm_compute. reflexivity. Qed.

(** Without crashes and cursors nothing is [troubled]. *)
Theorem C04_non_volatile_queue rcrc hcrc : forall k st n l, 0 <= k_cap k < 2147483648 ->
  n_open hcrc None (k_cap k + header_size) (k_ow k) (k_hold k) (k_check k) st = Ok n -> Forall nop_ok l -> Forall plain_op l ->
  exists s, run k (record_sum rcrc) (queue_init k) l (snd (n_run rcrc hcrc n l)) s /\ in_order s.
Proof. exact (new_plain rcrc hcrc). Qed.
Print Assumptions C04_non_volatile_queue.

Example plain_case : let l := [NRegisterProducer; NRegisterConsumer; NReserve 6 true; NWrite 0 [1; 2; 3; 4; 5; 6]; NCommit; NStartRead false; NReserve 40 true; NResume;
    NReserve 30 true; NPeek; NFinishRead; NResume; NLock; NCommit; NReserve 2 false; NUnlock; NReopen; NRegisterConsumer; NStartRead false; NPeek] in
  Forall nop_ok l /\ Forall plain_op l /\
  calls (mkCfg 60 OBlock true true) l =
  [NRes (Ok tt); NRes (Ok tt); NRange (Ok (mkRange 8 6)); NUnit; NRes (Ok tt); NRange (Ok (mkRange 8 6)); NRange (Err WouldBlock); NRange (Err WouldBlock);
   NoCall; NBytes (Some [1; 2; 3; 4; 5; 6]); NFin (Ok false); NRange (Ok (mkRange 8 40)); NUnit; NRes (Ok tt); NRange (Err FailedPrecondition); NUnit;
   NOpened false; NRes (Ok tt); NRange (Ok (mkRange 8 40)); NBytes (Some ([1; 2; 3; 4; 5; 6] ++ repeat 0 34))].
Proof. cbv zeta. split; [repeat constructor; cbn; lia|]. split; [repeat constructor|]. vm_compute. reflexivity. Qed.

(** C10: with a lock held a reservation fails and changes nothing; without one it is accepted if it is legal and there is room. *)
Theorem C10_non_volatile_locked rcrc hcrc : forall k st n l size block, 0 <= k_cap k < 2147483648 ->
  n_open hcrc None (k_cap k + header_size) (k_ow k) (k_hold k) (k_check k) st = Ok n ->
  Forall nop_ok l -> 0 <= size < 4294967296 -> 0 < locks_after 0 false l ->
  troubled rcrc hcrc k (record_sum rcrc) n (l ++ [NReserve size block]) \/
  refused (snd (n_step rcrc hcrc (fst (n_run rcrc hcrc n l)) (NReserve size block))) /\
  exists s, run k (record_sum rcrc) (queue_init k) l (snd (n_run rcrc hcrc n l)) s /\
    run k (record_sum rcrc) (queue_init k) (l ++ [NReserve size block]) (snd (n_run rcrc hcrc n (l ++ [NReserve size block]))) s.
Proof. exact (new_locked rcrc hcrc). Qed.
Print Assumptions C10_non_volatile_locked.
Theorem C10_non_volatile_unlocked rcrc hcrc : forall k st n l size block, 0 <= k_cap k < 2147483648 ->
  n_open hcrc None (k_cap k + header_size) (k_ow k) (k_hold k) (k_check k) st = Ok n ->
  Forall nop_ok l -> 0 <= size < 4294967296 -> locks_after 0 false l <= 0 ->
  troubled rcrc hcrc k (record_sum rcrc) n (l ++ [NReserve size block]) \/
  exists s, run k (record_sum rcrc) (queue_init k) l (snd (n_run rcrc hcrc n l)) s /\
  (idle s -> q_slot s = None -> 0 < size -> size + k_extra k <= k_cap k -> (~ reading s /\ k_ow k = OYes \/ ~ short_of_room k (q_unread s ++ q_gone s) size) ->
   exists a, snd (n_step rcrc hcrc (fst (n_run rcrc hcrc n l)) (NReserve size block)) = NRange (Ok (mkRange a size))).
Proof. exact (new_unlocked rcrc hcrc). Qed.
Print Assumptions C10_non_volatile_unlocked.

(** C11: a call that reports failure leaves the queue as it was; except that a read may drop records with a wrong checksum. *)
Theorem C11_non_volatile_failed_call rcrc hcrc : forall k st n l o, 0 <= k_cap k < 2147483648 ->
  n_open hcrc None (k_cap k + header_size) (k_ow k) (k_hold k) (k_check k) st = Ok n -> Forall nop_ok (l ++ [o]) ->
  refused (snd (n_step rcrc hcrc (fst (n_run rcrc hcrc n l)) o)) ->
  troubled rcrc hcrc k (record_sum rcrc) n (l ++ [o]) \/
  exists s s', run k (record_sum rcrc) (queue_init k) l (snd (n_run rcrc hcrc n l)) s /\
    run k (record_sum rcrc) (queue_init k) (l ++ [o]) (snd (n_run rcrc hcrc n (l ++ [o]))) s' /\
    q_slot s' = q_slot s /\ q_prod s' = q_prod s /\ q_reader s' = q_reader s /\ q_locks s' = q_locks s /\ q_next s' = q_next s /\
    exists skip, q_unread s = skip ++ q_unread s' /\ Forall (fun e => ~ shown k (record_sum rcrc) e) skip /\ (skip <> [] -> passing o).
Proof. exact (new_failed rcrc hcrc). Qed.
Print Assumptions C11_non_volatile_failed_call.
Example failed_case : let l := [NRegisterProducer; NRegisterConsumer] ++ steps (Put [1; 2; 3]) ++ [NLock; NReserve 3 false; NShutdown; NUnlock; NReserve 3 false; NStartRead false] in
  locks_after 0 false (firstn 6 l) = 1 /\ locks_after 0 false (firstn 9 l) = 1 /\
  calls keep l = [NRes (Ok tt); NRes (Ok tt); NRange (Ok (mkRange 8 3)); NUnit; NRes (Ok tt); NUnit; NRange (Err FailedPrecondition); NUnit; NUnit;
                  NRange (Err FailedPrecondition); NRange (Ok (mkRange 8 3))] /\ refused (NRange (Err FailedPrecondition)).
Proof. vm_compute. auto. Qed.

(** * Whole records *)
(** C04: a non-overwriting buffer, without crashes: what was accepted is delivered exactly once, in order, byte for byte, or still stored. *)
Theorem C04_exactly_once rcrc hcrc : forall k st n l, 0 <= k_cap k < 2147483648 -> k_ow k = OBlock -> created rcrc hcrc k st = Some n ->
  Forall event_ok l -> Forall (fun e => crashes e = false) l ->
  exists q, fifo_run k [] l (snd (client rcrc hcrc n l)) q /\ accepted l (snd (client rcrc hcrc n l)) = delivered (snd (client rcrc hcrc n l)) ++ q.
Proof. exact (new_exact rcrc hcrc). Qed.
Print Assumptions C04_exactly_once.
Example exact_case : answers keep [Call (Put [1; 2; 3]); Call (Put [4; 5]); Call Get; Restart; Call (Put (repeat 9 40)); Call (Put [6]); Call Get; Call Get; Call (Put (repeat 9 53)); Call (Put (repeat 8 52)); Call Get; Call Get] =
  [Accepted; Accepted; Got [1; 2; 3]; Started false; Refused; Accepted; Got [4; 5]; Got [6]; Refused; Accepted; Got (repeat 8 52); Nothing].
Proof. vm_compute. reflexivity. Qed.

(** C05: an overwriting buffer delivers, in order and at most once, what was accepted; records are given up only from the old end, and only
    if room for a new one is short. *)
Theorem C05_overwriting rcrc hcrc : forall k st n l, 0 <= k_cap k < 2147483648 -> created rcrc hcrc k st = Some n ->
  Forall event_ok l -> Forall (fun e => crashes e = false) l ->
  exists q, fifo_run k [] l (snd (client rcrc hcrc n l)) q /\ sublist (delivered (snd (client rcrc hcrc n l)) ++ q) (accepted l (snd (client rcrc hcrc n l))).
Proof. exact (new_lossy rcrc hcrc). Qed.
Print Assumptions C05_overwriting.
Example over_case : answers over [Call (Put [1; 2; 3]); Call (Put [4; 5]); Call (Put (repeat 9 40)); Call Get; Call Get] =
  [Accepted; Accepted; Accepted; Got (repeat 9 40); Nothing].
Proof. vm_compute. reflexivity. Qed.

(** C05: the statistics: the records written are those accepted, the records read are those delivered, and the number of records reported as
    overwritten is that of the accepted records neither delivered nor stored; the same holds of the bytes. *)
Theorem C05_balanced rcrc hcrc : forall k st n l, 0 <= k_cap k < 2147483648 -> created rcrc hcrc k st = Some n ->
  Forall event_ok l -> Forall (fun e => crashes e = false) l ->
  exists q, fifo_run k [] l (snd (client rcrc hcrc n l)) q /\
    balanced (k_extra k) st (c_stats (n_c (fst (client rcrc hcrc n l)))) (accepted l (snd (client rcrc hcrc n l))) (delivered (snd (client rcrc hcrc n l))) q.
Proof. exact (new_balanced rcrc hcrc). Qed.
Print Assumptions C05_balanced.
Example balanced_case : exists n, created rc hc over st0 = Some n /\
  let st := c_stats (n_c (fst (client rc hc n [Call (Put [1; 2; 3]); Call Get; Call (Put [4; 5]); Call (Put [7]); Call (Put (repeat 9 40)); Restart; Call (Put [8])]))) in
  [s_records_written st; s_records_read st; s_records_overwritten st; s_bytes_written st; s_bytes_read st; s_bytes_overwritten st] = [5; 1; 2; 47; 3; 3].
Proof. eexists. split; [vm_compute; reflexivity|]. vm_compute. reflexivity. Qed.

(** The same for arbitrary calls of producers and consumers that come and go, locks and openings: the counters are those of the records that
    left the queue and of the committed ones. With cursors, unless these are used where the code does not support it. *)
Theorem C05_counters rcrc hcrc : forall k st n l, 0 <= k_cap k < 2147483648 ->
  n_open hcrc None (k_cap k + header_size) (k_ow k) (k_hold k) (k_check k) st = Ok n -> Forall nop_ok l -> Forall plain_op l ->
  exists s, run k (record_sum rcrc) (queue_init k) l (snd (n_run rcrc hcrc n l)) s /\ in_order s /\
    counted (k_extra k) st (c_stats (n_c (fst (n_run rcrc hcrc n l)))) s.
Proof. exact (new_plain_counted rcrc hcrc). Qed.
Print Assumptions C05_counters.
Theorem C05_cursor_counters rcrc hcrc : forall k st n l, 0 <= k_cap k < 2147483648 ->
  n_open hcrc None (k_cap k + header_size) (k_ow k) (k_hold k) (k_check k) st = Ok n -> Forall nop_ok l -> Forall (fun o => forall o' j, o <> NCrash o' j) l ->
  (exists s, run k (record_sum rcrc) (queue_init k) l (snd (n_run rcrc hcrc n l)) s /\ in_order s /\
     counted (k_extra k) st (c_stats (n_c (fst (n_run rcrc hcrc n l)))) s) \/
  troubled rcrc hcrc k (record_sum rcrc) n l.
Proof. exact (new_counted rcrc hcrc). Qed.
Print Assumptions C05_cursor_counters.
Definition abandoning : list nop :=
  [NRegisterProducer; NReserve 3 false; NWrite 0 [1; 2; 3]; NCommit; NReserve 5 false; NDropProducer; NRegisterProducer; NReserve 2 false; NWrite 0 [6; 7]; NCommit].
Example counters_case : exists n, n_open hc None (60 + header_size) OYes false true st0 = Ok n /\
  let st := c_stats (n_c (fst (n_run rc hc n (abandoning ++ [NRegisterConsumer; NStartRead false; NFinishRead; NStartRead false])))) in
  [s_records_written st; s_records_read st; s_records_overwritten st; s_records_corrupted st; s_bytes_written st; s_bytes_read st] = [2; 2; 0; 1; 5; 8].
Proof. eexists. split; [vm_compute; reflexivity|]. vm_compute. reflexivity. Qed.

(** The claim does not hold of a reservation given up by a producer that went away while records before and after it were stored: it is
    reported as an overwritten record although it never was a record. Two records are written, three are overwritten. *)
Theorem C05_abandoned_refuted : exists n, n_open hc None (60 + header_size) OYes false true st0 = Ok n /\
  let r := n_run rc hc n (abandoning ++ [NReserve 45 false]) in
  (exists x, last (snd r) NoCall = NRange (Ok x)) /\
  s_records_written (c_stats (n_c (fst r))) = 2 /\ s_records_read (c_stats (n_c (fst r))) = 0 /\ s_records_overwritten (c_stats (n_c (fst r))) = 3.
Proof. eexists. split; [vm_compute; reflexivity|]. vm_compute. eauto. Qed.
Print Assumptions C05_abandoned_refuted.

(** C07: closing and opening again changes nothing: the calls after it answer as for the queue left by the calls before it. *)
Theorem C07_restart rcrc hcrc : forall k st n l1 l2, 0 <= k_cap k < 2147483648 -> created rcrc hcrc k st = Some n ->
  Forall event_ok (l1 ++ Restart :: l2) -> Forall (fun e => crashes e = false) (l1 ++ Restart :: l2) ->
  exists a1 a2 q q', snd (client rcrc hcrc n (l1 ++ Restart :: l2)) = a1 ++ Started false :: a2 /\ a1 = snd (client rcrc hcrc n l1) /\ fifo_run k [] l1 a1 q /\ fifo_run k q l2 a2 q'.
Proof. exact (new_restart rcrc hcrc). Qed.
Print Assumptions C07_restart.

(** C08: with crashes anywhere, for a buffer with record checksums: the answers are those of [durable] (up to a collision of the
    header's checksum). Hence every record delivered is one that was offered by a writer, complete, in the order offered and at most once,
    except bytes whose checksum is 0. *)
Theorem C08_crash_records rcrc hcrc : forall k st n l, 0 <= k_cap k < 2147483648 -> k_check k = true -> created rcrc hcrc k st = Some n -> Forall event_ok l ->
  (exists q, durable_run k (record_sum rcrc) [] l (snd (client rcrc hcrc n l)) q /\
     sublist (filter (fun d => negb (record_sum rcrc d =? 0)) (delivered (snd (client rcrc hcrc n l)))) (offered l)) \/
  (exists l1 e l2 q, l = l1 ++ e :: l2 /\ durable_run k (record_sum rcrc) [] l1 (snd (client rcrc hcrc n l1)) q /\ unlucky rcrc hcrc (fst (client rcrc hcrc n l1)) e).
Proof. exact (new_crashing rcrc hcrc). Qed.
Print Assumptions C08_crash_records.

(** In a non-overwriting buffer whose file was never found damaged, only crashes inside [get] lose accepted records, each at most one. *)
Theorem C08_crash_keeps : forall k sum l al q, durable_run k sum [] l al q -> k_ow k = OBlock -> ~ In (Started true) al ->
  exists gone, sublist (accepted l al) (gone ++ map snd q) /\ sublist (delivered al) gone /\
    (length gone <= length (delivered al) + length (filter (fun e => match e with CrashIn Get _ _ => true | _ => false end) l))%nat.
Proof. exact (fun k sum l al q => durable_keeps k sum [] l al q). Qed.
Print Assumptions C08_crash_keeps.
Example crash_records_case : answers keep [Call (Put [1; 2; 3]); CrashIn (Put [4; 5]) 1 1; Call (Put [6]); CrashIn Get 0 2; Call Get; Call (Put [7; 8]); CrashIn (Put [9]) 2 9; Call Get; Call Get; CrashIn (Put [1]) 0 1; Call Get] =
  [Accepted; Started false; Accepted; Started false; Got [6]; Accepted; Started false; Got [7; 8]; Got [9]; Started true; Nothing] /\
  forall d, In d [[1; 2; 3]; [6]; [7; 8]; [9]] -> record_sum rc d <> 0.
Proof. split; [vm_compute; reflexivity|]. intros d H. repeat (destruct H as [<-|H]; [vm_compute; discriminate|]). destruct H. Qed.

(** C06: a cursor reads the stored records in order, each once, without removing them; the n-th release removes the n-th record read;
    after a restart it starts again with the oldest record not released. (Writers do not wait for readers here: [k_hold] is false.) *)
Theorem C06_cursor_client_partial rcrc hcrc : forall k st n l, 0 <= k_cap k < 2147483648 -> k_ow k = OBlock -> k_hold k = false ->
  ccreated rcrc hcrc k st = Some n -> Forall cevent_ok l ->
  exists q r, cursor_run k [] 0 l (snd (cclient rcrc hcrc n l)) q r.
Proof. exact (new_cursor_client rcrc hcrc). Qed.
Print Assumptions C06_cursor_client_partial.
Example cursor_client_case : canswers keep [CCall (CPut [1; 2; 3]); CCall (CPut [4; 5]); CCall CRead; CCall CRead; CCall CRead; CCall CRelease; CCall (CPut [6]); CCall CRead; CRestart; CCall CRead; CCall CRelease; CCall CRelease; CCall (CPut (repeat 7 40)); CCall CRead] =
  [CAccepted; CAccepted; CGot [1; 2; 3]; CGot [4; 5]; CNothing; CReleased; CAccepted; CGot [6]; CStarted; CGot [4; 5]; CReleased; CRefused; CRefused; CGot [6]].
Proof. vm_compute. reflexivity. Qed.

(** The same for single calls, waiting writers included, while a cursor is the only consumer, neither it nor the producer goes away. *)
Theorem C06_cursor_calls_partial rcrc hcrc : forall k st n l, 0 <= k_cap k < 2147483648 ->
  n_open hcrc None (k_cap k + header_size) (k_ow k) (k_hold k) (k_check k) st = Ok n -> Forall nop_ok l -> Forall cursor_op l ->
  exists s, run k (record_sum rcrc) (queue_init k) l (snd (n_run rcrc hcrc n l)) s /\ in_order s.
Proof. exact (new_cursor rcrc hcrc). Qed.
Print Assumptions C06_cursor_calls_partial.

(** A cursor registered again does not start with the oldest record, though nothing was released; and its first release removes a record it did not read;
    a regular consumer registered then finds nothing. *)
Theorem C06_registered_again_refuted : exists l,
  calls (mkCfg 100 OBlock false true) ([NRegisterProducer; NRegisterCursor] ++ steps (Put [1; 2; 3]) ++ steps (Put [4; 5]) ++
    [NStartRead false; NPeek; NDropConsumer; NRegisterCursor; NStartRead false; NPeek; NAdvance; NDropConsumer; NRegisterConsumer; NStartRead false; NPeek]) =
  l ++ [NRange (Ok (mkRange 8 3)); NBytes (Some [1; 2; 3]); NUnit; NRes (Ok tt); NRange (Ok (mkRange 19 2)); NBytes (Some [4; 5]); NFin (Ok false);
        NUnit; NRes (Ok tt); NRange (Err Unavailable); NBytes None].
Proof. eexists [_; _; _; _; _; _; _; _]. vm_compute. reflexivity. Qed.
Print Assumptions C06_registered_again_refuted.

(** After a reservation was abandoned, a cursor that reads and releases everything leaves the buffer unusable: nothing is stored, yet a small
    record is refused, even after a restart. *)
Theorem C06_abandoned_refuted : exists l, 
  calls (mkCfg 100 OBlock false true) ([NRegisterProducer; NRegisterCursor] ++ steps (Put [1; 2; 3]) ++ [NReserve 5 false; NDropProducer; NRegisterProducer] ++ steps (Put [4; 5]) ++
    [NStartRead false; NPeek; NStartRead false; NPeek; NAdvance; NAdvance; NStartRead false; NReserve 3 false]) =
  l ++ [NRange (Ok (mkRange 8 3)); NBytes (Some [1; 2; 3]); NRange (Ok (mkRange 32 2)); NBytes (Some [4; 5]); NFin (Ok false); NFin (Ok false);
        NRange (Err Unavailable); NRange (Err Unavailable)].
Proof. eexists [_; _; _; _; _; _; _; _; _; _; _]. vm_compute. reflexivity. Qed.
Print Assumptions C06_abandoned_refuted.
Example cursor_calls_case : let l := [NRegisterProducer; NRegisterCursor; NStartRead true] ++ steps (Put [1; 2; 3]) ++ steps (Put [4; 5]) ++
    [NStartRead false; NStartRead true; NPeek; NReserve 40 true; NResume; NAdvance; NResume; NAdvance; NResume; NPeek; NCommit; NAdvance; NStartRead false; NPeek] in
  Forall nop_ok l /\ Forall cursor_op l /\
  calls (mkCfg 60 OBlock true true) l =
  [NRes (Ok tt); NRes (Ok tt); NRange (Err WouldBlock); NRange (Ok (mkRange 8 3)); NUnit; NRes (Ok tt); NRange (Ok (mkRange 19 2)); NUnit; NRes (Ok tt);
   NRange (Ok (mkRange 8 3)); NRange (Ok (mkRange 19 2)); NBytes (Some [4; 5]); NRange (Err WouldBlock); NRange (Err WouldBlock); NFin (Ok false); NRange (Err WouldBlock); NFin (Ok false); NRange (Ok (mkRange 8 40)); NBytes None; NRes (Ok tt); NFin (Err FailedPrecondition); NRange (Ok (mkRange 8 40)); NBytes (Some ([1; 2; 3; 230; 184; 120; 119; 2; 0; 0; 0; 4; 5] ++ repeat 0 27))].
Proof. cbv zeta. split; [repeat constructor; cbn; lia|]. split; [repeat constructor|]. vm_compute. reflexivity. Qed.

(** A non-overwriting buffer with record checksums loses a committed record when the consumer goes away while reading it. *)
Theorem C71_reader_dropped_refuted : exists l,
  calls keep ([NRegisterProducer; NRegisterConsumer] ++ steps (Put [1; 2; 3]) ++ [NStartRead false; NPeek; NDropConsumer; NRegisterConsumer; NStartRead false]) =
  l ++ [NRange (Ok (mkRange 8 3)); NBytes (Some [1; 2; 3]); NUnit; NRes (Ok tt); NRange (Err Unavailable)].
Proof. eexists [_; _; _; _; _]. vm_compute. reflexivity. Qed.
Print Assumptions C71_reader_dropped_refuted.

(** The same when the process is restarted while a record is being read. *)
Theorem C71_restart_while_reading_refuted : exists l,
  calls keep ([NRegisterProducer; NRegisterConsumer] ++ steps (Put [1; 2; 3]) ++ [NStartRead false; NPeek; NReopen; NRegisterConsumer; NStartRead false]) =
  l ++ [NRange (Ok (mkRange 8 3)); NBytes (Some [1; 2; 3]); NOpened false; NRes (Ok tt); NRange (Err Unavailable)].
Proof. eexists [_; _; _; _; _]. vm_compute. reflexivity. Qed.
Print Assumptions C71_restart_while_reading_refuted.

(** The hypothesis [k_check] of C08 is needed: without record checksums (PerRecordCrc32Check::No, not used by the SDK) a reader is given a reservation whose writer died before committing it (here the next writer's commit publishes it). *)
Example unchecked_abandoned : exists l,
  calls (mkCfg 60 OBlock false false) ([NRegisterProducer; NRegisterConsumer] ++ steps (Put [9]) ++ [NReserve 3 false; NWrite 0 [1; 2]; NCrash NCommit 0; NRegisterProducer; NRegisterConsumer] ++
    steps (Put [4; 5]) ++ steps Get ++ steps Get) =
  l ++ [NRange (Ok (mkRange 9 3)); NBytes (Some [1; 2; 0]); NFin (Ok false)].
Proof. eexists [_; _; _; _; _; _; _; _; _; _; _; _; _; _; _; _]. vm_compute. reflexivity. Qed.

(** A crash while a record is committed (after the first of the stores) loses every record, also those committed long before. *)
Theorem C72_crash_in_commit_refuted :
  answers keep [Call (Put [1; 2; 3]); Restart; CrashIn (Put [4; 5]) 2 3; Call Get] = [Accepted; Started false; Started true; Nothing].
Proof. vm_compute. reflexivity. Qed.
Print Assumptions C72_crash_in_commit_refuted.
