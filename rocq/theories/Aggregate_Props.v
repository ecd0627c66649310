(** C80, C81: the aggregate ring buffer. Schedules of producers, readers, flushes, locks, [shutdown] and the flush thread are arbitrary. *)
From Verif Require Import Base Ring_Model Volatile_Model Volatile_Spec Nonvolatile_Model Nonvolatile_Spec Aggregate_Model Aggregate_Spec Aggregate_Proofs AggregateUse_Proofs AggregateLive_Proofs.
Open Scope Z_scope.

(** The calls on the RAM buffer are a history of a lossy FIFO, those on the file a history of a queue; what was written to the file is, in order and byte
    for byte, what left the RAM buffer for it, and each record was complete when it was written. *)
Theorem C80_records rcrc hcrc : forall mem vsize nsize ow check st g l, 0 <= vsize -> nsize - header_size < 2147483648 ->
  g_new hcrc None mem vsize nsize ow check st = Ok g -> Forall label_ok l -> one_kind l ->
  exists s q, explains rcrc vsize (cfg nsize ow check) fifo_init (queue_init (cfg nsize ow check)) (snd (g_run rcrc hcrc g l)) s q /\ linked s q.
Proof. exact (new_records rcrc hcrc). Qed.
Print Assumptions C80_records.

(** With a non-overwriting file whose reader is kept, nothing that was written is lost: it was released by the reader or is still there. *)
Theorem C80_exactly_once rcrc hcrc : forall mem vsize nsize check st g l, 0 <= vsize -> nsize - header_size < 2147483648 ->
  g_new hcrc None mem vsize nsize OBlock check st = Ok g -> Forall label_ok l -> one_kind l -> Forall kept_label l ->
  exists s q, explains rcrc vsize (cfg nsize OBlock check) fifo_init (queue_init (cfg nsize OBlock check)) (snd (g_run rcrc hcrc g l)) s q /\ linked s q /\
    q_gone q = [] /\ Forall (fun p => fst p = Consumed) (q_past q).
Proof. exact (new_exactly_once rcrc hcrc). Qed.
Print Assumptions C80_exactly_once.

(** [flush] returns at once only if no visible record is left in RAM; when it is released, every record that was visible in RAM at its start
    was written to the file or overwritten in RAM. *)
Theorem C80_flush rcrc hcrc : forall mem vsize nsize ow check st g l1 l2, 0 <= vsize -> nsize - header_size < 2147483648 ->
  g_new hcrc None mem vsize nsize ow check st = Ok g -> Forall label_ok (l1 ++ Flush :: l2) -> one_kind (l1 ++ Flush :: l2) ->
  exists w s1 q1 s q, let t1 := snd (g_run rcrc hcrc g l1) in let t2 := snd (g_run rcrc hcrc (fst (g_step rcrc hcrc (fst (g_run rcrc hcrc g l1)) Flush)) l2) in
    snd (g_run rcrc hcrc g (l1 ++ Flush :: l2)) = t1 ++ VCall VWaitForDrain (OWait w) :: t2 /\
    explains rcrc vsize (cfg nsize ow check) fifo_init (queue_init (cfg nsize ow check)) t1 s1 q1 /\
    explains rcrc vsize (cfg nsize ow check) fifo_init (queue_init (cfg nsize ow check)) (t1 ++ VCall VWaitForDrain (OWait w) :: t2) s q /\ linked s q /\
    (w = false -> f_unread s1 = []) /\
    (w = true -> In release t2 -> forall x, In x (f_unread s1) -> In (rec_id x) (ids (f_consumed s) ++ ids (f_lost s))).
Proof. exact (new_flush rcrc hcrc). Qed.
Print Assumptions C80_flush.

(** The flush thread ends only when [shutdown] stopped it, if the file has room for the largest record of the RAM buffer. *)
Theorem C80_alive_partial rcrc hcrc : forall mem vsize nsize ow check st g l, 0 <= vsize -> nsize - header_size < 2147483648 ->
  g_new hcrc None mem vsize nsize ow check st = Ok g -> Forall label_ok l -> one_kind l -> (check = true -> vsize + 4 <= nsize - header_size) ->
  ending (g_pos (fst (g_run rcrc hcrc g l))) -> g_stop (fst (g_run rcrc hcrc g l)) = true.
Proof. exact (new_alive rcrc hcrc). Qed.
Print Assumptions C80_alive_partial.

(** Left alone, the flush thread empties the RAM buffer, if the file is overwriting and has no reader. *)
Theorem C80_drains_partial rcrc hcrc : forall mem vsize nsize check st g l, 0 <= vsize -> nsize - header_size < 2147483648 ->
  g_new hcrc None mem vsize nsize OYes check st = Ok g -> Forall label_ok l -> Forall calm_label l -> (check = true -> vsize + 4 <= nsize - header_size) ->
  exists m s q, explains rcrc vsize (cfg nsize OYes check) fifo_init (queue_init (cfg nsize OYes check)) (snd (g_run rcrc hcrc g (l ++ repeat Thread m))) s q /\
    linked s q /\ f_unread s = [].
Proof. exact (new_drains rcrc hcrc). Qed.
Print Assumptions C80_drains_partial.

(** After the flush of [shutdown] of an overwriting buffer nothing is left in RAM: every record ever reserved was written to the file, or overwritten in RAM;
    and nothing is accepted any more. *)
Theorem C81_saved_partial rcrc hcrc : forall mem vsize nsize check st g l, 0 <= vsize -> nsize - header_size < 2147483648 ->
  g_new hcrc None mem vsize nsize OYes check st = Ok g -> Forall label_ok l -> one_kind l -> past_flush (g_shut (fst (g_run rcrc hcrc g l))) ->
  exists s q, explains rcrc vsize (cfg nsize OYes check) fifo_init (queue_init (cfg nsize OYes check)) (snd (g_run rcrc hcrc g l)) s q /\ linked s q /\
    Permutation (ids (f_consumed s) ++ ids (f_lost s)) (seq 0 (f_next s)) /\ bytes_written q = bytes_consumed s /\
    forall p size block, 0 <= size < 4294967296 ->
      exists e, snd (g_step rcrc hcrc (fst (g_run rcrc hcrc g l)) (Produce (VReserve p size block))) = [VCall (VReserve p size block) (ORange (Err e))].
Proof. exact (new_shutdown rcrc hcrc). Qed.
Print Assumptions C81_saved_partial.

(** * Concrete schedules *)
Definition rc (l : list Z) : Z := fold_left (fun a b => (a * 31 + b + 1) mod 4294967296) l 7.
Definition oz (o : option Z) : Z := match o with Some x => x + 2 | None => 1 end.
Definition hc (a : Z) (b c d : option Z) : Z := rc [a; oz b; oz c; oz d].
Definition st0 : stats := mkStats 0 0 0 0 0 0 0 0 0 0 0 0.
Definition made (vsize nsize : Z) (ow : overwrite) (check : bool) : res agg := g_new hc None (fun _ => 0) vsize nsize ow check st0.
Definition log (bs : list Z) : list label := [Produce (VReserve 0 (Z.of_nat (length bs)) true); Produce (VWrite 0 0 bs); Produce (VCommit 0)].
Definition trace (a : res agg) (l : list label) : list call := match a with Ok g => snd (g_run rc hc g l) | _ => [] end.
Definition state (a : res agg) (l : list label) : option (fpos * spos) := match a with Ok g => let g := fst (g_run rc hc g l) in Some (g_pos g, g_shut g) | _ => None end.
Definition start : list label := [Thread; Thread; Thread].
Definition move : list label := [Thread; Thread; Thread; Thread; Thread; Thread].

(** Two records, a flush that waits and is released, both read from the file by a kept cursor, shutdown to the end. *)
Definition busy_day : list label := start ++ [Consume NRegisterCursor] ++ log [1; 2; 3] ++ [Flush] ++ log [4; 5] ++ move ++ [Consume (NStartRead false); Consume NPeek; Consume NAdvance] ++ move ++
  [Consume (NStartRead false); Consume NPeek; Flush] ++ repeat Shutdown 10 ++ repeat Thread 10.
Example C80_case : Forall label_ok busy_day /\ one_kind busy_day /\ Forall kept_label busy_day /\
  filter (fun c => match c with NCall NPeek _ | NCall NAdvance _ | VCall VWaitForDrain _ | VCall VFinishRead _ => true | _ => false end) (trace (made 60 132 OBlock true) busy_day) =
  [VCall VWaitForDrain (OWait true); release; NCall NPeek (NBytes (Some [1; 2; 3])); NCall NAdvance (NFin (Ok false)); VCall VFinishRead (OFin (Ok false)); NCall NPeek (NBytes (Some [4; 5]));
   VCall VWaitForDrain (OWait false)] /\
  state (made 60 132 OBlock true) busy_day = Some (FDone, SDone).
Proof.
  splits; [repeat constructor; cbn; lia|right; repeat constructor|repeat constructor|vm_compute; reflexivity|vm_compute; reflexivity].
Qed.
(** A file that overwrites: the thread never stops before [shutdown]; [shutdown] flushes. *)
Example C80_over_case : let l := log [1; 2; 3] ++ log (repeat 7 40) ++ start ++ log [4; 5] in Forall label_ok l /\ Forall calm_label l /\ 60 + 4 <= 132 - header_size /\
  exists m, filter (fun c => match c with NCall NCommit _ => true | _ => false end) (trace (made 60 132 OYes true) (l ++ repeat Thread m)) = [NCall NCommit (NRes (Ok tt)); NCall NCommit (NRes (Ok tt))].
Proof. cbv zeta. splits; [repeat constructor; cbn; lia|repeat constructor|vm_compute; discriminate|]. exists 15%nat. vm_compute. reflexivity. Qed.
Example C81_case : let l := start ++ log [1; 2; 3] ++ log [4; 5] ++ repeat Shutdown 3 ++ move ++ move ++ repeat Shutdown 2 ++ repeat Thread 4 ++ [Shutdown; Consume NRegisterConsumer; Consume (NStartRead false); Consume NPeek] in
  Forall label_ok l /\ one_kind l /\ state (made 60 132 OYes true) l = Some (FDone, SDone) /\
  last (trace (made 60 132 OYes true) l) release = NCall NPeek (NBytes (Some [1; 2; 3])).
Proof. cbv zeta. splits; [repeat constructor; cbn; lia|left; repeat constructor|vm_compute; reflexivity|vm_compute; reflexivity]. Qed.

(** * What does not hold *)
(** [new] compares the RAM buffer with the file without the file's longer bookkeeping per record (aggregate:143): a record that fits in RAM and not in the file ends the
    flush thread for good. Producers are still accepted, but nothing is written any more and flushes wait forever, whatever happens later. *)
Definition oversized : list label := start ++ log (repeat 1 88) ++ repeat Thread 4 ++ log [1; 2; 3] ++ [Flush].
Theorem C80_alive_refuted : exists g, g_new hc None (fun _ => 0) 92 132 OYes true st0 = Ok g /\ Forall label_ok oversized /\ Forall calm_label oversized /\
  filter (fun c => match c with VCall (VCommit _) _ | NCall (NReserve _ _) _ | VCall VWaitForDrain _ => true | _ => false end) (snd (g_run rc hc g oversized)) =
    [VCall (VCommit 0) (ORes (Ok tt)); NCall (NReserve 88 true) (NRange (Err InvalidArgument)); VCall (VCommit 0) (ORes (Ok tt)); VCall VWaitForDrain (OWait true)] /\
  forall l c, In c (snd (g_run rc hc (fst (g_run rc hc g oversized)) l)) -> match c with VCall VFinishRead _ | NCall NCommit _ => False | _ => True end.
Proof.
  eexists. split; [vm_compute; reflexivity|]. splits; [repeat constructor; cbn; lia|repeat constructor|vm_compute; reflexivity|].
  intros l. apply done_run. vm_compute. reflexivity.
Qed.
Print Assumptions C80_alive_refuted.

(** [shutdown] of a buffer that does not overwrite does not flush (the TODO at aggregate:262-263): here it ends with a committed record in RAM, room in the
    file, and no reader; the record is not written, whatever happens later. *)
Definition closing : list label := start ++ log [1; 2; 3] ++ repeat Shutdown 6 ++ repeat Thread 6.
Definition g81 : agg := match g_new hc None (fun _ => 0) 60 132 OBlock true st0 with Ok g => g | _ => mkG (v_new (fun _ => 0) 0) (mkN (common_new (fun _ => 0) 0 0 None None None 0 OYes 0) None None false false None) FNew SIdle false 0 false end.
Lemma closing_calls : forallb (fun c => match c with VCall VFinishRead _ | NCall NCommit _ => false | _ => true end) (snd (g_run rc hc g81 closing)) = true.
Proof. vm_compute. reflexivity. Qed.
Theorem C81_saved_refuted : exists g, g_new hc None (fun _ => 0) 60 132 OBlock true st0 = Ok g /\ Forall label_ok closing /\ one_kind closing /\
  g_shut (fst (g_run rc hc g closing)) = SDone /\ 
  filter (fun c => match c with VCall (VCommit _) _ => true | _ => false end) (snd (g_run rc hc g closing)) = [VCall (VCommit 0) (ORes (Ok tt))] /\
  forall l c, In c (snd (g_run rc hc g (closing ++ l))) -> match c with VCall VFinishRead _ | NCall NCommit _ => False | _ => True end.
Proof.
  exists g81. split; [vm_compute; reflexivity|]. splits; [repeat constructor; cbn; lia|left; repeat constructor|vm_compute; reflexivity|vm_compute; reflexivity|].
  apply (never_again rc hc); [vm_compute; reflexivity|exact closing_calls].
Qed.
Print Assumptions C81_saved_refuted.

(** [shutdown] of an overwriting buffer does not always end: the flush thread waits in [reserve] for the reader of the file, the reader is dropped in the middle of a read, which
    signals nobody (non_volatile_ring_buffer.rs:427-437), and the thread, and with it [shutdown], waits forever unless a new reader is registered. *)
Definition stuck : list label := start ++ [Consume NRegisterConsumer] ++ log (repeat 1 40) ++ move ++ log (repeat 2 40) ++ [Consume (NStartRead false)] ++ repeat Thread 2 ++
  [Consume NDropConsumer] ++ repeat Shutdown 4.
Theorem C81_ends_refuted : exists g, g_new hc None (fun _ => 0) 60 132 OYes true st0 = Ok g /\ Forall label_ok stuck /\ one_kind stuck /\
  forall l, (forall a, In a l -> ~ registers a) -> g_shut (fst (g_run rc hc g (stuck ++ l))) = SWaiting.
Proof.
  eexists. split; [vm_compute; reflexivity|]. splits; [repeat constructor; cbn; lia|left; repeat constructor|].
  intros l H. rewrite g_run_app. cbn [fst]. apply (abandoned_run rc hc l _ H). vm_compute. auto.
Qed.
Print Assumptions C81_ends_refuted.
