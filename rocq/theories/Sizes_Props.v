(** C151: the memory limits of the queues bound what the messages in them hold (bd-logger/src/size.rs, async_log_buffer.rs lines 52-62
    and 106-136). *)
From Verif Require Import Base MemoryBound_Model PreConfig_Model PreConfig_Spec Sizes_Model Sizes_Spec Sizes_Proofs.
Local Open Scope N_scope.

(** In every interleaving of senders and the receiver, the texts and binary data of the queued messages are within the capacity of the
    channel, apart from overriding session ids. Missing for the full property: these (C151_override_refuted). *)
Theorem C151_channel_partial : forall z count_cap mem_cap l c ev, MemoryBound_Model.run (message_size z) count_cap mem_cap chan_new l = (c, ev) ->
  held message_content (ch_queue c) <= mem_cap + held message_hint (ch_queue c).
Proof. exact channel_text. Qed.
Print Assumptions C151_channel_partial.

(** So is the memory on the heap, if there is no override and texts have no spare capacity and vectors not more than elements. *)
Theorem C151_channel_memory_partial : forall z count_cap mem_cap l c ev, sound z -> MemoryBound_Model.run (message_size z) count_cap mem_cap chan_new l = (c, ev) ->
  Forall tight_message (ch_queue c) -> held (message_heap z) (ch_queue c) <= mem_cap.
Proof. exact channel_mem. Qed.
Print Assumptions C151_channel_memory_partial.

(** Before the configuration arrives, the texts and binary data of the logs that are kept are within the limit, whatever was logged, and
    the memory on the heap too if texts have no spare capacity. *)
Theorem C151_buffer : forall z (M F C : Type) (build : F -> M -> option log) (h : list (msg M F C)) f max_count max_size, no_config h ->
  exists p, a_state (PreConfig_Model.run (log_size z) build (alb_new max_count max_size f) h) = Uninitialized p /\ held log_content (p_items p) <= max_size /\
    (z_pair z = z_field z -> Forall tight_log (p_items p) -> held (log_heap z) (p_items p) <= max_size).
Proof. exact buffer_text. Qed.
Print Assumptions C151_buffer.

(** The sizes of a target with pointers of eight bytes. *)
Definition wide : layout := mkLayout 24 48 56 1 24 48 200 4 4 40 8 200.
Definition t (n : N) : text := mkText n 0.
Definition some_log (hint : option text) : message := EmitLog (mkLine (VString (t 5)) (mkFields [mkField (t 3) (VString (t 7)); mkField (t 1) (VBytes (mkText 10 6))] 2) (mkFields [] 0) hint).

Example C151_case : sound wide /\
  let l := [Start 0%nat (some_log None); Continue 0%nat; Start 1%nat (AddLogField (mkField (t 20) (VString (t 30)))); Continue 1%nat; Start 2%nat (RemoveLogField (t 400)); Continue 2%nat] in
  let (c, ev) := MemoryBound_Model.run (message_size wide) 10 1500 chan_new l in
  ev = [Accepted 0%nat (some_log None); Accepted 1%nat (AddLogField (mkField (t 20) (VString (t 30)))); FullSize 2%nat (RemoveLogField (t 400))] /\
  held message_content (ch_queue c) = 76 /\ held (message_heap wide) (ch_queue c) = 306 /\ held (message_size wide) (ch_queue c) = 1100 /\ Forall tight_message (ch_queue c).
Proof. split; [split; [reflexivity|vm_compute; discriminate]|]. vm_compute. splits; try reflexivity. repeat constructor; discriminate. Qed.

(** The session id of an override is not counted: messages of any length are accepted. *)
Theorem C151_override_refuted : forall n, exists l c ev, MemoryBound_Model.run (message_size wide) 10 1500 chan_new l = (c, ev) /\ n <= held message_content (ch_queue c).
Proof.
  intros n. exists [Start 0%nat (some_log (Some (t n))); Continue 0%nat]. do 2 eexists. split; [reflexivity|]. cbn -[N.add]. lia.
Qed.
Print Assumptions C151_override_refuted.

(** Nor is the spare capacity of a text. *)
Theorem C151_spare_refuted : forall n, exists l c ev, MemoryBound_Model.run (message_size wide) 10 1500 chan_new l = (c, ev) /\ held message_hint (ch_queue c) = 0 /\ n <= held (message_heap wide) (ch_queue c).
Proof.
  intros n. exists [Start 0%nat (RemoveLogField (mkText 3 n)); Continue 0%nat]. do 2 eexists. split; [reflexivity|]. split; [reflexivity|]. cbn -[N.add]. unfold x_cap. cbn -[N.add]. lia.
Qed.
Print Assumptions C151_spare_refuted.
