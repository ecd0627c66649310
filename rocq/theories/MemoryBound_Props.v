(** C30, C31: the channel in front of the logger. *)
From Verif Require Import Base MemoryBound_Model MemoryBound_Spec MemoryBound_Proofs.

(** C30, for every schedule of atomic steps of any number of senders, the receiver and closing: the queue stays within both limits. *)
Theorem C30_within_budget : forall (T : Type) (size : T -> N) (count_cap mem_cap : N) (l : list (op T)) c ev,
  run size count_cap mem_cap chan_new l = (c, ev) ->
  (total size (ch_queue c) <= mem_cap)%N /\ (N.of_nat (length (ch_queue c)) <= count_cap)%N.
Proof. exact (@channel_bounded). Qed.
Print Assumptions C30_within_budget.

(** Messages are received once and in the order in which they were accepted; while the receiver lives, the accepted ones not yet
    received are in the queue. *)
Theorem C30_fifo : forall (T : Type) (size : T -> N) (count_cap mem_cap : N) (l : list (op T)) c ev,
  run size count_cap mem_cap chan_new l = (c, ev) ->
  (exists rest, accepted ev = received ev ++ rest) /\
  (ch_closed c = false -> accepted ev = received ev ++ match ch_recv c with Some m => [m] | None => [] end ++ ch_queue c).
Proof. exact (@channel_fifo). Qed.
Print Assumptions C30_fifo.

(** With nothing in progress the recorded usage is exact. *)
Theorem C30_usage : forall (T : Type) (size : T -> N) (count_cap mem_cap : N) (l : list (op T)) c ev,
  run size count_cap mem_cap chan_new l = (c, ev) -> quiet c -> ch_closed c = false -> ch_usage c = total size (ch_queue c).
Proof. exact (@channel_usage). Qed.
Print Assumptions C30_usage.

Local Notation n := (fun x : N => x).
Example C30_case : (* capacity 100 bytes, 3 messages; 60 and 30 fit, the concurrent 20 does not, then it does *)
  let l := [Start 1 60; Start 2 30; Start 3 20; Continue 2; Continue 1; Continue 3; RecvTake; RecvRelease; Start 3 20; Continue 3]%N in
  let (c, ev) := run n 3 100 chan_new l in
  ev = [Accepted 2 30; Accepted 1 60; FullSize 3 20; Received 30; Accepted 3 20]%N /\ ch_queue c = [60; 20]%N /\ ch_usage c = 80%N /\ quiet c.
Proof. vm_compute. auto. Qed.

(** C31 is false: a large message that is refused occupies the budget until its reservation is voided, and a small message sent meanwhile is
    refused although the channel is empty. *)
Theorem C31_fitting_accepted_refuted : exists (mem_cap : N) (l : list (op N)) c ev m,
  run n 10 mem_cap chan_new l = (c, ev) /\ accepted ev = [] /\ (m <= mem_cap)%N /\ In (FullSize 2 m) ev.
Proof.
  exists 100%N, [Start 1 200; Start 2 10; Continue 2]%N. eexists _, _, 10%N.
  split; [vm_compute; reflexivity|]. cbn. split; [reflexivity|]. split; [lia|auto].
Qed.
Print Assumptions C31_fitting_accepted_refuted.

(** It holds when no other send or receive is in progress. *)
Theorem C31_fitting_accepted_partial : forall (T : Type) (size : T -> N) (count_cap mem_cap : N) (l : list (op T)) c ev t m,
  run size count_cap mem_cap chan_new l = (c, ev) -> quiet c -> ch_closed c = false ->
  forall c' ev', run size count_cap mem_cap c [Start t m; Continue t] = (c', ev') ->
  (In (FullSize t m) ev' <-> (mem_cap < total size (ch_queue c) + size m)%N) /\
  (In (Accepted t m) ev' <-> (total size (ch_queue c) + size m <= mem_cap /\ N.of_nat (length (ch_queue c)) < count_cap)%N).
Proof. exact (@channel_refusal). Qed.
Print Assumptions C31_fitting_accepted_partial.

Example C31_case :
  let (c, ev) := run n 3 100 chan_new [Start 1 60; Continue 1]%N in
  quiet c /\ snd (run n 3 100 c [Start 2 41; Continue 2]%N) = [FullSize 2 41]%N /\ snd (run n 3 100 c [Start 2 40; Continue 2]%N) = [Accepted 2 40]%N.
Proof. vm_compute. auto. Qed.
