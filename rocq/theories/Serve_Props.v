(** C118: the server's accept loop. *)
From Verif Require Import Base Serve_Model Serve_Spec Serve_Proofs.

(** The metrics: connections accepted, and connections accepted but not ended. *)
Theorem C118_metrics : forall n g ls s, exec (init n g) ls = Some s ->
  total s = n + accepts ls /\ active s = (g + Z.of_nat (accepts ls) - Z.of_nat (ends ls))%Z.
Proof. exact metrics. Qed.
Print Assumptions C118_metrics.
(** After the shutdown, or a failure to accept, nothing is accepted. *)
Theorem C118_closed : forall n g l1 l l2 s, exec (init n g) (l1 ++ l :: l2) = Some s -> ends_loop l = true -> forall c, ~ In (LAccept c) l2.
Proof. exact closed. Qed.
Print Assumptions C118_closed.
(** If the server returns with success, it was told to, all connections have ended, and the gauge is where it was. *)
Theorem C118_waits : forall n g ls s, exec (init n g) ls = Some s -> srv s = Returned true ->
  (forall l1 c l2, ls = l1 ++ LAccept c :: l2 -> In (LEnd c) l2) /\ active s = g /\ In LAsk ls /\ total s = n + ends ls.
Proof. intros n g ls s H Hs. split; [intros l1 c l2 ->; eapply waits; eauto|eapply returned; eauto]. Qed.
Print Assumptions C118_waits.
(** It can return once the connections that are open end. *)
Theorem C118_returns : forall n g ls s, exec (init n g) ls = Some s -> srv s = Closing ->
  exists ls' s', exec s ls' = Some s' /\ srv s' = Returned true /\ (forall a, In a ls' -> a = LReturn \/ exists c, place c None ls <> None /\ (a = LEnd c \/ a = LDrop c)).
Proof. exact can_return. Qed.
Print Assumptions C118_returns.
(** A connection is told to finish only when the loop is over, and only if it was not told before; then it can be told. *)
Theorem C118_told : forall n g,
  (forall l1 c l2 s, exec (init n g) (l1 ++ LTell c :: l2) = Some s -> place c None l1 = Some Serving /\ existsb ends_loop l1 = true)
  /\ (forall ls s c, exec (init n g) ls = Some s -> existsb ends_loop ls = true -> place c None ls = Some Serving -> exists s', step s (LTell c) = Some s').
Proof. intros n g. split; [exact (told_when n g)|exact (can_tell n g)]. Qed.
Print Assumptions C118_told.

(** Two connections, one of which ends before the shutdown and whose number comes again. *)
Definition served : list label := [LAccept 1; LAccept 2; LEnd 1; LDrop 1; LAccept 1; LAsk; LAccept 3; LStop; LTell 2; LEnd 3; LTell 1; LDrop 3; LEnd 2].
Example C118_ex : exists s s', exec (init 7 5) served = Some s /\ srv s = Closing /\ active s = 6%Z /\ total s = 11 /\ place 1 None served = Some Told
  /\ exec s [LEnd 1; LDrop 2; LDrop 1; LReturn] = Some s' /\ srv s' = Returned true.
Proof. eexists. eexists. repeat (split; [vm_compute; reflexivity|]). reflexivity. Qed.
Example C118_told_ex : exists s, exec (init 0 0) [LAccept 1; LAsk; LStop] = Some s /\ existsb ends_loop [LAccept 1; LAsk; LStop] = true /\ place 1 None [LAccept 1; LAsk; LStop] = Some Serving.
Proof. eexists. split; [vm_compute; reflexivity|]. split; reflexivity. Qed.

(** A server does not run until it is told to stop: a failure to accept a connection ends it, and it returns while connections are being served. *)
Theorem C118_runs_refuted : exists ls s c, exec (init 0 0) ls = Some s /\ ~ In LAsk ls /\ srv s = Returned false /\ place c None ls = Some Serving
  /\ forall ls' s', exec s ls' = Some s' -> forall d, ~ In (LAccept d) ls'.
Proof.
  exists [LAccept 1; LAcceptError]. eexists. exists 1. split; [vm_compute; reflexivity|]. split; [intros [H|[H|[]]]; discriminate|]. split; [reflexivity|]. split; [reflexivity|].
  intros ls' s' H d. apply (closed 0 0 [LAccept 1] LAcceptError ls' s'); [exact H|reflexivity].
Qed.
Print Assumptions C118_runs_refuted.
