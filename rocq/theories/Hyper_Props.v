(** C96-C98: the network task and the API task that uses it. *)
From Verif Require Import Base Hyper_Model Hyper_Spec Hyper_Proofs.

(** C96. On every stream the blocks that leave are those that were sent, in order; the blocks the API receives are those of the response, in order, and the
    closure comes after all of them. *)
Theorem C96_order : forall (B : Type) ls (s : st B) tr, run init ls = Some (s, tr) ->
  forall k, prefix (wire k tr) (sent k tr) /\ well_delivered (frames k tr) (got k tr).
Proof. exact (@ordered). Qed.

(** C96. While the request of a stream is open at most three of its blocks are on the way. *)
Theorem C96_nothing_lost : forall (B : Type) ls (s : st B) tr k, run init ls = Some (s, tr) -> live (s_net s) = Some k -> s_open s = true ->
  exists lag, sent k tr = wire k tr ++ lag /\ length lag <= 3.
Proof. exact (@nothing_lost). Qed.

(** Two streams: the first one is closed by the server after one response, the second one goes on. *)
Definition session : list (label nat) :=
  [LStart 1; LPut; LRecv; LPut; LResponse ROk; LRecv; LGive; LTake; LFrame 10; LTell; LGet (DHandled []) false;
   LUpload 2; LPut; LRecv; LGive; LFrame 11; LTell; LEnd; LTell; LGet (DHandled [3]) false; LPut; LRecv; LGet DNothing false; LAgain;
   LStart 4; LPut; LRecv; LPut; LResponse ROk; LRecv; LGive; LFrame 12; LTell; LTake; LGet (DHandled []) false; LUpload 5; LPut; LRecv; LGive; LUpload 6; LPut].

Example C96_ex : exists s tr, run init session = Some (s, tr) /\ sent 0 tr = [1; 2; 3] /\ wire 0 tr = [1] /\ frames 0 tr = [10; 11]
  /\ got 0 tr = [EData 10; EData 11; EClosed WUpstreamClosed] /\ sent 1 tr = [4; 5; 6] /\ wire 1 tr = [4] /\ live (s_net s) = Some 1 /\ s_open s = true.
Proof. do 2 eexists. split; [vm_compute; reflexivity|]. vm_compute. repeat split; reflexivity. Qed.

(** C97. As long as the server does not answer a handshake with an error shutdown, the network task never fails; and before the shutdown signal neither task
    fails, and the network task ends only once the API task is done with it. *)
Theorem C97_alive : forall (B : Type) ls (s : st B) tr, polite ls -> run init ls = Some (s, tr) ->
  s_net s <> NPanicked /\ (s_shutdown s = false -> s_api s <> APanicked /\ (s_net s = NDone -> s_api s = ADone \/ s_api s = AKilled)).
Proof. exact (@alive). Qed.

Example C97_ex : exists s tr, polite session /\ run init session = Some (s, tr) /\ s_shutdown s = false.
Proof.
  do 2 eexists. split; [|split; [vm_compute; reflexivity|reflexivity] ]. intros q H. vm_compute in H. repeat (destruct H as [H|H]; [discriminate|]). exact H.
Qed.

(** C97. The API task never waits on a stream that nobody serves: the network task is on it, or its end is waiting to be received. *)
Theorem C97_hears : forall (B : Type) ls (s : st B) tr, polite ls -> run init ls = Some (s, tr) -> s_shutdown s = false -> s_api s = AWait \/ s_api s = AMain ->
  serves (s_net s) (pred (s_count s)) \/ exists q w, s_rx s = Some q /\ In (EClosed w) q.
Proof. exact (@hears). Qed.

Example C97_hears_ex : exists ls (s : st nat) tr, polite ls /\ run init ls = Some (s, tr) /\ s_shutdown s = false /\ s_api s = AWait
  /\ s_net s = NIdle /\ s_rx s = Some [EClosed WConnect].
Proof.
  exists [LStart 1; LPut; LRecv; LPut; LResponse RFail; LTell]. eexists. eexists.
  split; [intros q H; repeat (destruct H as [H|H]; [discriminate|]); exact H|split; [vm_compute; reflexivity|repeat split] ].
Qed.

(** C97. A server that answers the handshake with an error shutdown and keeps the stream open makes both tasks fail, with no shutdown: the API task starts a new
    stream while the network task is still on the old one. *)
Theorem C97_error_shutdown_refuted : exists (ls : list (label nat)) s tr, run init ls = Some (s, tr) /\ s_shutdown s = false /\ s_net s = NPanicked /\ s_api s = APanicked.
Proof.
  exists [LStart 1; LPut; LRecv; LPut; LResponse ROk; LRecv; LGive; LTake; LFrame 10; LTell; LGet DErrorShutdown false; LAgain; LStart 2; LPut; LRecv; LPut].
  do 2 eexists. split; [vm_compute; reflexivity|repeat split].
Qed.

(** C97. Also when it closes the stream during the backoff of the API task: the network task ends, since nobody takes the closure. *)
Theorem C97_error_shutdown_closed_refuted : exists (ls : list (label nat)) s tr, run init ls = Some (s, tr) /\ s_shutdown s = false /\ s_net s = NDone /\ s_api s = APanicked.
Proof.
  exists [LStart 1; LPut; LRecv; LPut; LResponse ROk; LRecv; LGive; LTake; LFrame 10; LTell; LGet DErrorShutdown false; LAgain; LEnd; LTell; LStart 2; LPut].
  do 2 eexists. split; [vm_compute; reflexivity|repeat split].
Qed.

(** C97. The shutdown signal can make the API task fail: the network task ends while the API task is about to send an upload. *)
Theorem C97_shutdown_refuted : exists (ls : list (label nat)) s tr, polite ls /\ run init ls = Some (s, tr) /\ s_api s = APanicked.
Proof.
  exists [LStart 1; LPut; LRecv; LPut; LResponse ROk; LRecv; LGive; LTake; LFrame 10; LTell; LGet (DHandled []) false; LUpload 2; LShutdown; LStop; LPut].
  do 2 eexists. split; [|split; [vm_compute; reflexivity|reflexivity] ]. intros q H. repeat (destruct H as [H|H]; [discriminate|]). exact H.
Qed.

(** C98. A send of the API task can always complete as long as fewer than 16 events wait for it. *)
Theorem C98_progress : forall (B : Type) ls (s : st B) tr m rest next, polite ls -> run init ls = Some (s, tr) -> s_api s = ASend m rest next -> s_net s <> NDone ->
  (forall q, s_rx s = Some q -> length q < 16) ->
  exists ls' s1 o1 s2, Forall (fun l => helpful l = true) ls' /\ run s ls' = Some (s1, o1)
    /\ step s1 LPut = Some (s2, [match m with MStart k => OStart k | MData b => OSent (pred (s_count s)) b end]).
Proof. exact (@progress). Qed.

Example C98_ex : exists ls (s : st nat) tr, polite ls /\ run init ls = Some (s, tr) /\ s_api s = ASend (MData 7) [] AMain /\ s_net s = NStream 1
  /\ s_chan s = [MData 6] /\ s_rx s = Some [].
Proof.
  exists (session ++ [LUpload 7]). do 2 eexists. split; [|split; [vm_compute; reflexivity|repeat split] ].
  intros q H. vm_compute in H. repeat (destruct H as [H|H]; [discriminate|]). exact H.
Qed.

(** Seventeen responses while the API task sends three uploads. *)
Definition flood : list (label nat) :=
  [LStart 1; LPut; LRecv; LPut; LResponse ROk; LRecv; LGive; LTake; LFrame 10; LTell; LGet (DHandled []) false; LUpload 2]
  ++ concat (repeat [LFrame 10; LTell] 16) ++ [LFrame 10; LPut; LUpload 3].

(** C98. With 16 events waiting the two tasks can wait for each other for ever, whatever else happens; the shutdown signal does not end it either. *)
Theorem C98_deadlock_refuted : exists (s : st nat) tr, polite flood /\ run init flood = Some (s, tr)
  /\ forall ls s' o, run s ls = Some (s', o) -> stuck (NEvent 0 10) (ASend (MData 3) [] AMain) s'.
Proof.
  do 2 eexists. split; [|split; [vm_compute; reflexivity|] ].
  - intros q H. vm_compute in H. repeat (destruct H as [H|H]; [discriminate|]). exact H.
  - intros ls s' o H. eapply (@deadlock nat); [..|exact H]; reflexivity.
Qed.

(** C98. After the shutdown signal the network task ends only if the other end of the connection does something: while it waits for the response it does not look at the signal. *)
Theorem C98_shutdown_refuted : exists ls0 (s : st nat) tr, polite ls0 /\ run init ls0 = Some (s, tr) /\ s_shutdown s = true
  /\ forall ls s' o, (forall l, In l ls -> from_peer l = false) -> run s ls = Some (s', o) -> s_net s' <> NDone.
Proof.
  exists [LStart 1; LPut; LRecv; LShutdown]. do 2 eexists. split; [|split; [vm_compute; reflexivity|split; [reflexivity|] ] ].
  - intros q H. repeat (destruct H as [H|H]; [discriminate|]). exact H.
  - intros ls s' o F H. erewrite (@deaf nat) with (k := 0); [discriminate| |exact F|exact H]. reflexivity.
Qed.

Print Assumptions C96_order.
Print Assumptions C96_nothing_lost.
Print Assumptions C97_alive.
Print Assumptions C97_hears.
Print Assumptions C97_error_shutdown_refuted.
Print Assumptions C97_error_shutdown_closed_refuted.
Print Assumptions C97_shutdown_refuted.
Print Assumptions C98_progress.
Print Assumptions C98_deadlock_refuted.
Print Assumptions C98_shutdown_refuted.
