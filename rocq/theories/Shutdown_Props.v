(** C82, C83: the shutdown of components and of the logger. *)
From Verif Require Import Base Shutdown_Model Shutdown_Spec Shutdown_Proofs ShutdownLogger_Proofs.

Theorem C82_told : forall l w e i, run watch_new l = Some (w, e) -> receiver_alive i l ->
  (In Request l \/ ~ sender_alive l -> exists w', run watch_new (l ++ [Poll i]) = Some (w', e ++ [(Poll i, true)])) /\
  (~ In Request l -> sender_alive l -> exists w', run watch_new (l ++ [Poll i]) = Some (w', e ++ [(Poll i, false)])).
Proof. exact told. Qed.
Print Assumptions C82_told.

Theorem C82_status : forall l w e i, run watch_new l = Some (w, e) -> receiver_alive i l ->
  (In Request l -> run watch_new (l ++ [Status i]) = Some (w, e ++ [(Status i, true)])) /\
  (~ In Request l -> run watch_new (l ++ [Status i]) = Some (w, e ++ [(Status i, false)])).
Proof. exact status. Qed.
Print Assumptions C82_status.

Theorem C82_returns : forall l w e, run watch_new l = Some (w, e) -> In Request l -> ~ In Return l ->
  ((exists w', run watch_new (l ++ [Return]) = Some (w', e)) <-> forall i, ~ receiver_alive i l).
Proof. exact returns. Qed.
Print Assumptions C82_returns.

Theorem C82_only_after : forall l w e, run watch_new (l ++ [Return]) = Some (w, e) -> In Request l.
Proof. exact only_after. Qed.
Print Assumptions C82_only_after.

(** Two components, one made late, one waiting when the request comes, a clone that is dropped. *)
Definition ex_ops : list op :=
  [MakeHandle; Make 1; Poll 1; CloneRx 1 2; Status 2; Request; Poll 1; MakeByHandle 3; Poll 3; DropRx 1; DropRx 2].
Example C82_case : (exists w, run watch_new ex_ops = Some (w, [(Poll 1, false); (Status 2, false); (Poll 1, true); (Poll 3, true)])) /\
  receiver_alive 3 ex_ops /\ In Request ex_ops /\
  run watch_new (ex_ops ++ [Return]) = None /\ exists w e, run watch_new (ex_ops ++ [DropRx 3; Return]) = Some (w, e).
Proof.
  splits.
  - eexists. vm_compute. reflexivity.
  - exists [MakeHandle; Make 1; Poll 1; CloneRx 1 2; Status 2; Request; Poll 1], (MakeByHandle 3), [Poll 3; DropRx 1; DropRx 2].
    splits; auto. right. left. reflexivity. simpl. intuition congruence.
  - simpl. tauto.
  - vm_compute. reflexivity.
  - eexists _, _. vm_compute. reflexivity.
Qed.
(** Everybody who could request a shutdown is gone: the component is told too. *)
Example C82_abandoned_case : exists w, run watch_new [MakeHandle; Make 1; Poll 1; DropTrigger; Poll 1; DropHandle; Poll 1] =
  Some (w, [(Poll 1, false); (Poll 1, false); (Poll 1, true)]).
Proof. eexists. vm_compute. reflexivity. Qed.

Theorem C83_stops_partial : forall m g0 pre post g t e, build m = Some g0 -> (forall b, ~ In (LShutdown b) pre) -> ~ In LDrop pre ->
  lrun g0 [] (pre ++ LShutdown true :: post) = Some (g, t, e) ->
  let running i := (i = 1 \/ i = 2 \/ (i = 3 /\ m = true) \/ (i = 0 /\ In LStart (pre ++ LShutdown true :: post))) /\ ~ In (Ended i) e in
  (forall i, running i -> exists g' t', lrun g0 [] ((pre ++ LShutdown true :: post) ++ [LPoll i]) = Some (g', t', e ++ [Told i])) /\
  (~ In LReturn post -> ((exists g' t', lrun g0 [] ((pre ++ LShutdown true :: post) ++ [LReturn]) = Some (g', t', e ++ [Returned])) <-> forall i, ~ running i)).
Proof. exact blocking_works. Qed.
Print Assumptions C83_stops_partial.

(** [shutdown(false)], or dropping the logger, stops nothing, now or after any later call. *)
Theorem C83_stops_refuted : forall m g0 o, build m = Some g0 -> o = LShutdown false \/ o = LDrop ->
  exists g t e, lrun g0 [] [LStart; o] = Some (g, t, e) /\
  forall post g' t' e', ~ In LFail post -> lrun g0 [] ([LStart; o] ++ post) = Some (g', t', e') -> forall i, ~ In (Told i) e' /\ ~ In (Ended i) e' /\ (i <= 2 \/ i = 3 /\ m = true -> In i (g_alive g')).
Proof. exact never_stops. Qed.
Print Assumptions C83_stops_refuted.

Example C83_case : exists g0 g t, build true = Some g0 /\
  lrun g0 [] ([LStart; LPoll 0; LPoll 1] ++ LShutdown true :: [LPoll 0; LEnd 0; LPoll 3; LEnd 3; LPoll 1; LPoll 2; LEnd 2; LEnd 1; LReturn]) =
  Some (g, t, [Told 0; Ended 0; Told 3; Ended 3; Told 1; Told 2; Ended 2; Ended 1; Returned]).
Proof. eexists _, _, _. split; vm_compute; reflexivity. Qed.
Example C83_deaf_case : exists g0 g t, build true = Some g0 /\
  lrun g0 [] [LStart; LShutdown false; LPoll 0; LPoll 1; LShutdown true; LPoll 0; LPoll 2; LPoll 3] = Some (g, t, [Returned; Returned]) /\ g_alive g = [0; 1; 2; 3].
Proof. eexists _, _, _. split; [|split]; vm_compute; reflexivity. Qed.
