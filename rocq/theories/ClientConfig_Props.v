(** C37 and C67: persisted client configuration and reported versions. *)
From Verif Require Import Base Str_Base ClientConfig_Model ClientConfig_Spec ClientConfig_Proofs.
Local Open Scope string_scope.
Local Open Scope list_scope.

(** Between an attempt to apply the persisted configuration that did not succeed
    and the next attempt, at any later start, a configuration received from the
    server was applied. *)
Theorem C37_attempted_once : forall xs a u o b u' o' c,
  snd (run state_new xs) = a ++ TTry Disk u o :: b ++ TTry Disk u' o' :: c -> o <> Applied ->
  exists v, In (TTry Server v Applied) b.
Proof. exact attempted_once. Qed.
Print Assumptions C37_attempted_once.

(** What a start tries was applied before, and has not been tried by a start since
    then. *)
Theorem C37_tried_was_applied : forall xs a u o b,
  snd (run state_new xs) = a ++ TTry Disk u o :: b ->
  exists p src q, a = p ++ TTry src u Applied :: q /\ (forall i, In i q -> ~ from_disk i).
Proof. exact disk_source. Qed.
Print Assumptions C37_tried_was_applied.

(** At any time a configuration is on the disk only if it was applied. *)
Theorem C37_on_disk_was_applied : forall xs u,
  s_file (fst (run state_new xs)) = FUpd u -> u_config u <> None ->
  exists src, In (TTry src u Applied) (snd (run state_new xs)).
Proof. exact on_disk. Qed.
Print Assumptions C37_on_disk_was_applied.

(** An update that was applied and written is what a later start tries, whatever
    rejected updates, handshakes, crashes and starts that apply it and write it back
    come between. *)
Theorem C37_reloaded : forall h u c mid o w,
  u_config u = Some c -> s_alive (fst (run state_new h)) = true -> Forall quiet mid ->
  snd (run (fst (run state_new (h ++ [Update u Applied WOk] ++ mid))) [Start true true o w])
    = [TStart; TTry Disk u o].
Proof. exact reloaded. Qed.
Print Assumptions C37_reloaded.

(** The handshake reports the last configuration applied in this process, or
    nothing. *)
Theorem C37_handshake : forall xs a n b,
  snd (run state_new xs) = a ++ THandshake n :: b -> n = last_applied a "".
Proof. exact handshake_version. Qed.
Print Assumptions C37_handshake.

Definition v1 : update := {| u_nonce := "1"; u_config := Some "x" |}.
Definition v2 : update := {| u_nonce := "2"; u_config := Some "y" |}.

(** The second configuration is written, crashes the next process, and is not tried
    again; a torn write leaves the nonce, which is not tried either. *)
Example C37_history :
  snd (run state_new
    [Start true true Applied WOk; Handshake; Update v1 Applied WOk; Handshake; Update v2 Applied WOk; Crash;
     Start true true Crashed WOk; Handshake; Start true true Applied WOk; Handshake;
     Update v1 Applied (WCrash TornNonce); Start true true Applied WOk; Handshake;
     Update v1 Applied WOk; Update v2 Rejected WOk; Handshake; Crash; Start true true Applied WOk; Handshake])
  = [TStart; THandshake ""; TTry Server v1 Applied; TAck "1" false; THandshake "1";
     TTry Server v2 Applied; TAck "2" false;
     TStart; TTry Disk v2 Crashed; TStart; THandshake "";
     TTry Server v1 Applied; TStart; THandshake "";
     TTry Server v1 Applied; TAck "1" false; TTry Server v2 Rejected; TAck "2" true; THandshake "1";
     TStart; TTry Disk v1 Applied; THandshake "1"].
Proof. vm_compute. reflexivity. Qed.

Example C37_reloaded_twice :
  Forall quiet [Crash; Start true true Applied WOk; Update v2 Rejected WOk; Start false true Crashed WOk; Handshake] /\
  snd (run (fst (run state_new ([Start true true Applied WOk] ++ [Update v1 Applied WOk] ++
    [Crash; Start true true Applied WOk; Update v2 Rejected WOk; Start false true Crashed WOk; Handshake])))
    [Start true true Applied WOk]) = [TStart; TTry Disk v1 Applied].
Proof. split; [repeat constructor; cbn; tauto|vm_compute; reflexivity]. Qed.

(** An acknowledgement without an error names the version applied last... *)
Theorem C67_ack_partial : forall xs a n b,
  snd (run state_new xs) = a ++ TAck n false :: b -> n = last_applied a "".
Proof. exact ack_applied. Qed.
Print Assumptions C67_ack_partial.

(** ... but one with an error names the version that was rejected as the one applied
    last. *)
Theorem C67_ack_refuted : exists xs a n k b,
  snd (run state_new xs) = a ++ TAck n k :: b /\ n <> last_applied a "".
Proof.
  exists [Start true true Applied WOk; Update v1 Applied WOk; Update v2 Rejected WOk],
    [TStart; TTry Server v1 Applied; TAck "1" false; TTry Server v2 Rejected], "2", true, [].
  split; [vm_compute; reflexivity|vm_compute; discriminate].
Qed.
Print Assumptions C67_ack_refuted.
