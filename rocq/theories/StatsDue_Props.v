(** C149: files of statistics that are due are sent one after the other; one that is not
    due waits (bd-client-stats/src/file_manager.rs 339-405, stats.rs 131-166, 285-370). *)
From Verif Require Import Base Str_Base StatsStore_Model StatsFile_Model StatsFile_Spec StatsDue_Spec StatsDue_Proofs.
Local Open Scope Z_scope. Local Open Scope string_scope. Local Open Scope list_scope.

(** What an answer releases is due, in any state and whatever fails. *)
Theorem C149_not_early : forall s v ios b u t, In (ESent t) (snd (step s v ios (Response b u))) -> t_start t + v_window v <= v_now v.
Proof. exact not_early. Qed.
Print Assumptions C149_not_early.

(** What is sent covers a period that is over. *)
Theorem C149_closed : forall s v ios o t, In (ESent t) (snd (step s v ios o)) -> t_end t <> None.
Proof. exact always_closed. Qed.
Print Assumptions C149_closed.

(** The tick of the upload interval sends the oldest file that can be read, due or not. *)
Theorem C149_tick : forall s v pre e rest q, healthy s -> s_inflight s = None -> v_open v = true ->
  index s = pre ++ e :: rest -> Forall (unreadable s) pre -> d_files (s_disk s) (e_name e) = FReq q ->
  snd (step s v [] UploadTick) = [ESent (upload_of v e q)].
Proof. exact tick_sends. Qed.
Print Assumptions C149_tick.

(** The confirmation of one file sends the next one that can be read, if it and those
    before it are due. *)
Theorem C149_next : forall s v u u0 e0 pre e rest q, healthy s -> s_inflight s = Some u0 -> v_open v = true ->
  index s = e0 :: pre ++ e :: rest -> e_name e0 = u -> Forall (unreadable s) pre ->
  d_files (s_disk s) (e_name e) = FReq q -> Forall (due v) (pre ++ [e]) ->
  snd (step s v [] (Response true u)) = [EAnswer true; ESent (upload_of v e q)].
Proof. exact next_sends. Qed.
Print Assumptions C149_next.

(** If the next one is not due, nothing is sent before the next tick. *)
Theorem C149_waits : forall s v u u0 e0 e rest, healthy s -> s_inflight s = Some u0 ->
  index s = e0 :: e :: rest -> e_name e0 = u -> ~ due v e -> snd (step s v [] (Response true u)) = [EAnswer true].
Proof. exact next_waits. Qed.
Print Assumptions C149_waits.

(** Three files; the second is lost in a crash in the middle of a write. *)
Definition at_ (t : Z) : env := {| v_now := t; v_max := 5; v_window := 10; v_open := true |}.
Definition one (n : Z) (u : string) : op := Flush [("a", MCounter n)] [] u.
Definition lost : history := [(at_ 0, [], one 1 "u1"); (at_ 11, [], one 2 "u2"); (at_ 12, [IoOk; IoCrash true []], one 3 "u3"); (at_ 23, [], one 4 "u4")].
Definition sent_of (u : string) (n s e : Z) : sent := {| t_uuid := u; t_metrics := [("a", MCounter n)]; t_start := s; t_end := Some e |}.
Lemma lost_healthy : healthy (fst (run init lost)).
Proof. exists lost. splits; try reflexivity; [repeat constructor; discriminate|repeat constructor; discriminate|vm_compute; repeat constructor; cbn; intuition discriminate]. Qed.
Definition sending : history := lost ++ [(at_ 24, [], UploadTick)].
Lemma sending_healthy : healthy (fst (run init sending)).
Proof. exists sending. splits; try reflexivity; [repeat constructor; discriminate|repeat constructor; discriminate|vm_compute; repeat constructor; cbn; intuition discriminate]. Qed.

Example C149_case : let s := fst (run init sending) in
  healthy (fst (run init lost)) /\ healthy s /\ map e_name (index s) = ["u1"; "u2"; "u4"] /\ map (fun e => d_files (s_disk s) (e_name e)) (tl (index s)) = [FBad; FReq {| q_uuid := "u4"; q_metrics := [("a", MCounter 4)] |}] /\
  snd (run init sending) = [ERestart; ESent (sent_of "u1" 1 0 11)] /\
  snd (step s (at_ 33) [] (Response true "u1")) = [EAnswer true; ESent (sent_of "u4" 4 23 33)] /\
  snd (step s (at_ 32) [] (Response true "u1")) = [EAnswer true].
Proof. cbv zeta. split; [exact lost_healthy|]. split; [exact sending_healthy|]. vm_compute. splits; reflexivity. Qed.
