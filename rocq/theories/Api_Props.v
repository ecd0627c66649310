(** C21 and C22: the API task's pending requests and its kill file. *)
From Verif Require Import Base Api_Model Api_Spec Api_Proofs.

(** * C21 *)

(** A response with the identifier of a waiting request is delivered to that
    request, at once. *)
Theorem C21_delivered_to_owner : forall hash dk p a k u x b w,
  snd (run_process hash dk p) = a ++ TResponse k u x :: b ->
  waiting a k u w ->
  exists b', b = TDeliver w x :: b'.
Proof. exact response_known. Qed.
Print Assumptions C21_delivered_to_owner.

(** Nothing else is delivered: an answer comes right after the response with the
    identifier of the request it goes to, while that request was waiting. *)
Theorem C21_only_owner : forall hash dk p a w x b,
  snd (run_process hash dk p) = a ++ TDeliver w x :: b ->
  exists a' k u, a = a' ++ [TResponse k u x] /\ waiting a' k u w.
Proof. exact delivered. Qed.
Print Assumptions C21_only_owner.

(** A response with an identifier nobody waits for is an error, which ends the
    task: what follows is the failure of the pending requests. *)
Theorem C21_unknown_is_error : forall hash dk p a k u x b,
  snd (run_process hash dk p) = a ++ TResponse k u x :: b ->
  (forall w, ~ waiting a k u w) ->
  exists fs, b = TError :: fs ++ [TEnd] /\ Forall (fun y => exists w, y = TFail w) fs.
Proof. exact response_unknown. Qed.
Print Assumptions C21_unknown_is_error.

(** Each request is told exactly once: it is waiting and was told nothing, or it
    waits no longer and was told one thing. In particular every request whose
    stream has ended was told. *)
Theorem C21_exactly_once : forall hash dk p w,
  let l := snd (run_process hash dk p) in
  NoDup (tracked l) -> In w (tracked l) ->
  ((exists k u, waiting l k u w) /\ notifications l w = []) \/
  ((forall k u, ~ waiting l k u w) /\ List.length (notifications l w) = 1%nat).
Proof. exact once. Qed.
Print Assumptions C21_exactly_once.

(** A request is reported as failed only when its stream ends, or when another
    request takes its identifier. *)
Theorem C21_failed_only_at_end : forall hash dk p a w b,
  snd (run_process hash dk p) = a ++ TFail w :: b ->
  (exists a' k u w', a = a' ++ [TTrack k u w'] /\ waiting a' k u w) \/
  (exists fs b', b = fs ++ TEnd :: b' /\ Forall (fun y => exists w, y = TFail w) fs).
Proof. exact failed. Qed.
Print Assumptions C21_failed_only_at_end.

(** The answers are those of the server: success is an empty error, a missing
    decision is a drop. *)
Theorem C21_answers : forall hash dk p k u a,
  In (TResponse k u a) (snd (run_process hash dk p)) ->
  exists rs n d w ok, In (EData rs n d w ok) (p_events p) /\
    match k with
    | KUpload => exists e, In (RAck u e) rs /\ a = AUpload (String.eqb e "") u
    | KIntent => exists d, In (RIntent u d) rs /\
                   a = AIntent u (match d with Some b => b | None => true end)
    end.
Proof. exact run_sent. Qed.
Print Assumptions C21_answers.

(** While the stream is up, every request is tracked, and every response is
    handled, in order; handling stops only with an error that ends the task. *)
Theorem C21_requests_tracked : forall s k u w sent,
  a_phase s = PMain -> exists tl, snd (step s (ERequest k u w sent)) = TTrack k u w :: tl.
Proof. exact connected_tracks. Qed.
Print Assumptions C21_requests_tracked.

Theorem C21_responses_handled : forall s rs n d w ok,
  a_phase s = PMain ->
  let r := step s (EData rs n d w ok) in
  (a_phase (fst r) = PMain /\ handled (snd r) = received rs) \/
  (a_phase (fst r) = PDone /\ In TError (snd r) /\ exists tl, received rs = handled (snd r) ++ tl).
Proof. exact connected_handles. Qed.
Print Assumptions C21_responses_handled.

Definition ex_hash (s : string) : list Z := [Z.of_nat (String.length s)].
Definition ex_data rs := EData rs 0 0 WOk true.
Definition ex_proc now key es :=
  {| p_key := key; p_now := now; p_generic := 0; p_read := true; p_removed := true; p_write := WOk;
     p_open := true; p_events := es |}.

(** Two uploads and an intent with the identifier of one of them; the answers come
    in another order, one upload fails with its stream, and a stale answer on the
    next stream is an error. *)
Definition ex_run := ex_proc 5 "key"
  [ex_data [RHandshake; RPong]; ERequest KUpload "a" 1%nat true; ERequest KIntent "a" 2%nat true;
   ERequest KUpload "b" 3%nat true; ERequest KUpload "c" 4%nat true;
   ex_data [RAck "b" "bad"; RIntent "a" None]; ex_data [RAck "a" ""];
   EClosed false true; EBackoffDone true; ex_data [RHandshake];
   ERequest KUpload "d" 5%nat true; ex_data [RAck "c" ""]].

Example C21_run : snd (run_process ex_hash NoFile ex_run) =
  [TStream; TTrack KUpload "a" 1%nat; TTrack KIntent "a" 2%nat; TTrack KUpload "b" 3%nat; TTrack KUpload "c" 4%nat;
   TResponse KUpload "b" (AUpload false "b"); TDeliver 3%nat (AUpload false "b");
   TResponse KIntent "a" (AIntent "a" true); TDeliver 2%nat (AIntent "a" true);
   TResponse KUpload "a" (AUpload true "a"); TDeliver 1%nat (AUpload true "a");
   TFail 4%nat; TEnd; TStream; TTrack KUpload "d" 5%nat; TResponse KUpload "c" (AUpload true "c");
   TError; TFail 5%nat; TEnd].
Proof. vm_compute. reflexivity. Qed.

Example C21_hypotheses : NoDup (tracked (snd (run_process ex_hash NoFile ex_run))) /\
  waiting [TStream; TTrack KUpload "a" 1%nat; TTrack KIntent "a" 2%nat; TTrack KUpload "b" 3%nat] KUpload "a" 1%nat /\
  (forall w, ~ waiting [TTrack KUpload "c" 4%nat; TEnd; TStream] KUpload "c" w).
Proof.
  rewrite C21_run. cbn [tracked]. splits.
  - repeat constructor; cbn; intuition discriminate.
  - exists [TStream], [TTrack KIntent "a" 2%nat; TTrack KUpload "b" 3%nat]. splits; try reflexivity.
    + intros w' H. cbn in H. intuition discriminate.
    + intros x H. cbn in H. intuition discriminate.
    + intros H. cbn in H. intuition discriminate.
  - intros w [a [b [E [_ [_ N] ] ] ] ].
    destruct a as [|x0 [|x1 [|x2 [|x3 a] ] ] ]; inv E. apply N. left. reflexivity.
Qed.

(** * C22 *)

(** A rejection is status 16 in place of the handshake: from there on no stream is
    opened, and the kill is on disk if it could be written. *)
Theorem C22_rejection_kills : forall s rs n d w ok es,
  a_phase s = PHandshake ->
  let r := steps s (EData (RErrorShutdown 16 :: rs) n d w ok :: es) in
  silent (snd r) /\ (w = WOk -> a_disk (fst r) = KillFile (n + d) (a_hash s)).
Proof. exact rejection_kills. Qed.
Print Assumptions C22_rejection_kills.

(** After the server has rejected the API key, this process opens no stream, even
    if the kill file could not be written. *)
Theorem C22_rejected_process_silent : forall hash dk p a n d wr b,
  snd (run_process hash dk p) = a ++ TReject n d wr :: b -> silent b.
Proof. exact rejected_silent. Qed.
Print Assumptions C22_rejected_process_silent.

(** Nor does any later one that starts before the kill time has passed, with the
    same API key. The kill file must have been written, and stay readable. *)
Theorem C22_rejected_restarts_silent : forall hash dk p a n d b ps,
  snd (run_process hash dk p) = a ++ TReject n d true :: b ->
  Forall (fun q => p_now q < n + d /\ p_key q = p_key p /\ p_read q = true) ps ->
  Forall silent (snd (run_processes hash (fst (run_process hash dk p)) ps)).
Proof. exact rejected_restarts. Qed.
Print Assumptions C22_rejected_restarts_silent.

(** A configured kill duration, when there is no kill file: this process is silent,
    and so are those that start before the duration has passed. *)
Theorem C22_configured_silent : forall hash dk p ps,
  dk = NoFile \/ dk = Garbage -> p_generic p <> 0 ->
  silent (snd (run_process hash dk p)) /\
  (p_write p = WOk ->
   Forall (fun q => p_now q < p_now p + p_generic p /\ p_key q = p_key p /\ p_read q = true) ps ->
   Forall silent (snd (run_processes hash (fst (run_process hash dk p)) ps))).
Proof. exact configured_silent. Qed.
Print Assumptions C22_configured_silent.

(** Once the time has passed, or with a key that hashes differently, the next
    process connects. *)
Theorem C22_connects_again : forall hash until h p,
  until <= p_now p \/ hash (p_key p) <> h -> p_read p = true ->
  exists tl, snd (run_process hash (KillFile until h) p) = TStream :: tl.
Proof. exact not_killed. Qed.
Print Assumptions C22_connects_again.

Definition ex_reject w := ex_proc 5 "key"
  [ex_data [RHandshake]; ERequest KUpload "a" 1%nat true; EClosed true true;
   EData [RErrorShutdown 16] 10 100 w true; EBackoffDone true; ex_data [RHandshake]; EShutdown].

Example C22_run :
  run_process ex_hash NoFile (ex_reject WOk) =
    (KillFile 110 [3], [TStream; TTrack KUpload "a" 1%nat; TFail 1%nat; TEnd; TStream;
                        TReject 10 100 true; TEnd]) /\
  snd (run_processes ex_hash (KillFile 110 [3])
         [ex_proc 20 "key" [ex_data [RHandshake]]; ex_proc 109 "key" [];
          ex_proc 110 "key" []]) = [[]; []; [TStream]] /\
  snd (run_processes ex_hash (KillFile 110 [3]) [ex_proc 20 "other" []]) = [[TStream]].
Proof. vm_compute. auto. Qed.

(** What the assumption on the disk excludes: a kill that could not be written
    lasts only as long as the process. *)
Example C22_unwritten_kill :
  snd (run_processes ex_hash NoFile [ex_reject WKept; ex_proc 20 "key" []]) =
    [[TStream; TTrack KUpload "a" 1%nat; TFail 1%nat; TEnd; TStream; TReject 10 100 false; TEnd]; [TStream]].
Proof. vm_compute. reflexivity. Qed.

(** A configured kill does not apply to the process that finds an expired file. *)
Example C22_expired_file_first :
  let p := {| p_key := "key"; p_now := 200; p_generic := 50; p_read := true; p_removed := true;
              p_write := WOk; p_open := true; p_events := [] |} in
  snd (run_processes ex_hash (KillFile 110 [3]) [p; p]) = [[TStream]; []].
Proof. vm_compute. reflexivity. Qed.
