(** C17, C18: batches and continuous uploads. *)
From Verif Require Import Base Batching_Model Batching_Spec Batching_Proofs.
Local Open Scope N_scope.

(** C17. The batches are the logs read, in order, followed by the batch being built; [grows]: no batch was held back
    after it reached the limits in force when its last log came in. *)
Theorem C17_continuous : forall buf es u o, run (uploader_new buf) es = Some (u, o) -> exists bs cur,
  reads o = concat bs ++ cur /\ uploads o = map (map fst) bs /\ Forall (fun b => b <> [] /\ grows b) bs.
Proof. exact continuous_batches. Qed.
Print Assumptions C17_continuous.

Theorem C17_constant_limits : forall buf es u o L, run (uploader_new buf) es = Some (u, o) -> Forall (fun x => snd x = L) (reads o) ->
  Forall (fun b => exists b' x, b = b' ++ [x] /\ (b' = [] \/ below b' L)) (uploads o).
Proof. exact constant_limits. Qed.
Print Assumptions C17_constant_limits.

(** Trigger uploads: all logs inside the lookback window, once, in order. *)
Theorem C17_trigger : forall rs batches dropped n, trigger_run builder_new 0 0 rs = (batches, dropped, Uploaded n) ->
  concat batches = recent rs /\ n = N.of_nat (length (recent rs)) /\ Forall (fun x => x <> []) batches.
Proof. intros rs batches dropped n. exact (trigger_ok rs builder_new 0 0 batches dropped n eq_refl). Qed.
Print Assumptions C17_trigger.

(** All others are counted as dropped. *)
Theorem C17_trigger_dropped : forall rs batches dropped e, trigger_run builder_new 0 0 rs = (batches, dropped, e) -> dropped = outside rs.
Proof. intros rs batches dropped e X. exact (trigger_dropped rs _ _ _ _ _ _ X). Qed.
Print Assumptions C17_trigger_dropped.

Theorem C17_trigger_limits : forall rs L, Forall (fun x => snd x = L) rs -> forall batches dropped e, trigger_run builder_new 0 0 rs = (batches, dropped, e) ->
  Forall (fun b => exists b' x, b = b' ++ [x] /\ (b' = [] \/ below b' L)) batches.
Proof. intros rs L F batches dropped e. exact (trigger_limits rs L F builder_new 0 0 batches dropped e eq_refl (or_introl eq_refl)). Qed.
Print Assumptions C17_trigger_limits.

Definition L2 := mkLimits 2 100.
Example C17_case : exists u, run (uploader_new [[1%Z]; [2%Z]; [3%Z]]) [Read L2; Write [4%Z]; Read L2; Done true; Read L2; Deadline; Done false; Read (mkLimits 0 0)] =
  Some (u, [ORead [1%Z] L2; ORead [2%Z] L2; OUpload [[1%Z]; [2%Z]]; ODone true; ORelease [1%Z]; ORelease [2%Z]; ORead [3%Z] L2; OUpload [[3%Z]]; ODone false; ORelease [3%Z];
            ORead [4%Z] (mkLimits 0 0); OUpload [[4%Z]]]).
Proof. eexists. vm_compute. reflexivity. Qed.
Example C17_trigger_case : trigger_run builder_new 0 0 [(Log [1%Z] false, L2); (Log [2%Z] true, L2); (Log [3%Z] false, L2); (Log [4%Z] false, L2); (Unavailable, L2)] =
  ([[[1%Z]; [3%Z]]; [[4%Z]]], 1, Uploaded 3).
Proof. reflexivity. Qed.

(** C18. Partial: as long as no upload is given up because of a shutdown, exactly the logs of batches whose attempt has
    ended are released. *)
Theorem C18_release_partial : forall buf es u o, run (uploader_new buf) es = Some (u, o) -> ~ In OAbandoned o ->
  releases o = concat (completed None o).
Proof. exact released_completed. Qed.
Print Assumptions C18_release_partial.

(** Whatever was not released is still in the buffer, in order. *)
Theorem C18_kept : forall buf es u o, run (uploader_new buf) es = Some (u, o) -> buf ++ written es = releases o ++ u_buf u.
Proof. intros buf es u o. exact (kept es (uploader_new buf) u o). Qed.
Print Assumptions C18_kept.

Theorem C18_stopped : forall es u, u_phase u = Stopped -> forall u' o, run u es = Some (u', o) -> o = [].
Proof. exact stopped. Qed.
Print Assumptions C18_stopped.

(** After giving up an upload the task looks for more work; if it finds some before it sees the shutdown again, it
    releases the records of the batch it gave up. *)
Theorem C18_release_refuted : exists buf es u o r, run (uploader_new buf) es = Some (u, o) /\ In r (releases o) /\ ~ In r (concat (completed None o)).
Proof.
  exists [[1%Z]; [2%Z]], [Read (mkLimits 1 100); Shutdown; SeeShutdown; Read (mkLimits 1 100); Done false].
  eexists. eexists. exists [1%Z]. splits; [vm_compute; reflexivity|left; reflexivity|]. cbn. intros [E|[]]. discriminate.
Qed.
Print Assumptions C18_release_refuted.

(** A shutdown of the service ends the attempt without the server having the logs; they are released all the same. *)
Theorem C18_shutdown_refuted : exists buf es u o, run (uploader_new buf) (Shutdown :: es) = Some (u, o) /\ ~ In (ODone true) o /\ releases o = buf /\ buf <> [].
Proof.
  exists [[1%Z]; [2%Z]], [Read L2; Read L2; Done false]. eexists. eexists. splits; [vm_compute; reflexivity| |reflexivity|discriminate].
  cbn. intuition discriminate.
Qed.
Print Assumptions C18_shutdown_refuted.

Example C18_case : exists u o, run (uploader_new [[1%Z]; [2%Z]; [3%Z]]) [Read L2; Read L2; Done true; Read L2; Deadline] = Some (u, o) /\ ~ In OAbandoned o /\
  releases o = [[1%Z]; [2%Z]] /\ u_buf u = [[3%Z]] /\ uploads o = [[[1%Z]; [2%Z]]; [[3%Z]]].
Proof. eexists. eexists. splits; [vm_compute; reflexivity| |reflexivity..]. cbn. intuition discriminate. Qed.
