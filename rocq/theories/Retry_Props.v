(** C19, C20. Retrying an upload. *)
From Verif Require Import Base Retry_Model Retry_Proofs.
Open Scope Z_scope.

(** Whatever the results of the attempts and however the retry limit changes (below some bound), an upload ends; it sends
    between 1 and 1 + bound copies, all equal to the request (same identifier, same payload); every attempt but the last
    failed (so the first success or cancellation is the last attempt); the reported result is that of the last
    attempt; and it is reported as failed only when the number of retries made has reached the limit. *)
Theorem C19_bounded_same_identity : forall bound rs maxs rq, (forall j, maxs j <= Z.of_nat bound) ->
  exists sent rf pf, upload bound rs maxs rq = Some (sent, rf, pf) /\
    (1 <= length sent)%nat /\ (length sent <= 1 + bound)%nat /\
    (forall x, In x sent -> x = rq) /\
    (forall j, (j < length sent - 1)%nat -> rs j = RFailure) /\
    rf = rs (length sent - 1)%nat /\
    (rf = RFailure -> maxs (length sent - 1)%nat <= Z.of_nat (length sent - 1)).
Proof. exact upload_spec. Qed.
Print Assumptions C19_bounded_same_identity.

Example C19_witness :
  exists pf, upload 5 (fun i => if Nat.ltb i 2 then RFailure else RSuccess) (fun _ => 5) (mkReq 7 [[1]; [2]])
  = Some ([mkReq 7 [[1]; [2]]; mkReq 7 [[1]; [2]]; mkReq 7 [[1]; [2]]], RSuccess, pf).
Proof. eexists. reflexivity. Qed.

(** C20 in full ("the dropped counter grows only when the upload finally failed") is false: with a limit of n retries, an
    upload that succeeds at attempt n + 1 is counted as dropped. Here the limit is 1 and the second attempt succeeds. *)
Theorem C20_dropped_only_on_failure_refuted :
  exists bound rs maxs rq sent pf, (forall j, maxs j <= Z.of_nat bound) /\
    upload bound rs maxs rq = Some (sent, RSuccess, pf) /\ 0 < rp_dropped pf.
Proof.
  exists 1%nat, (fun i => if Nat.ltb i 1 then RFailure else RSuccess), (fun _ => 1), (mkReq 7 [[1]; [2]]).
  eexists _, _. split; [intros; cbn; lia|]. split; [reflexivity|cbn; lia].
Qed.
Print Assumptions C20_dropped_only_on_failure_refuted.

(** What does hold: a finally failed upload is always counted, once, with all its logs; and anything is counted only when the
    retries made have reached the limit. *)
Theorem C20_dropped_accounting_partial : forall bound rs maxs rq, (forall j, maxs j <= Z.of_nat bound) ->
  forall sent rf pf, upload bound rs maxs rq = Some (sent, rf, pf) ->
    (rf = RFailure -> rp_dropped pf = Z.of_nat (length (rq_logs rq)) /\ rp_exceeded pf = 1) /\
    (rp_dropped pf = 0 \/ rp_dropped pf = Z.of_nat (length (rq_logs rq))) /\
    (rp_dropped pf <> 0 -> maxs (length sent - 1)%nat <= Z.of_nat (length sent - 1)).
Proof. exact upload_counters. Qed.
Print Assumptions C20_dropped_accounting_partial.

Example C20_witness : upload 1 (fun _ => RFailure) (fun _ => 1) (mkReq 7 [[1]; [2]])
  = Some ([mkReq 7 [[1]; [2]]; mkReq 7 [[1]; [2]]], RFailure, mkPolicy 1 1 2).
Proof. reflexivity. Qed.
