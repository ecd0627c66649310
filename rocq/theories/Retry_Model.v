(** Model of the upload retry policy, bd-logger/src/service.rs:206-272, driven by tower's retry loop. *)
From Verif Require Import Base.
Open Scope Z_scope.

(** bd-logger/src/service.rs:102-112 [UploadResult]. *)
Inductive upload_result := RSuccess | RFailure | RCanceled.

(** bd-logger/src/service.rs:70-84 [UploadRequest]: one identifier, one batch (bytes abstracted to numbers). *)
Record upload_request := mkReq { rq_uuid : Z; rq_logs : list (list Z) }.

(** bd-logger/src/service.rs:205-217 [RetryPolicy]: the mutable part. [rp_exceeded] and [rp_dropped] are the two counters
    [retry_limit_exceeded] and [retry_limit_exceeded_dropped_logs]. The backoff object only yields delays and is left out. *)
Record policy := mkPolicy { rp_attempts : Z; rp_exceeded : Z; rp_dropped : Z }.

(** bd-logger/src/service.rs:47-59: a fresh policy; tower clones it for every request. *)
Definition policy_new : policy := mkPolicy 0 0 0.

(** bd-logger/src/service.rs:219-222 [should_retry]. *)
Definition should_retry (p : policy) (max_retries : Z) : bool := rp_attempts p <? max_retries.

(** bd-logger/src/service.rs:232-267 [RetryPolicy::retry]; [true] = a future was returned, i.e. send again.
    The trace line calling [remaining()] (lines 237-241, 224-226) is not modelled. *)
Definition policy_retry (p : policy) (max_retries : Z) (rq : upload_request) (r : upload_result) : policy * bool :=
  if negb (should_retry p max_retries)
  then (mkPolicy (rp_attempts p) (rp_exceeded p + 1) (rp_dropped p + Z.of_nat (length (rq_logs rq))), false)
  else
    let p := mkPolicy (rp_attempts p + 1) (rp_exceeded p) (rp_dropped p) in
    match r with
    | RFailure => (p, true)
    | _ => (p, false)
    end.

(** bd-logger/src/service.rs:269-271 [clone_request]. *)
Definition clone_request (rq : upload_request) : upload_request := rq.

(** tower's [Retry] service as configured at bd-logger/src/service.rs:47-66: call the inner service, ask the policy, and either
    resend the cloned request or return. [rs i] is the result of the i-th attempt, [maxs i] the value of the retry
    watch read after it. Returns the requests sent, the final result, and the policy. [None] = out of fuel. *)
Fixpoint retry_loop (fuel : nat) (i : nat) (rs : nat -> upload_result) (maxs : nat -> Z) (p : policy) (rq : upload_request)
  : option (list upload_request * upload_result * policy) :=
  match fuel with
  | O => None
  | S fuel =>
      let r := rs i in
      let keep := clone_request rq in
      let (p, again) := policy_retry p (maxs i) rq r in
      if again
      then match retry_loop fuel (S i) rs maxs p keep with
           | Some (sent, rf, pf) => Some (rq :: sent, rf, pf)
           | None => None
           end
      else Some ([rq], r, p)
  end.

(** One upload, with enough fuel for any retry limit up to [bound]. *)
Definition upload (bound : nat) (rs : nat -> upload_result) (maxs : nat -> Z) (rq : upload_request) :=
  retry_loop (S bound) 0 rs maxs policy_new rq.
