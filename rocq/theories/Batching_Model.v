(** Model of bd-logger/src/consumer.rs: batching of logs and the continuous, trigger and stream uploaders.

    Simplified: a record is the list of its bytes; [usize] arithmetic does not overflow; the ring buffer is the queue it
    implements (its cursor consumer: reads advance a cursor, [advance_read_cursor] releases the oldest record that was
    read); the upload service is the environment: it reports the end of an upload attempt. [tokio::select!] picks any
    branch that is ready, so every branch is an event. Timers are events that may happen when armed. *)
From Verif Require Import Base.
Local Open Scope N_scope.

(** A log as bytes, lines 378-382. *)
Definition record := list Z.
(** The runtime flags MaxBatchSizeLogs and MaxBatchSizeBytes when they are read. *)
Record limits := mkLimits { max_logs : N; max_bytes : N }.
(** Lines 378-382. *)
Record builder := mkBuilder { total_bytes : N; logs : list record }.
(** Lines 385-391. *)
Definition builder_new : builder := mkBuilder 0 [].
(** Lines 393-396. *)
Definition add_log (b : builder) (r : record) : builder := mkBuilder (total_bytes b + N.of_nat (length r)) (logs b ++ [r]).
(** Lines 398-407. *)
Definition limit_reached (b : builder) (l : limits) : bool :=
  match logs b with
  | [] => false
  | _ => (max_bytes l <=? total_bytes b) || (max_logs l <=? N.of_nat (length (logs b)))
  end.
(** Lines 410-413. *)
Definition take (b : builder) : builder * list record := (mkBuilder 0 [], logs b).

(** * ContinuousBufferUploader *)
(** What can be observed: records read, batches handed to the service, ends of attempts (accepted by the server or
    not), attempts given up, records released from the buffer. *)
Inductive obs := ORead (r : record) (l : limits) | OUpload (b : list record) | ODone (accepted : bool) | OAbandoned | ORelease (r : record).
(** Where the task is: line 467, lines 528-531, returned. *)
Inductive phase := Idle | Uploading (n : nat) | Stopped.
(** Lines 420-440; [u_buf]: the unreleased records of the ring buffer, of which the cursor has passed [u_cursor]. *)
Record uploader := mkUploader { u_buf : list record; u_cursor : nat; u_builder : builder; u_deadline : bool; u_shutdown : bool; u_phase : phase }.
(** Lines 442-458. *)
Definition uploader_new (buf : list record) : uploader := mkUploader buf 0 builder_new false false Idle.

(** Lines 502-526, up to the [select!]. *)
Definition flush_start (u : uploader) : uploader * list obs :=
  let (b, logs) := take (u_builder u) in
  (mkUploader (u_buf u) (u_cursor u) b false (u_shutdown u) (Uploading (length logs)), [OUpload logs]).
(** Lines 491-497. *)
Definition arm (u : uploader) : uploader :=
  match logs (u_builder u) with
  | [] => u
  | _ => mkUploader (u_buf u) (u_cursor u) (u_builder u) true (u_shutdown u) (u_phase u)
  end.
(** Lines 484-497. *)
Definition after_select (u : uploader) (l : limits) : uploader * list obs :=
  if limit_reached (u_builder u) l then flush_start u else (arm u, []).
(** Lines 536-539: [advance_read_cursor] in a loop; an error ends the task. *)
Fixpoint release (n : nat) (u : uploader) : uploader * list obs :=
  match n with
  | O => (mkUploader (u_buf u) (u_cursor u) (u_builder u) (u_deadline u) (u_shutdown u) Idle, [])
  | S n' =>
      match u_buf u, u_cursor u with
      | r :: buf, S c => let (u', o) := release n' (mkUploader buf c (u_builder u) (u_deadline u) (u_shutdown u) (u_phase u)) in (u', ORelease r :: o)
      | _, _ => (mkUploader (u_buf u) (u_cursor u) (u_builder u) (u_deadline u) (u_shutdown u) Stopped, [])
      end
  end.

(** The branches of lines 462-542 and what others do. *)
Inductive event :=
| Write (r : record)              (** a producer commits a record *)
| Read (l : limits)               (** lines 472-475 *)
| Deadline                        (** lines 476-481 *)
| FlagsChanged (l : limits)       (** lines 483-484 *)
| Done (accepted : bool)          (** line 529: the service returned *)
| Shutdown                        (** the task is asked to stop *)
| SeeShutdown.                    (** lines 471 and 530 *)

(** Lines 462-542; [None]: the event cannot happen now. *)
Definition step (u : uploader) (e : event) : option (uploader * list obs) :=
  match e with
  | Write r => Some (mkUploader (u_buf u ++ [r]) (u_cursor u) (u_builder u) (u_deadline u) (u_shutdown u) (u_phase u), [])
  | Shutdown => Some (mkUploader (u_buf u) (u_cursor u) (u_builder u) (u_deadline u) true (u_phase u), [])
  | Read l =>
      match u_phase u, nth_error (u_buf u) (u_cursor u) with
      | Idle, Some r =>
          let (u', o) := after_select (mkUploader (u_buf u) (S (u_cursor u)) (add_log (u_builder u) r) (u_deadline u) (u_shutdown u) Idle) l in
          Some (u', ORead r l :: o)
      | _, _ => None
      end
  | Deadline => match u_phase u with Idle => if u_deadline u then Some (flush_start u) else None | _ => None end
  | FlagsChanged l => match u_phase u with Idle => Some (after_select u l) | _ => None end
  | Done a =>
      match u_phase u with
      | Uploading n => let (u', o) := release n u in Some (u', ODone a :: o)
      | _ => None
      end
  | SeeShutdown =>
      if u_shutdown u then
        match u_phase u with
        | Idle => Some (mkUploader (u_buf u) (u_cursor u) (u_builder u) (u_deadline u) true Stopped, [])
        | Uploading _ => Some (mkUploader (u_buf u) (u_cursor u) (u_builder u) (u_deadline u) true Idle, [OAbandoned])
        | Stopped => None
        end
      else None
  end.
(** A history of events, lines 462-542. *)
Fixpoint run (u : uploader) (es : list event) : option (uploader * list obs) :=
  match es with
  | [] => Some (u, [])
  | e :: es' => match step u e with
                | Some (u', o) => match run u' es' with Some (u'', o') => Some (u'', o ++ o') | None => None end
                | None => None
                end
  end.

(** * CompleteBufferUpload *)
(** Lines 653 and 656-697: the answers of [try_read]; [Old]: outside of the lookback window. *)
Inductive try_read := Log (r : record) (old : bool) | Unavailable | ReadError.
(** The result of [run], lines 644-697. *)
Inductive trigger_end := Uploaded (total : N) | UploadFailed | Unfinished.
(** Lines 644-696, one attempt [flush_batch] (lines 698-725) per batch; the limits are read anew after each log. *)
Fixpoint trigger_run (b : builder) (total : N) (dropped : N) (reads : list (try_read * limits)) : list (list record) * N * trigger_end :=
  match reads with
  | [] => ([], dropped, Unfinished)
  | (Log r true, l) :: reads' => trigger_run b total (dropped + 1) reads'
  | (Log r false, l) :: reads' =>
      let b := add_log b r in
      if limit_reached b l then
        let (b', batch) := take b in
        let '(batches, d, e) := trigger_run b' (total + 1) dropped reads' in (batch :: batches, d, e)
      else trigger_run b (total + 1) dropped reads'
  | (Unavailable, l) :: _ => (match logs b with [] => [] | _ => [snd (take b)] end, dropped, Uploaded total)
  | (ReadError, l) :: _ => ([], dropped, UploadFailed)
  end.
