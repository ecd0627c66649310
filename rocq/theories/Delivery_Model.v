(** Model of a continuous buffer as a whole: the aggregate ring buffer of Aggregate_Model.v (producers, RAM buffer, flush thread, file) and the task of
    bd-logger/src/consumer.rs ("consumer" below) that uploads its records and then removes them from the file. Nothing here is a queue: the task makes its
    calls on the model of the buffer and acts on their results.

    - Every call of the task on the buffer is one step, producers, flush thread and shutdown move in between; a read and the copy of its bytes
      (consumer:472) are one step.
    - [tokio::select!] picks any branch that is ready, so every branch is a move; timers may fire when armed; the upload service answers at any time.
    - The cursor the task drops when it returns is not given back: no other task is started for the same buffer (see C06 for what happens then). *)
From Verif Require Import Base Ring_Model Volatile_Model Nonvolatile_Model Aggregate_Model Batching_Model.
Open Scope Z_scope.

(** Where the task is: the [select!] of consumer:468-483, that of consumer:528-531 with a batch of [n] records, the loop of consumer:537-539 with [n]
    records to go, returned. *)
Inductive wphase := WIdle | WUploading (n : nat) | WReleasing (n : nat) | WEnded.
(** consumer:421-439 without the buffer. *)
Record worker := mkW { w_builder : builder; w_deadline : bool; w_stop : bool; w_phase : wphase }.
(** consumer:442-458. *)
Definition worker_new : worker := mkW builder_new false false WIdle.

(** What is seen of the task: records it got, batches it sent, ends of attempts, attempts it gave up, records it released, an error. *)
Inductive seen := Got (r : record) (l : limits) | Sent (b : list record) | Answered (accepted : bool) | GaveUp | Released | Failed.

(** consumer:502-528, up to the [select!]. *)
Definition w_flush (w : worker) : worker * list seen :=
  let (b, logs) := take (w_builder w) in (mkW b false (w_stop w) (WUploading (length logs)), [Sent logs]).
(** consumer:492-497. *)
Definition w_arm (w : worker) : worker :=
  match logs (w_builder w) with [] => w | _ => mkW (w_builder w) true (w_stop w) (w_phase w) end.
(** consumer:485-497. *)
Definition w_select (w : worker) (l : limits) : worker * list seen :=
  if limit_reached (w_builder w) l then w_flush w else (w_arm w, []).

(** The buffer and its task, once there is one. *)
Record delivery := mkD { d_g : agg; d_w : option worker }.
(** A buffer without a task: consumer:260-272 comes later. *)
Definition d_new (g : agg) : delivery := mkD g None.

(** The moves: of the buffer and those who write to it; [Start]: consumer:260-272; the branches of consumer:468-483 and 528-531; [Stop]: the task is asked
    to stop. *)
Inductive move := World (a : label) | Start | Take (l : limits) | Tick | Flags (l : limits) | Answer (accepted : bool) | Release | Stop | SeeStop.

Section Checksums.
Variable rcrc : list Z -> Z.
Variable hcrc : Z -> option Z -> option Z -> option Z -> Z.
(** Aggregate_Model's step, with its parameters. *)
Local Notation g_step := (g_step rcrc hcrc).

(** consumer:470-473 with ring_buffer.rs:495-502: the read of the cursor ([Unavailable]: it goes on waiting), the copy of the bytes. *)
Definition d_take (g : agg) (w : worker) (l : limits) : delivery * list call * list seen :=
  let (g1, c1) := g_step g (Consume (NStartRead false)) in
  match c1 with
  | [NCall _ (NRange (Ok _))] =>
      let (g2, c2) := g_step g1 (Consume NPeek) in
      match c2 with
      | [NCall _ (NBytes (Some bs))] =>
          let (w', o) := w_select (mkW (add_log (w_builder w) bs) (w_deadline w) (w_stop w) WIdle) l in
          (mkD g2 (Some w'), c1 ++ c2, Got bs l :: o)
      | _ => (mkD g2 (Some (mkW (w_builder w) (w_deadline w) (w_stop w) WEnded)), c1 ++ c2, [Failed])
      end
  | [NCall _ (NRange (Err Ring_Model.Unavailable))] => (mkD g1 (Some w), c1, [])
  | _ => (mkD g1 (Some (mkW (w_builder w) (w_deadline w) (w_stop w) WEnded)), c1, [Failed])
  end.

(** consumer:537-539: one [advance_read_cursor]. *)
Definition d_release (g : agg) (w : worker) (n : nat) : delivery * list call * list seen :=
  let (g1, c1) := g_step g (Consume NAdvance) in
  match c1 with
  | [NCall _ (NFin (Ok _))] =>
      (mkD g1 (Some (mkW (w_builder w) (w_deadline w) (w_stop w) (match n with O => WIdle | S _ => WReleasing n end))), c1, [Released])
  | _ => (mkD g1 (Some (mkW (w_builder w) (w_deadline w) (w_stop w) WEnded)), c1, [Failed])
  end.

(** consumer:260-272 and 462-542; [None]: the move cannot be made now. *)
Definition d_step (d : delivery) (m : move) : option (delivery * list call * list seen) :=
  match m, d_w d with
  | World (Consume _), _ => None
  | World a, _ => let (g, c) := g_step (d_g d) a in Some (mkD g (d_w d), c, [])
  | Start, None =>
      let (g, c) := g_step (d_g d) (Consume NRegisterCursor) in
      match c with [NCall _ (NRes (Ok _))] => Some (mkD g (Some worker_new), c, []) | _ => Some (mkD g None, c, [Failed]) end
  | Start, Some _ => None
  | _, None => None
  | Stop, Some w => Some (mkD (d_g d) (Some (mkW (w_builder w) (w_deadline w) true (w_phase w))), [], [])
  | Take l, Some w => match w_phase w with WIdle => Some (d_take (d_g d) w l) | _ => None end
  | Tick, Some w =>
      match w_phase w with
      | WIdle => if w_deadline w then let (w', o) := w_flush w in Some (mkD (d_g d) (Some w'), [], o) else None
      | _ => None
      end
  | Flags l, Some w => match w_phase w with WIdle => let (w', o) := w_select w l in Some (mkD (d_g d) (Some w'), [], o) | _ => None end
  | Answer a, Some w =>
      match w_phase w with
      | WUploading n =>
          Some (mkD (d_g d) (Some (mkW (w_builder w) (w_deadline w) (w_stop w) (match n with O => WIdle | S _ => WReleasing n end))), [], [Answered a])
      | _ => None
      end
  | Release, Some w => match w_phase w with WReleasing (S n) => Some (d_release (d_g d) w n) | _ => None end
  | SeeStop, Some w =>
      if w_stop w then
        match w_phase w with
        | WIdle => Some (mkD (d_g d) (Some (mkW (w_builder w) (w_deadline w) true WEnded)), [], [])
        | WUploading _ => Some (mkD (d_g d) (Some (mkW (w_builder w) (w_deadline w) true WIdle)), [], [GaveUp])
        | _ => None
        end
      else None
  end.

(** A history of moves with the calls made on the two parts of the buffer, and what is seen of the task: consumer:260-272 and 462-542. *)
Fixpoint d_run (d : delivery) (ms : list move) : option (delivery * list call * list seen) :=
  match ms with
  | [] => Some (d, [], [])
  | m :: ms =>
      match d_step d m with
      | Some (d1, c1, o1) => match d_run d1 ms with Some (d2, c2, o2) => Some (d2, c1 ++ c2, o1 ++ o2) | None => None end
      | None => None
      end
  end.
End Checksums.
