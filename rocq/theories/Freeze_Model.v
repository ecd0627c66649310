(** Model of a flush of a continuous buffer as the SDK makes it: the buffer and its upload task of Delivery_Model.v, on the SDK's one thread.

    - bd-logger/src/builder.rs:262-297 ("builder"): all tasks of the SDK run on one thread, on a runtime of that thread only; builder:244-256: the connection, the
      uploader, the log loop, the flushes and the reports are parts of one task.
    - bd-buffer/src/ring_buffer.rs:191-230: a flush calls [flush] of each buffer in turn, which is aggregate_ring_buffer.rs:236-238 and waits on a condition variable
      (common_ring_buffer.rs:845-861): the thread waits with it. The flush thread of the buffer is a thread of its own (aggregate_ring_buffer.rs:186-192).
    - One buffer. Asking the upload task to stop ([Stop]) comes from anywhere. *)
From Verif Require Import Base Ring_Model Volatile_Model Nonvolatile_Model Aggregate_Model Delivery_Model.

(** The buffer with its task, and whether the SDK's thread is in [wait_for_drain] (common_ring_buffer.rs:859). *)
Record sdk := mkSdk { sdk_d : delivery; sdk_held : bool }.
(** builder:244-256: nothing was flushed yet. *)
Definition sdk_new (g : agg) : sdk := mkSdk (d_new g) false.

(** Moves made by the SDK's thread: all but those of the flush thread (aggregate_ring_buffer.rs:54-112) and the request to stop. *)
Definition of_sdk (m : move) : bool := match m with World Thread | Stop => false | _ => true end.

(** common_ring_buffer.rs:845-861: the flush has to wait. *)
Definition must_wait (c : list call) : bool := match c with [VCall VWaitForDrain (OWait b)] => b | _ => false end.
(** common_ring_buffer.rs:657-664: a finished read wakes it up. *)
Definition wakes (c : list call) : bool := match c with [VCall VFinishRead (OFin (Ok b))] => b | _ => false end.

Section Checksums.
Variable rcrc : list Z -> Z.
Variable hcrc : Z -> option Z -> option Z -> option Z -> Z.

(** One move; [None]: it cannot be made now. builder:244-256, ring_buffer.rs:191-230, common_ring_buffer.rs:657-664 and 845-861. *)
Definition sdk_step (x : sdk) (m : move) : option (sdk * list call * list seen) :=
  if sdk_held x && of_sdk m then None
  else
    match d_step rcrc hcrc (sdk_d x) m with
    | None => None
    | Some (d, c, o) =>
        let held := match m with World Flush => must_wait c | World Thread => sdk_held x && negb (wakes c) | _ => sdk_held x end in
        Some (mkSdk d held, c, o)
    end.
(** A history of moves: builder:244-256. *)
Fixpoint sdk_run (x : sdk) (ms : list move) : option (sdk * list call * list seen) :=
  match ms with
  | [] => Some (x, [], [])
  | m :: ms =>
      match sdk_step x m with
      | Some (x1, c1, o1) => match sdk_run x1 ms with Some (x2, c2, o2) => Some (x2, c1 ++ c2, o1 ++ o2) | None => None end
      | None => None
      end
  end.
End Checksums.
