(* Upload manager (bd-logger/src/consumer.rs), the uploads it starts, and the API task
   that applies configurations (bd-logger/src/client_config.rs:243-300,
   bd-buffer/src/ring_buffer.rs:234-335) and hands responses to uploads
   (bd-api/src/api.rs).  All of them are concurrent: a label picks who moves next.

   Simplifications: the contents of uploads, batching, retries and rate limits are left
   out (see Batching_Model, Retry_Model, RateLimit_Model): an upload task either reads
   its buffer or waits for the response to a batch, for as long as it likes; a request
   on trigger_upload_rx arrives when the manager takes it; the completion message of a
   trigger upload is received when it is sent; shutting down the whole SDK is left out;
   the state of the buffer manager changes when the update starts instead of when its
   last event has been sent (nothing here reads it in between). *)
From Verif Require Import Base BufferManager_Model.
Local Open Scope Z_scope.

(** The maps from buffer ids to tasks of consumer.rs:55-90, as association lists. *)
Definition amap := list (Z * nat).

(** The maps from buffer ids to tasks of consumer.rs:55-90, as association lists. *)
Fixpoint aget (i : Z) (m : amap) : option nat :=
  match m with [] => None | (j, v) :: r => if j =? i then Some v else aget i r end.
(** The maps from buffer ids to tasks of consumer.rs:55-90, as association lists. *)
Definition adel (i : Z) (m : amap) : amap := filter (fun e => negb (fst e =? i)) m.
(** The maps from buffer ids to tasks of consumer.rs:55-90, as association lists. *)
Definition aput (i : Z) (v : nat) (m : amap) : amap := (i, v) :: adel i m.

(* CompleteBufferUpload for request r (consumer.rs:195-225), ContinuousBufferUploader
   (462-543), StreamedBufferUpload (559-596) *)
Inductive tkind := TKTrigger (r : nat) | TKContinuous | TKStream.

(* TReading: reading the buffer; TWaiting: in log_upload_service.call
   (service.rs:139-197); TSignalled: a trigger upload whose run has returned, which has
   sent single_upload_complete and dropped its shutdown handle (consumer.rs:198-215);
   TDone: gone *)
Inductive tstate := TReading | TWaiting | TSignalled | TDone.

(* [tk_stop]: ComponentShutdownTrigger::shutdown was called for it
   (bd-shutdown/src/lib.rs:101-106) *)
Record task := mkTask {
  tk_id : nat; tk_buf : Z; tk_h : nat; tk_kind : tkind; tk_st : tstate; tk_stop : bool }.

(* MWait n i: in shutdown_trigger.shutdown().await for task n, to remove buffer i
   afterwards (consumer.rs:279-289, and 312-318 with i = None); MStopped: run returned an
   error *)
Inductive mode := MIdle | MWait (n : nat) (i : option Z) | MStopped.

(** A request of consumer.rs:153-254. *)
Record request := mkRequest { rq_ids : list Z; rq_tasks : list nat }.

(** consumer.rs:55-90, with the uploads, the channels and the API task. *)
Record um := mkUm {
  um_bm : bm;                       (* bd_buffer::Manager *)
  um_api : option (list bevent);    (* Some l: the API task is in update_from_config, with l
                                       still to be sent *)
  um_chan : option bevent;          (* buffer_event_tx/rx, capacity 1 (ring_buffer.rs:176) *)
  um_mode : mode;
  um_trig : amap;                   (* trigger_buffers *)
  um_shut : amap;                   (* shutdowns *)
  um_sshut : option nat;            (* stream_buffer_shutdown_trigger *)
  um_active : list Z;               (* active_trigger_uploads *)
  um_tasks : list task;
  um_reqs : list request;           (* trigger requests taken so far *)
  um_answers : list nat;            (* responses sent, newest first *)
  um_next : nat }.

(* BufferUploadManager::new, consumer.rs:102-119; Manager::new *)
Definition um_new : um := mkUm bm_new None None MIdle [] [] None [] [] [] [] 0.

(* the consumer registered with the ring buffer is dropped when the run ends *)
Definition open (t : task) : bool :=
  match tk_st t with TReading | TWaiting => true | _ => false end.

(** Lookup of an upload task (spawned at consumer.rs:153-323). *)
Definition get_task (n : nat) (l : list task) : option task :=
  find (fun t => Nat.eqb (tk_id t) n) l.

(** An upload task changes its state (consumer.rs:421-720). *)
Definition set_st (n : nat) (st : tstate) (l : list task) : list task :=
  map (fun t => if Nat.eqb (tk_id t) n
                then mkTask (tk_id t) (tk_buf t) (tk_h t) (tk_kind t) st (tk_stop t) else t) l.

(* ComponentStatus::PendingShutdown is sent to the task *)
Definition stop_task (n : nat) (l : list task) : list task :=
  map (fun t => if Nat.eqb (tk_id t) n
                then mkTask (tk_id t) (tk_buf t) (tk_h t) (tk_kind t) (tk_st t) true else t) l.

(* register_consumer refuses a second consumer (non_volatile_ring_buffer.rs:890-960,
   volatile: common_ring_buffer.rs) *)
Definition has_consumer (h : nat) (l : list task) : bool :=
  existsb (fun t => Nat.eqb (tk_h t) h && open t) l.

(** Is it the task of consumer.rs:600-720? *)
Definition is_trigger (t : task) : bool :=
  match tk_kind t with TKTrigger _ => true | _ => false end.

(** Membership in a list of buffer ids, consumer.rs:153-254. *)
Definition mem (i : Z) (l : list Z) : bool := existsb (Z.eqb i) l.

(* the loop of handle_trigger_uploads, consumer.rs:163-235, for request r; false when
   new_trigger_consumer fails *)
Fixpoint start_uploads (r : nat) (ids : list Z) (s : um) (started : list nat)
  : um * list nat * bool :=
  match ids with
  | [] => (s, started, true)
  | i :: rest =>
    if mem i (um_active s) then start_uploads r rest s started
    else match aget i (um_trig s) with
    | None => start_uploads r rest s started
    | Some h =>
      if has_consumer h (um_tasks s) then (s, started, false)
      else
        let n := um_next s in
        start_uploads r rest
          (mkUm (um_bm s) (um_api s) (um_chan s) (um_mode s) (um_trig s)
                (aput i n (um_shut s)) (um_sshut s) (i :: um_active s)
                (um_tasks s ++ [mkTask n i h (TKTrigger r) TReading false])
                (um_reqs s) (um_answers s) (S n))
          (started ++ [n])
    end
  end.

(* the end of handle_buffer_event for a removal, consumer.rs:287-288, 316-318 *)
Definition removed (i : option Z) (trig : amap) : amap :=
  match i with Some i => adel i trig | None => trig end.

(* has the task dropped its ComponentShutdown? *)
Definition released (n : nat) (l : list task) : bool :=
  match get_task n l with Some t => negb (open t) | None => true end.

(* shutdown_trigger.shutdown().await, then the rest *)
Definition shutdown_task (s : um) (shut : amap) (sshut : option nat) (n : option nat)
    (i : option Z) : um :=
  match n with
  | None =>
    mkUm (um_bm s) (um_api s) None MIdle (removed i (um_trig s)) shut sshut (um_active s)
         (um_tasks s) (um_reqs s) (um_answers s) (um_next s)
  | Some n =>
    if released n (um_tasks s) then
      mkUm (um_bm s) (um_api s) None MIdle (removed i (um_trig s)) shut sshut (um_active s)
           (um_tasks s) (um_reqs s) (um_answers s) (um_next s)
    else
      mkUm (um_bm s) (um_api s) None (MWait n i) (um_trig s) shut sshut (um_active s)
           (stop_task n (um_tasks s)) (um_reqs s) (um_answers s) (um_next s)
  end.

(* handle_buffer_event, consumer.rs:256-323; the event is taken from the channel *)
Definition handle_event (s : um) (e : bevent) : um :=
  match e with
  | BCreated BContinuous i h =>
    if has_consumer h (um_tasks s) then
      mkUm (um_bm s) (um_api s) None MStopped (um_trig s) (um_shut s) (um_sshut s)
           (um_active s) (um_tasks s) (um_reqs s) (um_answers s) (um_next s)
    else
      mkUm (um_bm s) (um_api s) None MIdle (um_trig s) (aput i (um_next s) (um_shut s))
           (um_sshut s) (um_active s)
           (um_tasks s ++ [mkTask (um_next s) i h TKContinuous TReading false])
           (um_reqs s) (um_answers s) (S (um_next s))
  | BCreated BTrigger i h =>
    mkUm (um_bm s) (um_api s) None MIdle (aput i h (um_trig s)) (um_shut s) (um_sshut s)
         (um_active s) (um_tasks s) (um_reqs s) (um_answers s) (um_next s)
  | BRemoved i => shutdown_task s (adel i (um_shut s)) (um_sshut s) (aget i (um_shut s)) (Some i)
  | BStreamAdded h =>
    if has_consumer h (um_tasks s) then
      mkUm (um_bm s) (um_api s) None MStopped (um_trig s) (um_shut s) (um_sshut s)
           (um_active s) (um_tasks s) (um_reqs s) (um_answers s) (um_next s)
    else
      mkUm (um_bm s) (um_api s) None MIdle (um_trig s) (um_shut s) (Some (um_next s))
           (um_active s)
           (um_tasks s ++ [mkTask (um_next s) (-1) h TKStream TReading false])
           (um_reqs s) (um_answers s) (S (um_next s))
  | BStreamRemoved _ => shutdown_task s (um_shut s) None (um_sshut s) None
  end.

(* who moves *)
Inductive label :=
| UConfig (c : conf)          (* the API task receives a configuration *)
| USend                       (* ... sends the next event (ring_buffer.rs:340-404) *)
| UReturn                     (* ... has all acknowledgements (ring_buffer.rs:332); an event is
                                 acknowledged when the manager has handled it, on drop
                                 (ring_buffer.rs:84-110) *)
| UHandle                     (* the upload manager takes an event (consumer.rs:133) *)
| UResume                     (* ... continues after the wait for a task *)
| UTrigger (ids : list Z)     (* ... takes a request (consumer.rs:134-135, 153-253) *)
| UComplete (n : nat)         (* ... receives the completion of task n (consumer.rs:136-138) *)
| UUpload (n : nat)           (* task n sends a batch *)
| URespond (n : nat)          (* the API task receives the response for the batch of task n *)
| UEnd (n : nat)              (* task n stops reading: no more logs, or an error *)
| UStop (n : nat)             (* a continuous or stream upload sees its shutdown, while reading
                                 or waiting (consumer.rs:469, 528-531, 566, 586-589) *)
| UAnswer (r : nat).          (* the task that joins the uploads of request r answers it
                                 (consumer.rs:240-250) *)

Section Order.
Variable order : bufs -> bufs.

(** Update of one field of the state, consumer.rs:55-90. *)
Definition with_tasks (s : um) (l : list task) : um :=
  mkUm (um_bm s) (um_api s) (um_chan s) (um_mode s) (um_trig s) (um_shut s) (um_sshut s)
       (um_active s) l (um_reqs s) (um_answers s) (um_next s).

(** Has an upload task (consumer.rs:421-720) ended? *)
Definition finished (l : list task) (n : nat) : bool :=
  match get_task n l with Some t => negb (open t) | None => false end.

(* one step; None: not possible in this state *)
Definition ustep (s : um) (l : label) : option um :=
  match l with
  | UConfig c =>
    match um_api s with
    | Some _ => None
    | None =>
      let u := apply_conf order (um_bm s) c in
      Some (mkUm (u_state u) (if u_ok u then Some (u_events u) else None) (um_chan s) (um_mode s)
                 (um_trig s) (um_shut s) (um_sshut s) (um_active s) (um_tasks s) (um_reqs s)
                 (um_answers s) (um_next s))
    end
  | USend =>
    match um_api s, um_chan s with
    | Some (e :: r), None =>
      Some (mkUm (um_bm s) (Some r) (Some e) (um_mode s) (um_trig s) (um_shut s) (um_sshut s)
                 (um_active s) (um_tasks s) (um_reqs s) (um_answers s) (um_next s))
    | _, _ => None
    end
  | UReturn =>
    match um_api s, um_chan s, um_mode s with
    | Some [], None, MIdle =>
      Some (mkUm (um_bm s) None None MIdle (um_trig s) (um_shut s) (um_sshut s)
                 (um_active s) (um_tasks s) (um_reqs s) (um_answers s) (um_next s))
    | _, _, _ => None
    end
  | UHandle =>
    match um_mode s, um_chan s with
    | MIdle, Some e => Some (handle_event s e)
    | _, _ => None
    end
  | UResume =>
    match um_mode s with
    | MWait n i =>
      if released n (um_tasks s) then
        Some (mkUm (um_bm s) (um_api s) (um_chan s) MIdle (removed i (um_trig s)) (um_shut s)
                   (um_sshut s) (um_active s) (um_tasks s) (um_reqs s) (um_answers s) (um_next s))
      else None
    | _ => None
    end
  | UTrigger ids =>
    match um_mode s with
    | MIdle =>
      let '(s1, started, ok) := start_uploads (length (um_reqs s)) ids s [] in
      Some (mkUm (um_bm s1) (um_api s1) (um_chan s1) (if ok then MIdle else MStopped)
                 (um_trig s1) (um_shut s1) (um_sshut s1) (um_active s1) (um_tasks s1)
                 (um_reqs s1 ++ [mkRequest ids started]) (um_answers s1) (um_next s1))
    | _ => None
    end
  | UComplete n =>
    match um_mode s, get_task n (um_tasks s) with
    | MIdle, Some t =>
      match tk_st t with
      | TSignalled =>
        Some (mkUm (um_bm s) (um_api s) (um_chan s) MIdle (um_trig s) (um_shut s) (um_sshut s)
                   (filter (fun i => negb (i =? tk_buf t)) (um_active s))
                   (set_st n TDone (um_tasks s)) (um_reqs s) (um_answers s) (um_next s))
      | _ => None
      end
    | _, _ => None
    end
  | UUpload n =>
    match get_task n (um_tasks s) with
    | Some t => match tk_st t with
                | TReading => Some (with_tasks s (set_st n TWaiting (um_tasks s)))
                | _ => None
                end
    | None => None
    end
  | URespond n =>
    match um_api s, get_task n (um_tasks s) with
    | None, Some t => match tk_st t with
                      | TWaiting => Some (with_tasks s (set_st n TReading (um_tasks s)))
                      | _ => None
                      end
    | _, _ => None
    end
  | UEnd n =>
    match get_task n (um_tasks s) with
    | Some t => match tk_st t with
                | TReading =>
                  Some (with_tasks s (set_st n (if is_trigger t then TSignalled else TDone)
                                             (um_tasks s)))
                | _ => None
                end
    | None => None
    end
  | UStop n =>
    match get_task n (um_tasks s) with
    | Some t => if open t && tk_stop t && negb (is_trigger t)
                then Some (with_tasks s (set_st n TDone (um_tasks s))) else None
    | None => None
    end
  | UAnswer r =>
    match nth_error (um_reqs s) r with
    | Some q =>
      if forallb (finished (um_tasks s)) (rq_tasks q)
         && negb (existsb (Nat.eqb r) (um_answers s)) then
        Some (mkUm (um_bm s) (um_api s) (um_chan s) (um_mode s) (um_trig s) (um_shut s)
                   (um_sshut s) (um_active s) (um_tasks s) (um_reqs s) (r :: um_answers s)
                   (um_next s))
      else None
    | None => None
    end
  end.

(* an execution: labels that are not possible are skipped *)
Definition urun (s : um) (ls : list label) : um :=
  fold_left (fun s l => match ustep s l with Some s' => s' | None => s end) ls s.

End Order.
