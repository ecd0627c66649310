(* Buffer manager: the reconciliation of the set of ring buffers with a
   configuration (bd-buffer/src/ring_buffer.rs, Manager::update_from_config and
   helpers) and the flush task (Manager::process_flushes).

   Simplifications: buffer ids are integers instead of strings; a ring buffer is
   represented by the number of the object (every RingBuffer::new and
   VolatileRingBuffer::new yields the next number); whether RingBuffer::new
   succeeds for a given file is an input; buffer sizes, names and counters are
   left out; sending on the event channel always succeeds (the receiver lives in
   the upload manager, see UploadManager_Model).  One flush request is processed
   without interruption: process_flushes has no await point between recv and the
   end of the loop body, and all users of the manager run as futures of one task
   (bd-logger/src/builder.rs:225-262). *)
From Verif Require Import Base.
Local Open Scope Z_scope.

(* buffer_config::Type, the two known values *)
Inductive btype := BContinuous | BTrigger.

(* one element of BufferConfigList.buffer_config; [bc_type = None] is an unknown
   enum value, which required_proto_enum turns into an error
   (ring_buffer.rs:248-249) *)
Record bconf := mkBconf { bc_id : Z; bc_type : option btype }.

(* HashMap<String, (buffer_config::Type, Arc<RingBuffer>)>, ring_buffer.rs:140 *)
Definition bufs := list (Z * (btype * nat)).

(* HashMap::get *)
Fixpoint bfind (i : Z) (m : bufs) : option (btype * nat) :=
  match m with
  | [] => None
  | (j, v) :: r => if j =? i then Some v else bfind i r
  end.

(* HashMap::remove *)
Definition bdel (i : Z) (m : bufs) : bufs :=
  filter (fun e => negb (fst e =? i)) m.

(* HashMap::insert *)
Definition bput (i : Z) (v : btype * nat) (m : bufs) : bufs := (i, v) :: bdel i m.

(* BufferEvent, ring_buffer.rs:44-58 *)
Inductive bevent :=
| BCreated (t : btype) (i : Z) (h : nat)     (* Continuous-/TriggerBufferCreated *)
| BRemoved (i : Z)
| BStreamAdded (h : nat)
| BStreamRemoved (h : nat).

(* Manager.buffers (ring_buffer.rs:139-153) and the number of the next ring
   buffer object *)
Record bm := mkBm { bm_bufs : bufs; bm_stream : option nat; bm_fresh : nat }.

(* Manager::new, ring_buffer.rs:178-187 *)
Definition bm_new : bm := mkBm [] None 0.

(* accumulator of the loop of update_from_config *)
Record racc := mkRacc {
  ra_cur : bufs;                              (* current_buffers *)
  ra_upd : bufs;                              (* updated_buffers *)
  ra_new : list (Z * (btype * nat));          (* new_buffers, in order *)
  ra_opened : list (Z * nat * bool);          (* RingBuffer::new: file, object, allow_overwrite *)
  ra_fresh : nat }.

(* the loop of update_from_config, ring_buffer.rs:245-306; the boolean is false
   when the loop returns early with an error *)
Fixpoint reconcile (opens : Z -> bool) (cfg : list bconf) (a : racc) : racc * bool :=
  match cfg with
  | [] => (a, true)
  | b :: r =>
    match bc_type b with
    | None => (a, false)
    | Some t =>
      match bfind (bc_id b) (ra_cur a) with
      | Some (t0, h) =>
        reconcile opens r
          (mkRacc (bdel (bc_id b) (ra_cur a)) (bput (bc_id b) (t0, h) (ra_upd a))
                  (ra_new a) (ra_opened a) (ra_fresh a))
      | None =>
        if opens (bc_id b) then
          let h := ra_fresh a in
          let allow := match t with BTrigger => true | BContinuous => false end in
          reconcile opens r
            (mkRacc (ra_cur a) (bput (bc_id b) (t, h) (ra_upd a))
                    (ra_new a ++ [(bc_id b, (t, h))])
                    (ra_opened a ++ [(bc_id b, h, allow)]) (S h))
        else (a, false)
      end
    end
  end.

(* what update_from_config does, in one value *)
Record upd := mkUpd {
  u_state : bm;
  u_events : list bevent;                     (* sent on buffer_event_tx, in order *)
  u_marked : list nat;                        (* delete_on_drop set *)
  u_opened : list (Z * nat * bool);
  u_ok : bool }.

Section Order.
(* the iteration order of a HashMap *)
Variable order : bufs -> bufs.

(* resolve_buffer_updates, ring_buffer.rs:340-404: removals in the iteration
   order of the map, then creations in configuration order *)
Definition buffer_events (cur : bufs) (news : list (Z * (btype * nat))) : list bevent :=
  map (fun e => BRemoved (fst e)) (order cur)
  ++ map (fun e => BCreated (fst (snd e)) (fst e) (snd (snd e))) news.

(* resolve_stream_buffer_update, ring_buffer.rs:406-448, and the choice of the
   updated stream buffer, 315-323 *)
Definition stream_update (cur : option nat) (streaming : bool) (fresh : nat)
  : option nat * list bevent * nat :=
  match streaming, cur with
  | true, Some h => (Some h, [], fresh)
  | false, None => (None, [], fresh)
  | true, None => (Some fresh, [BStreamAdded fresh], S fresh)
  | false, Some h => (None, [BStreamRemoved h], fresh)
  end.

(* update_from_config, ring_buffer.rs:234-335, up to and including the events it
   sends; the wait for their acknowledgement is modelled in UploadManager_Model *)
Definition update_from_config (s : bm) (cfg : list bconf) (streaming : bool)
    (opens : Z -> bool) : upd :=
  let '(a, ok) := reconcile opens cfg (mkRacc (bm_bufs s) [] [] [] (bm_fresh s)) in
  if ok then
    let '(st, sev, fr) := stream_update (bm_stream s) streaming (ra_fresh a) in
    mkUpd (mkBm (ra_upd a) st fr) (buffer_events (ra_cur a) (ra_new a) ++ sev)
          (map (fun e => snd (snd e)) (order (ra_cur a))) (ra_opened a) true
  else
    mkUpd (mkBm (bm_bufs s) (bm_stream s) (ra_fresh a)) [] [] (ra_opened a) false.

(* a configuration as it arrives *)
Record conf := mkConf { cf_bufs : list bconf; cf_streaming : bool; cf_opens : Z -> bool }.

(** Manager::update_from_config (ring_buffer.rs:234-335) with the arguments packed. *)
Definition apply_conf (s : bm) (c : conf) : upd :=
  update_from_config s (cf_bufs c) (cf_streaming c) (cf_opens c).

(* a sequence of configurations: final state, all events, all objects marked *)
Fixpoint run_confs (s : bm) (cs : list conf) : bm * list bevent * list nat :=
  match cs with
  | [] => (s, [], [])
  | c :: r =>
    let u := apply_conf s c in
    let '(s', ev, mk) := run_confs (u_state u) r in
    (s', u_events u ++ ev, u_marked u ++ mk)
  end.

(* --- the flush task --- *)

(* RingBuffer::flush of one object, of the stream buffer, the answer to a request *)
Inductive fevent := FFlushed (h : nat) | FStream (h : nat) | FAck (a : nat).

(* the flush loop over the buffer ids, ring_buffer.rs:210-218; false when an id is
   not found *)
Fixpoint flush_ids (m : bufs) (ids : list Z) : list fevent * bool :=
  match ids with
  | [] => ([], true)
  | i :: r =>
    match bfind i m with
    | Some (_, h) => let '(l, ok) := flush_ids m r in (FFlushed h :: l, ok)
    | None => ([], false)
    end
  end.

(* one round of process_flushes, ring_buffer.rs:201-228: what happened and whether
   the task goes on *)
Definition flush_round (s : bm) (ids : list Z) (ack : option nat) : list fevent * bool :=
  let all := match ids with [] => true | _ => false end in
  let '(l, ok) :=
    flush_ids (bm_bufs s) (if all then map fst (order (bm_bufs s)) else ids) in
  if ok then
    (l ++ (if all then match bm_stream s with Some h => [FStream h] | None => [] end else [])
       ++ match ack with Some a => [FAck a] | None => [] end, true)
  else (l, false).

(* the manager, its flush channel (senders waiting for a place in the channel
   included, in order), whether process_flushes still runs, what was flushed and
   answered *)
Record fsys := mkFsys {
  fs_bm : bm;
  fs_chan : list (list Z * option nat);
  fs_alive : bool;
  fs_log : list fevent }.

(** ring_buffer.rs:167-189: the manager as made. *)
Definition fsys_new : fsys := mkFsys bm_new [] true [].

(* FUpdate: a configuration arrives; FRequest: BuffersWithAck is sent (bd-buffer
   ring_buffer.rs:112-137; bd-logger log_replay.rs:341-351 and
   async_log_buffer.rs:631-636); FServe: the flush task runs *)
Inductive fop :=
| FUpdate (c : conf)
| FRequest (ids : list Z) (ack : option nat)
| FServe.

(* the receiver is dropped when process_flushes returns: requests in the channel
   are lost and later ones are refused *)
Definition fstep (s : fsys) (o : fop) : fsys :=
  match o with
  | FUpdate c => mkFsys (u_state (apply_conf (fs_bm s) c)) (fs_chan s) (fs_alive s) (fs_log s)
  | FRequest ids ack =>
    if fs_alive s then mkFsys (fs_bm s) (fs_chan s ++ [(ids, ack)]) true (fs_log s) else s
  | FServe =>
    if fs_alive s then
      match fs_chan s with
      | [] => s
      | (ids, ack) :: q =>
        let '(l, ok) := flush_round (fs_bm s) ids ack in
        if ok then mkFsys (fs_bm s) q true (fs_log s ++ l)
        else mkFsys (fs_bm s) [] false (fs_log s ++ l)
      end
    else s
  end.

(** A history of flush requests and updates, ring_buffer.rs:191-335. *)
Definition frun (s : fsys) (os : list fop) : fsys := fold_left fstep os s.

End Order.
