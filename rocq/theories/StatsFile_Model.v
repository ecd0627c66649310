(** Model of the stats on disk: bd-client-stats/src/file_manager.rs and the Flusher of
    bd-client-stats/src/stats.rs.

    Simplifications.
    - A metric is an Id (a string), a kind and an amount: the value of a counter, or
      any additive observation of a histogram (Histogram_Model.v: merging adds).
      Maps are association lists.
    - A file is missing, unreadable or has a content: a write that is cut short leaves
      an unreadable file (compressed data ends with a checksum).
    - Each access to the file system takes an outcome from a list: it works, it fails,
      or the process dies (see io).
    - The Flusher is one task, which does one thing after the other; the time, the
      runtime flags and new upload identifiers are arguments of each step. *)
From Verif Require Import Base Str_Base StatsStore_Model.
Local Open Scope string_scope.
Local Open Scope list_scope.
Local Open Scope Z_scope.

(** PendingFile: name, period_start, period_end (used in file_manager.rs 240-272). *)
Record entry := { e_name : string; e_start : Z; e_end : option Z }.

(** MetricData (bd-client-stats-store lib.rs 384-387) *)
Inductive mval := MCounter (n : Z) | MHist (n : Z).

(** StatsUploadRequest with its one snapshot. *)
Definition metrics := list (string * mval).
(** StatsUploadRequest with its one snapshot, file_manager.rs 101-118. *)
Record request := { q_uuid : string; q_metrics : metrics }.

(** What the index file holds, file_manager.rs 140-157. *)
Inductive idx_file := INone | IBad | IGood (l : list entry).
(** What the file of a snapshot holds, file_manager.rs 235-337. *)
Inductive snap_file := FNone | FBad | FReq (q : request).
(** The directory of file_manager.rs 53-98. *)
Record disk := { d_index : idx_file; d_files : string -> snap_file }.

(** file_manager.rs 127-130; MTaken is NotInitialized(None). *)
Inductive mem := MNotInit | MTaken | MInit (l : list entry).

(** The outcome of one access to the file system: success; an error of a read; an
    error of a write or of a removal, which may leave an unreadable file; the end of
    the process during the access, which may leave an unreadable file (in the removal
    of the directory: the named files are gone, and with torn the index, too). *)
Inductive io :=
| IoOk
| IoReadErr
| IoWriteErr (torn : bool)
| IoCrash (torn : bool) (gone : list string).

(** The directory, the memory of the file manager (file_manager.rs 120-137) and the outcomes to come. *)
Record world := { w_disk : disk; w_mem : mem; w_io : list io }.

(** How a program ends: anyhow::Result of file_manager.rs 140-430, or the process ends. *)
Inductive outcome (A : Type) := Ok (a : A) | Err | Dead | Panic.
Arguments Ok {A}. Arguments Err {A}. Arguments Dead {A}. Arguments Panic {A}.

(** Programs: sequences of steps on the world that end early with an error, the end of
    the process or a panic. *)
Definition M (A : Type) := world -> outcome A * world.
(** Plumbing of the model: programs on the world, in which the functions of file_manager.rs 140-430 and stats.rs 168-370 are written. *)
Definition ret {A} (a : A) : M A := fun w => (Ok a, w).
(** Plumbing of the model: programs on the world, in which the functions of file_manager.rs 140-430 and stats.rs 168-370 are written. *)
Definition panic {A} : M A := fun w => (Panic, w).
(** Plumbing of the model: programs on the world, in which the functions of file_manager.rs 140-430 and stats.rs 168-370 are written. *)
Definition bind {A B} (m : M A) (f : A -> M B) : M B :=
  fun w => match m w with
           | (Ok a, w') => f a w'
           | (Err, w') => (Err, w')
           | (Dead, w') => (Dead, w')
           | (Panic, w') => (Panic, w')
           end.
Notation "x <- m ;; f" := (bind m (fun x => f)) (at level 61, m at next level, right associativity).
Notation "m ;;; f" := (bind m (fun _ => f)) (at level 61, right associativity).

(** Plumbing of the model: programs on the world, in which the functions of file_manager.rs 140-430 and stats.rs 168-370 are written. *)
Definition set_mem (m : mem) : M unit :=
  fun w => (Ok tt, {| w_disk := w_disk w; w_mem := m; w_io := w_io w |}).
(** Plumbing of the model: programs on the world, in which the functions of file_manager.rs 140-430 and stats.rs 168-370 are written. *)
Definition set_disk (w : world) (d : disk) : world :=
  {| w_disk := d; w_mem := w_mem w; w_io := w_io w |}.
(** Plumbing of the model: programs on the world, in which the functions of file_manager.rs 140-430 and stats.rs 168-370 are written. *)
Definition get_mem : M mem := fun w => (Ok (w_mem w), w).

(** The next outcome. *)
Definition next_io : M io :=
  fun w => match w_io w with
           | [] => (Ok IoOk, w)
           | x :: l => (Ok x, {| w_disk := w_disk w; w_mem := w_mem w; w_io := l |})
           end.

(** Plumbing of the model: programs on the world, in which the functions of file_manager.rs 140-430 and stats.rs 168-370 are written. *)
Definition set_file (f : string -> snap_file) (n : string) (x : snap_file) : string -> snap_file :=
  fun m => if String.eqb m n then x else f m.

(** Plumbing of the model: programs on the world, in which the functions of file_manager.rs 140-430 and stats.rs 168-370 are written. *)
Definition put_index (i : idx_file) : M unit :=
  fun w => (Ok tt, set_disk w {| d_index := i; d_files := d_files (w_disk w) |}).
(** Plumbing of the model: programs on the world, in which the functions of file_manager.rs 140-430 and stats.rs 168-370 are written. *)
Definition put_file (n : string) (x : snap_file) : M unit :=
  fun w => (Ok tt, set_disk w {| d_index := d_index (w_disk w); d_files := set_file (d_files (w_disk w)) n x |}).

(** Plumbing of the model: programs on the world, in which the functions of file_manager.rs 140-430 and stats.rs 168-370 are written. *)
Definition fail {A} : M A := fun w => (Err, w).
(** Plumbing of the model: programs on the world, in which the functions of file_manager.rs 140-430 and stats.rs 168-370 are written. *)
Definition die {A} : M A := fun w => (Dead, w).
(** Plumbing of the model: programs on the world, in which the functions of file_manager.rs 140-430 and stats.rs 168-370 are written. *)
Definition when (b : bool) (m : M unit) : M unit := if b then m else ret tt.

(** file_manager.rs 140-157 (write_index), 71-73 *)
Definition write_index (l : list entry) : M unit :=
  x <- next_io;;
  match x with
  | IoOk | IoReadErr => put_index (IGood l)
  | IoWriteErr torn => when torn (put_index IBad);;; fail
  | IoCrash torn _ => when torn (put_index IBad);;; die
  end.

(** file_manager.rs 71-73, for a snapshot *)
Definition write_file (n : string) (q : request) : M unit :=
  x <- next_io;;
  match x with
  | IoOk | IoReadErr => put_file n (FReq q)
  | IoWriteErr torn => when torn (put_file n FBad);;; fail
  | IoCrash torn _ => when torn (put_file n FBad);;; die
  end.

(** file_manager.rs 67-69 and read_compressed_protobuf; an error is None. *)
Definition read_file (n : string) : M (option request) :=
  x <- next_io;;
  match x with
  | IoReadErr => ret None
  | IoCrash _ _ => die
  | _ => fun w => (Ok (match d_files (w_disk w) n with FReq q => Some q | _ => None end), w)
  end.
(** file_manager.rs 180-219: the index is read. *)
Definition read_index : M (option (list entry)) :=
  x <- next_io;;
  match x with
  | IoReadErr => ret None
  | IoCrash _ _ => die
  | _ => fun w => (Ok (match d_index (w_disk w) with IGood l => Some l | _ => None end), w)
  end.

(** file_manager.rs 75-83 *)
Definition delete_file (n : string) : M unit :=
  x <- next_io;;
  match x with
  | IoOk | IoReadErr => put_file n FNone
  | IoWriteErr _ => fail
  | IoCrash _ _ => die
  end.

(** Membership in a list of names, file_manager.rs 180-219. *)
Fixpoint mem_str (n : string) (l : list string) : bool :=
  match l with [] => false | x :: l => String.eqb n x || mem_str n l end.

(** file_manager.rs 85-91 *)
Definition remove_dir : M unit :=
  x <- next_io;;
  match x with
  | IoOk | IoReadErr =>
      fun w => (Ok tt, set_disk w {| d_index := INone; d_files := fun _ => FNone |})
  | IoWriteErr _ => fail
  | IoCrash torn gone =>
      (fun w => (Ok tt, set_disk w
        {| d_index := if torn then INone else d_index (w_disk w);
           d_files := fun n => if mem_str n gone then FNone else d_files (w_disk w) n |}));;;
      die
  end.
(** file_manager.rs 93-95; the directory itself is not modelled. *)
Definition create_dir : M unit :=
  x <- next_io;;
  match x with
  | IoOk | IoReadErr => ret tt
  | IoWriteErr _ => fail
  | IoCrash _ _ => die
  end.

(** file_manager.rs 180-217 *)
Definition get_initialized : M (list entry) :=
  m <- get_mem;;
  match m with
  | MInit l => ret l
  | MTaken => panic
  | MNotInit =>
      set_mem MTaken;;;
      i <- read_index;;
      l <- match i with
           | Some l => ret l
           | None => remove_dir;;; create_dir;;; ret []
           end;;
      set_mem (MInit l);;; ret l
  end.

(** file_manager.rs 159-167; the remaining index *)
Definition delete_oldest_snapshot (l : list entry) : M (list entry) :=
  match l with
  | [] => panic
  | e :: l => delete_file (e_name e);;; set_mem (MInit l);;; ret l
  end.

(** file_manager.rs 169-175 *)
Definition delete_pending_upload (l : list entry) : M (list entry) :=
  l' <- delete_oldest_snapshot l;; write_index l';;; ret l'.

(** What a step takes from its surroundings: the time, the flags
    max_aggregated_files and max_aggregation_window_per_file, and whether the channel
    to the API task is open. *)
Record env := { v_now : Z; v_max : Z; v_window : Z; v_open : bool }.

(** The last element of the index and those before it. *)
Fixpoint unsnoc (l : list entry) : option (list entry * entry) :=
  match l with
  | [] => None
  | e :: l => match unsnoc l with
              | None => Some ([], e)
              | Some (a, b) => Some (e :: a, b)
              end
  end.

(** file_manager.rs 239-252: whether a new snapshot is needed, and the index in which
    the last entry may have got its period_end. *)
Definition close_last (v : env) (l : list entry) : bool * list entry :=
  match unsnoc l with
  | None => (true, l)
  | Some (a, e) =>
      match e_end e with
      | Some _ => (true, l)
      | None => if e_start e + v_window v <=? v_now v
                then (true, a ++ [ {| e_name := e_name e; e_start := e_start e; e_end := Some (v_now v) |} ])
                else (false, l)
      end
  end.

(** file_manager.rs 235-299; the handle is the name of the last entry and the
    request. *)
Definition get_or_create_snapshot (v : env) (name : string) : M (string * metrics) :=
  l <- get_initialized;;
  let (new, l1) := close_last v l in
  set_mem (MInit l1);;;
  if new then
    l2 <- (if v_max v <=? Z.of_nat (List.length l1) then delete_oldest_snapshot l1 else ret l1);;
    let l3 := l2 ++ [ {| e_name := name; e_start := v_now v; e_end := None |} ] in
    set_mem (MInit l3);;;
    write_index l3;;;
    ret (name, [])
  else
    match unsnoc l1 with
    | None => panic
    | Some (_, e) =>
        q <- read_file (e_name e);;
        ret (match q with
             | Some q => (q_uuid q, q_metrics q)
             | None => (e_name e, [])
             end)
    end.

(** file_manager.rs 303-316 *)
Definition remove_empty_snapshot : M unit :=
  l <- get_initialized;;
  match unsnoc l with
  | None => panic
  | Some (a, _) => set_mem (MInit a);;; write_index a
  end.

(** file_manager.rs 319-336: the handle is the last entry. *)
Definition write_snapshot (uuid : string) (m : metrics) : M unit :=
  l <- get_initialized;;
  match unsnoc l with
  | None => panic
  | Some (_, e) => write_file (e_name e) {| q_uuid := uuid; q_metrics := m |}
  end.

(** What is handed to upload. *)
Record sent := { t_uuid : string; t_metrics : metrics; t_start : Z; t_end : option Z }.

(** file_manager.rs 344-405, on the index l *)
Fixpoint upload_loop (v : env) (only_old : bool) (l : list entry) : M (option sent) :=
  match l with
  | [] => ret None
  | e :: rest =>
      if only_old && (v_now v <? e_start e + v_window v) then ret None else
      e1 <- match e_end e with
            | Some _ => ret e
            | None =>
                let e1 := {| e_name := e_name e; e_start := e_start e; e_end := Some (v_now v) |} in
                set_mem (MInit (e1 :: rest));;;
                write_index (e1 :: rest);;; ret e1
            end;;
      q <- read_file (e_name e1);;
      match q with
      | Some q => ret (Some {| t_uuid := q_uuid q; t_metrics := q_metrics q;
                               t_start := e_start e1; t_end := e_end e1 |})
      | None => delete_pending_upload (e1 :: rest);;; upload_loop v only_old rest
      end
  end.

(** file_manager.rs 339-343 *)
Definition get_or_create_pending_upload (v : env) (only_old : bool) : M (option sent) :=
  l <- get_initialized;; upload_loop v only_old l.

(** file_manager.rs 410-435 *)
Definition complete_pending_upload (uuid : string) : M unit :=
  l <- get_initialized;;
  match l with
  | [] => panic
  | e :: _ =>
      if String.eqb (e_name e) uuid then delete_pending_upload l;;; ret tt else ret tt
  end.

(** stats.rs 375-431: insert into the map. *)
Fixpoint insert_metric (m : metrics) (i : string) (x : mval) : metrics :=
  match m with
  | [] => [(i, x)]
  | (j, y) :: m => if String.eqb i j then (i, x) :: m else (j, y) :: insert_metric m i x
  end.

(** stats.rs 179-206: one metric of the delta, and all of them. *)
Fixpoint merge_metric (m : metrics) (i : string) (x : mval) : metrics :=
  match m with
  | [] => [(i, x)]
  | (j, y) :: m =>
      if String.eqb i j then
        (j, match x, y with
            | MCounter a, MCounter b => MCounter ((b + a) mod U64)
            | MHist a, MHist b => MHist (b + a)
            | _, _ => y
            end) :: m
      else (j, y) :: merge_metric m i x
  end.

(** stats.rs 179-206: all metrics of the delta. *)
Definition merge_all (m delta : metrics) : metrics :=
  fold_left (fun m x => merge_metric m (fst x) (snd x)) delta m.

(** stats.rs 260-280: the static and the dynamic collector. *)
Definition create_delta (static dynamic : metrics) : metrics :=
  fold_left (fun m x => insert_metric m (fst x) (snd x)) (static ++ dynamic) [].

(** stats.rs 168-227 *)
Definition merge_delta_snapshot_to_disk (v : env) (name : string) (delta : metrics) : M unit :=
  h <- get_or_create_snapshot v name;;
  let m := merge_all (snd h) delta in
  match m with
  | [] => remove_empty_snapshot
  | _ => write_snapshot (fst h) m
  end.

(** The task and the disk. *)
Record state := {
  s_disk : disk;
  s_mem : mem;
  s_inflight : option string;   (* upload_rx, stats.rs 132: the upload waited for *)
  s_alive : bool                (* false: the task has panicked *)
}.

(** What can be observed: an upload, the processed answer to it, the end of the task
    by a panic, and a new start of the process. *)
Inductive event := ESent (t : sent) | EAnswer (success : bool) | EPanic | ERestart.

(** What the task of stats.rs 131-166 can do next. *)
Inductive op :=
| Flush (static dynamic : metrics) (name : string)   (* stats.rs 135-147 *)
| UploadTick                                         (* stats.rs 148-155 *)
| Response (success : bool) (uuid : string)          (* stats.rs 156-163 *)
| Restart.                                           (* the process ends between two steps, and is started again *)

(** Run a program from a state. The errors are logged, the task goes on:
    stats.rs 244-249, 305-312, 350-358. If the process dies it is started again. *)
Definition restarted (d : disk) : state :=
  {| s_disk := d; s_mem := MNotInit; s_inflight := None; s_alive := true |}.
(** A program has ended; errors are logged, stats.rs 131-166. *)
Definition finish {A} (s : state) (r : outcome A * world) (inflight : option A -> option string)
  (evs : option A -> list event) : state * list event :=
  match r with
  | (Ok a, w) => ({| s_disk := w_disk w; s_mem := w_mem w; s_inflight := inflight (Some a); s_alive := true |},
                  evs (Some a))
  | (Err, w) => ({| s_disk := w_disk w; s_mem := w_mem w; s_inflight := inflight None; s_alive := true |},
                 evs None)
  | (Dead, w) => (restarted (w_disk w), [ERestart])
  | (Panic, w) => ({| s_disk := w_disk w; s_mem := w_mem w; s_inflight := None; s_alive := false |}, [EPanic])
  end.
(** A program begins, stats.rs 131-166. *)
Definition start (s : state) (ios : list io) : world :=
  {| w_disk := s_disk s; w_mem := s_mem s; w_io := ios |}.

(** An error does not end a program: m is tried, then f. *)
Definition attempt {A} (m : M unit) (f : M A) : M A :=
  fun w => match m w with
           | (Ok _, w') | (Err, w') => f w'
           | (Dead, w') => (Dead, w')
           | (Panic, w') => (Panic, w')
           end.

(** stats.rs 317-343 (process_pending_upload): whether a receiver is waited for, and
    what was sent. *)
Definition upload_inflight (v : env) (r : option (option sent)) : option string :=
  match r with
  | Some (Some t) => if v_open v then Some (t_uuid t) else None
  | _ => None
  end.
(** stats.rs 317-343: what the server sees. *)
Definition upload_events (v : env) (r : option (option sent)) : list event :=
  match r with
  | Some (Some t) => if v_open v then [ESent t] else []
  | _ => []
  end.

(** stats.rs 345-370: what the server sees. *)
Definition answered (success : bool) (r : state * list event) : state * list event :=
  (fst r, EAnswer success :: snd r).

(** One turn of the loop of stats.rs 131-166. *)
Definition step (s : state) (v : env) (ios : list io) (o : op) : state * list event :=
  match o with
  | Restart => (restarted (s_disk s), [ERestart])
  | _ =>
    if s_alive s then
      match o with
      | Flush st dy name =>
          finish s (merge_delta_snapshot_to_disk v name (create_delta st dy) (start s ios))
            (fun _ => s_inflight s) (fun _ => [])
      | UploadTick =>
          match s_inflight s with
          | Some _ => (s, [])
          | None => finish s (get_or_create_pending_upload v false (start s ios))
                      (upload_inflight v) (upload_events v)
          end
      | Response success uuid =>
          match s_inflight s with
          | None => (s, [])
          | Some _ =>
              answered success
              (if success then
                finish s (attempt (complete_pending_upload uuid) (get_or_create_pending_upload v true) (start s ios))
                  (upload_inflight v) (upload_events v)
              else ({| s_disk := s_disk s; s_mem := s_mem s; s_inflight := None; s_alive := true |}, []))
          end
      | Restart => (s, [])
      end
    else (s, [])
  end.

(** A history of turns, stats.rs 131-166. *)
Fixpoint run (s : state) (os : list (env * list io * op)) : state * list event :=
  match os with
  | [] => (s, [])
  | (v, ios, o) :: os => let (s1, e1) := step s v ios o in let (s2, e2) := run s1 os in (s2, e1 ++ e2)
  end.

(** A device without stats. *)
Definition init : state :=
  restarted {| d_index := INone; d_files := fun _ => FNone |}.
