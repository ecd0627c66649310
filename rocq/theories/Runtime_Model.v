(** Model of bd-runtime/src/runtime.rs: snapshots, watches, and the cache of the
    runtime configuration on disk.

    Simplifications.
    - Map keys are unique, so an association list represents a map.
    - A tokio watch channel is its current value (has_changed and changed are not
      modelled).
    - The two files of the cache are represented by what reading them gives:
      nothing, something that cannot be parsed, or a value (the compressed format
      has a checksum; the fallback to the uncompressed format, 255-256, is part of
      the parsing).
    - std::fs::write truncates and then writes. A crash between the two leaves an
      empty retry count, which cannot be parsed (the digits are written by a single
      call, taken to be atomic), and an arbitrary configuration file: an empty file,
      for instance, is a valid uncompressed message. *)
From Verif Require Import Base Str_Base.
Local Open Scope Z_scope.

(** Runtime.Value of the protobuf: a oneof. *)
Inductive value := VBool (b : bool) | VUint (n : Z) | VString (s : string) | VUnset.

(** The accessors generated for the oneof (bd-proto client/runtime.rs 469-499):
    the default of the field type if another field, or none, is set. *)
Definition bool_value (v : value) : bool := match v with VBool b => b | _ => false end.
(** bd-proto client/runtime.rs 469-499: the accessor of the oneof. *)
Definition uint_value (v : value) : Z := match v with VUint n => n | _ => 0 end.

(** Runtime.values *)
Definition values := list (string * value).
(** HashMap::get on Runtime.values, runtime.rs 80-112. *)
Fixpoint get {A} (k : string) (m : list (string * A)) : option A :=
  match m with
  | [] => None
  | (k', v) :: m => if String.eqb k k' then Some v else get k m
  end.

(** The type and the default, or the value, of a flag: runtime.rs 461-465
    (InternalWatchKind), 494-499. Durations are in milliseconds. *)
Inductive datum := DInt (n : Z) | DBool (b : bool) | DDuration (ms : Z).
(** runtime.rs 461-465 and 507-512: is it a flag of that type? *)
Definition same_kind (a b : datum) : bool :=
  match a, b with
  | DInt _, DInt _ | DBool _, DBool _ | DDuration _, DDuration _ => true
  | _, _ => false
  end.

(** runtime.rs 80-103 (get_bool, get_integer, get_duration), 500-504 (read_value) *)
Definition read_value (m : values) (path : string) (default : datum) : datum :=
  match get path m with
  | None => default
  | Some v => match default with
              | DInt _ => DInt (uint_value v)
              | DBool _ => DBool (bool_value v)
              | DDuration _ => DDuration (uint_value v)
              end
  end.

(** runtime.rs 115-121 (LoaderState): the snapshot, and for each path the default
    of the watch and its current value. *)
Record loader := { l_values : values; l_watches : list (string * (datum * datum)) }.

(** runtime.rs 123-130 *)
Definition loader_new : loader := {| l_values := []; l_watches := [] |}.

(** runtime.rs 272-300 (register_watch); [false] is the error of typed_watch
    (506-515). *)
Definition register_watch (l : loader) (path : string) (default : datum) : loader * bool :=
  match get path (l_watches l) with
  | Some (d, _) => (l, same_kind d default)
  | None => ({| l_values := l_values l;
                l_watches := (path, (default, read_value (l_values l) path default)) :: l_watches l |},
             true)
  end.

(** runtime.rs 302-325 (send_if_modified): the value afterwards is the new one. *)
Definition send (m : values) (w : string * (datum * datum)) : string * (datum * datum) :=
  let '(k, (d, _)) := w in (k, (d, read_value m k d)).

(** runtime.rs 335-356 (update_snapshot_inner), in memory *)
Definition update_values (l : loader) (m : values) : loader :=
  {| l_values := m; l_watches := map (send m) (l_watches l) |}.

(** runtime.rs 401-403 (Watch::read): the receiver of the watch of that path. *)
Definition read (l : loader) (path : string) : option datum :=
  option_map snd (get path (l_watches l)).

(** The calls of runtime.rs 272-300 and 327-362. *)
Inductive op :=
| Register (path : string) (default : datum)
| Update (m : values).

(** One call: runtime.rs 272-362. *)
Definition l_step (l : loader) (o : op) : loader :=
  match o with
  | Register p d => fst (register_watch l p d)
  | Update m => update_values l m
  end.
(** A history of calls: runtime.rs 272-362. *)
Definition l_run (os : list op) : loader := fold_left l_step os loader_new.

(** ** The cache on disk *)

(** runtime.rs 263-265 (parse_retry_count) applied to the file. *)
Inductive retry := RNone | RBad | RCount (n : Z).
(** What reading the file of runtime.rs 254-256 gives. *)
Inductive pb := PNone | PBad | PGood (m : values).
(** The two files, runtime.rs 134-146 and 209-262. *)
Record cache := { c_retry : retry; c_pb : pb }.

(** What the process does to the disk and to itself. *)
Inductive fx := FDisk (c : cache) | FApply (m : values).

(** The results of the I/O operations of one start. *)
Record io := {
  io_read : bool;        (* reading the retry count, 227 *)
  io_read_pb : bool;     (* reading the configuration, 254 *)
  io_retry : bool;       (* writing the retry count, 238 *)
  io_trunc : bool;       (* whether a failed write truncated it *)
  io_pb : bool;          (* writing the configuration back, 365 *)
  io_torn : pb;          (* what a torn write of the configuration leaves *)
  io_reset : bool;       (* remove_dir_all, 202 *)
  io_order : bool        (* which of the two files it removes first *)
}.

(** runtime.rs 200-203: the directory is removed and created again. *)
Definition reset (c : cache) (i : io) : list fx :=
  if io_reset i then
    [FDisk (if io_order i then {| c_retry := RNone; c_pb := c_pb c |}
            else {| c_retry := c_retry c; c_pb := PNone |});
     FDisk {| c_retry := RNone; c_pb := PNone |}]
  else [].

(** std::fs::write of the retry count: runtime.rs 179-184. *)
Definition write_retry (c : cache) (n : Z) : list fx :=
  [FDisk {| c_retry := RBad; c_pb := c_pb c |}; FDisk {| c_retry := RCount n; c_pb := c_pb c |}].

(** std::fs::write of the configuration: runtime.rs 364-366. *)
Definition write_pb (i : io) (r : retry) (m : values) : list fx :=
  [FDisk {| c_retry := r; c_pb := io_torn i |}; FDisk {| c_retry := r; c_pb := PGood m |}].

(** u32 addition without overflow checks, runtime.rs 238. *)
Definition incr32 (n : Z) : Z := (n + 1) mod 4294967296.

(** runtime.rs 186-261 (handle_cached_config, try_load_cached_config) *)
Definition boot (c : cache) (i : io) : list fx :=
  match c_retry c, c_pb c with
  | RNone, _ | _, PNone => reset c i
  | RBad, _ => reset c i
  | RCount n, p =>
      if negb (io_read i) then reset c i
      else if negb (io_retry i) then
        (if io_trunc i then FDisk {| c_retry := RBad; c_pb := p |} :: reset {| c_retry := RBad; c_pb := p |} i
         else reset c i)
      else
        let c' := {| c_retry := RCount (incr32 n); c_pb := p |} in
        write_retry c (incr32 n) ++
        (if 5 <? n then reset c' i
         else match p with
              | PGood m => if io_read_pb i then
                             FApply m :: (if io_pb i then write_pb i (c_retry c') m
                                          else [FDisk {| c_retry := c_retry c'; c_pb := io_torn i |}])
                           else reset c' i
              | _ => reset c' i
              end)
  end.

(** Performing the first effects only: the process crashes after them. *)
Definition fx_disk (c : cache) (f : fx) : cache := match f with FDisk c => c | FApply _ => c end.
(** The first effects of runtime.rs 186-262 are done. *)
Definition perform (c : cache) (fs : list fx) : cache := fold_left fx_disk fs c.
(** The configurations applied by runtime.rs 186-262. *)
Fixpoint applied (fs : list fx) : list values :=
  match fs with
  | [] => []
  | FApply m :: fs => m :: applied fs
  | _ :: fs => applied fs
  end.

(** One start that crashes after [cut] effects, before the server is reached (or
    after all of them, if [cut] is large). *)
Definition start (c : cache) (i : io) (cut : nat) : cache * list values :=
  let fs := firstn cut (boot c i) in (perform c fs, applied fs).

(** Several starts in a row, runtime.rs 186-262. *)
Fixpoint starts (c : cache) (l : list (io * nat)) : cache * list (list values) :=
  match l with
  | [] => (c, [])
  | (i, cut) :: l => let (c, a) := start c i cut in let (c, r) := starts c l in (c, a :: r)
  end.

(** runtime.rs 171-177 (mark_safe), called when the handshake completes; [validated]
    is cached_config_validated. *)
Definition mark_safe (c : cache) (validated : bool) : cache :=
  if validated then c else {| c_retry := RCount 0; c_pb := c_pb c |}.

(** runtime.rs 327-332 (update_snapshot): the files after it, all writes done. *)
Definition update_snapshot (m : values) : cache := {| c_retry := RCount 0; c_pb := PGood m |}.

(** Starts that all reach the server (api.rs calls server_is_available, runtime.rs
    56-58, after the handshake), which sends no new configuration. *)
Fixpoint good_starts (c : cache) (l : list io) : cache * list (list values) :=
  match l with
  | [] => (c, [])
  | i :: l => let fs := boot c i in
              let (c, r) := good_starts (mark_safe (perform c fs) false) l in
              (c, applied fs :: r)
  end.
