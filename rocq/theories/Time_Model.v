(** Model of the time helpers, bd-time/src/lib.rs. A time is a number of nanoseconds since the epoch (may be negative). *)
From Verif Require Import Base.
Open Scope Z_scope.

(** Nanoseconds in a second, bd-time/src/lib.rs:48-108. *)
Definition NS : Z := 1000000000.

(** Range of [OffsetDateTime::from_unix_timestamp] (years -9999..9999 of the time crate); outside it the [unwrap]s at
    bd-time/src/lib.rs:73, 87, 101 panic ([None]). *)
Definition MIN_TS : Z := -377705116800.
(** Upper end of the range of [OffsetDateTime::from_unix_timestamp], bd-time/src/lib.rs:73, 87, 101. *)
Definition MAX_TS : Z := 253402300799.
(** [OffsetDateTime::from_unix_timestamp], bd-time/src/lib.rs:73, 87, 101. *)
Definition from_unix_timestamp (s : Z) : option Z :=
  if (MIN_TS <=? s) && (s <=? MAX_TS) then Some (s * NS) else None.

(** [OffsetDateTime::unix_timestamp] as used at bd-time/src/lib.rs:51, 65, 71, 79: whole seconds, rounded down. *)
Definition unix_timestamp (t : Z) : Z := t / NS.

(** bd-time/src/lib.rs:49-61 [into_proto]; the [as i32] truncation is exact on 0..999999999. *)
Definition into_proto (t : Z) : Z * Z := (unix_timestamp t, t - unix_timestamp t * NS).

(** bd-time/src/lib.rs:99-104 [to_offset_date_time]; a negative nanos field does not convert to u64 and becomes 0. *)
Definition to_offset_date_time (p : Z * Z) : option Z :=
  match from_unix_timestamp (fst p) with
  | None => None
  | Some b => Some (b + (if snd p <? 0 then 0 else snd p))
  end.

(** bd-time/src/lib.rs:64-66 [unix_timestamp_ms]. *)
Definition unix_timestamp_ms (t : Z) : Z := unix_timestamp t * 1000 + (t mod NS) / 1000000.

(** bd-time/src/lib.rs:68-74 [floor]; [i] is [interval.whole_seconds()]; [rem_euclid(0)] panics. *)
Definition time_floor (t i : Z) : option Z :=
  if i =? 0 then None
  else let ts := unix_timestamp t in from_unix_timestamp (ts - ts mod (Z.abs i)).

(** bd-time/src/lib.rs:76-88 [ceil]. *)
Definition time_ceil (t i : Z) : option Z :=
  if i =? 0 then None
  else
    let ts := unix_timestamp t in
    let rem := ts mod (Z.abs i) in
    if rem =? 0 then Some t
    else from_unix_timestamp (ts + i - rem).

(** bd-time/src/lib.rs:212-221 [time::Duration::into_proto]; a duration is signed nanoseconds, [whole_seconds] and
    [subsec_nanoseconds] truncate towards zero. *)
Definition duration_into_proto (d : Z) : Z * Z := (Z.quot d NS, Z.rem d NS).
(** bd-time/src/lib.rs:193-195 [to_time_duration]. *)
Definition to_time_duration (p : Z * Z) : Z := fst p * NS + snd p.
(** bd-time/src/lib.rs:175-180 [to_std_duration_absolute]. *)
Definition to_std_duration_absolute (p : Z * Z) : Z := Z.abs (fst p) * NS + Z.abs (snd p).
