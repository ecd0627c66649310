(** C54. Time rounding and protobuf conversion. *)
From Verif Require Import Base Time_Model Time_Proofs.
Open Scope Z_scope.

(** Rounding down yields a multiple of the interval that is at most the time, and the next multiple is after the time
    (so it is the largest such multiple); also for times before 1970. *)
Theorem C54_floor : forall t i r, 0 < i -> time_floor t i = Some r ->
  (exists k, r = k * (i * NS)) /\ r <= t < r + i * NS.
Proof. exact floor_spec. Qed.
Print Assumptions C54_floor.

(** It does not panic for any time from 1970 to the end of the representable range. *)
Theorem C54_floor_total : forall t i, 0 < i -> 0 <= t < (MAX_TS + 1) * NS -> exists r, time_floor t i = Some r.
Proof. exact floor_total. Qed.
Print Assumptions C54_floor_total.

Example C54_floor_witness : time_floor (-1) 300 = Some (-300 * NS) /\ time_floor (723 * NS + 5) 300 = Some (600 * NS).
Proof. split; reflexivity. Qed.

(** Rounding up in full generality is refuted: a time half a second past a multiple is returned unrounded. *)
Theorem C54_ceil_refuted : exists t i r, 0 < i /\ time_ceil t i = Some r /\ ~ (exists k, r = k * (i * NS)).
Proof.
  exists (300 * NS + 500000000), 300, (300 * NS + 500000000). splits; [lia|reflexivity|].
  intros [k Hk]. unfold NS in Hk. lia.
Qed.
Print Assumptions C54_ceil_refuted.

(** It is right for whole-second times: the smallest multiple not before the time. *)
Theorem C54_ceil_partial : forall t i r, 0 < i -> t mod NS = 0 -> time_ceil t i = Some r ->
  (exists k, r = k * (i * NS)) /\ t <= r /\ r - i * NS < t.
Proof. exact ceil_spec. Qed.
Print Assumptions C54_ceil_partial.

Example C54_ceil_witness : time_ceil (723 * NS) 300 = Some (900 * NS) /\ time_ceil (-1 * NS) 300 = Some 0.
Proof. split; reflexivity. Qed.

(** For every time it never goes back and moves by less than interval + 1s. *)
Theorem C54_ceil_forward_partial : forall t i r, 0 < i -> time_ceil t i = Some r -> t <= r < t + i * NS + NS.
Proof. exact ceil_weak. Qed.
Print Assumptions C54_ceil_forward_partial.

(** Protobuf conversion is lossless on the whole representable range and produces a normalised nanos field. *)
Theorem C54_proto_roundtrip : forall t, MIN_TS * NS <= t < (MAX_TS + 1) * NS ->
  to_offset_date_time (into_proto t) = Some t /\ 0 <= snd (into_proto t) < NS.
Proof. exact proto_roundtrip. Qed.
Print Assumptions C54_proto_roundtrip.

Example C54_proto_witness : into_proto (-1) = (-1, 999999999) /\ to_offset_date_time (-1, 999999999) = Some (-1).
Proof. split; reflexivity. Qed.

(** Durations survive the protobuf round trip, and the absolute form is the absolute value. *)
Theorem C54_duration_roundtrip : forall d, to_time_duration (duration_into_proto d) = d /\
  to_std_duration_absolute (duration_into_proto d) = Z.abs d.
Proof. exact duration_roundtrip. Qed.
Print Assumptions C54_duration_roundtrip.

Example C54_duration_witness : duration_into_proto (-1500000000) = (-1, -500000000).
Proof. reflexivity. Qed.

(** The millisecond timestamp is the time rounded down to the millisecond. *)
Theorem C54_timestamp_ms : forall t, unix_timestamp_ms t * 1000000 <= t < (unix_timestamp_ms t + 1) * 1000000.
Proof. exact timestamp_ms_spec. Qed.
Print Assumptions C54_timestamp_ms.
