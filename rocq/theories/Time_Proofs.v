From Verif Require Import Base Time_Model.
Open Scope Z_scope.

Definition in_range (t : Z) : Prop := MIN_TS * NS <= t < (MAX_TS + 1) * NS.

Lemma floor_spec : forall t i r, 0 < i -> time_floor t i = Some r ->
  (exists k, r = k * (i * NS)) /\ r <= t < r + i * NS.
Proof.
  intros t i r Hi H. unfold time_floor in H. destruct (i =? 0) eqn:E; [lia|].
  unfold from_unix_timestamp in H. rewrite Z.abs_eq in H by lia.
  destruct (_ && _); inv H. unfold unix_timestamp.
  set (ts := t / NS). assert (Hts: ts * NS <= t < ts * NS + NS) by (subst ts; unfold NS; lia).
  pose proof (Z.div_mod ts i ltac:(lia)) as Hd. pose proof (Z.mod_pos_bound ts i ltac:(lia)) as Hm.
  split.
  - exists (ts / i). nia.
  - nia.
Qed.

Lemma floor_total : forall t i, 0 < i -> 0 <= t < (MAX_TS + 1) * NS -> exists r, time_floor t i = Some r.
Proof.
  intros t i Hi Ht. unfold time_floor. destruct (i =? 0) eqn:E; [lia|].
  unfold from_unix_timestamp, unix_timestamp. rewrite Z.abs_eq by lia.
  assert (0 <= t / NS <= MAX_TS) by (unfold NS, MAX_TS in *; lia).
  pose proof (Z.mod_pos_bound (t / NS) i ltac:(lia)).
  pose proof (Z.mod_le (t / NS) i ltac:(lia) ltac:(lia)).
  destruct ((MIN_TS <=? t / NS - (t / NS) mod i) && (t / NS - (t / NS) mod i <=? MAX_TS)) eqn:Eb; [eauto|].
  exfalso. unfold MIN_TS in Eb. lia.
Qed.

Lemma ceil_spec : forall t i r, 0 < i -> t mod NS = 0 -> time_ceil t i = Some r ->
  (exists k, r = k * (i * NS)) /\ t <= r /\ r - i * NS < t.
Proof.
  intros t i r Hi H0 H. unfold time_ceil in H. destruct (i =? 0) eqn:E; [lia|].
  rewrite Z.abs_eq in H by lia. unfold unix_timestamp in H.
  assert (Ht: t = (t / NS) * NS) by (pose proof (Z.div_mod t NS ltac:(unfold NS; lia)); lia).
  remember (t / NS) as ts eqn:Ets. clear Ets H0.
  pose proof (Z.div_mod ts i ltac:(lia)) as Hd. pose proof (Z.mod_pos_bound ts i ltac:(lia)) as Hm.
  assert (Hns: 0 < NS) by (unfold NS; lia).
  destruct (ts mod i =? 0) eqn:Er.
  - assert (r = t) by congruence. subst r t. splits; [exists (ts / i); nia|lia|nia].
  - unfold from_unix_timestamp in H. destruct (_ && _); [|discriminate]. assert (Hr: r = (ts + i - ts mod i) * NS) by congruence. subst r t.
    splits; [exists (ts / i + 1); nia|nia|nia].
Qed.

(** In general [ceil] never goes back, and moves by less than the interval plus a second. *)
Lemma ceil_weak : forall t i r, 0 < i -> time_ceil t i = Some r -> t <= r < t + i * NS + NS.
Proof.
  intros t i r Hi H. unfold time_ceil in H. destruct (i =? 0) eqn:E; [lia|].
  rewrite Z.abs_eq in H by lia. unfold unix_timestamp in H.
  assert (Hns: 0 < NS) by (unfold NS; lia).
  assert (Hts: (t / NS) * NS <= t < (t / NS) * NS + NS) by (unfold NS; lia).
  set (ts := t / NS) in *.
  pose proof (Z.mod_pos_bound ts i ltac:(lia)) as Hm.
  destruct (ts mod i =? 0) eqn:Er; [assert (r = t) by congruence; nia|].
  unfold from_unix_timestamp in H. destruct (_ && _); [|discriminate].
  assert (Hr: r = (ts + i - ts mod i) * NS) by congruence. nia.
Qed.

Lemma proto_roundtrip : forall t, in_range t -> to_offset_date_time (into_proto t) = Some t /\ 0 <= snd (into_proto t) < NS.
Proof.
  intros t [H1 H2]. unfold into_proto, to_offset_date_time, unix_timestamp, from_unix_timestamp. cbn [fst snd].
  assert (Hb: MIN_TS <= t / NS <= MAX_TS) by (unfold NS, MIN_TS, MAX_TS in *; lia).
  destruct ((MIN_TS <=? t / NS) && (t / NS <=? MAX_TS)) eqn:E; [|lia].
  assert (Hr: 0 <= t - t / NS * NS < NS) by (unfold NS; lia).
  split; [|exact Hr]. destruct (t - t / NS * NS <? 0) eqn:E2; [lia|]. f_equal. lia.
Qed.

Lemma duration_roundtrip : forall d, to_time_duration (duration_into_proto d) = d /\
  to_std_duration_absolute (duration_into_proto d) = Z.abs d.
Proof.
  intros d. unfold to_time_duration, duration_into_proto, to_std_duration_absolute. cbn [fst snd].
  pose proof (Z.quot_rem' d NS) as H. split; [lia|].
  rewrite <- Z.quot_abs by (unfold NS; lia). rewrite <- Z.rem_abs by (unfold NS; lia).
  pose proof (Z.quot_rem' (Z.abs d) (Z.abs NS)). unfold NS in *. lia.
Qed.

Lemma timestamp_ms_spec : forall t, unix_timestamp_ms t * 1000000 <= t < (unix_timestamp_ms t + 1) * 1000000.
Proof. intros t. unfold unix_timestamp_ms, unix_timestamp, NS. lia. Qed.
