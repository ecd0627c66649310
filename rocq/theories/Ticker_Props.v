(** C154: statistics are flushed and uploaded at the pace of the configuration. *)
From Verif Require Import Base Ticker_Model Ticker_Spec Ticker_Proofs.
Local Open Scope Z_scope.

(** From the first poll, while the interval [v] is not changed: the tick number [k] (from 0) does not come before [k] intervals have gone by, and it
    comes at the first poll after [k + 1] intervals at the latest. *)
Theorem C154_pace_partial : forall v now r f later,
  v <> 0%N -> polls_from now later ->
  exists t' ticks, run (ticker_new v) (Poll now r f :: later) = Some (t', ticks) /\ paced now (Z.of_N v) 0 ticks /\
    forall now' r' f', now + Z.of_nat (S (length ticks)) * Z.of_N v <= now' -> exists t'', step t' (Poll now' r' f') = Some (t'', [now']).
Proof. intros v now r f later V P. destruct (from_start v now r f later V P) as (t' & ticks & A & B & C). exists t', ticks. split; [exact A|]. split; [exact B|]. intros now' r' f' L. exact (due_ticks _ _ _ _ _ r' f' C L). Qed.

(** After any history, a new interval sets the pace from the first poll on that finds nothing due of the old one. Missing: see the refutations. *)
Theorem C154_change_partial : forall v0 before t e v now r f t1 later,
  run (ticker_new v0) before = Some (t, e) -> v <> 0%N -> run t [Update v; Poll now r f] = Some (t1, []) -> polls_from now later ->
  exists t' ticks, run t (Update v :: Poll now r f :: later) = Some (t', ticks) /\ paced now (Z.of_N v) 0 ticks /\
    forall now' r' f', now + Z.of_nat (S (length ticks)) * Z.of_N v <= now' -> exists t'', step t' (Poll now' r' f') = Some (t'', [now']).
Proof.
  intros v0 before t e v now r f t1 later H V R P. assert (R' : run t [Update v; Poll now r f] = Some (fst (poll now r f (mkTicker v true (t_interval t))), [])).
  { cbn [run step] in *. destruct (poll now r f (mkTicker v true (t_interval t))) as [x []]; cbn [fst] in *; [discriminate|exact eq_refl|discriminate]. }
  destruct (new_pace v0 before v now r f t e later H V R' P) as (t' & ticks & A & B & C). exists t', ticks. split; [exact A|]. split; [exact B|]. intros now' r' f' L. exact (due_ticks _ _ _ _ _ r' f' C L).
Qed.

(** No history of polls and of changes to intervals other than zero makes the task panic. *)
Theorem C154_no_panic_partial : forall v ops, v <> 0%N -> no_zero ops -> exists t' ticks, run (ticker_new v) ops = Some (t', ticks).
Proof. intros v ops V N. destruct (run_ok ops (ticker_new v) V N) as [[t' ticks] E]. exists t', ticks. exact E. Qed.

(** An interval of zero makes the task panic at the next poll that looks at it, after any history. *)
Theorem C154_zero_refuted : forall t now r, run t [Update 0%N; Poll now r false] = None.
Proof. exact zero_panics. Qed.

(** An interval that is changed more often than it elapses starts anew with every change: for any length of time no tick may come. *)
Theorem C154_restless_refuted : forall v n a, exists t', run (ticker_new v) (restless a n) = Some (t', []).
Proof. intros v n a. apply (restless_run n a (ticker_new v)). auto. Qed.
Print Assumptions C154_pace_partial.
Print Assumptions C154_change_partial.
Print Assumptions C154_no_panic_partial.
Print Assumptions C154_zero_refuted.
Print Assumptions C154_restless_refuted.

(** One minute; the first wait is 20 s; the device sleeps for five minutes; then the interval is 10 s. *)
Definition toy_later := [Poll 20000 0 true; Poll 79999 0 false; Poll 80000 0 false; Poll 300000 0 true; Poll 300000 0 true; Poll 300000 0 true; Poll 300000 0 true].
Example C154_case : (match run (ticker_new 60000%N) (Poll 0 20000 true :: toy_later) with Some (_, e) => e | None => [] end) = [20000; 80000; 300000; 300000; 300000] /\ polls_from 0 toy_later.
Proof. split; [vm_compute; reflexivity|]. cbn. lia. Qed.
Example C154_changed : exists t e t1, run (ticker_new 60000%N) (Poll 0 20000 true :: toy_later) = Some (t, e) /\ run t [Update 10000%N; Poll 310000 5 true] = Some (t1, []) /\
  (match run t1 [Poll 310005 0 true; Poll 320004 0 true; Poll 320005 0 false] with Some (_, e) => e | None => [] end) = [310005; 320005].
Proof. exists (mkTicker 60000 false (Some (mkInterval 320000 60000))), [20000; 80000; 300000; 300000; 300000], (mkTicker 10000 false (Some (mkInterval 310005 10000))). splits; vm_compute; reflexivity. Qed.
Example C154_nonzero : no_zero [Update 5%N; Poll 3 4 true; Update 9%N].
Proof. intros v [H|[H|[H|[]]]]; inversion H; discriminate. Qed.
