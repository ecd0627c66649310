(** Model of the rate limited warning tracker, bd-log/src/rate_limit_log.rs. *)
From Verif Require Import Base.
Open Scope Z_scope.

(** bd-log/src/rate_limit_log.rs:16-19 [WarnTracker]: time of the last emitted warning. *)
Definition wt_state := option Z.

(** bd-log/src/rate_limit_log.rs:22-31 [should_warn]; [now] is the clock reading, [d] the interval of the call.
    [Instant - Instant] saturates at zero, so the difference is [max 0]. *)
Definition should_warn (s : wt_state) (now d : Z) : wt_state * bool :=
  let warn := match s with None => true | Some last => d <? Z.max 0 (now - last) end in
  if warn then (Some now, true) else (s, false).

(** A history of calls (clock reading, interval) of one call site (bd-log/src/rate_limit_log.rs:70-88 [log_every!]: one static
    tracker per call site); the result lists which were emitted. *)
Fixpoint wt_run (s : wt_state) (l : list (Z * Z)) : list bool :=
  match l with
  | [] => []
  | (now, d) :: l' => let (s1, b) := should_warn s now d in b :: wt_run s1 l'
  end.
