(** Model of the upload rate limiter, bd-logger/src/ratelimit.rs. *)
From Verif Require Import Base.
Open Scope Z_scope.

(** bd-logger/src/ratelimit.rs:73-79 [enum State]. *)
Inductive rl_status := Limited | Ready (rem : Z).

(** bd-logger/src/ratelimit.rs:62-69 [SharedState]; the [rate] field is a pair of runtime watches, modelled by
    giving each attempt the values it would read ([a_num], [a_per]). *)
Record rl_state := mkRl { rl_status_of : rl_status; rl_sleep_until : Z }.

(** One call of [try_acquire_ratelimit_permit]: the clock reading, the current values of the two runtime
    watches (bd-logger/src/ratelimit.rs:21-43, [Rate::num], [Rate::per]) and the request size. *)
Record attempt := mkAttempt { a_now : Z; a_num : Z; a_per : Z; a_size : Z }.

(** bd-logger/src/ratelimit.rs:195-213 [RateLimitLayer::new]. *)
Definition rl_new (now num : Z) : rl_state := mkRl (Ready num) now.

(** bd-logger/src/ratelimit.rs:151-155: refill when the fill instant has passed. *)
Definition rl_refill (s : rl_state) (a : attempt) : rl_state :=
  if rl_sleep_until s <? a_now a
  then mkRl (Ready (a_num a)) (a_now a + Z.abs (a_per a))
  else s.

(** bd-logger/src/ratelimit.rs:143-175 [try_acquire_ratelimit_permit]. *)
Definition try_acquire (s : rl_state) (a : attempt) : rl_state * bool :=
  let s := rl_refill s a in
  match rl_status_of s with
  | Limited => (s, false)
  | Ready rem =>
      if a_size a <? rem
      then (mkRl (Ready (rem - a_size a)) (rl_sleep_until s), true)
      else (mkRl Limited (rl_sleep_until s), true)
  end.

(** A history of attempts; the result records for each attempt whether it got a permit
    (the callers' loop at bd-logger/src/ratelimit.rs:116-137 contributes the attempts). *)
Fixpoint rl_run (s : rl_state) (l : list attempt) : rl_state * list bool :=
  match l with
  | [] => (s, [])
  | a :: l' =>
      let (s1, b) := try_acquire s a in
      let (s2, bs) := rl_run s1 l' in
      (s2, b :: bs)
  end.
