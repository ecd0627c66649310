(** What a user may expect of the ticks (C154). *)
From Verif Require Import Base Ticker_Model.
Local Open Scope Z_scope.
(** Polls only, at times that do not go back. *)
Fixpoint polls_from (t0 : Z) (ops : list op) : Prop :=
  match ops with [] => True | Poll now _ _ :: ops => t0 <= now /\ polls_from now ops | Update _ :: _ => False end.
(** The ticks, counted from [k], come at [a] plus whole periods or later. *)
Fixpoint paced (a period : Z) (k : nat) (ticks : list Z) : Prop :=
  match ticks with [] => True | x :: ticks => a + Z.of_nat k * period <= x /\ paced a period (S k) ticks end.
Definition no_zero (ops : list op) : Prop := forall v, In (Update v) ops -> v <> 0%N.
(** The runtime keeps changing the interval between 60 and 60.001 seconds, every 59.998 seconds, and each time the wait that is drawn is 59.999 seconds. *)
Fixpoint restless (a : Z) (n : nat) : list op :=
  match n with O => [] | S n => Update (if Nat.even n then 60000%N else 60001%N) :: Poll a 59999 false :: restless (a + 59998) n end.
