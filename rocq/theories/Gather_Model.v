(** Model of gathering in bd-server-stats/src/stats.rs ("stats" below): callbacks, chained collectors (stats:596-645) and the gauges that count (stats:647-694).

    A collector is a number; what it has in its registry, its callbacks and its chained collectors are given. A callback is any function on the values of all
    metrics (it does not gather itself). [Mutex] is not re-entrant: a thread that locks what it holds waits for ever. One thread. *)
From Verif Require Import Base.

(** The values: of a collector, of a metric. *)
Definition store := nat -> nat -> Z.
(** A family in the output: the collector, the metric, the value. *)
Definition family := (nat * nat * Z)%type.
(** What there is, stats:545-553: the metrics registered, the callbacks, the chained collectors. *)
Record setup := mkSetup { own : nat -> list nat; callbacks : nat -> list (store -> store); chained : nat -> list nat }.
(** The end of a call of [gather_all]. [OutOfFuel] is not reached (Gather_Proofs). *)
Inductive result := Done (s : store) (out : list family) | Deadlock | OutOfFuel.

(** stats:630-632. *)
Definition call_all (u : setup) (c : nat) (s : store) : store := fold_left (fun s f => f s) (callbacks u c) s.
(** stats:636 [registry.gather]. *)
Definition registry (u : setup) (c : nat) (s : store) : list family := map (fun m => (c, m, s c m)) (own u c).
Section All.
Variable gather : nat -> store -> result.
(** stats:637-639: the loop over the chained collectors. *)
Fixpoint gather_each (cs : list nat) (s : store) : result :=
  match cs with
  | [] => Done s []
  | c :: cs => match gather c s with Done s o => match gather_each cs s with Done s o' => Done s (o ++ o') | r => r end | r => r end
  end.
End All.
(** stats:629-641; [held]: the collectors whose list of chained collectors this thread has locked. *)
Fixpoint gather_all (u : setup) (fuel : nat) (held : list nat) (c : nat) (s : store) : result :=
  match fuel with
  | O => OutOfFuel
  | S fuel =>
      let s := call_all u c s in
      let out := registry u c s in
      if existsb (Nat.eqb c) held then Deadlock
      else match gather_each (gather_all u fuel (c :: held)) (chained u c) s with Done s o => Done s (out ++ o) | r => r end
  end.

(** A gauge with its guards: the value, the guards alive, and whether the assertion of stats:665 and stats:691 has held so far. *)
Record gauge := mkGauge { g_value : Z; g_alive : list nat; g_ok : bool }.
(** A guard is made (stats:657-660, 683-686) or dropped (stats:663-668, 689-694). *)
Inductive gop := Make (id : nat) | Drop (id : nat).
(** stats:657-694. *)
Definition gstep (g : gauge) (o : gop) : gauge :=
  match o with
  | Make i => mkGauge (g_value g + 1) (i :: g_alive g) (g_ok g)
  | Drop i => mkGauge (g_value g - 1) (remove Nat.eq_dec i (g_alive g)) (g_ok g && Z.ltb 0 (g_value g))
  end.
