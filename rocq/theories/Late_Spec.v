(** What late initialized metrics are to count (C155), read off the program. *)
From Verif Require Import Base Str_Base Late_Model.
Local Open Scope string_scope. Local Open Scope list_scope.
(** The labels given at the first use of a metric. *)
Fixpoint first_use (m : nat) (ops : list op) : option (list string) :=
  match ops with [] => None | Inc m' _ l :: ops => if Nat.eqb m m' then Some l else first_use m ops | NewMetric _ :: ops => first_use m ops end.
(** The vectors of the metrics in the order of making. *)
Fixpoint vectors (ops : list op) : list nat :=
  match ops with [] => [] | NewMetric v :: ops => v :: vectors ops | Inc _ _ _ :: ops => vectors ops end.
(** The sum of what is counted through the metrics chosen. *)
Fixpoint counted (chosen : nat -> bool) (ops : list op) : N :=
  match ops with [] => 0%N | Inc m n _ :: ops => ((if chosen m then n else 0) + counted chosen ops)%N | NewMetric _ :: ops => counted chosen ops end.
(** The sum over the series of a vector. *)
Fixpoint total (v : nat) (l : values) : N := match l with [] => 0%N | ((v', _), m) :: l => ((if Nat.eqb v v' then m else 0) + total v l)%N end.
(** What replaces labels of which there are too many. *)
Definition overflow (l : list string) : list string := map (fun _ => "label_overflow") l.
