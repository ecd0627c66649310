(** Model of the late initialized metrics of bd-server-stats/src/stats.rs ("stats" below) lines 215-322, for counters, over the label tracker of Labels_Model.

    A vector of metrics is a number; its values are a list of label sets with their counts. Calls of one thread (the tracker under several threads is in
    Labels_Model). *)
From Verif Require Import Base Str_Base Labels_Model.
Local Open Scope string_scope. Local Open Scope list_scope.

(** The values of all vectors: the vector, the labels, the count. *)
Definition values := list ((nat * list string) * N).
(** Equality of label sets, by prometheus' hash of them (taken to be free of collisions), stats:313. *)
Fixpoint eqb_labels (a b : list string) : bool :=
  match a, b with [], [] => true | x :: a, y :: b => String.eqb x y && eqb_labels a b | _, _ => false end.
(** Whether two series are the same, stats:313. *)
Definition same (a b : nat * list string) : bool := Nat.eqb (fst a) (fst b) && eqb_labels (snd a) (snd b).
(** [with_label_values] (stats:271-273) and [inc_by]: the series is made if it is not there. *)
Fixpoint bump (k : nat * list string) (n : N) (l : values) : values :=
  match l with [] => [(k, n)] | (k', m) :: l => if same k k' then (k', (m + n)%N) :: l else (k', m) :: bump k n l end.
(** What is gathered for a series. *)
Fixpoint value (k : nat * list string) (l : values) : N :=
  match l with [] => 0%N | (k', m) :: l => if same k k' then m else value k l end.
(** The tracker, the values, and the late initialized metrics (stats:295-298): the vector and, once used, the labels of the real metric. *)
Record world := mkWorld { w_tracker : tracker; w_values : values; w_metrics : list (nat * option (list string)) }.
(** Before anything is used, stats:566-584. *)
Definition world_new : world := mkWorld lt_new [] [].

(** What the program does: [new_metric] of a vector (stats:226-231), [get] of a metric (by its number in the order of making) with labels (stats:305-316) and [inc_by]. *)
Inductive op := NewMetric (vec : nat) | Inc (metric : nat) (n : N) (labels : list string).

Section Late.
Variables (max : nat) (names : nat -> list string).
(** A step; [None]: a panic (wrong number of labels: stats:95 and [with_label_values]), or a metric that has not been made. *)
Definition step (w : world) (o : op) : option world :=
  match o with
  | NewMetric v => Some (mkWorld (w_tracker w) (w_values w) (w_metrics w ++ [(v, None)]))
  | Inc m n labels =>
      match nth_error (w_metrics w) m with
      | None => None
      | Some (v, Some l) => Some (mkWorld (w_tracker w) (bump (v, l) n (w_values w)) (w_metrics w))
      | Some (v, None) =>
          match track_labels max (w_tracker w) (names v) labels with
          | (t, Some l) => if Nat.eqb (length l) (length (names v)) then Some (mkWorld t (bump (v, l) n (w_values w)) (set_nth m (v, Some l) (w_metrics w))) else None
          | (_, None) => None
          end
      end
  end.
(** A program. *)
Fixpoint run (w : world) (ops : list op) : option world :=
  match ops with [] => Some w | o :: ops => match step w o with Some w => run w ops | None => None end end.
End Late.
