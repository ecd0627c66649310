(** Specification of C38, C39 and C40. *)
From Verif Require Import Base Str_Base StatsStore_Model.
Local Open Scope Z_scope.

(** The total of the increments, and of the reported amounts, of an Id. *)
Fixpoint incremented (i : string) (t : list event) : Z :=
  match t with
  | [] => 0
  | EInc j n :: t => (if String.eqb i j then n else 0) + incremented i t
  | _ :: t => incremented i t
  end.
Fixpoint reported (i : string) (t : list event) : Z :=
  match t with
  | [] => 0
  | EReport j n :: t => (if String.eqb i j then n else 0) + reported i t
  | _ :: t => reported i t
  end.

(** The amount a snapshot taken now would report. *)
Definition live (s : store) (i : string) : Z :=
  match find_metric i (s_metrics s) with Some m => s_vals s (m_cell m) | None => 0 end.

(** The increments are not negative (they are u64). *)
Definition is_u64 (o : op) : Prop := match o with Inc _ n => 0 <= n < U64 | _ => True end.

(** No handle is given up between the moment the snapshot finds a metric without
    data and the moment it decides whether the metric is still referenced. *)
Fixpoint no_drop_in_check (s : store) (os : list op) : Prop :=
  match os with
  | [] => True
  | o :: os =>
      (forall h m todo, o = Drop h -> s_snap s <> Some (todo, Some m)) /\
      no_drop_in_check (fst (step s o)) os
  end.

Definition is_set_limit (o : op) : Prop := exists l, o = SetLimit l.

(** A snapshot of n metrics, alone. *)
Definition snapshot (n : nat) : list op :=
  SnapBegin :: List.concat (repeat [SnapSwap; SnapCheck] n) ++ [SnapEnd].
