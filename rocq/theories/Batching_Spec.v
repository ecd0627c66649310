(** Observable behaviour of uploads. *)
From Verif Require Import Base Batching_Model.
Local Open Scope N_scope.

Definition bytes (b : list record) : N := fold_right (fun r n => N.of_nat (length r) + n) 0 b.
(** The batch can still grow. *)
Definition below (b : list record) (l : limits) : Prop := bytes b < max_bytes l /\ N.of_nat (length b) < max_logs l.

Fixpoint reads (o : list obs) : list (record * limits) := match o with [] => [] | ORead r l :: o' => (r, l) :: reads o' | _ :: o' => reads o' end.
Fixpoint uploads (o : list obs) : list (list record) := match o with [] => [] | OUpload b :: o' => b :: uploads o' | _ :: o' => uploads o' end.
Fixpoint releases (o : list obs) : list record := match o with [] => [] | ORelease r :: o' => r :: releases o' | _ :: o' => releases o' end.
(** The batches whose upload attempt has ended; [p] is the one under way. *)
Fixpoint completed (p : option (list record)) (o : list obs) : list (list record) :=
  match o with
  | [] => []
  | OUpload b :: o' => completed (Some b) o'
  | ODone _ :: o' => match p with Some b => b :: completed None o' | None => completed None o' end
  | OAbandoned :: o' => completed None o'
  | _ :: o' => completed p o'
  end.

(** [grows b]: every proper non-empty beginning of the batch was below the limits in force when its last log was read. *)
Definition grows (b : list (record * limits)) : Prop :=
  forall b1 r l b2, b = b1 ++ (r, l) :: b2 -> b2 <> [] -> below (map fst b1 ++ [r]) l.

Definition written (es : list event) : list record := concat (map (fun e => match e with Write r => [r] | _ => [] end) es).

(** How many logs of a trigger upload are outside of it. *)
Fixpoint outside (l : list (try_read * limits)) : N :=
  match l with [] => 0%N | (Log _ true, _) :: l' => (1 + outside l')%N | (Unavailable, _) :: _ | (ReadError, _) :: _ => 0%N | _ :: l' => outside l' end.
(** The logs of a trigger upload inside the lookback window. *)
Fixpoint recent (l : list (try_read * limits)) : list record :=
  match l with [] => [] | (Log r false, _) :: l' => r :: recent l' | (Unavailable, _) :: _ | (ReadError, _) :: _ => [] | _ :: l' => recent l' end.
