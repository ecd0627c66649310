(** Specification of a least-recently-used cache over histories: no reference to how the cache is stored. *)
From Verif Require Import Base Lru_Model.

Section LruSpec.
Variable key : Type.
Variable key_eqb : key -> key -> bool.

(** The keys used by a history, latest first: insertions, and lookups that found their key. *)
Fixpoint uses (acc : list key) (l : list (lru_op key)) (rs : list (option bool)) : list key :=
  match l, rs with
  | Insert x :: l', _ :: rs' => uses (x :: acc) l' rs'
  | Lookup x :: l', Some true :: rs' => uses (x :: acc) l' rs'
  | Lookup x :: l', _ :: rs' => uses acc l' rs'
  | _, _ => acc
  end.

(** Distinct keys in order of their latest use, most recent first. *)
Fixpoint recent (l : list key) : list key :=
  match l with
  | [] => []
  | x :: l' => x :: filter (fun y => negb (key_eqb y x)) (recent l')
  end.
End LruSpec.
