(** Model of the cache of processed Sankey paths, bd-workflows/src/sankey_diagram.rs:23-79. *)
From Verif Require Import Base.

Section Lru.
(** bd-workflows/src/sankey_diagram.rs:29-33 [SeenSankeyPath] with its derived equality; any type with decidable equality. *)
Variable key : Type.
Variable key_eqb : key -> key -> bool.

(** bd-workflows/src/sankey_diagram.rs:23 [PROCESSED_INTENTS_LRU_CACHE_SIZE]. *)
Definition CACHE_SIZE : nat := 100.

(** [Vec::iter().position(..)] then [Vec::remove(index)], bd-workflows/src/sankey_diagram.rs:49-53, 64-66: remove the first equal element. *)
Fixpoint remove_first (x : key) (l : list key) : list key :=
  match l with
  | [] => []
  | y :: l' => if key_eqb y x then l' else y :: remove_first x l'
  end.

(** bd-workflows/src/sankey_diagram.rs:43-56 [contains]. *)
Definition lru_contains (c : list key) (x : key) : list key * bool :=
  if existsb (fun y => key_eqb y x) c
  then (remove_first x c ++ [x], true)
  else (c, false).

(** bd-workflows/src/sankey_diagram.rs:58-78 [insert]. *)
Definition lru_insert (c : list key) (x : key) : list key :=
  let c :=
    if existsb (fun y => key_eqb y x) c
    then remove_first x c ++ [x]
    else c ++ [x] in
  if Nat.ltb CACHE_SIZE (length c) then tl c else c.

(** The two operations of the cache as a history (bd-workflows/src/sankey_diagram.rs:120-222 calls them). *)
Inductive lru_op := Lookup (x : key) | Insert (x : key).

(** One call, bd-workflows/src/sankey_diagram.rs:41-79. *)
Definition lru_step (c : list key) (o : lru_op) : list key * option bool :=
  match o with
  | Lookup x => let (c, b) := lru_contains c x in (c, Some b)
  | Insert x => (lru_insert c x, None)
  end.

(** A history of calls, bd-workflows/src/sankey_diagram.rs:41-79. *)
Fixpoint lru_run (c : list key) (l : list lru_op) : list key * list (option bool) :=
  match l with
  | [] => (c, [])
  | o :: l' => let (c1, r) := lru_step c o in let (c2, rs) := lru_run c1 l' in (c2, r :: rs)
  end.
End Lru.
Arguments Lookup {key}. Arguments Insert {key}.
