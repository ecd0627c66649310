(** What is to be gathered (C156). *)
From Verif Require Import Base Gather_Model.
(** The collectors of a collector in the order of the output: itself, then those of each chained one. *)
Inductive listing (u : setup) : nat -> list nat -> Prop :=
| listing_c c l : listings u (chained u c) l -> listing u c (c :: l)
with listings (u : setup) : list nat -> list nat -> Prop :=
| listings_nil : listings u [] []
| listings_cons c cs l l' : listing u c l -> listings u cs l' -> listings u (c :: cs) (l ++ l').
(** Each collector in turn: its callbacks, then the values of its metrics. *)
Fixpoint visit (u : setup) (l : list nat) (s : store) : store * list family :=
  match l with
  | [] => (s, [])
  | c :: l => let s := fold_left (fun s f => f s) (callbacks u c) s in let (s', o) := visit u l s in (s', map (fun m => (c, m, s c m)) (own u c) ++ o)
  end.
(** No collector is chained, directly or not, to itself. *)
Definition acyclic (u : setup) : Prop := exists rank : nat -> nat, forall c d, In d (chained u c) -> rank d < rank c.
(** A guard is made once and dropped once, while it is alive. *)
Fixpoint proper (alive made : list nat) (ops : list gop) : Prop :=
  match ops with
  | [] => True
  | Make i :: ops => ~ In i made /\ proper (i :: alive) (i :: made) ops
  | Drop i :: ops => In i alive /\ proper (remove Nat.eq_dec i alive) made ops
  end.
Definition count_make (ops : list gop) : nat := length (filter (fun o => match o with Make _ => true | _ => false end) ops).
Definition count_drop (ops : list gop) : nat := length (filter (fun o => match o with Drop _ => true | _ => false end) ops).
