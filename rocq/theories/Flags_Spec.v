(** Notions about schedules and about counting. *)
From Verif Require Import Base Str_Base Flags_Model.

(** The content of the file at the end of a schedule. *)
Fixpoint content (f : file) (ls : list label) : file :=
  match ls with [] => f | LSwap g :: ls' | LWrite g :: ls' => content g ls' | _ :: ls' => content f ls' end.
(** Whether the file was written in place after it was last read for the making of the loader or swapped. *)
Fixpoint in_place (b : bool) (ls : list label) : bool :=
  match ls with [] => b | LWrite _ :: ls' => in_place true ls' | LSwap _ :: ls' => in_place false ls' | LRead :: ls' => in_place false ls' | _ :: ls' => in_place b ls' end.
(** Everything the file has been. *)
Definition contents (f : file) (ls : list label) : list file := f :: flat_map (fun l => match l with LSwap g | LWrite g => [g] | _ => [] end) ls.
Definition no_failure (ls : list label) : Prop := ~ In LFail ls.
Definition no_shutdown (ls : list label) : Prop := forall c, ~ In (LShutdown c) ls.
(** Nothing more to do for the loader. *)
Definition settled {Config} (s : st Config) : Prop := stg s = Made /\ tsk s = Waiting /\ queue s = [].
Definition is_swap (l : label) : bool := match l with LSwap _ => true | _ => false end.
(** How many of the numbers below [m] make something true. *)
Fixpoint count (p : N -> bool) (m : nat) : N := match m with O => 0%N | S m' => (count p m' + if p (N.of_nat m') then 1 else 0)%N end.

(** The flag of a name in a map: its keys are different from each other. *)
Definition has (fs : flags) (name : string) (f : flag) : Prop := NoDup (map fst fs) /\ In (name, f) fs.
Definition has_not (fs : flags) (name : string) : Prop := ~ In name (map fst fs).
