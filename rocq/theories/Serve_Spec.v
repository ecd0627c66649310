(** Notions about schedules only. *)
From Verif Require Import Base Serve_Model.

Definition is_accept (l : label) : bool := match l with LAccept _ => true | _ => false end.
Definition is_end (l : label) : bool := match l with LEnd _ => true | _ => false end.
Definition accepts (ls : list label) : nat := length (filter is_accept ls).
Definition ends (ls : list label) : nat := length (filter is_end ls).
(** Where a connection is, seen from the actions: absent, being served, told, ended. *)
Fixpoint place (c : nat) (x : option cx) (ls : list label) : option cx :=
  match ls with
  | [] => x
  | LAccept d :: ls' => place c (if Nat.eqb d c then Some Serving else x) ls'
  | LTell d :: ls' => place c (if Nat.eqb d c then Some Told else x) ls'
  | LEnd d :: ls' => place c (if Nat.eqb d c then Some Served else x) ls'
  | LDrop d :: ls' => place c (if Nat.eqb d c then None else x) ls'
  | _ :: ls' => place c x ls'
  end.
Definition ends_loop (l : label) : bool := match l with LStop | LAcceptError => true | _ => false end.
