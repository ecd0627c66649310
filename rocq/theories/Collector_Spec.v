(** Notions about schedules, names and labels. *)
From Verif Require Import Base Str_Base Collector_Model.

(** The requests made, in order; the operations on what was given as the [a]th metric. *)
Definition requests (ls : list action) : list request := flat_map (fun x => match x with AMake r => [r] | _ => [] end) ls.
Definition uses_of (g : list (option nat)) (a : nat) (ls : list action) : list use :=
  flat_map (fun x => match x with AUse j u => match nth_error g j with Some (Some b) => if Nat.eqb b a then [u] else [] | _ => [] end | _ => [] end) ls.
(** The [i]th request and the metric it was given. *)
Definition got (ls : list action) (s : st) (i : nat) (r : request) (a : nat) : Prop := nth_error (requests ls) i = Some r /\ nth_error (given s) i = Some (Some a).

(** The same metric is asked for: kind, name and fixed labels. *)
Definition same (r r' : request) : Prop := r_kind r = r_kind r' /\ r_name r = r_name r' /\ forall k, lookup (r_labels r) k = lookup (r_labels r') k.
(** The metric is what was asked for. *)
Definition serves (m : metric) (r : request) : Prop :=
  m_vec m = r_vec r /\ m_kind m = r_kind r /\ m_name m = r_name r /\ (forall k, lookup (m_labels m) k = lookup (r_labels r) k) /\ (forall k, In k (m_vars m) <-> In k (r_vars r)).
(** Two requests that cannot both be met: one name with different label names, or with the same fixed labels. *)
Definition conflict (n : string) (l : labels) (vars : list string) (n' : string) (l' : labels) (vars' : list string) : Prop :=
  n = n' /\ ((exists k, lookup l k = None /\ lookup l' k <> None) \/ (exists k, lookup l k <> None /\ lookup l' k = None)
             \/ (exists k, In k vars /\ ~ In k vars') \/ (exists k, ~ In k vars /\ In k vars') \/ forall k, lookup l k = lookup l' k).

(** The parts of a name joined with colons, without empty parts. *)
Fixpoint join (l : list string) (last : string) : string :=
  match l with [] => last | p :: l' => if String.eqb p "" then join l' last else (p ++ ":" ++ join l' last)%string end.
(** The last value bound to a label. *)
Definition bound (l : labels) (k : string) (v : string) : Prop := exists l1 l2, l = l1 ++ (k, v) :: l2 /\ ~ In k (map fst l2).
