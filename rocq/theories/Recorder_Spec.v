(** What the history of the flags, of the ticks and of the screenshots says, for C84-C86. *)
From Verif Require Import Base Recorder_Model.
Local Open Scope Z_scope.

(** The last value a flag was set to. *)
Fixpoint enabled_now (b : bool) (l : list pop) : bool :=
  match l with [] => b | PSetEnabled b' :: l => enabled_now b' l | _ :: l => enabled_now b l end.
Fixpoint rate_now (d : Z) (l : list pop) : Z :=
  match l with [] => d | PSetRate d' :: l => rate_now d' l | _ :: l => rate_now d l end.
Fixpoint events_now (b : bool) (l : list lop) : bool :=
  match l with [] => b | LSet b' :: l => events_now b' l | _ :: l => events_now b l end.
Fixpoint shots_now (b : bool) (l : list sop) : bool :=
  match l with [] => b | SSetEnabled b' :: l => shots_now b' l | _ :: l => shots_now b l end.

(** The period in force after [l]: the rate there was when the loop last looked, or the first one. *)
Definition in_force (d p : Z) (l : list pop) : Prop :=
  ((forall t, ~ In (PRate t) l) /\ p = d) \/
  (exists a t b, l = a ++ PRate t :: b /\ (forall t', ~ In (PRate t') b) /\ p = rate_now d a).

Definition ready (r : res pacer Z) : Prop := exists p e, r = Done p e.

(** Counting. *)
Definition is_request (o : sop) := match o with SRequest => true | _ => false end.
Definition is_log (o : sop) := match o with SLog => true | _ => false end.
Definition is_next (o : sop) := match o with SNext => true | _ => false end.
Definition count (f : sop -> bool) (l : list sop) : nat := length (filter f l).
(** How often the platform was asked for a screenshot. *)
Definition captures (e : list (sop * bool)) : nat := length (filter snd e).
(** The platform logs a screenshot only after it was asked for one, and one for each. *)
Definition polite (e : list (sop * bool)) : Prop :=
  forall a b, e = a ++ b -> (count is_log (map fst a) <= captures a)%nat.
(** Requests looked at while the last look at the flag (the first value, before any) says off, and requests made while one is still queued. *)
Fixpoint off_takes (flag look : bool) (l : list sop) : nat :=
  match l with
  | [] => 0
  | SSetEnabled b :: l => off_takes b look l
  | SEnabled :: l => off_takes flag flag l
  | STake :: l => (if look then 0 else 1) + off_takes flag look l
  | _ :: l => off_takes flag look l
  end.
Fixpoint full_requests (queued : bool) (l : list sop) : nat :=
  match l with
  | [] => 0
  | SRequest :: l => (if queued then 1 else 0) + full_requests true l
  | STake :: l => full_requests false l
  | _ :: l => full_requests queued l
  end.
