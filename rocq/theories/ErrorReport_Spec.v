(** Notions about schedules only. *)
From Verif Require Import Base Str_Base ErrorReport_Model.

(** The errors raised, with their thread. *)
Definition errors (ls : list label) : list (nat * string) :=
  flat_map (fun l => match l with LError t m d => [(t, (d ++ ": " ++ m)%string)] | _ => [] end) ls.
(** The actions before the handler was first disabled. *)
Fixpoint before_disable (ls : list label) : list label := match ls with [] => [] | LDisable :: _ => [] | l :: ls' => l :: before_disable ls' end.
(** No report in progress at the end: as many reporters called as there were reports begun. *)
Definition calls (ls : list label) : nat := length (filter (fun l => match l with LCall _ => true | _ => false end) ls).
Definition no_register (ls : list label) : Prop := forall c, ~ In (LRegister c) ls.
Definition never_registered (c : nat) (ls : list label) : Prop := ~ In (LRegister c) ls.
Definition no_reentry (ls : list label) : Prop := forall t, ~ In (LReenter t) ls.

(** The reporter last set. *)
Fixpoint last_set (r : reporter) (ls : list label) : reporter :=
  match ls with [] => r | LSet r' :: ls' => last_set r' ls' | LClear :: ls' => last_set RDefault ls' | _ :: ls' => last_set r ls' end.
(** The [with_reporter] scopes a thread is in, innermost first; a panic leaves the innermost one too. *)
Fixpoint scopes (t : nat) (st : list reporter) (ls : list label) : list reporter :=
  match ls with
  | [] => st
  | LEnter u r :: ls' => scopes t (if Nat.eqb u t then r :: st else st) ls'
  | LLeave u :: ls' => scopes t (if Nat.eqb u t then tl st else st) ls'
  | LUnwind u :: ls' => scopes t (if Nat.eqb u t then tl st else st) ls'
  | _ :: ls' => scopes t st ls'
  end.
(** Never in two scopes at once, and no panic in one. *)
Definition flat (t : nat) (ls : list label) : Prop :=
  (forall n, length (scopes t [] (firstn n ls)) <= 1) /\ ~ In (LUnwind t) ls.
(** The reporter an error of the thread should go to. *)
Definition should (t : nat) (ls : list label) : reporter := match scopes t [] ls with r :: _ => r | [] => last_set RDefault ls end.
(** What each error that is reported should come to: the texts with their reporters, of the first five before the handler is disabled. *)
Fixpoint attributed (before ls : list label) : list (reporter * string) :=
  match ls with
  | [] => []
  | l :: ls' => match l with LError t m d => [(should t before, (d ++ ": " ++ m)%string)] | _ => [] end ++ attributed (before ++ [l]) ls'
  end.
(** The details the reports made, in order. *)
Definition details_made (ls : list label) : list (option string) := flat_map (fun l => match l with LDetails _ d => [d] | _ => [] end) ls.
(** Actions that need the mutex. *)
Definition needs_lock (l : label) : Prop :=
  match l with LSet _ | LClear | LDisable | LRegister _ | LError _ _ _ | LDetails _ _ | LCall _ => True | _ => False end.

(** The value of a field, and the field of a metadata entry. *)
Definition get (fs : list (string * string)) (k : string) : option string := match find (fun p => String.eqb (fst p) k) fs with Some p => Some (snd p) | None => None end.
Definition key (p : string * string) : string := ("x-" ++ dashes (fst p))%string.
