(** What is expected of bd-shutdown, on the history of the calls. *)
From Verif Require Import Base Shutdown_Model.

Definition count (f : op -> bool) (l : list op) : nat := length (filter f l).
(** Some handle or the trigger is still owned by someone after the calls [l]. *)
Definition sender_alive (l : list op) : Prop :=
  (~ In DropTrigger l /\ ~ In Return l) \/
  count (fun o => match o with DropHandle => true | _ => false end) l
    < count (fun o => match o with MakeHandle | CloneHandle => true | _ => false end) l.
Definition makes (i : nat) (o : op) : Prop := o = Make i \/ o = MakeByHandle i \/ exists j, o = CloneRx j i.
(** Receiver [i] was made and not dropped since. *)
Definition receiver_alive (i : nat) (l : list op) : Prop :=
  exists before o after, l = before ++ o :: after /\ makes i o /\ ~ In (DropRx i) after.
