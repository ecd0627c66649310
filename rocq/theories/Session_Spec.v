(** Specification of C33, C34 and C66 over the results of the operations. *)
From Verif Require Import Base Str_Base Session_Model.

(** The last session identifier handed out in a list of results. *)
Fixpoint last_id (l : list out) (d : option string) : option string :=
  match l with
  | [] => d
  | OId i :: l => last_id l (Some i)
  | _ :: l => last_id l d
  end.

(** Operations that neither use nor change the session. *)
Definition passive (o : op) : Prop :=
  match o with Prev | Flush => True | _ => False end.
Definition passive_or_restart (o : op) : Prop :=
  match o with Prev | Flush | Restart => True | _ => False end.
