(** Specification of C37 and C67. *)
From Verif Require Import Base Str_Base ClientConfig_Model.
Local Open Scope string_scope.
Local Open Scope list_scope.

(** The nonce of the last configuration applied in the current process; the empty
    string if there is none. *)
Fixpoint last_applied (t : list item) (v : string) : string :=
  match t with
  | [] => v
  | TStart :: t => last_applied t ""
  | TTry _ u Applied :: t => last_applied t (u_nonce u)
  | _ :: t => last_applied t v
  end.

Definition from_disk (i : item) : Prop := exists u o, i = TTry Disk u o.

(** Operations that keep the persisted configuration: a start must apply it and
    write it back. *)
Definition quiet (x : op) : Prop :=
  match x with
  | Start rd rm o w => rd = false \/ rm = false \/ (o = Applied /\ w = WOk)
  | Update _ Applied _ => False
  | _ => True
  end.
