(** Vocabulary for Freeze_Props.v. *)
From Verif Require Import Base Ring_Model Volatile_Model Volatile_Spec Nonvolatile_Model Nonvolatile_Spec Aggregate_Model Delivery_Model Freeze_Model.
Open Scope Z_scope.

(** Nothing will ever happen again: whatever moves are still made, the SDK's thread stays where it is, no call is made on the buffer and nothing is seen of the upload task. *)
Definition frozen (rcrc : list Z -> Z) (hcrc : Z -> option Z -> option Z -> option Z -> Z) (x : sdk) : Prop :=
  sdk_held x = true /\ forall ms x' c o, sdk_run rcrc hcrc x ms = Some (x', c, o) -> sdk_held x' = true /\ c = [] /\ o = [].
(** Only the flush thread moves. *)
Definition flush_thread (n : nat) : list move := repeat (World Thread) n.
(** What a file of [cap] bytes can always take: the records with [ex] bytes more each, and the largest of them once more. *)
Definition fits_together (ex cap : Z) (l : list (list Z)) : Prop := Nonvolatile_Spec.total ex l + Nonvolatile_Spec.largest ex 0 l <= cap.
