(** Notions about histories. *)
From Verif Require Import Base KeyValue_Model KeyValue_Spec Device_Model.
From Coq Require Import String.

(** The ids given. *)
Definition ids (xs : list (option (list Z))) : list (list Z) := flat_map (fun x => match x with Some i => [i] | None => [] end) xs.
Definition all_same {A} (l : list A) : Prop := forall a b, In a l -> In b l -> a = b.
(** The storage works for the device, and nobody else uses its key. *)
Definition works (utf8 : list Z -> bool) (o : op) : Prop :=
  match o with
  | Id u rf _ sf => text_ok utf8 u /\ rf = false /\ sf <> Some false
  | Restart => True
  | Other (KSet _ k _ _) | Other (KGet _ k _ _) | Other (KForeign _ k _) => k <> "device.state"%string
  end.
