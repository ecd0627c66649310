(** Model of bd-device/src/lib.rs on the key-value store of [KeyValue_Model].

    The mutex makes each call one step. Everything else that uses the store is part of the history ([KSet], [KGet], [KForeign]). *)
From Verif Require Import Base KeyValue_Model.
From Coq Require Import String.
Local Open Scope list_scope.

(** lib.rs:17. *)
Definition device_key : string := "device.state"%string.
(** lib.rs:23-26: the storage and the id in memory. *)
Record device := mkDevice { d_store : storage; d_id : option (list Z) }.
(** lib.rs:30-35. *)
Definition new_device (s : storage) : device := mkDevice s None.

(** A call of [id] with the UUID it would make and the faults of the storage when reading, deleting and writing; another process; another use
    of the store. *)
Inductive op := Id (uuid : list Z) (rf : bool) (df sf : fault) | Restart | Other (o : kop value).

Section Device.
Variable utf8 : list Z -> bool.
(** lib.rs:37-58. *)
Definition id (d : device) (uuid : list Z) (rf : bool) (df sf : fault) : device * list Z :=
  match d_id d with
  | Some i => (d, i)
  | None =>
      match kv_get value (value_de utf8) (d_store d) device_key rf df with
      | (s, Some (VText i)) => (mkDevice s (Some i), i)
      | (s, _) => (mkDevice (kv_set value value_ser s device_key (VText uuid) sf) (Some uuid), uuid)
      end
  end.
(** One action with its result, lib.rs:29-58. *)
Definition step (d : device) (o : op) : device * option (list Z) :=
  match o with
  | Id uuid rf df sf => let (d', i) := id d uuid rf df sf in (d', Some i)
  | Restart => (new_device (d_store d), None)
  | Other k => (mkDevice (fst (kv_step value value_ser (value_de utf8) (d_store d) k)) (d_id d), None)
  end.
(** A history of actions with their results, lib.rs:29-58. *)
Fixpoint run (d : device) (l : list op) : device * list (option (list Z)) :=
  match l with [] => (d, []) | o :: l' => let (d1, x) := step d o in let (d2, xs) := run d1 l' in (d2, x :: xs) end.
End Device.
