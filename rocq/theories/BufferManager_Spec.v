(* What the buffer manager is expected to do, in terms of configurations and events
   only. *)
From Verif Require Import Base BufferManager_Model.
Local Open Scope Z_scope.

(* the types and files of a configuration are usable: every type is known and every
   buffer that is not there yet can be opened *)
Definition usable (have : Z -> Prop) (c : conf) : Prop :=
  forall b, In b (cf_bufs c) ->
    bc_type b <> None /\ (have (bc_id b) \/ cf_opens c (bc_id b) = true).

(* the ids a configuration lists *)
Definition conf_ids (c : conf) : list Z := map bc_id (cf_bufs c).

(* the type the configuration gives to an id *)
Definition conf_type (c : conf) (i : Z) (t : btype) : Prop :=
  In (mkBconf i (Some t)) (cf_bufs c).

(* what a listener that only sees the events knows about buffer i *)
Fixpoint announced (evs : list bevent) (i : Z) (known : option (btype * nat))
  : option (btype * nat) :=
  match evs with
  | [] => known
  | BCreated t j h :: r => announced r i (if j =? i then Some (t, h) else known)
  | BRemoved j :: r => announced r i (if j =? i then None else known)
  | _ :: r => announced r i known
  end.

(* ... and about the stream buffer *)
Fixpoint announced_stream (evs : list bevent) (known : option nat) : option nat :=
  match evs with
  | [] => known
  | BStreamAdded h :: r => announced_stream r (Some h)
  | BStreamRemoved _ :: r => announced_stream r None
  | _ :: r => announced_stream r known
  end.

(* every removal is for a buffer known at that point, every creation for one not
   known at that point *)
Fixpoint orderly (evs : list bevent) (known : list Z) : Prop :=
  match evs with
  | [] => True
  | BCreated _ j _ :: r => ~ In j known /\ orderly r (j :: known)
  | BRemoved j :: r => In j known /\ orderly r (filter (fun x => negb (x =? j)) known)
  | _ :: r => orderly r known
  end.

(* the answers given *)
Fixpoint acks (l : list fevent) : list nat :=
  match l with
  | [] => []
  | FAck a :: r => a :: acks r
  | _ :: r => acks r
  end.

(* the answers asked for *)
Fixpoint wanted (os : list fop) : list nat :=
  match os with
  | [] => []
  | FRequest _ (Some a) :: r => a :: wanted r
  | _ :: r => wanted r
  end.
