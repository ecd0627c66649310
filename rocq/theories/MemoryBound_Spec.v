(** What senders and the receiver may rely on, in terms of the events. *)
From Verif Require Import Base MemoryBound_Model.

Section Spec.
Context {T : Type} (size : T -> N).

Fixpoint total (l : list T) : N := match l with [] => 0%N | m :: l' => (size m + total l')%N end.

Fixpoint accepted (l : list (event T)) : list T :=
  match l with [] => [] | Accepted _ m :: l' => m :: accepted l' | _ :: l' => accepted l' end.
Fixpoint received (l : list (event T)) : list T :=
  match l with [] => [] | Received m :: l' => m :: received l' | _ :: l' => received l' end.

(** No send and no receive in progress. *)
Definition quiet (c : chan T) : Prop := ch_flight c = [] /\ ch_recv c = None.
End Spec.
