(** C13. The reservation queue with a free list is a plain FIFO. *)
From Verif Require Import Base IntrusiveQueue_Model IntrusiveQueue_Spec IntrusiveQueue_Proofs.

(** For every legal client history (modifications only of elements still queued, through the handle received when the
    element was appended) every observation equals that of a FIFO whose elements have identities that are never
    reused. *)
Theorem C13_fifo : forall (T : Type) (l : list (cop T)), legal fifo_empty l -> crun iq_empty [] l = frun fifo_empty l.
Proof. exact iq_is_fifo. Qed.
Print Assumptions C13_fifo.

(** A slot is recycled (element 2 reuses the slot of element 0), then elements 1 and 2 are modified through their handles. *)
Example C13_witness :
  let l := [CPush 10; CPush 11; CPop; CPush 12; CModify 2 S; CModify 1 (fun n => n + 5); CFront; CPop; CFront; CPop; CIsEmpty] in
  legal fifo_empty l /\
  crun iq_empty [] l = [inl (Some 12); inl (Some 11); inl (Some 16); inl (Some 13); inr true] /\
  snd (iq_emplace_back (iq_pop_front (fst (iq_emplace_back (fst (iq_emplace_back iq_empty 10)) 11))) 12) = 0.
Proof. cbn. intuition. Qed.
