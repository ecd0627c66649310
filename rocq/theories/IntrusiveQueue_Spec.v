(** A plain FIFO queue whose elements carry an identity that is never reused, plus the client's view of handles. *)
From Verif Require Import Base IntrusiveQueue_Model.

Section Spec.
Variable T : Type.

(** Elements in order, each with its serial number; the serial number of the next element. *)
Record fifo := mkFifo { f_elems : list (nat * T); f_next : nat }.
Definition fifo_empty := mkFifo [] 0.
Definition fifo_push (q : fifo) (v : T) := mkFifo (f_elems q ++ [(f_next q, v)]) (S (f_next q)).
Definition fifo_pop (q : fifo) := mkFifo (tl (f_elems q)) (f_next q).
Definition fifo_modify (q : fifo) (id : nat) (f : T -> T) :=
  mkFifo (map (fun e => if Nat.eqb (fst e) id then (fst e, f (snd e)) else e) (f_elems q)) (f_next q).
Definition fifo_get (q : fifo) (id : nat) : option T :=
  option_map snd (find (fun e => Nat.eqb (fst e) id) (f_elems q)).

(** The client remembers which handle it got for which element: a modification names the element by its serial
    number and uses the handle received when it was appended. A history is legal if it only modifies elements that are
    still queued (the safety comment at intrusive_queue_with_free_list.rs:55-56). *)
Inductive cop := CPush (v : T) | CPop | CModify (id : nat) (f : T -> T) | CFront | CIsEmpty.

(** Run a client history on the real queue. [hs] lists the handles received so far, indexed by serial number. *)
Fixpoint crun (q : iq T) (hs : list addr) (l : list cop) : list (option T + bool) :=
  match l with
  | [] => []
  | CPush v :: l' => let (q', a) := iq_emplace_back q v in crun q' (hs ++ [a]) l'
  | CPop :: l' => crun (iq_pop_front q) hs l'
  | CModify id f :: l' => let (q', r) := iq_map_mut q (nth id hs 0) f in inl r :: crun q' hs l'
  | CFront :: l' => inl (iq_front q) :: crun q hs l'
  | CIsEmpty :: l' => inr (iq_is_empty q) :: crun q hs l'
  end.

(** The same history on the plain FIFO. *)
Fixpoint frun (q : fifo) (l : list cop) : list (option T + bool) :=
  match l with
  | [] => []
  | CPush v :: l' => frun (fifo_push q v) l'
  | CPop :: l' => frun (fifo_pop q) l'
  | CModify id f :: l' => inl (fifo_get q id) :: frun (fifo_modify q id f) l'
  | CFront :: l' => inl (option_map snd (hd_error (f_elems q))) :: frun q l'
  | CIsEmpty :: l' => inr (match f_elems q with [] => true | _ => false end) :: frun q l'
  end.

Fixpoint legal (q : fifo) (l : list cop) : Prop :=
  match l with
  | [] => True
  | CPush v :: l' => legal (fifo_push q v) l'
  | CPop :: l' => legal (fifo_pop q) l'
  | CModify id f :: l' => In id (map fst (f_elems q)) /\ legal (fifo_modify q id f) l'
  | _ :: l' => legal q l'
  end.
End Spec.
Arguments CPush {T}. Arguments CPop {T}. Arguments CModify {T}. Arguments CFront {T}. Arguments CIsEmpty {T}.
Arguments crun {T}. Arguments frun {T}. Arguments legal {T}. Arguments fifo_empty {T}.
Arguments mkFifo {T}. Arguments f_elems {T}. Arguments f_next {T}.
Arguments fifo_push {T}. Arguments fifo_pop {T}. Arguments fifo_modify {T}. Arguments fifo_get {T}.
