(** Model of bd-buffer/src/buffer/intrusive_queue_with_free_list.rs. *)
From Verif Require Import Base.

Section IQ.
Variable T : Type.

(** Addresses of containers. *)
Definition addr := nat.

(** intrusive_queue_with_free_list.rs:16-22, 32-35: both linked lists as lists of containers (address, value); the values of
    free containers are stale. [iq_fresh] is the allocator: an address never handed out before. (Containers are never deallocated
    before the queue is dropped, so addresses are not recycled by the allocator.) *)
Record iq := mkIq { iq_queue : list (addr * T); iq_free : list (addr * T); iq_fresh : addr }.

(** intrusive_queue_with_free_list.rs:37-44 [Default]. *)
Definition iq_empty : iq := mkIq [] [] 0.

(** Dereferencing a container pointer: the container may be in either list. *)
Fixpoint upd (a : addr) (f : T -> T) (l : list (addr * T)) : list (addr * T) :=
  match l with
  | [] => []
  | (b, v) :: l' => if Nat.eqb b a then (b, f v) :: l' else (b, v) :: upd a f l'
  end.
(** intrusive_queue_with_free_list.rs:16-22: the value in a container of one list. *)
Fixpoint deref (a : addr) (l : list (addr * T)) : option T :=
  match l with
  | [] => None
  | (b, v) :: l' => if Nat.eqb b a then Some v else deref a l'
  end.

(** intrusive_queue_with_free_list.rs:49-60 [map_mut]: mutate through a raw pointer; returns the value seen by the closure
    ([None]: the pointer does not point to any container). *)
Definition iq_map_mut (q : iq) (a : addr) (f : T -> T) : iq * option T :=
  (mkIq (upd a f (iq_queue q)) (upd a f (iq_free q)) (iq_fresh q),
   match deref a (iq_queue q) with Some v => Some v | None => deref a (iq_free q) end).

(** intrusive_queue_with_free_list.rs:63-65 [is_empty]. *)
Definition iq_is_empty (q : iq) : bool := match iq_queue q with [] => true | _ => false end.

(** intrusive_queue_with_free_list.rs:68-73 [front]. *)
Definition iq_front (q : iq) : option T := match iq_queue q with [] => None | (_, v) :: _ => Some v end.

(** intrusive_queue_with_free_list.rs:76-80 [pop_front]. *)
Definition iq_pop_front (q : iq) : iq :=
  match iq_queue q with
  | [] => q
  | c :: rest => mkIq rest (c :: iq_free q) (iq_fresh q)
  end.

(** intrusive_queue_with_free_list.rs:83-96 [emplace_back]. *)
Definition iq_emplace_back (q : iq) (v : T) : iq * addr :=
  match iq_free q with
  | (a, _) :: free' => (mkIq (iq_queue q ++ [(a, v)]) free' (iq_fresh q), a)
  | [] => (mkIq (iq_queue q ++ [(iq_fresh q, v)]) [] (S (iq_fresh q)), iq_fresh q)
  end.

(** The public operations as a history. *)
Inductive iq_op := OpEmplace (v : T) | OpPop | OpMap (a : addr) (f : T -> T) | OpFront | OpIsEmpty.
(** What the operations of intrusive_queue_with_free_list.rs:46-97 return. *)
Inductive iq_out := OutAddr (a : addr) | OutUnit | OutVal (v : option T) | OutBool (b : bool).

(** One public operation, intrusive_queue_with_free_list.rs:46-97. *)
Definition iq_step (q : iq) (o : iq_op) : iq * iq_out :=
  match o with
  | OpEmplace v => let (q', a) := iq_emplace_back q v in (q', OutAddr a)
  | OpPop => (iq_pop_front q, OutUnit)
  | OpMap a f => let (q', r) := iq_map_mut q a f in (q', OutVal r)
  | OpFront => (q, OutVal (iq_front q))
  | OpIsEmpty => (q, OutBool (iq_is_empty q))
  end.
End IQ.
Arguments mkIq {T}. Arguments iq_queue {T}. Arguments iq_free {T}. Arguments iq_fresh {T}.
Arguments iq_empty {T}. Arguments upd {T}. Arguments deref {T}. Arguments iq_map_mut {T}. Arguments iq_is_empty {T}.
Arguments iq_front {T}. Arguments iq_pop_front {T}. Arguments iq_emplace_back {T}. Arguments iq_step {T}.
Arguments OpEmplace {T}. Arguments OpPop {T}. Arguments OpMap {T}. Arguments OpFront {T}. Arguments OpIsEmpty {T}.
Arguments OutAddr {T}. Arguments OutUnit {T}. Arguments OutVal {T}. Arguments OutBool {T}.
