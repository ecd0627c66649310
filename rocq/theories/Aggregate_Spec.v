(** Vocabulary for Aggregate_Props.v. The two buffers are the lossy FIFO of Volatile_Spec.v and the queue of Nonvolatile_Spec.v. *)
From Verif Require Import Base Ring_Model Volatile_Model Nonvolatile_Model Aggregate_Model.
From Verif Require Volatile_Spec Nonvolatile_Spec NonvolatileClient_Spec.
Open Scope Z_scope.

(** The calls on one of the buffers, and their results. *)
Definition vops (t : list call) : list vop := flat_map (fun c => match c with VCall o _ => [o] | _ => [] end) t.
Definition vouts (t : list call) : list vout := flat_map (fun c => match c with VCall _ r => [r] | _ => [] end) t.
Definition nops (t : list call) : list nop := flat_map (fun c => match c with NCall o _ => [o] | _ => [] end) t.
Definition nouts (t : list call) : list nout := flat_map (fun c => match c with NCall _ r => [r] | _ => [] end) t.

(** Everything that was ever written to the file, oldest first, whether it is still there or not. *)
Definition written (q : Nonvolatile_Spec.queue) : list Nonvolatile_Spec.entry :=
  map snd (Nonvolatile_Spec.q_past q) ++ Nonvolatile_Spec.q_unread q ++ Nonvolatile_Spec.q_gone q.
Definition bytes_written (q : Nonvolatile_Spec.queue) : list (list Z) := map Nonvolatile_Spec.e_data (written q).
Definition bytes_consumed (s : Volatile_Spec.fifo) : list (list Z) := map Volatile_Spec.rec_data (Volatile_Spec.f_consumed s).

(** The trace is a history of a lossy FIFO that ends in [s] and of a queue that ends in [q], starting from [s0] and [q0]. *)
Definition explains (rcrc : list Z -> Z) (vcap : Z) (k : Nonvolatile_Spec.config) (s0 : Volatile_Spec.fifo) (q0 : Nonvolatile_Spec.queue)
    (t : list call) (s : Volatile_Spec.fifo) (q : Nonvolatile_Spec.queue) : Prop :=
  Volatile_Spec.run vcap s0 (vops t) (vouts t) s /\
  Nonvolatile_Spec.run k (NonvolatileClient_Spec.record_sum rcrc) q0 (nops t) (nouts t) q.

(** The parts fit together: what was written to the file is, in order and byte for byte, what left the RAM buffer for it; at most the oldest record is in both. *)
Definition linked (s : Volatile_Spec.fifo) (q : Nonvolatile_Spec.queue) : Prop :=
  Volatile_Spec.history s /\ Nonvolatile_Spec.in_order q /\
  Forall (fun e => Nonvolatile_Spec.e_done e = true) (written q) /\
  (bytes_written q = bytes_consumed s \/
   exists x u, Volatile_Spec.f_unread s = x :: u /\ bytes_written q = bytes_consumed s ++ [Volatile_Spec.rec_data x]).

(** Sizes passed to [reserve] are [u32]. *)
Definition label_ok (l : label) : Prop := match l with Produce o => Volatile_Spec.vop_ok o | _ => True end.

(** One kind of consumer: regular ones; or one cursor that is kept (see C06 for what else goes wrong with cursors). *)
Definition plain_label (l : label) : Prop := match l with Consume NRegisterCursor => False | _ => True end.
Definition cursor_label (l : label) : Prop := match l with Consume NRegisterConsumer | Consume NDropConsumer => False | _ => True end.
Definition kept_label (l : label) : Prop := match l with Consume NDropConsumer => False | _ => True end.
Definition one_kind (l : list label) : Prop := Forall plain_label l \/ Forall cursor_label l.

(** The flush thread is over, or about to be. *)
Definition ending (p : fpos) : Prop := p = FExit \/ p = FExit2 \/ p = FDone.
(** [shutdown] is past its flush. *)
Definition past_flush (p : spos) : Prop := p = SStop \/ p = SVolatile \/ p = SNonVolatile \/ p = SDone.
(** A finished read that released waiting flushes. *)
Definition release : call := VCall VFinishRead (OFin (Ok true)).
(** The file's configuration. *)
Definition cfg (nsize : Z) (ow : overwrite) (check : bool) : Nonvolatile_Spec.config := Nonvolatile_Spec.mkCfg (nsize - header_size) ow true check.
(** Neither readers nor [shutdown]; a new reader. *)
Definition calm_label (a : label) : Prop := match a with Consume _ | Shutdown => False | _ => True end.
Definition registers (a : label) : Prop := match a with Consume NRegisterConsumer | Consume NRegisterCursor => True | _ => False end.
