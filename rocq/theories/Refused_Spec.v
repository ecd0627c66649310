(** Which calls were refused, from the calls and their answers alone. *)
From Verif Require Import Base Ring_Model Volatile_Model Volatile_Spec Nonvolatile_Model.
Open Scope Z_scope.

(** A volatile buffer: a [reserve] that fails, unless its producer still holds a reservation (that is a misuse of the producer, not a record);
    its bytes, unless its size is impossible. *)
Definition v_refused (l : ledger) (o : vop) (out : vout) : Z * Z :=
  match o, out with
  | VReserve p size _, ORange (Err e) =>
      match l_prod l p with Some _ => (0, 0) | None => (1, match e with InvalidArgument => 0 | _ => size end) end
  | _, _ => (0, 0)
  end.
Fixpoint v_refusals (l : ledger) (ops : list vop) (outs : list vout) : Z * Z :=
  match ops, outs with
  | o :: ops', out :: outs' =>
      let (a, b) := v_refused l o out in let (c, d) := v_refusals (ledger_step l o out) ops' outs' in (a + c, b + d)
  | _, _ => (0, 0)
  end.

(** A non-volatile buffer has one producer; the calls after which it holds a reservation. *)
Definition n_holds (h : bool) (o : nop) (out : nout) : bool :=
  match o, out with
  | (NReserve _ _ | NResume), NRange (Ok _) => true
  | NCommit, NRes (Ok _) => false
  | NDropProducer, NUnit => false
  | (NReopen | NCrash _ _), NOpened _ => false
  | _, _ => h
  end.
(** A [reserve] that fails, also after a wait, unless the producer still holds a reservation or the buffer was shut down. *)
Definition n_refused (h : bool) (o : nop) (out : nout) : Z :=
  match o, out with
  | (NReserve _ _ | NResume), NRange (Err (WouldBlock | Aborted)) => 0
  | (NReserve _ _ | NResume), NRange (Err _) => if h then 0 else 1
  | _, _ => 0
  end.
Fixpoint n_refusals (h : bool) (ops : list nop) (outs : list nout) : Z :=
  match ops, outs with
  | o :: ops', out :: outs' => n_refused h o out + n_refusals (n_holds h o out) ops' outs'
  | _, _ => 0
  end.
