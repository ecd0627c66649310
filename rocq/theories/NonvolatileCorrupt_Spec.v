(** Vocabulary for buffers whose record area was damaged. *)
From Verif Require Import Base Ring_Model Nonvolatile_Model Nonvolatile_Spec.
Open Scope Z_scope.

(** A call, or other bytes appear in the record area (a damaged disk, another process writing to the file). *)
Inductive cop := Do (o : nop) | Spoil (m : Z -> Z).
Definition bytes (m : Z -> Z) : Prop := forall i, 0 <= m i < 256.
(** Calls without crashes and cursors; what is written are bytes. *)
Definition cop_ok (o : cop) : Prop :=
  match o with
  | Do o => nop_ok o /\ plain_op o /\ match o with NWrite _ bs => Forall (fun b => 0 <= b < 256) bs | _ => True end
  | Spoil m => bytes m
  end.
Section Runs.
Variables (rcrc : list Z -> Z) (hcrc : Z -> option Z -> option Z -> option Z -> Z).
Definition c_step (n : nbuf) (o : cop) : nbuf * nout :=
  match o with
  | Do o => n_step rcrc hcrc n o
  | Spoil m => (n_set_c (set_mem m (n_c n)) n, NUnit)
  end.
Fixpoint c_run (n : nbuf) (l : list cop) : nbuf * list nout :=
  match l with
  | [] => (n, [])
  | o :: l => let (n1, out) := c_step n o in let (n2, outs) := c_run n1 l in (n2, out :: outs)
  end.
End Runs.

(** The indices of the file header are inside the buffer; the record area contains any bytes. *)
Definition in_range (cap : Z) (f : file) : Prop :=
  0 <= fl_nws f <= cap /\ (forall s, fl_nrs f = Some s -> 0 <= s <= cap /\ fl_cws f <> None) /\ bytes (fl_mem f).

(** The call panics (or does not end). *)
Definition panics (out : nout) : Prop := out = NRange Panic \/ out = NRes Panic \/ out = NFin Panic.
(** The memory handed out by a call lies in the record area of [cap] bytes. *)
Definition hands_out (cap : Z) (out : nout) : Prop :=
  forall r, out = NRange (Ok r) -> 0 <= r_start r /\ 0 < r_size r /\ r_start r + r_size r <= cap.

(** The losses counted so far. *)
Definition losses (n : nbuf) : Z := s_total_data_loss (c_stats (n_c n)).
(** Nobody has a reservation and nobody waits for one. *)
Definition unused (n : nbuf) : Prop := n_busy n = false /\ n_wait n = None.
(** From now on the buffer behaves like the empty queue of Nonvolatile_Spec.v, with the same producer, consumer, locks. *)
Definition as_new (rcrc : list Z -> Z) (hcrc : Z -> option Z -> option Z -> option Z -> Z) (sum : list Z -> Z) (k : config) (n : nbuf) : Prop :=
  exists s, q_unread s = [] /\ q_gone s = [] /\ q_slot s = None /\ q_past s = [] /\
    (q_prod s = true <-> n_prod n <> None) /\ (q_reader s = Nobody <-> n_cons n = None) /\
    q_locks s = c_locks (n_c n) /\ q_shut s = c_shutdown (n_c n) /\
    forall l, Forall nop_ok l -> Forall plain_op l -> exists s', run k sum s l (snd (n_run rcrc hcrc n l)) s'.

(** Neither handle is dropped. *)
Definition no_drop (o : cop) : Prop := match o with Do NDropProducer | Do NDropConsumer => False | _ => True end.
Definition no_reopen (o : cop) : Prop := match o with Do NReopen => False | _ => True end.
