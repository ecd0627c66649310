(** What a writer and a reader of a non-volatile buffer see, in terms of whole records: [put] and [get] calls, restarts of the process
    and crashes. *)
From Verif Require Import Base Ring_Model Nonvolatile_Model Nonvolatile_Spec.
Open Scope Z_scope.

(** One record is written (reserve, fill, commit) or read (start, look, finish). *)
Inductive call := Put (d : list Z) | Get.
Inductive event :=
| Call (c : call)
| Restart                              (* the buffer is closed and opened again *)
| CrashIn (c : call) (i j : nat).      (* the process dies in the [i]-th step of the call, after [j] stores to the file; then as [Restart] *)

Definition steps (c : call) : list nop :=
  match c with
  | Put d => [NReserve (Z.of_nat (length d)) false; NWrite 0 d; NCommit]
  | Get => [NStartRead false; NPeek; NFinishRead]
  end.
Definition attach : list nop := [NRegisterProducer; NRegisterConsumer].
Definition script (e : event) : list nop :=
  match e with
  | Call c => steps c
  | Restart => NReopen :: attach
  | CrashIn c i j => firstn i (steps c) ++ NCrash (nth i (steps c) NPeek) j :: attach
  end.

Inductive answer := Accepted | Refused | Got (d : list Z) | Nothing | Started (deleted : bool) | Odd.
Definition answer_of (e : event) (outs : list nout) : answer :=
  match e, outs with
  | Call (Put _), [NRange (Ok _); NUnit; NRes (Ok _)] => Accepted
  | Call (Put _), [NRange (Err _); NUnit; NRes (Err _)] => Refused
  | Call Get, [NRange (Ok _); NBytes (Some b); NFin (Ok _)] => Got b
  | Call Get, [NRange (Err _); NBytes None; NFin (Err _)] => Nothing
  | Restart, [NOpened b; NRes (Ok _); NRes (Ok _)] => Started b
  | CrashIn c i _, _ =>
      match skipn (length (firstn i (steps c))) outs with [NOpened b; NRes (Ok _); NRes (Ok _)] => Started b | _ => Odd end
  | _, _ => Odd
  end.

(** The checksum of a record: over its length and bytes. *)
Definition record_sum (rcrc : list Z -> Z) (d : list Z) : Z := rcrc (to_bytes (Z.of_nat (length d)) ++ d) mod U32.

(** The records of [puts] are bytes of at most 2^32-1. *)
Definition call_ok (c : call) : Prop := match c with Put d => Z.of_nat (length d) < 4294967296 | Get => True end.
Definition event_ok (e : event) : Prop := match e with Call c => call_ok c | Restart => True | CrashIn c _ _ => call_ok c end.
Definition crashes (e : event) : bool := match e with CrashIn _ _ _ => true | _ => false end.

Section Client.
Variable rcrc : list Z -> Z.
Variable hcrc : Z -> option Z -> option Z -> option Z -> Z.

Fixpoint client (n : nbuf) (l : list event) : nbuf * list answer :=
  match l with
  | [] => (n, [])
  | e :: l => let (n1, outs) := n_run rcrc hcrc n (script e) in let (n2, a) := client n1 l in (n2, answer_of e outs :: a)
  end.

(** The damage done by the crash is hidden by a collision of the header's checksum. *)
Definition unlucky (n : nbuf) (e : event) : Prop :=
  match e with
  | CrashIn c i j => undetected rcrc hcrc (fst (n_run rcrc hcrc n (firstn i (steps c)))) (nth i (steps c) NPeek) j
  | _ => False
  end.

(** A new buffer with a writer and a reader. *)
Definition created (k : config) (st : stats) : option nbuf :=
  match n_open hcrc None (k_cap k + header_size) (k_ow k) (k_hold k) (k_check k) st with
  | Ok n => Some (fst (n_run rcrc hcrc n attach))
  | _ => None
  end.
End Client.

Section Spec.
Variable k : config.
Variable sum : list Z -> Z.

(** Adding a record of [size] bytes, and leaving the largest record's worth of space unused, exceeds the capacity; and the buffer is not empty. *)
Definition tight (l : list (list Z)) (size : Z) : Prop :=
  l <> [] /\ k_cap k < total (k_extra k) l + (size + k_extra k) + largest (k_extra k) (size + k_extra k) l.
Definition fits (d : list Z) : Prop := d <> [] /\ Z.of_nat (length d) + k_extra k <= k_cap k.

(** Without crashes: a queue; in overwrite mode the oldest records give way to a new one. *)
Inductive fifo (q : list (list Z)) : event -> answer -> list (list Z) -> Prop :=
| F_put : forall d lost kept, fits d -> q = lost ++ kept -> (k_ow k = OBlock -> lost = []) ->
    (forall pre x, lost = pre ++ [x] -> tight (x :: kept) (Z.of_nat (length d))) ->
    fifo q (Call (Put d)) Accepted (kept ++ [d])
| F_unfit : forall d, ~ fits d -> fifo q (Call (Put d)) Refused q
| F_full : forall d, k_ow k = OBlock -> tight q (Z.of_nat (length d)) -> fifo q (Call (Put d)) Refused q
| F_get : forall d q', q = d :: q' -> fifo q (Call Get) (Got d) q'
| F_nothing : q = [] -> fifo q (Call Get) Nothing q
| F_restart : fifo q Restart (Started false) q.
Inductive fifo_run : list (list Z) -> list event -> list answer -> list (list Z) -> Prop :=
| FR_nil : forall q, fifo_run q [] [] q
| FR_cons : forall q e a q1 l al q', fifo q e a q1 -> fifo_run q1 l al q' -> fifo_run q (e :: l) (a :: al) q'.

(** With crashes, for a buffer with record checksums: crashes lose records at the old end (in non-overwriting mode at most the one being
    read), or all of them if the header was being changed. A reservation whose writer died before committing may surface, but only if its
    bytes have checksum 0. [true]: written by a [put]. *)
Definition leftover (x : bool * list Z) : Prop := fst x = false /\ sum (snd x) = 0.
Inductive durable (q : list (bool * list Z)) : event -> answer -> list (bool * list Z) -> Prop :=
| D_put : forall d lost kept left_, q = lost ++ kept -> (k_ow k = OBlock -> lost = []) -> Forall leftover left_ ->
    durable q (Call (Put d)) Accepted (kept ++ left_ ++ [(true, d)])
| D_refused : forall d, ~ fits d \/ k_ow k = OBlock -> durable q (Call (Put d)) Refused q
| D_get : forall x q', q = x :: q' -> durable q (Call Get) (Got (snd x)) q'
| D_nothing : q = [] -> durable q (Call Get) Nothing q
| D_restart : durable q Restart (Started false) q
| D_crash_put : forall d i j lost kept q', q = lost ++ kept -> (k_ow k = OBlock -> lost = []) ->
    (q' = kept \/ (2 <= i)%nat /\ exists left_, Forall leftover left_ /\ q' = kept ++ left_ ++ [(true, d)]) ->
    durable q (CrashIn (Put d) i j) (Started false) q'
| D_crash_get : forall i j lost kept, q = lost ++ kept -> (length lost <= 1)%nat ->
    durable q (CrashIn Get i j) (Started false) kept
| D_destroyed : forall c i j, storing (nth i (steps c) NPeek) -> j <> 0%nat -> durable q (CrashIn c i j) (Started true) [].
Inductive durable_run : list (bool * list Z) -> list event -> list answer -> list (bool * list Z) -> Prop :=
| DR_nil : forall q, durable_run q [] [] q
| DR_cons : forall q e a q1 l al q', durable q e a q1 -> durable_run q1 l al q' -> durable_run q (e :: l) (a :: al) q'.

End Spec.

(** What was accepted and what was delivered. *)
Fixpoint accepted (l : list event) (al : list answer) : list (list Z) :=
  match l, al with
  | Call (Put d) :: l, Accepted :: al => d :: accepted l al
  | _ :: l, _ :: al => accepted l al
  | _, _ => []
  end.
Fixpoint delivered (al : list answer) : list (list Z) :=
  match al with [] => [] | Got d :: al => d :: delivered al | _ :: al => delivered al end.
(** Everything a writer offered. *)
Fixpoint offered (l : list event) : list (list Z) :=
  match l with [] => [] | Call (Put d) :: l => d :: offered l | CrashIn (Put d) _ _ :: l => d :: offered l | _ :: l => offered l end.
(** [a] is [b] with some elements left out. *)
Inductive sublist {A : Type} : list A -> list A -> Prop :=
| sub_nil : sublist [] []
| sub_keep : forall x a b, sublist a b -> sublist (x :: a) (x :: b)
| sub_drop : forall x a b, sublist a b -> sublist a (x :: b).

(** * A cursor consumer
    It reads ahead and releases records later. *)
Inductive ccall := CPut (d : list Z) | CRead | CRelease.
Inductive cevent := CCall (c : ccall) | CRestart.
Inductive canswer := CAccepted | CRefused | CGot (d : list Z) | CNothing | CReleased | CStarted | COdd.
Definition cscript (e : cevent) : list nop :=
  match e with
  | CCall (CPut d) => steps (Put d)
  | CCall CRead => [NStartRead false; NPeek]
  | CCall CRelease => [NAdvance]
  | CRestart => [NReopen; NRegisterProducer; NRegisterCursor]
  end.
Definition canswer_of (e : cevent) (outs : list nout) : canswer :=
  match e, outs with
  | CCall (CPut _), [NRange (Ok _); NUnit; NRes (Ok _)] => CAccepted
  | CCall (CPut _), [NRange (Err _); NUnit; NRes (Err _)] => CRefused
  | CCall CRead, [NRange (Ok _); NBytes (Some b)] => CGot b
  | CCall CRead, [NRange (Err _); NBytes _] => CNothing
  | CCall CRelease, [NFin (Ok _)] => CReleased
  | CCall CRelease, [NFin (Err _)] => CRefused
  | CRestart, [NOpened false; NRes (Ok _); NRes (Ok _)] => CStarted
  | _, _ => COdd
  end.
Definition cevent_ok (e : cevent) : Prop := match e with CCall (CPut d) => call_ok (Put d) | _ => True end.

Fixpoint cclient (rcrc : list Z -> Z) (hcrc : Z -> option Z -> option Z -> option Z -> Z) (n : nbuf) (l : list cevent) : nbuf * list canswer :=
  match l with
  | [] => (n, [])
  | e :: l => let (n1, outs) := n_run rcrc hcrc n (cscript e) in let (n2, a) := cclient rcrc hcrc n1 l in (n2, canswer_of e outs :: a)
  end.
(** A new buffer with a writer and a cursor. *)
Definition ccreated (rcrc : list Z -> Z) (hcrc : Z -> option Z -> option Z -> option Z -> Z) (k : config) (st : stats) : option nbuf :=
  match n_open hcrc None (k_cap k + header_size) (k_ow k) (k_hold k) (k_check k) st with
  | Ok n => Some (fst (n_run rcrc hcrc n [NRegisterProducer; NRegisterCursor]))
  | _ => None
  end.

(** The stored records, and how many of them (from the oldest) were read. *)
Inductive cursor_step (k : config) (q : list (list Z)) (r : nat) : cevent -> canswer -> list (list Z) -> nat -> Prop :=
| H_put : forall d, fits k d -> cursor_step k q r (CCall (CPut d)) CAccepted (q ++ [d]) r
| H_unfit : forall d, ~ fits k d -> cursor_step k q r (CCall (CPut d)) CRefused q r
| H_full : forall d, tight k q (Z.of_nat (length d)) -> cursor_step k q r (CCall (CPut d)) CRefused q r
| H_read : forall d, nth_error q r = Some d -> cursor_step k q r (CCall CRead) (CGot d) q (S r)
| H_nothing : nth_error q r = None -> cursor_step k q r (CCall CRead) CNothing q r
| H_release : forall d q' r', q = d :: q' -> r = S r' -> cursor_step k q r (CCall CRelease) CReleased q' r'
| H_none : r = 0%nat -> cursor_step k q r (CCall CRelease) CRefused q r
| H_restart : cursor_step k q r CRestart CStarted q 0.
Inductive cursor_run (k : config) : list (list Z) -> nat -> list cevent -> list canswer -> list (list Z) -> nat -> Prop :=
| HR_nil : forall q r, cursor_run k q r [] [] q r
| HR_cons : forall q r e a q1 r1 l al q' r', cursor_step k q r e a q1 r1 -> cursor_run k q1 r1 l al q' r' -> cursor_run k q r (e :: l) (a :: al) q' r'.

(** The statistics [st] of a buffer in which [put] were accepted, [got] delivered and [q] is left, relative to those it was created with: the
    records and bytes written are the accepted ones, those read are the delivered ones, and those reported as overwritten are the rest. [ex]:
    bookkeeping bytes per record. *)
Definition total (w : list Z -> Z) (l : list (list Z)) : Z := fold_right (fun d a => w d + a) 0 l.
Record balanced (ex : Z) (b st : stats) (put got q : list (list Z)) : Prop := {
  bl_written : s_records_written st = s_records_written b + Z.of_nat (length put);
  bl_bytes_written : s_bytes_written st = s_bytes_written b + total size_of put;
  bl_total_written : s_total_bytes_written st = s_total_bytes_written b + total (need ex) put;
  bl_read : s_records_read st = s_records_read b + Z.of_nat (length got);
  bl_bytes_read : s_bytes_read st = s_bytes_read b + total size_of got;
  bl_total_read : s_total_bytes_read st = s_total_bytes_read b + total (need ex) got;
  bl_overwritten : s_records_overwritten st = s_records_overwritten b + (Z.of_nat (length put) - Z.of_nat (length got) - Z.of_nat (length q));
  bl_bytes_overwritten : s_bytes_overwritten st = s_bytes_overwritten b + (total size_of put - total size_of got - total size_of q);
  bl_corrupted : s_records_corrupted st = s_records_corrupted b }.
