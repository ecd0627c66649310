(** What a volatile ring buffer is supposed to be: a lossy FIFO. No indices, no memory, no wrap-around here; only
    the interface vocabulary ([vop], [vout], [code]) is shared with the model. *)
From Verif Require Import Base Ring_Model Volatile_Model.
Open Scope Z_scope.

(** A record: the serial number of its reservation and its bytes. *)
Record rec := mkRec { rec_id : nat; rec_data : list Z }.

(** An outstanding reservation: its record so far, the producer that still holds it, and whether it was committed. *)
Record slot := mkSlot { sl_rec : rec; sl_owner : option nat; sl_done : bool }.

Record fifo := mkFifo {
  f_unread : list rec;        (* committed, visible, not yet consumed; oldest first *)
  f_slots : list slot;        (* reservations not yet visible; oldest first *)
  f_next : nat;               (* serial number of the next reservation *)
  f_reader : option bool;     (* registered consumer, and whether it holds the oldest unread record *)
  f_locks : Z;
  f_shut : bool;
  f_consumed : list rec;      (* history: records the consumer finished, oldest first *)
  f_lost : list rec;          (* history: records overwritten, oldest first *)
  f_waits : list nat }.       (* flushes in progress: each waits until no record numbered below this is unread *)

Definition fifo_init : fifo := mkFifo [] [] 0 None 0 false [] [] [].

Definition reading (s : fifo) : Prop := f_reader s = Some true.
Definition owns (p : nat) (s : fifo) : Prop := exists sl, In sl (f_slots s) /\ sl_owner sl = Some p.

(** Space a record takes: its bytes and a 4 byte size. *)
Definition need (d : list Z) : Z := Z.of_nat (length d) + 4.
Definition total (l : list (list Z)) : Z := fold_right (fun d a => need d + a) 0 l.
Definition largest (m : Z) (l : list (list Z)) : Z := fold_right (fun d a => Z.max (need d) a) m l.

(** The buffer is short of room for [size] more bytes when it holds [l]: adding the record and leaving the largest record's worth of
    unused space (fragmentation at the end of the ring) exceeds the capacity. *)
Definition short_of_room (cap : Z) (l : list (list Z)) (size : Z) : Prop :=
  cap < total l + (size + 4) + largest (size + 4) l.

Definition contents (u : list rec) (sl : list slot) : list (list Z) := map rec_data u ++ map (fun s => rec_data (sl_rec s)) sl.

Definition overwrite_bytes (l : list Z) (off : Z) (bs : list Z) : list Z :=
  firstn (Z.to_nat off) l ++ bs ++ skipn (Z.to_nat off + length bs) l.

(** Apply [f] to the slot owned by [p]. *)
Definition on_slot (p : nat) (f : slot -> slot) (l : list slot) : list slot :=
  map (fun s => match sl_owner s with Some q => if Nat.eqb q p then f s else s | None => s end) l.

(** The longest prefix of committed reservations becomes visible. *)
Fixpoint publish (l : list slot) : list rec * list slot :=
  match l with
  | [] => ([], [])
  | s :: l' => if sl_done s then let (v, r) := publish l' in (sl_rec s :: v, r) else ([], l)
  end.

Definition set_slots sl s := mkFifo (f_unread s) sl (f_next s) (f_reader s) (f_locks s) (f_shut s) (f_consumed s) (f_lost s) (f_waits s).
Definition set_reader r s := mkFifo (f_unread s) (f_slots s) (f_next s) r (f_locks s) (f_shut s) (f_consumed s) (f_lost s) (f_waits s).
Definition set_flocks n b s := mkFifo (f_unread s) (f_slots s) (f_next s) (f_reader s) n b (f_consumed s) (f_lost s) (f_waits s).

Definition add_wait k s := mkFifo (f_unread s) (f_slots s) (f_next s) (f_reader s) (f_locks s) (f_shut s) (f_consumed s) (f_lost s) (k :: f_waits s).

Inductive step (cap : Z) (s : fifo) : vop -> vout -> fifo -> Prop :=
| S_reserve : forall p size block a init lost kept,
    ~ owns p s -> f_locks s <= 0 -> 0 < size -> size + 4 <= cap ->
    Z.of_nat (length init) = size ->
    f_unread s = lost ++ kept ->
    (reading s -> lost = []) ->
    (forall pre x, lost = pre ++ [x] -> short_of_room cap (contents (x :: kept) (f_slots s)) size) ->
    step cap s (VReserve p size block) (ORange (Ok (mkRange a size)))
      (mkFifo kept (f_slots s ++ [mkSlot (mkRec (f_next s) init) (Some p) false]) (S (f_next s)) (f_reader s)
              (f_locks s) (f_shut s) (f_consumed s) (f_lost s ++ lost) (f_waits s))
| S_reserve_twice : forall p size block, owns p s -> step cap s (VReserve p size block) (ORange (Err InvalidArgument)) s
| S_reserve_locked : forall p size block, ~ owns p s -> 0 < f_locks s ->
    step cap s (VReserve p size block) (ORange (Err FailedPrecondition)) s
| S_reserve_size : forall p size block, ~ owns p s -> f_locks s <= 0 -> size = 0 \/ cap < size + 4 ->
    step cap s (VReserve p size block) (ORange (Err InvalidArgument)) s
| S_reserve_full : forall p size block, ~ owns p s -> f_locks s <= 0 -> 0 < size -> size + 4 <= cap ->
    reading s \/ f_slots s <> [] -> short_of_room cap (contents (f_unread s) (f_slots s)) size ->
    step cap s (VReserve p size block) (ORange (Err ResourceExhausted)) s
| S_write : forall p off bs,
    step cap s (VWrite p off bs) OUnit
      (set_slots (on_slot p (fun sl =>
         let d := rec_data (sl_rec sl) in
         if (0 <=? off) && (off + Z.of_nat (length bs) <=? Z.of_nat (length d))
         then mkSlot (mkRec (rec_id (sl_rec sl)) (overwrite_bytes d off bs)) (sl_owner sl) (sl_done sl) else sl) (f_slots s)) s)
| S_commit : forall p v r, owns p s ->
    publish (on_slot p (fun sl => mkSlot (sl_rec sl) None true) (f_slots s)) = (v, r) ->
    step cap s (VCommit p) (ORes (Ok tt))
      (mkFifo (f_unread s ++ v) r (f_next s) (f_reader s) (f_locks s) (f_shut s) (f_consumed s) (f_lost s) (f_waits s))
| S_commit_none : forall p, ~ owns p s -> step cap s (VCommit p) (ORes (Err InvalidArgument)) s
| S_drop_producer : forall p,
    step cap s (VDropProducer p) OUnit (set_slots (on_slot p (fun sl => mkSlot (sl_rec sl) None (sl_done sl)) (f_slots s)) s)
| S_register : f_reader s = None -> step cap s VRegisterConsumer (ORes (Ok tt)) (set_reader (Some false) s)
| S_register_twice : forall b, f_reader s = Some b -> step cap s VRegisterConsumer (ORes (Err FailedPrecondition)) s
| S_drop_consumer : step cap s VDropConsumer OUnit (set_reader None s)
| S_read : forall block a x l, f_reader s = Some false -> f_unread s = x :: l ->
    step cap s (VStartRead block) (ORange (Ok (mkRange a (Z.of_nat (length (rec_data x)))))) (set_reader (Some true) s)
| S_read_twice : forall block, reading s -> step cap s (VStartRead block) (ORange (Err InvalidArgument)) s
| S_read_empty : forall block, f_reader s = Some false -> f_unread s = [] ->
    step cap s (VStartRead block) (ORange (Err (if block then (if f_shut s then Aborted else WouldBlock) else Unavailable))) s
| S_read_unregistered : forall block, f_reader s = None -> step cap s (VStartRead block) (ORange Panic) s
| S_peek : forall x l, reading s -> f_unread s = x :: l -> step cap s VPeek (OBytes (Some (rec_data x))) s
| S_peek_none : ~ reading s -> step cap s VPeek (OBytes None) s
| S_finish : forall x l b, reading s -> f_unread s = x :: l ->
    (b = true -> forall k y, In k (f_waits s) -> In y l -> (k <= rec_id y)%nat) ->
    step cap s VFinishRead (OFin (Ok b))
      (mkFifo l (f_slots s) (f_next s) (Some false) (f_locks s) (f_shut s) (f_consumed s ++ [x]) (f_lost s)
              (if b then [] else f_waits s))
| S_finish_none : f_reader s = Some false -> step cap s VFinishRead (OFin (Err InvalidArgument)) s
| S_finish_unregistered : f_reader s = None -> step cap s VFinishRead (OFin Panic) s
| S_drain_idle : f_unread s = [] -> step cap s VWaitForDrain (OWait false) s
| S_drain : forall k, f_unread s <> [] -> (forall x, In x (f_unread s) -> (rec_id x < k)%nat) ->
    step cap s VWaitForDrain (OWait true) (add_wait k s)
| S_lock : step cap s VLock OUnit (set_flocks (f_locks s + 1) (f_shut s) s)
| S_unlock : step cap s VUnlock OUnit (set_flocks (f_locks s - 1) (f_shut s) s)
| S_shutdown : step cap s VShutdown OUnit (set_flocks (if f_shut s then f_locks s else f_locks s + 1) true s).

Inductive run (cap : Z) : fifo -> list vop -> list vout -> fifo -> Prop :=
| R_nil : forall s, run cap s [] [] s
| R_cons : forall s o out s' l outs s'', step cap s o out s' -> run cap s' l outs s'' -> run cap s (o :: l) (out :: outs) s''.

(** Sizes passed to [reserve] are [u32]. *)
Definition vop_ok (o : vop) : Prop := match o with VReserve _ size _ => 0 <= size < 4294967296 | _ => True end.

(** What every history of the lossy FIFO satisfies: the records ever reserved (numbered in reservation order) are exactly the
    consumed, the overwritten, the unread and the not yet visible ones, none twice; consumed records are in order; whatever was
    consumed or overwritten is older than everything still unread, which is older than everything not yet visible; the oldest
    not yet visible reservation is uncommitted. *)
Definition ids (l : list rec) : list nat := map rec_id l.
Definition bytes (l : list rec) : Z := fold_right (fun x a => Z.of_nat (length (rec_data x)) + a) 0 l.
Definition slot_ids (l : list slot) : list nat := map (fun s => rec_id (sl_rec s)) l.
Definition increasing (l : list nat) : Prop := forall a x b y c, l = a ++ x :: b ++ y :: c -> (x < y)%nat.

Record history (s : fifo) : Prop := {
  h_all : Permutation (ids (f_consumed s) ++ ids (f_lost s) ++ ids (f_unread s) ++ slot_ids (f_slots s)) (seq 0 (f_next s));
  h_once : NoDup (ids (f_consumed s) ++ ids (f_lost s) ++ ids (f_unread s) ++ slot_ids (f_slots s));
  h_order : increasing (ids (f_consumed s) ++ ids (f_unread s) ++ slot_ids (f_slots s));
  h_lost_order : increasing (ids (f_lost s) ++ ids (f_unread s) ++ slot_ids (f_slots s));
  h_head : forall sl l, f_slots s = sl :: l -> sl_done sl = false }.

(** Memory handed out, as far as a caller can tell from the results of the calls. *)
Record ledger := mkLedger { l_prod : nat -> option range; l_cons : option range }.
Definition ledger0 : ledger := mkLedger (fun _ => None) None.

Definition ledger_step (l : ledger) (o : vop) (out : vout) : ledger :=
  match o, out with
  | VReserve p _ _, ORange (Ok r) => mkLedger (fun q => if Nat.eqb q p then Some r else l_prod l q) (l_cons l)
  | VCommit p, ORes (Ok _) => mkLedger (fun q => if Nat.eqb q p then None else l_prod l q) (l_cons l)
  | VDropProducer p, _ => mkLedger (fun q => if Nat.eqb q p then None else l_prod l q) (l_cons l)
  | VStartRead _, ORange (Ok r) => mkLedger (l_prod l) (Some r)
  | VFinishRead, OFin (Ok _) => mkLedger (l_prod l) None
  | VDropConsumer, _ => mkLedger (l_prod l) None
  | _, _ => l
  end.

Fixpoint ledger_run (l : ledger) (ops : list vop) (outs : list vout) : ledger :=
  match ops, outs with
  | o :: ops', out :: outs' => ledger_run (ledger_step l o out) ops' outs'
  | _, _ => l
  end.

(** The 4 bytes before a slice hold its size. *)
Definition inside (cap : Z) (r : range) : Prop := 4 <= r_start r /\ 0 < r_size r /\ r_start r + r_size r <= cap.
Definition apart (a b : range) : Prop := r_start a + r_size a <= r_start b - 4 \/ r_start b + r_size b <= r_start a - 4.

Record handed_out_ok (cap : Z) (l : ledger) : Prop := {
  ho_prod : forall p r, l_prod l p = Some r -> inside cap r;
  ho_cons : forall r, l_cons l = Some r -> inside cap r;
  ho_prods : forall p q r r', p <> q -> l_prod l p = Some r -> l_prod l q = Some r' -> apart r r';
  ho_read : forall p r r', l_prod l p = Some r -> l_cons l = Some r' -> apart r r' }.

(** Locks held after a sequence of calls: handles taken minus handles dropped, plus one for the first shutdown. *)
Fixpoint locks_held (n : Z) (shut : bool) (ops : list vop) : Z :=
  match ops with
  | [] => n
  | VLock :: l => locks_held (n + 1) shut l
  | VUnlock :: l => locks_held (n - 1) shut l
  | VShutdown :: l => locks_held (if shut then n else n + 1) true l
  | _ :: l => locks_held n shut l
  end.

(** A call that reported failure. *)
Definition failed (out : vout) : Prop :=
  match out with
  | ORange (Err _) | ORange Panic | ORes (Err _) | ORes Panic | OFin (Err _) | OFin Panic => True
  | _ => False
  end.
