(** Model of the asynchronous [read] of the consumers of ring buffers: bd-buffer/src/buffer/volatile_ring_buffer.rs 269-304 ("volatile"),
    bd-buffer/src/buffer/non_volatile_ring_buffer.rs 330-364 (consumer) and 507-546 (cursor consumer) ("nonvolatile"). A [read] repeats the
    non-blocking call of Volatile_Model.v or Nonvolatile_Model.v and waits, on a tokio watch channel, for somebody to commit a record.

    - The channel: its value is [c_readable] of Ring_Model.v. Of its version only what a receiver can tell is kept: whether something was
      sent since this receiver last looked.
    - A [read] is cut where other threads can act in between: the look at the channel, the call under the lock of the buffer, the wait.
    - The buffer being dropped (volatile:270-275, nonvolatile:331-336 and 508-513) is not modelled. *)
From Verif Require Import Base Ring_Model Volatile_Model Nonvolatile_Model.
Open Scope Z_scope.

(** How the match of volatile:282-296 (nonvolatile:343-351, 520-534) classifies the answer of the non-blocking call. *)
Inductive verdict := Returned | Again.

(** A buffer as its asynchronous reader sees it. *)
Record ring (B O R : Type) := mkRing {
  rg_step : B -> O -> B * R;            (* one call *)
  rg_try : O;                           (* the non-blocking call of the reader *)
  rg_verdict : R -> verdict;
  rg_readable : B -> bool;              (* the value of the channel *)
  rg_sent : O -> R -> B -> bool;        (* the call, answered so and leaving the buffer so, sent something to the channel *)
  rg_subscribes : O -> R -> bool;       (* the call registered the consumer *)
  rg_own : O -> bool;                   (* calls of the consumer's handle, and those that need it to be gone *)
  rg_marks : bool;                      (* the look at the channel marks its value as seen *)
  rg_retries : bool }.                  (* after [Unavailable] the loop is continued at the top, without waiting *)
Arguments mkRing {B O R}. Arguments rg_step {B O R}. Arguments rg_try {B O R}. Arguments rg_verdict {B O R}. Arguments rg_readable {B O R}.
Arguments rg_sent {B O R}. Arguments rg_subscribes {B O R}. Arguments rg_own {B O R}. Arguments rg_marks {B O R}. Arguments rg_retries {B O R}.

(** Where the reader is: not in [read]; at the top of the loop (volatile:280-281); about to make the call (volatile:282); in
    [changed().await] (volatile:299-302). The boolean: something was sent that the receiver of this [read] has not seen. *)
Inductive place := Away | Top (fresh : bool) | Trying (fresh : bool) | Awaiting (fresh : bool).

(** The buffer, whether something was sent since the consumer was registered (its own receiver, volatile:517, which is never marked), the reader. *)
Record reader_state (B : Type) := mkReader { rs_buf : B; rs_since : bool; rs_at : place }.
Arguments mkReader {B}. Arguments rs_buf {B}. Arguments rs_since {B}. Arguments rs_at {B}.

(** Something may have been sent. *)
Definition hear (sent : bool) (p : place) : place :=
  match p with Away => Away | Top f => Top (f || sent) | Trying f => Trying (f || sent) | Awaiting f => Awaiting (f || sent) end.

(** What can happen. *)
Inductive happening (O : Type) :=
| Other (o : O)   (** a call of somebody else *)
| Own (o : O)     (** another call of the consumer's handle, which is borrowed while a [read] is going on *)
| Begin           (** [read] is called: volatile:278-279 *)
| Poll            (** the reader moves on *)
| Cancel.         (** the future of [read] is dropped while it waits, e.g. by a [select!] *)
Arguments Other {O}. Arguments Own {O}. Arguments Begin {O}. Arguments Poll {O}. Arguments Cancel {O}.

Section Reader.
Context {B O R : Type}.
Variable g : ring B O R.

(** One happening and the call of the buffer it makes, if any. volatile:269-304; nonvolatile:330-364 and 507-546. *)
Definition reader_step (s : reader_state B) (h : happening O) : reader_state B * list (O * R) :=
  match h with
  | Other o =>
      if rg_own g o then (s, [])
      else
        let (b, r) := rg_step g (rs_buf s) o in
        let sent := rg_sent g o r b in
        (mkReader b (rs_since s || sent) (hear sent (rs_at s)), [(o, r)])
  | Own o =>
      match rs_at s with
      | Away =>
          if rg_own g o then
            let (b, r) := rg_step g (rs_buf s) o in
            (mkReader b (if rg_subscribes g o r then false else rs_since s || rg_sent g o r b) Away, [(o, r)])
          else (s, [])
      | _ => (s, [])
      end
  | Begin => match rs_at s with Away => (mkReader (rs_buf s) (rs_since s) (Top (rs_since s)), []) | _ => (s, []) end
  | Poll =>
      match rs_at s with
      | Away => (s, [])
      | Top f =>
          let f' := if rg_marks g then false else f in
          (mkReader (rs_buf s) (rs_since s) (if rg_readable g (rs_buf s) then Trying f' else Awaiting f'), [])
      | Trying f =>
          let (b, r) := rg_step g (rs_buf s) (rg_try g) in
          let sent := rg_sent g (rg_try g) r b in
          let p := match rg_verdict g r with Returned => Away | Again => if rg_retries g then Top (f || sent) else Awaiting (f || sent) end in
          (mkReader b (rs_since s || sent) p, [(rg_try g, r)])
      | Awaiting f => (if f then mkReader (rs_buf s) (rs_since s) (Top false) else s, [])
      end
  | Cancel => match rs_at s with Awaiting _ => (mkReader (rs_buf s) (rs_since s) Away, []) | _ => (s, []) end
  end.

(** A history and the calls of the buffer it makes. volatile:269-304; nonvolatile:330-364 and 507-546. *)
Fixpoint reader_run (s : reader_state B) (l : list (happening O)) : reader_state B * list (O * R) :=
  match l with
  | [] => (s, [])
  | h :: l' => let (s1, c1) := reader_step s h in let (s2, c2) := reader_run s1 l' in (s2, c1 ++ c2)
  end.
End Reader.

(** common:529-543 and 776-791: [finish_commit_common] sends [true]; a non-blocking read that finds nothing sends [false], unless a reset
    is pending (common:758-763). *)
Definition v_sent (o : vop) (r : vout) (b : vbuf) : bool :=
  match o, r with
  | VCommit _, ORes (Ok _) => true
  | VStartRead false, ORange (Err Unavailable) => negb (c_pending (v_c b))
  | _, _ => false
  end.
(** volatile:269-304: [borrow_and_update], [continue] after [Unavailable]. *)
Definition v_ring : ring vbuf vop vout :=
  mkRing v_step (VStartRead false)
    (fun r => match r with ORange (Err Unavailable) => Again | _ => Returned end)
    (fun b => c_readable (v_c b)) v_sent
    (fun o r => match o, r with VRegisterConsumer, ORes (Ok _) => true | _, _ => false end)
    (fun o => match o with VRegisterConsumer | VDropConsumer | VStartRead _ | VPeek | VFinishRead => true | _ => false end)
    true true.

Section Checksums.
Variable rcrc : list Z -> Z.
Variable hcrc : Z -> option Z -> option Z -> option Z -> Z.

(** common:529-543, 758-763 and 776-791, as above. *)
Definition n_sent (o : nop) (r : nout) (b : nbuf) : bool :=
  match o, r with
  | NCommit, NRes (Ok _) => true
  | NStartRead false, NRange (Err Unavailable) => negb (c_pending (n_c b))
  | _, _ => false
  end.
(** A buffer that is opened again has a new channel: common:935-939. *)
Definition n_subscribes (o : nop) (r : nout) : bool :=
  match o, r with (NRegisterConsumer | NRegisterCursor), NRes (Ok _) => true | _, _ => false end.
(** Calls of the consumer's handle; opening the file again needs all handles to be gone. *)
Definition n_own (o : nop) : bool :=
  match o with
  | NRegisterConsumer | NRegisterCursor | NDropConsumer | NStartRead _ | NPeek | NFinishRead | NAdvance | NReopen | NCrash _ _ => true
  | _ => false
  end.
(** nonvolatile:330-364: [borrow]; after [Unavailable] the loop waits. *)
Definition n_ring : ring nbuf nop nout :=
  mkRing (n_step rcrc hcrc) (NStartRead false) (fun r => match r with NRange (Err Unavailable) => Again | _ => Returned end)
    (fun b => c_readable (n_c b)) n_sent n_subscribes n_own false false.
(** nonvolatile:507-546: [borrow]; [continue] after [Unavailable]. *)
Definition cursor_ring : ring nbuf nop nout :=
  mkRing (n_step rcrc hcrc) (NStartRead false) (fun r => match r with NRange (Err Unavailable) => Again | _ => Returned end)
    (fun b => c_readable (n_c b)) n_sent n_subscribes n_own false true.
End Checksums.
