(** C145: asynchronous reads of non-volatile buffers. *)
From Verif Require Import Base Ring_Model Nonvolatile_Model Nonvolatile_Spec NonvolatileClient_Spec NonvolatileUse_Proofs NonvolatileCorrupt_Spec Nonvolatile_Props NonvolatileCorrupt_Props AsyncRead_Model AsyncRead_Proofs AsyncReadNonvolatile_Proofs.
Open Scope Z_scope.

(** The regular consumer of a new buffer, as for volatile buffers (AsyncReadVolatile_Props.v). Records whose checksum is wrong are passed
    over; the [read] returns the oldest of the others, and yields when there is no other. *)
Theorem C145_plain rcrc hcrc : forall k st0 n, 0 <= k_cap k < 2147483648 -> n_open hcrc None (k_cap k + header_size) (k_ow k) (k_hold k) (k_check k) st0 = Ok n ->
  forall l st calls, Forall (ok_h (fun o => nop_ok o /\ plain_op o)) l -> reader_run (n_ring rcrc hcrc) (mkReader n false Away) l = (st, calls) ->
  exists s, run k (record_sum rcrc) (queue_init k) (map fst calls) (map snd calls) s /\ (rs_at st = Awaiting false -> q_unread s = []) /\
    (rs_at st <> Away -> q_reader s = Regular false ->
      (~ Forall (fun e => ~ shown k (record_sum rcrc) e) (q_unread s) -> exists i st' skip x u a, (i <= 3)%nat /\ q_unread s = skip ++ x :: u /\ Forall (fun e => ~ shown k (record_sum rcrc) e) skip /\ shown k (record_sum rcrc) x /\
         reader_run (n_ring rcrc hcrc) st (repeat Poll i) = (st', [(NStartRead false, NRange (Ok (mkRange a (Z.of_nat (length (e_data x))))))]) /\ rs_at st' = Away) /\
      (Forall (fun e => ~ shown k (record_sum rcrc) e) (q_unread s) -> exists i st' c, (i <= 6)%nat /\ reader_run (n_ring rcrc hcrc) st (repeat Poll i) = (st', c) /\ rs_at st' = Awaiting false)).
Proof. exact (p_async rcrc hcrc). Qed.
Print Assumptions C145_plain.

(** The cursor consumer, which may read further records before it releases the first ones: the [read] returns the record after those
    it holds. Missing for the full claim: files with damaged sizes, and a regular consumer after a cursor (both refuted below). *)
Theorem C145_cursor_partial rcrc hcrc : forall k st0 n, 0 <= k_cap k < 2147483648 -> n_open hcrc None (k_cap k + header_size) (k_ow k) (k_hold k) (k_check k) st0 = Ok n ->
  forall l st calls, Forall (ok_h (fun o => nop_ok o /\ cursor_op o)) l -> reader_run (cursor_ring rcrc hcrc) (mkReader n false Away) l = (st, calls) ->
  exists s, run k (record_sum rcrc) (queue_init k) (map fst calls) (map snd calls) s /\
    (rs_at st = Awaiting false -> exists j, q_reader s = Cursor j /\ nth_error (q_unread s) j = None) /\
    (forall j, rs_at st <> Away -> q_reader s = Cursor j ->
      match nth_error (q_unread s) j with
      | Some x => exists i st' a, (i <= 3)%nat /\ reader_run (cursor_ring rcrc hcrc) st (repeat Poll i) = (st', [(NStartRead false, NRange (Ok (mkRange a (Z.of_nat (length (e_data x))))))]) /\ rs_at st' = Away
      | None => exists i st' c, (i <= 6)%nat /\ reader_run (cursor_ring rcrc hcrc) st (repeat Poll i) = (st', c) /\ rs_at st' = Awaiting false
      end).
Proof. exact (c_async rcrc hcrc). Qed.
Print Assumptions C145_cursor_partial.

(** A reader that waits and is woken by a commit in the middle of its own moves, in both kinds of buffer. *)
Definition fresh_buffer : option nbuf := match n_open hc None 100 OBlock false true st0 with Ok n => Some n | _ => None end.
Definition tells (g : ring nbuf nop nout) (l : list (happening nop)) : option (place * list (nop * nout)) :=
  match fresh_buffer with Some n => let (s, c) := reader_run g (mkReader n false Away) l in Some (rs_at s, c) | None => None end.
Definition commit_meanwhile : list (happening nop) :=
  [Other NRegisterProducer; Begin; Poll; Poll; Other (NReserve 3 false); Poll; Other (NWrite 0 [7; 8; 9]); Poll; Poll; Other NCommit].
Example C145_plain_case : tells (n_ring rc hc) (Own NRegisterConsumer :: commit_meanwhile) =
    Some (Awaiting true, [(NRegisterConsumer, NRes (Ok tt)); (NRegisterProducer, NRes (Ok tt)); (NStartRead false, NRange (Err Unavailable)); (NReserve 3 false, NRange (Ok (mkRange 8 3))); (NWrite 0 [7; 8; 9], NUnit); (NCommit, NRes (Ok tt))]) /\
  tells (n_ring rc hc) (Own NRegisterConsumer :: firstn 9 commit_meanwhile) <> None /\
  Forall (ok_h p_ok) (Own NRegisterConsumer :: commit_meanwhile).
Proof. split; [vm_compute; reflexivity|]. split; [vm_compute; discriminate|]. unfold commit_meanwhile, p_ok. repeat (apply Forall_cons; [cbn; repeat split; try lia; repeat constructor; lia|]). apply Forall_nil. Qed.
Example C145_cursor_case : tells (cursor_ring rc hc) (Own NRegisterCursor :: commit_meanwhile ++ [Poll; Poll; Poll; Begin; Poll; Poll; Poll; Poll; Poll; Poll]) =
    Some (Awaiting false, [(NRegisterCursor, NRes (Ok tt)); (NRegisterProducer, NRes (Ok tt)); (NStartRead false, NRange (Err Unavailable)); (NReserve 3 false, NRange (Ok (mkRange 8 3))); (NWrite 0 [7; 8; 9], NUnit); (NCommit, NRes (Ok tt));
      (NStartRead false, NRange (Ok (mkRange 8 3))); (NStartRead false, NRange (Err Unavailable))]) /\
  Forall (ok_h c_ok) (Own NRegisterCursor :: commit_meanwhile).
Proof. split; [vm_compute; reflexivity|]. unfold commit_meanwhile, c_ok. repeat (apply Forall_cons; [cbn; repeat split; try lia; repeat constructor; lia|]). apply Forall_nil. Qed.

(** A file whose second record has size 0. The cursor reads the first record and calls [read] again before it releases it: the size is
    noticed, the reset of the buffer waits for the record that the cursor holds, and the [read] neither returns nor yields, whatever the
    others do: its task can never run the code that would release the record. *)
Definition second_damaged : Z -> Z := fun i => if i =? 20 then 3 else if i =? 21 then 141 else if i =? 22 then 238 else if i =? 23 then 75 else if i =? 24 then 4 else 0.
Theorem C145_spins_refuted : exists f n l st, in_range 60 f /\ n_open hc (Some f) 100 OBlock false true st0 = Ok n /\ Forall (ok_h c_ok) l /\ fst (reader_run (cursor_ring rc hc) (mkReader n false Away) l) = st /\
  forall l', rs_at (fst (reader_run (cursor_ring rc hc) st l')) <> Away /\ forall f, rs_at (fst (reader_run (cursor_ring rc hc) st l')) <> Awaiting f.
Proof.
  eexists (wrapped second_damaged), _, [Own NRegisterCursor; Begin; Poll; Poll; Begin; Poll; Poll], _. split; [apply wrapped_in_range; intros i; unfold second_damaged; repeat destruct (_ =? _); lia|].
  split; [vm_compute; reflexivity|]. split; [repeat (apply Forall_cons; [cbn; repeat split|]); apply Forall_nil|]. split; [reflexivity|].
  intros l'. match goal with |- context [reader_run _ ?s l'] => assert (T : turning s) end.
  { split; [split; [vm_compute; reflexivity|split; [vm_compute; reflexivity|eexists _, _; vm_compute; reflexivity] ]|eexists; left; vm_compute; reflexivity]. }
  apply (turns_run rc hc l') in T. destruct T as (_ & f & [-> | ->]); split; intros; discriminate.
Qed.
Print Assumptions C145_spins_refuted.

(** A cursor reads all records and is dropped without releasing them; a regular consumer takes its place: its [read] waits although a record
    is there, until another one is committed. *)
Theorem C145_after_cursor_refuted : exists n l st r n', n_open hc None 100 OBlock false true st0 = Ok n /\ fst (reader_run (n_ring rc hc) (mkReader n false Away) l) = st /\
  rs_at st = Awaiting false /\ n_step rc hc (rs_buf st) (NStartRead false) = (n', NRange (Ok r)) /\ r_size r = 3.
Proof.
  eexists _, [Other NRegisterProducer; Other (NReserve 3 false); Other (NWrite 0 [7; 8; 9]); Other NCommit; Own NRegisterCursor; Own (NStartRead false); Own (NStartRead false); Own NDropConsumer; Own NRegisterConsumer; Begin; Poll], _, _, _.
  split; [vm_compute; reflexivity|]. split; [reflexivity|]. split; [vm_compute; reflexivity|]. split; vm_compute; reflexivity.
Qed.
Print Assumptions C145_after_cursor_refuted.
