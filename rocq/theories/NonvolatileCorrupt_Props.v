(** C09: damaged record areas. *)
From Verif Require Import Base Ring_Model Nonvolatile_Model Nonvolatile_Spec NonvolatileClient_Spec Nonvolatile_Props NonvolatileCorrupt_Spec NonvolatileCorrupt_Proofs.
Open Scope Z_scope.

(** A file is opened whose header is intact (its indices are inside the buffer) and whose record area contains any bytes; later,
    between any two calls, the record area may again be replaced by any bytes. No call panics and none loops, except possibly the end
    of a read in a buffer that overwrites old records, and the memory handed to producer and consumer is inside the record area.
    Missing for the full claim: cursors (refuted below), the end of a read in an overwriting buffer (refuted below). *)
Theorem C09_no_panic_partial rcrc hcrc : forall cap f size ow hold check st n l, 0 <= cap < 2147483640 -> in_range cap f -> size = cap + header_size ->
  n_open hcrc (Some f) size ow hold check st = Ok n -> Forall cop_ok l ->
  forall i o out, nth_error l i = Some o -> nth_error (snd (c_run rcrc hcrc n l)) i = Some out ->
    hands_out cap out /\ (panics out -> o = Do NFinishRead /\ ow = OYes).
Proof. exact (opened_range rcrc hcrc). Qed.
Print Assumptions C09_no_panic_partial.

(** The call [o] meets a record of impossible size (a loss is counted). When nobody has a reservation afterwards the buffer behaves
    like a new empty queue; otherwise it does so as soon as the last reservation is given back ([l2]). Missing for the full claim:
    handles that are dropped with a reservation (refuted below) and files opened again before the reset. *)
Theorem C09_usable_partial rcrc hcrc : forall k f st n l1 o l2, 0 <= k_cap k < 2147483640 -> in_range (k_cap k) f ->
  n_open hcrc (Some f) (k_cap k + header_size) (k_ow k) (k_hold k) (k_check k) st = Ok n ->
  Forall cop_ok (l1 ++ o :: l2) -> Forall no_drop (l1 ++ o :: l2) -> Forall no_reopen l2 -> Forall (fun out => ~ panics out) (snd (c_run rcrc hcrc n (l1 ++ o :: l2))) ->
  losses (fst (c_run rcrc hcrc n (l1 ++ [o]))) <> losses (fst (c_run rcrc hcrc n l1)) ->
  (forall a o' b, l2 = a ++ o' :: b -> n_busy (fst (c_run rcrc hcrc n (l1 ++ o :: a))) = true) -> unused (fst (c_run rcrc hcrc n (l1 ++ o :: l2))) ->
  as_new rcrc hcrc (record_sum rcrc) k (fst (c_run rcrc hcrc n (l1 ++ o :: l2))).
Proof. exact (opened_usable rcrc hcrc). Qed.
Print Assumptions C09_usable_partial.

(** A file of 60 bytes with three records: at 20 and 32 before the wrap, at 0 after it. *)
Definition wrapped (m : Z -> Z) : file := mkFile 100 1 100 12 (Some 0) (Some 43) (Some 20) (hc 12 (Some 0) (Some 43) (Some 20)) m.
Definition opened (k : config) (m : Z -> Z) (l : list cop) : option (nbuf * list nout) :=
  match n_open hc (Some (wrapped m)) (k_cap k + header_size) (k_ow k) (k_hold k) (k_check k) st0 with Ok n => Some (c_run rc hc n l) | _ => None end.
Definition outs (x : option (nbuf * list nout)) : list nout := match x with Some (_, l) => l | None => [] end.

Lemma all_ones : bytes (fun _ => 255). Proof. intros i. lia. Qed.
Example wrapped_in_range : forall m, bytes m -> in_range 60 (wrapped m).
Proof. intros m B. split; [cbn; lia|]. split; [|exact B]. intros s H. inv H. split; [lia|discriminate]. Qed.

(** Every byte is 255: the first read loses everything, then the buffer works. *)
Example all_lost : outs (opened keep (fun _ => 255) (map Do [NRegisterProducer; NRegisterConsumer; NStartRead false; NReserve 3 false; NWrite 0 [1; 2; 3]; NCommit; NStartRead false; NPeek; NFinishRead])) =
  [NRes (Ok tt); NRes (Ok tt); NRange (Err Unavailable); NRange (Ok (mkRange 8 3)); NUnit; NRes (Ok tt); NRange (Ok (mkRange 8 3)); NBytes (Some [1; 2; 3]); NFin (Ok false)].
Proof. vm_compute. reflexivity. Qed.
(** The hypotheses of [C09_usable_partial]: a loss while the producer has a reservation; the commit performs the reset. *)
Example lost_while_reserved : forall n, n_open hc (Some (wrapped (fun _ => 255))) 100 OBlock false true st0 = Ok n ->
  let l1 := map Do [NRegisterProducer; NRegisterConsumer; NStartRead false; NReserve 3 false; NCommit; NReserve 5 false] ++ [Spoil (fun _ => 0)] in
  let o := Do (NStartRead false) in let l2 := [Do (NWrite 0 [1]); Do NCommit] in
  losses (fst (c_run rc hc n (l1 ++ [o]))) = 2 /\ losses (fst (c_run rc hc n l1)) = 1 /\ n_busy (fst (c_run rc hc n (l1 ++ [o]))) = true /\
  n_busy (fst (c_run rc hc n (l1 ++ [o; Do (NWrite 0 [1])]))) = true /\ unused (fst (c_run rc hc n (l1 ++ o :: l2))) /\ c_pending (n_c (fst (c_run rc hc n (l1 ++ [o])))) = true.
Proof. intros n E. vm_compute in E. injection E as <-. repeat split. Qed.

(** The end of a read in an overwriting buffer panics: the size of the record in the hands of the reader is damaged, the producer's next
    reservation removes the record as overwritten, and [advance_next_read] unwraps [next_read_start]. *)
Theorem C09_finish_read_refuted : exists f l n, in_range 60 f /\ n_open hc (Some f) 100 OYes false true st0 = Ok n /\ Forall cop_ok l /\ nth_error (snd (c_run rc hc n l)) 10 = Some (NFin Panic) /\ nth_error l 10 = Some (Do NFinishRead).
Proof.
  exists (wrapped (fun _ => 255)), (map Do [NRegisterProducer; NRegisterConsumer; NStartRead false; NReserve 3 false; NWrite 0 [1; 2; 3]; NCommit; NStartRead false; NPeek] ++ [Spoil (fun i => if i =? 4 then 20 else 0); Do (NReserve 4 false); Do NFinishRead]).
  eexists. split; [apply wrapped_in_range, all_ones|]. split; [vm_compute; reflexivity|]. split; [|split; vm_compute; reflexivity].
  repeat (constructor; [repeat split; try lia; repeat constructor; try lia; destruct (_ =? _); lia|]). constructor.
Qed.
Print Assumptions C09_finish_read_refuted.

(** A reader that is dropped while a reset waits for it leaves the buffer unusable: until the file is opened again, no reservation and
    no read succeeds, whatever is called. *)
Theorem C09_dropped_reader_refuted : exists f l n, in_range 60 f /\ n_open hc (Some f) 100 OBlock false true st0 = Ok n /\ Forall cop_ok l /\ unused (fst (c_run rc hc n l)) /\
  forall l', Forall (fun o => match o with Do o => nop_ok o /\ plain_op o | Spoil _ => True end /\ no_reopen o) l' -> Forall (fun out => forall r, out <> NRange (Ok r)) (snd (c_run rc hc (fst (c_run rc hc n l)) l')).
Proof.
  exists (wrapped (fun _ => 255)), (map Do [NRegisterProducer; NRegisterConsumer; NStartRead false; NReserve 3 false; NWrite 0 [1; 2; 3]; NCommit; NStartRead false] ++ [Spoil (fun i => 0); Do (NReserve 4 false); Do NDropConsumer; Do NRegisterConsumer]).
  eexists. split; [apply wrapped_in_range, all_ones|]. split; [vm_compute; reflexivity|]. split; [|split].
  - repeat (constructor; [repeat split; try lia; repeat constructor; try lia|]). constructor.
  - vm_compute. split; reflexivity.
  - intros l' F. apply run_stuck; [|exact F]. vm_compute. repeat split; auto.
Qed.
Print Assumptions C09_dropped_reader_refuted.

(** A cursor loops for ever (holding the lock of the buffer) when the damaged size of the record at 0 leads past the newest record (at 9)
    back to the place where the buffer wrapped. *)
Definition ring : Z -> Z := fun i => if i =? 24 then 4 else if i =? 36 then 4 else if i =? 4 then 36 else 0.
Lemma ring_bytes : bytes ring. Proof. intros i. unfold ring. repeat destruct (_ =? _); lia. Qed.
Definition round (x : Z) (st : stats) : common := set_stats st (set_cur (Some x) (common_new ring 60 18 (Some 9) (Some 43) (Some 20) 4 OBlock (hc 18 (Some 9) (Some 43) (Some 20)))).
Lemma round_start st : start_read (n_cb hc) false (round 0 st) false false CursorYes = (round 0 st, Ok (mkRange 0 44)) /\
  start_read (n_cb hc) false (round 20 st) false false CursorYes = (round 32 st, Ok (mkRange 20 12)) /\ start_read (n_cb hc) false (round 32 st) false false CursorYes = (round 0 st, Ok (mkRange 32 12)).
Proof. vm_compute. repeat split. Qed.
Lemma round_sum st : (record_crc rc (round 0 st) (mkRange 0 44) =? from_bytes (mem_get (c_mem (round 0 st)) 0 4)) = false /\
  (record_crc rc (round 32 st) (mkRange 20 12) =? from_bytes (mem_get (c_mem (round 32 st)) 20 4)) = false /\ (record_crc rc (round 0 st) (mkRange 32 12) =? from_bytes (mem_get (c_mem (round 0 st)) 32 4)) = false.
Proof. vm_compute. repeat split. Qed.
Lemma round_for_ever fuel : forall st x, x = 0 \/ x = 20 \/ x = 32 -> snd (consumer_start_read rc hc fuel true false (round x st) false false CursorYes) = Panic.
Proof.
  induction fuel as [|fuel IH]; intros st x Hx; [reflexivity|]. cbn [consumer_start_read]. destruct (round_start st) as (E1 & E2 & E3). destruct (round_sum st) as (F1 & F2 & F3).
  destruct Hx as [ -> |[ -> | -> ] ]; [rewrite E1|rewrite E2|rewrite E3]; cbn [r_start]; [rewrite F1|rewrite F2|rewrite F3]; cbn iota;
    match goal with |- context [count_corrupted (round ?x st)] => change (count_corrupted (round x st)) with (round x (c_stats (count_corrupted (round x st)))) end; apply IH; auto.
Qed.
Theorem C09_cursor_loop_refuted : exists f n n', in_range 60 f /\ n_open hc (Some f) 100 OBlock false true st0 = Ok n /\ n_register_cursor n = (n', Ok tt) /\
  forall fuel, snd (n_start_read_fuel rc hc fuel n' (Ahead []) false) = Panic.
Proof.
  exists (mkFile 100 1 100 18 (Some 9) (Some 43) (Some 20) (hc 18 (Some 9) (Some 43) (Some 20)) ring). eexists. eexists. split; [|split; [reflexivity|split; [reflexivity|] ] ].
  - split; [cbn; lia|]. split; [|exact ring_bytes]. intros s H. inv H. split; [lia|discriminate].
  - intros fuel. unfold n_start_read_fuel. match goal with |- context [consumer_start_read rc hc fuel ?a ?b ?c false false CursorYes] => assert (E : snd (consumer_start_read rc hc fuel a b c false false CursorYes) = Panic) end.
    2:{ destruct (consumer_start_read _ _ _ _ _ _ _ _ _) as [c r]. cbn [snd] in E. subst r. reflexivity. }
    match goal with |- context [consumer_start_read rc hc fuel ?a ?b ?c false false CursorYes] => change (consumer_start_read rc hc fuel a b c false false CursorYes) with (consumer_start_read rc hc fuel true false (round 20 st0) false false CursorYes) end.
    apply round_for_ever. auto.
Qed.
Print Assumptions C09_cursor_loop_refuted.
