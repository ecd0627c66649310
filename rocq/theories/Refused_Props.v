(** C146: the counters of refused records. *)
From Verif Require Import Base Ring_Model Volatile_Model Volatile_Spec Nonvolatile_Model Refused_Spec Refused_Proofs.
Open Scope Z_scope.

(** A volatile buffer counts exactly the reservations it refused, and their bytes. *)
Theorem C146_volatile : forall mem cap ops v outs, 0 <= cap < 2147483648 -> Forall vop_ok ops -> v_run (v_new mem cap) ops = (v, outs) ->
  (s_records_refused (c_stats (v_c v)), s_bytes_refused (c_stats (v_c v))) = v_refusals ledger0 ops outs.
Proof. exact v_refused_new. Qed.
Print Assumptions C146_volatile.

(** Two refused for lack of room, one locked out, one too large; one of a producer that still holds a reservation. *)
Example C146_volatile_case :
  let ops := [VReserve 0 10 false; VReserve 1 10 false; VReserve 1 30 false; VReserve 2 30 false; VReserve 2 1000 false; VLock; VReserve 3 5 false; VReserve 0 5 false] in
  v_refusals ledger0 ops (snd (v_run (v_new (fun _ => 0) 60) ops)) = (3, 35) /\ Forall vop_ok ops.
Proof. split; [vm_compute; reflexivity|]. repeat (apply Forall_cons; [cbn; lia || exact I|]). apply Forall_nil. Qed.

(** A file buffer that overwrites counts exactly the reservations it refused, whatever its file contained and after crashes too, as long
    as no reservation panics. Missing for the full claim: buffers that do not overwrite (refuted below), and the bytes (refuted below). *)
Theorem C146_overwriting_partial rcrc hcrc : forall f size hold check st n l n' outs, n_open hcrc f size OYes hold check st = Ok n -> n_run rcrc hcrc n l = (n', outs) ->
  Forall (fun out => out <> NRange Panic) outs -> s_records_refused (c_stats (n_c n')) = s_records_refused st + n_refusals false l outs.
Proof. exact (n_refused_open rcrc hcrc). Qed.
Print Assumptions C146_overwriting_partial.

(** The checksums play no role here. *)
Definition no_rc (l : list Z) : Z := 0.
Definition no_hc (a : Z) (b c d : option Z) : Z := 0.
Definition ran (f : option file) (ow : overwrite) (l : list nop) : option (stats * list nout) :=
  match n_open no_hc f 100 ow false true stats0 with Ok n => let (n', outs) := n_run no_rc no_hc n l in Some (c_stats (n_c n'), outs) | _ => None end.
Definition busy_day : list nop := [NRegisterProducer; NRegisterConsumer; NReserve 30 false; NReserve 4 false; NCommit; NStartRead false; NReserve 30 false; NReserve 0 false; NLock; NReserve 1 false].
Example C146_overwriting_case : option_map (fun x => (s_records_refused (fst x), n_refusals false busy_day (snd x))) (ran None OYes busy_day) = Some (3, 3).
Proof. vm_compute. reflexivity. Qed.

(** A buffer that does not overwrite does not count the records it refuses because it is full. *)
Theorem C146_full_refuted : exists l st outs, ran None OBlock l = Some (st, outs) /\
  s_records_refused st = 0 /\ n_refusals false l outs = 1 /\ nth_error outs 3 = Some (NRange (Err Unavailable)) /\ nth_error l 3 = Some (NReserve 30 false).
Proof.
  eexists [NRegisterProducer; NReserve 30 false; NCommit; NReserve 30 false], _, _. split; [vm_compute; reflexivity|]. auto.
Qed.
Print Assumptions C146_full_refuted.

(** When a damaged file makes a reservation fail, the bytes counted are not those of the record: the bookkeeping bytes are included. *)
Theorem C146_bytes_refuted : exists f st outs, ran (Some f) OYes [NRegisterProducer; NReserve 30 false] = Some (st, outs) /\
  nth_error outs 1 = Some (NRange (Err Unavailable)) /\ s_records_refused st = 1 /\ s_bytes_refused st = 38.
Proof.
  eexists (mkFile 100 1 100 12 (Some 0) (Some 43) (Some 20) 0 (fun _ => 0)), _, _. split; [vm_compute; reflexivity|]. auto.
Qed.
Print Assumptions C146_bytes_refuted.
