(** C145: asynchronous reads of volatile buffers. *)
From Verif Require Import Base Ring_Model Volatile_Model Volatile_Spec AsyncRead_Model AsyncRead_Proofs AsyncReadVolatile_Proofs.
Open Scope Z_scope.

(** Any interleaving of calls of producers, other calls, and one consumer that calls [read] again and again and may give up while it
    waits. The calls of the buffer are those of a FIFO queue in the state [s]. A reader that nobody will wake ([Awaiting false]) has nothing to
    read. While a [read] is going on and the consumer holds no record: when a record is there, the [read] returns the oldest one within
    three moves of its own, whatever the others did before; when there is none, it yields within six moves of its own. *)
Theorem C145_volatile : forall mem cap l st calls, 0 <= cap < 2147483648 -> Forall (ok_h vop_ok) l -> reader_run v_ring (mkReader (v_new mem cap) false Away) l = (st, calls) ->
  exists s, run cap fifo_init (map fst calls) (map snd calls) s /\ (rs_at st = Awaiting false -> f_unread s = []) /\
    (rs_at st <> Away -> f_reader s = Some false ->
       match f_unread s with
       | x :: _ => exists k st' a, (k <= 3)%nat /\ reader_run v_ring st (repeat Poll k) = (st', [(VStartRead false, ORange (Ok (mkRange a (Z.of_nat (length (rec_data x))))))]) /\ rs_at st' = Away
       | [] => exists k st' c, (k <= 6)%nat /\ reader_run v_ring st (repeat Poll k) = (st', c) /\ rs_at st' = Awaiting false
       end).
Proof. exact v_async_waits. Qed.
Print Assumptions C145_volatile.

(** The consumer begins to wait; a record is committed between its look at the channel and its wait; it is woken and gets the record. *)
Definition waits : list (happening vop) :=
  [Own VRegisterConsumer; Begin; Poll; Poll; Poll; Poll; Poll].
Definition answered (x : reader_state vbuf * list (vop * vout)) : place * list (vop * vout) := (rs_at (fst x), snd x).
Example C145_waits : answered (reader_run v_ring (mkReader (v_new (fun _ => 0) 60) false Away) waits) =
  (Awaiting false, [(VRegisterConsumer, ORes (Ok tt)); (VStartRead false, ORange (Err Unavailable))]).
Proof. vm_compute. reflexivity. Qed.
Example C145_woken : answered (reader_run v_ring (mkReader (v_new (fun _ => 0) 60) false Away)
    (waits ++ [Other (VReserve 1 3 false); Other (VWrite 1 0 [7; 8; 9]); Poll; Other (VCommit 1); Poll; Poll; Poll; Own VPeek])) =
  (Away, [(VRegisterConsumer, ORes (Ok tt)); (VStartRead false, ORange (Err Unavailable)); (VReserve 1 3 false, ORange (Ok (mkRange 4 3))); (VWrite 1 0 [7; 8; 9], OUnit); (VCommit 1, ORes (Ok tt));
          (VStartRead false, ORange (Ok (mkRange 4 3))); (VPeek, OBytes (Some [7; 8; 9]))]).
Proof. vm_compute. reflexivity. Qed.

(** C145. A read that is cancelled while it waits ends without a call of the buffer, and the next read returns the first record there is: nothing is lost. *)
Theorem C145_cancelled : forall mem cap l st calls f, 0 <= cap < 2147483648 -> Forall (ok_h vop_ok) l -> reader_run v_ring (mkReader (v_new mem cap) false Away) l = (st, calls) -> rs_at st = Awaiting f ->
  exists s st1, run cap fifo_init (map fst calls) (map snd calls) s /\ reader_run v_ring st [Cancel] = (st1, []) /\ rs_at st1 = Away /\ rs_buf st1 = rs_buf st /\
    (f_reader s = Some false -> forall x rest, f_unread s = x :: rest ->
       exists k st' a, (k <= 3)%nat /\ reader_run v_ring st1 (Begin :: repeat Poll k) = (st', [(VStartRead false, ORange (Ok (mkRange a (Z.of_nat (length (rec_data x))))))]) /\ rs_at st' = Away).
Proof.
  intros mem cap l st calls f C F H A.
  assert (H1 : reader_run v_ring st [Cancel] = (mkReader (rs_buf st) (rs_since st) Away, [])) by (cbn [reader_run reader_step]; rewrite A; reflexivity).
  assert (H2 : reader_run v_ring st [Cancel; Begin] = (mkReader (rs_buf st) (rs_since st) (Top (rs_since st)), [])) by (cbn [reader_run reader_step]; rewrite A; reflexivity).
  assert (H3 : reader_run v_ring (mkReader (v_new mem cap) false Away) (l ++ [Cancel; Begin]) = (mkReader (rs_buf st) (rs_since st) (Top (rs_since st)), calls)).
  { revert H H2. generalize (mkReader (v_new mem cap) false Away) as s0. clear. revert st calls. induction l as [|h l IH]; intros st calls s0 H H2.
    - cbn [reader_run] in H. injection H as <- <-. exact H2.
    - cbn [app reader_run] in *. destruct (reader_step v_ring s0 h) as [s1 c1]. destruct (reader_run v_ring s1 l) as [s2 c2] eqn:E. injection H as <- <-. rewrite (IH s2 c2 s1 E H2). reflexivity. }
  assert (F2 : Forall (ok_h vop_ok) (l ++ [Cancel; Begin])) by (apply Forall_app; split; [exact F|repeat constructor]).
  destruct (C145_volatile mem cap _ _ _ C F2 H3) as (s & R & _ & V). exists s. eexists. split; [exact R|]. split; [exact H1|]. split; [reflexivity|]. split; [reflexivity|].
  intros Q x rest U. cbn [rs_at] in V. specialize (V ltac:(discriminate) Q). rewrite U in V. destruct V as (k & st' & a & K & V1 & V2). exists k, st', a. split; [exact K|]. split; [|exact V2].
  cbn [reader_run reader_step rs_at rs_buf rs_since]. cbn [reader_run] in V1. rewrite V1. reflexivity.
Qed.
Print Assumptions C145_cancelled.
(** A record is committed while the read waits; the read is cancelled before it is woken; the next one returns the record. *)
Definition committed : list (happening vop) := waits ++ [Other (VReserve 1 3 false); Other (VWrite 1 0 [7; 8; 9]); Other (VCommit 1)].
Example C145_cancelled_case : fst (answered (reader_run v_ring (mkReader (v_new (fun _ => 0) 60) false Away) committed)) = Awaiting true /\
  skipn 5 (snd (answered (reader_run v_ring (mkReader (v_new (fun _ => 0) 60) false Away) (committed ++ [Cancel; Begin; Poll; Poll; Own VPeek])))) =
  [(VStartRead false, ORange (Ok (mkRange 4 3))); (VPeek, OBytes (Some [7; 8; 9]))].
Proof. split; vm_compute; reflexivity. Qed.
