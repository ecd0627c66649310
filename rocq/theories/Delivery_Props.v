(** C135: a continuous buffer and the task that uploads it. Schedules of producers, flush thread, upload task, upload service and shutdowns are arbitrary. *)
From Verif Require Import Base Ring_Model Volatile_Model Volatile_Spec Nonvolatile_Model Nonvolatile_Spec Aggregate_Model Aggregate_Spec Batching_Model Delivery_Model Delivery_Spec Delivery_Proofs.
From Verif Require Batching_Spec.
Open Scope Z_scope.

(** The records of the batches sent, followed by those of the batch being built, are the first ones that were written to the file, in order and byte for byte; and these are
    those that left the RAM buffer ([linked]). *)
Theorem C135_delivered rcrc hcrc : forall mem vsize nsize check st g ms d c o, 0 <= vsize -> nsize - header_size < 2147483648 ->
  g_new hcrc None mem vsize nsize OBlock check st = Ok g -> Forall move_ok ms -> d_run rcrc hcrc (d_new g) ms = Some (d, c, o) ->
  exists s q, explains rcrc vsize (cfg nsize OBlock check) fifo_init (queue_init (cfg nsize OBlock check)) c s q /\ linked s q /\
    exists rest, bytes_written q = concat (sent o) ++ collecting d ++ rest.
Proof.
  intros mem vsize nsize check st g ms d c o H1 H2 E F R. destruct (run_spec rcrc hcrc _ _ _ _ _ _ _ _ _ _ H1 H2 E F R) as (s & q & X & L & _ & _ & W & _). exists s, q. auto.
Qed.
Print Assumptions C135_delivered.

(** The batches respect the limits, as in C17. *)
Theorem C135_batches rcrc hcrc : forall mem vsize nsize check st g ms d c o, 0 <= vsize -> nsize - header_size < 2147483648 ->
  g_new hcrc None mem vsize nsize OBlock check st = Ok g -> Forall move_ok ms -> d_run rcrc hcrc (d_new g) ms = Some (d, c, o) ->
  exists bs cur, got o = concat bs ++ cur /\ sent o = map (map fst) bs /\ collecting d = map fst cur /\ Forall (fun b => b <> [] /\ Batching_Spec.grows b) bs.
Proof.
  intros mem vsize nsize check st g ms d c o H1 H2 E F R. destruct (run_spec rcrc hcrc _ _ _ _ _ _ _ _ _ _ H1 H2 E F R) as (s & q & _ & _ & _ & _ & _ & W & _). exact W.
Qed.
Print Assumptions C135_batches.

(** A record leaves the file only by a release of the task, the oldest first; all others are still there. *)
Theorem C135_released rcrc hcrc : forall mem vsize nsize check st g ms d c o, 0 <= vsize -> nsize - header_size < 2147483648 ->
  g_new hcrc None mem vsize nsize OBlock check st = Ok g -> Forall move_ok ms -> d_run rcrc hcrc (d_new g) ms = Some (d, c, o) ->
  exists s q, explains rcrc vsize (cfg nsize OBlock check) fifo_init (queue_init (cfg nsize OBlock check)) c s q /\ linked s q /\
    Forall (fun p => fst p = Consumed) (q_past q) /\ bytes_written q = removed q ++ map e_data (q_unread q) /\ length (removed q) = releases o.
Proof.
  intros mem vsize nsize check st g ms d c o H1 H2 E F R. destruct (run_spec rcrc hcrc _ _ _ _ _ _ _ _ _ _ H1 H2 E F R) as (s & q & X & L & B & P & _ & _ & _ & _ & _ & W). exists s, q. auto 10.
Qed.
Print Assumptions C135_released.

(** Unless an upload was given up, the records that left are those of the batches whose attempt was answered, but for
    those the task is about to release; all others are still in the file. *)
Theorem C135_removed_partial rcrc hcrc : forall mem vsize nsize check st g ms d c o, 0 <= vsize -> nsize - header_size < 2147483648 ->
  g_new hcrc None mem vsize nsize OBlock check st = Ok g -> Forall move_ok ms -> d_run rcrc hcrc (d_new g) ms = Some (d, c, o) -> ~ In GaveUp o ->
  exists s q, explains rcrc vsize (cfg nsize OBlock check) fifo_init (queue_init (cfg nsize OBlock check)) c s q /\ linked s q /\
    Forall (fun p => fst p = Consumed) (q_past q) /\ bytes_written q = removed q ++ map e_data (q_unread q) /\
    exists rest, concat (answered None o) = removed q ++ rest /\ length rest = to_release d.
Proof.
  intros mem vsize nsize check st g ms d c o H1 H2 E F R N. destruct (run_spec rcrc hcrc _ _ _ _ _ _ _ _ _ _ H1 H2 E F R) as (s & q & X & L & B & P & _ & _ & W & _). exists s, q. repeat (split; [assumption|]). exact (W N).
Qed.
Print Assumptions C135_removed_partial.

(** The buffer never fails the task; the task returns only when it was asked to. *)
Theorem C135_no_failure rcrc hcrc : forall mem vsize nsize check st g ms d c o, 0 <= vsize -> nsize - header_size < 2147483648 ->
  g_new hcrc None mem vsize nsize OBlock check st = Ok g -> Forall move_ok ms -> d_run rcrc hcrc (d_new g) ms = Some (d, c, o) ->
  ~ In Failed o /\ (ended d -> In Stop ms).
Proof.
  intros mem vsize nsize check st g ms d c o H1 H2 E F R. destruct (run_spec rcrc hcrc _ _ _ _ _ _ _ _ _ _ H1 H2 E F R) as (s & q & _ & _ & _ & _ & _ & _ & _ & N & W & _). split; [exact N|].
  intros En. destruct (run_asked rcrc hcrc _ _ _ _ _ R (W En)) as [A|[]]. exact A.
Qed.
Print Assumptions C135_no_failure.

(** * A concrete schedule *)
Definition rc (l : list Z) : Z := fold_left (fun a b => (a * 31 + b + 1) mod 4294967296) l 7.
Definition oz (o : option Z) : Z := match o with Some x => x + 2 | None => 1 end.
Definition hc (a : Z) (b c d : option Z) : Z := rc [a; oz b; oz c; oz d].
Definition st0 : stats := mkStats 0 0 0 0 0 0 0 0 0 0 0 0.
Definition log (bs : list Z) : list move := map World [Produce (VReserve 0 (Z.of_nat (length bs)) true); Produce (VWrite 0 0 bs); Produce (VCommit 0)].
Definition threads (n : nat) : list move := repeat (World Thread) n.
Definition two : limits := mkLimits 2 100.
Definition made : res agg := g_new hc None (fun _ => 0) 60 132 OBlock true st0.
Definition outcome (r : res agg) (ms : list move) : option (option worker * list seen) :=
  match r with
  | Ok g => match d_run rc hc (d_new g) ms with Some (d, _, o) => Some (d_w d, o) | None => None end
  | _ => None
  end.
(** Three records; the first two are uploaded as a batch, the third by the deadline; the flush thread moves in between; then a shutdown. *)
Definition day : list move := log [1; 2; 3] ++ threads 9 ++ [Start; Take two] ++ log [4; 5] ++ [Take two] ++ threads 6 ++ [Take two; World Flush] ++ log [6] ++
  [Answer true; Release] ++ threads 3 ++ [Release] ++ threads 3 ++ [Take two; Tick; Answer false; Release; Stop; SeeStop] ++ repeat (World Aggregate_Model.Shutdown) 8 ++ threads 5.
Example C135_case : Forall move_ok day /\
  outcome made day = Some (Some (mkW builder_new false true WEnded),
    [Got [1; 2; 3] two; Got [4; 5] two; Sent [[1; 2; 3]; [4; 5]]; Answered true; Released; Released; Got [6] two; Sent [[6]]; Answered false; Released]) /\
  ~ In GaveUp (match outcome made day with Some (_, o) => o | None => [] end).
Proof.
  splits; [repeat constructor; cbn; lia|vm_compute; reflexivity|]. replace (outcome made day) with (Some (Some (mkW builder_new false true WEnded),
    [Got [1; 2; 3] two; Got [4; 5] two; Sent [[1; 2; 3]; [4; 5]]; Answered true; Released; Released; Got [6] two; Sent [[6]]; Answered false; Released])) by (vm_compute; reflexivity).
  cbn. intuition discriminate.
Qed.

(** * What does not hold *)
(** After giving up an upload the task may find another record before it sees the shutdown again; it then releases the record of the batch it gave up, which was never answered. *)
Definition given_up : list move := log [1; 2; 3] ++ log [4; 5] ++ threads 15 ++ [Start; Take (mkLimits 1 100); Stop; SeeStop; Take (mkLimits 1 100); Answer true; Release].
Lemma outcome_run r ms w o : outcome r ms = Some (w, o) -> exists g d c, r = Ok g /\ d_run rc hc (d_new g) ms = Some (d, c, o) /\ d_w d = w.
Proof.
  unfold outcome. destruct r as [g|e|]; try discriminate. destruct (d_run rc hc (d_new g) ms) as [[[d c] o1]|] eqn:R; [|discriminate]. intros H. injection H as <- <-. exists g, d, c. auto.
Qed.
Theorem C135_removed_refuted : exists g d c o s q, g_new hc None (fun _ => 0) 60 132 OBlock true st0 = Ok g /\ Forall move_ok given_up /\ d_run rc hc (d_new g) given_up = Some (d, c, o) /\
  explains rc 60 (cfg 132 OBlock true) fifo_init (queue_init (cfg 132 OBlock true)) c s q /\ answered None o = [[[4; 5]]] /\ to_release d = 0%nat /\ removed q = [[1; 2; 3]].
Proof.
  assert (F : Forall move_ok given_up) by (repeat constructor; cbn; lia).
  assert (O : outcome made given_up = Some (Some (mkW builder_new false true WIdle), [Got [1; 2; 3] (mkLimits 1 100); Sent [[1; 2; 3]]; GaveUp; Got [4; 5] (mkLimits 1 100); Sent [[4; 5]]; Answered true; Released]))
    by (vm_compute; reflexivity).
  destruct (outcome_run _ _ _ _ O) as (g & d & c & E & R & Ow). clear O. unfold made in E. remember [Got [1; 2; 3] (mkLimits 1 100); Sent [[1; 2; 3]]; GaveUp; Got [4; 5] (mkLimits 1 100); Sent [[4; 5]]; Answered true; Released] as o eqn:Oo.
  destruct (run_spec rc hc (fun _ => 0) 60 132 true st0 g given_up d c o ltac:(lia) ltac:(reflexivity) E F R) as (s & q & X & L & B & _ & (rest & W) & _ & _ & _ & _ & Le).
  exists g, d, c, o, s, q. split; [exact E|]. split; [exact F|]. split; [exact R|]. split; [exact X|]. subst o. split; [reflexivity|]. split; [unfold to_release; rewrite Ow; reflexivity|].
  cbn in Le, W. rewrite B in W. destruct (removed q) as [|x [|y l]]; try discriminate. cbn in W. injection W as -> _. reflexivity.
Qed.
Print Assumptions C135_removed_refuted.
