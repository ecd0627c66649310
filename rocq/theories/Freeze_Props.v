(** C138: a flush of a continuous buffer returns. *)
From Verif Require Import Base Ring_Model Volatile_Model Volatile_Spec Nonvolatile_Model Nonvolatile_Spec Aggregate_Model Aggregate_Spec Batching_Model Delivery_Model Delivery_Spec Delivery_Props
  Freeze_Model Freeze_Spec Freeze_Proofs.
Open Scope Z_scope.

(** After any history without a shutdown in which a flush is waiting, some steps of the flush thread settle it: the flush is over, RAM is empty and all its records went to the file, in
    order and byte for byte; or everything stands still for good, and that only if the file is short of room for the oldest record in RAM, and if the records in the file and in RAM when the
    flush was waiting do not fit in the file together. *)
Theorem C138_settles rcrc hcrc : forall mem vsize nsize check st g ms x c o, 0 <= vsize -> nsize - header_size < 2147483648 ->
  g_new hcrc None mem vsize nsize OBlock check st = Ok g -> (check = true -> vsize + 4 <= nsize - header_size) ->
  Forall move_ok ms -> ~ In Stop ms -> ~ In (World Aggregate_Model.Shutdown) ms -> sdk_run rcrc hcrc (sdk_new g) ms = Some (x, c, o) -> sdk_held x = true ->
  exists s q, explains rcrc vsize (cfg nsize OBlock check) fifo_init (queue_init (cfg nsize OBlock check)) c s q /\
    exists i x' c' s' q', sdk_run rcrc hcrc x (flush_thread i) = Some (x', c', []) /\ explains rcrc vsize (cfg nsize OBlock check) s q c' s' q' /\
    (sdk_held x' = false /\ f_unread s' = [] /\ bytes_consumed s' = bytes_consumed s ++ map rec_data (f_unread s) \/
     frozen rcrc hcrc x' /\ (exists r u, f_unread s' = r :: u /\ Nonvolatile_Spec.short_of_room (cfg nsize OBlock check) (q_unread q') (Z.of_nat (length (rec_data r)))) /\
     ~ fits_together (k_extra (cfg nsize OBlock check)) (nsize - header_size) (map e_data (q_unread q) ++ map rec_data (f_unread s))).
Proof. exact (flush_outcome rcrc hcrc). Qed.
Print Assumptions C138_settles.

(** So a flush returns whenever what is in RAM and in the file fits in the file together. *)
Theorem C138_returns_partial rcrc hcrc : forall mem vsize nsize check st g ms x c o, 0 <= vsize -> nsize - header_size < 2147483648 ->
  g_new hcrc None mem vsize nsize OBlock check st = Ok g -> (check = true -> vsize + 4 <= nsize - header_size) ->
  Forall move_ok ms -> ~ In Stop ms -> ~ In (World Aggregate_Model.Shutdown) ms -> sdk_run rcrc hcrc (sdk_new g) ms = Some (x, c, o) -> sdk_held x = true ->
  exists s q, explains rcrc vsize (cfg nsize OBlock check) fifo_init (queue_init (cfg nsize OBlock check)) c s q /\
    (fits_together (k_extra (cfg nsize OBlock check)) (nsize - header_size) (map e_data (q_unread q) ++ map rec_data (f_unread s)) ->
     exists i x' c', sdk_run rcrc hcrc x (flush_thread i) = Some (x', c', []) /\ sdk_held x' = false).
Proof.
  intros mem vsize nsize check st g ms x c o H1 H2 E Hf F N1 N2 R Hx. destruct (flush_outcome rcrc hcrc _ _ _ _ _ _ _ _ _ _ H1 H2 E Hf F N1 N2 R Hx) as (s & q & X & i & x' & c' & s' & q' & R' & _ & Fin).
  exists s, q. split; [exact X|]. intros Fi. exists i, x', c'. split; [exact R'|]. destruct Fin as [[A _]|(_ & _ & A)]; [exact A|contradiction].
Qed.
Print Assumptions C138_returns_partial.

(** * Concrete histories *)
Definition run_sdk (r : res agg) (ms : list move) : option (sdk * list call * list seen) := match r with Ok g => sdk_run rc hc (sdk_new g) ms | _ => None end.
Definition is_held (x : option (sdk * list call * list seen)) : bool := match x with Some (x, _, _) => sdk_held x | None => false end.
(** Two records in RAM, one in the file; a flush; then the flush thread alone. *)
Definition evening : list move := log [1; 2; 3] ++ threads 9 ++ log [4; 5] ++ log [6] ++ [World Flush].
Definition can_go (x : option (sdk * list call * list seen)) : bool := match x with Some _ => true | None => false end.
Example C138_case : Forall move_ok evening /\ ~ In Stop evening /\ ~ In (World Aggregate_Model.Shutdown) evening /\ (60 + 4 <= 132 - header_size) /\
  is_held (run_sdk made evening) = true /\ is_held (run_sdk made (evening ++ flush_thread 5)) = true /\ is_held (run_sdk made (evening ++ flush_thread 14)) = false /\
  can_go (run_sdk made (evening ++ [Start])) = false /\ can_go (run_sdk made (evening ++ flush_thread 14 ++ [Start])) = true /\
  fits_together (k_extra (cfg 132 OBlock true)) (132 - header_size) [[1; 2; 3]; [4; 5]; [6]].
Proof.
  split; [repeat constructor; cbn; lia|]. split; [cbn; intuition discriminate|]. split; [cbn; intuition discriminate|]. split; [unfold header_size; lia|].
  split; [vm_compute; reflexivity|]. split; [vm_compute; reflexivity|]. split; [vm_compute; reflexivity|]. split; [vm_compute; reflexivity|]. split; [vm_compute; reflexivity|].
  vm_compute. discriminate.
Qed.

(** * What does not hold *)
(** A device that is offline: the file is full of records that were not uploaded yet, another one is logged and the buffers are flushed. The SDK stands still for good: no record is taken, no
    upload is made, no answer is read, whatever happens later. *)
Definition offline : list move := concat (repeat (log (repeat 7 20) ++ threads 9) 3) ++ [Start] ++ log [5] ++ threads 3 ++ [World Flush].
Definition stands (x : option (sdk * list call * list seen)) : bool :=
  match x with Some (x, _, _) => sdk_held x && match g_pos (d_g (sdk_d x)) with FWait => true | _ => false end && negb (g_wake (d_g (sdk_d x))) | None => false end.
Lemma stands_frozen r ms : stands (run_sdk r ms) = true -> exists g x c o, r = Ok g /\ sdk_run rc hc (sdk_new g) ms = Some (x, c, o) /\ frozen rc hc x.
Proof.
  unfold run_sdk. destruct r as [g| |]; try discriminate. destruct (sdk_run rc hc (sdk_new g) ms) as [[[x c] o]|] eqn:R; [|discriminate]. cbn. intros H.
  apply andb_true_iff in H as [H H3]. apply andb_true_iff in H as [H1 H2]. exists g, x, c, o. split; [reflexivity|]. split; [exact R|].
  apply stuck_frozen; [exact H1|destruct (g_pos (d_g (sdk_d x))); try discriminate; reflexivity|destruct (g_wake (d_g (sdk_d x))); [discriminate|reflexivity]].
Qed.
Theorem C138_returns_refuted : exists g x c o, g_new hc None (fun _ => 0) 60 132 OBlock true st0 = Ok g /\ Forall move_ok offline /\ ~ In Stop offline /\ ~ In (World Aggregate_Model.Shutdown) offline /\
  sdk_run rc hc (sdk_new g) offline = Some (x, c, o) /\ frozen rc hc x.
Proof.
  assert (F : Forall move_ok offline) by (repeat constructor; cbn; lia).
  assert (N1 : ~ In Stop offline) by (cbn; intuition discriminate). assert (N2 : ~ In (World Aggregate_Model.Shutdown) offline) by (cbn; intuition discriminate).
  assert (S : stands (run_sdk made offline) = true) by (vm_compute; reflexivity). destruct (stands_frozen _ _ S) as (g & x & c & o & E & R & Fr). exists g, x, c, o. auto 10.
Qed.
Print Assumptions C138_returns_refuted.
