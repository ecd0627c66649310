(** C136: every record committed to a continuous buffer is uploaded, if the flush thread, the upload task and the upload service keep getting their turns. *)
From Verif Require Import Base Ring_Model Volatile_Model Volatile_Spec Nonvolatile_Model Nonvolatile_Spec Aggregate_Model Aggregate_Spec Batching_Model Delivery_Model Delivery_Spec DeliveryLive_Proofs Delivery_Props.
Open Scope Z_scope.

(** After any history without a shutdown, a number of rounds in which each of them gets its turn, in any order and as often as it happens, is enough: whatever the limits and the answers
    of the service, every record then visible in RAM or in the file was in a batch whose upload was answered, in order and byte for byte, each once; both buffers are empty. *)
Theorem C136_delivered_partial rcrc hcrc : forall mem vsize nsize check st g ms d c o, 0 <= vsize -> nsize - header_size < 2147483648 ->
  g_new hcrc None mem vsize nsize OBlock check st = Ok g -> (check = true -> vsize + 4 <= nsize - header_size) ->
  Forall move_ok ms -> ~ In Stop ms -> ~ In (World Aggregate_Model.Shutdown) ms -> d_run rcrc hcrc (d_new g) ms = Some (d, c, o) ->
  exists s q n, explains rcrc vsize (cfg nsize OBlock check) fifo_init (queue_init (cfg nsize OBlock check)) c s q /\
    forall rs, Forall Delivery_Spec.round rs -> (n <= length rs)%nat -> exists d' c' o' s' q', attempts rcrc hcrc d (concat rs) = (d', c', o') /\
      explains rcrc vsize (cfg nsize OBlock check) s q c' s' q' /\ f_unread s' = [] /\ q_unread q' = [] /\ collecting d' = [] /\ to_release d' = 0%nat /\
      concat (answered None (o ++ o')) = bytes_consumed s ++ map rec_data (f_unread s).
Proof. exact (all_delivered rcrc hcrc). Qed.
Print Assumptions C136_delivered_partial.

(** * A concrete history *)
(** Three records; the first is taken, the second is in the file, the third in RAM; then rounds in an unhelpful order. *)
Definition morning : list move := log [1; 2; 3] ++ threads 9 ++ [Start; Take (mkLimits 5 100)] ++ log [4; 5] ++ threads 4 ++ log [6].
Definition turn : list move := [Release; Tick; Answer false; Take (mkLimits 2 100); Start; World Thread].
Definition carried (r : res agg) (ms : list move) (rs : list (list move)) : option (option worker * list seen * list seen) :=
  match r with
  | Ok g => match d_run rc hc (d_new g) ms with Some (d, _, o) => let '(d', _, o') := attempts rc hc d (concat rs) in Some (d_w d', o, o') | None => None end
  | _ => None
  end.
Example C136_case : Forall move_ok morning /\ ~ In Stop morning /\ ~ In (World Aggregate_Model.Shutdown) morning /\ (60 + 4 <= 132 - header_size) /\ Delivery_Spec.round turn /\
  exists w o o', carried made morning (repeat turn 20) = Some (w, o, o') /\ answered None o = [] /\ concat (answered None (o ++ o')) = [[1; 2; 3]; [4; 5]; [6]].
Proof.
  splits; try (unfold header_size; lia).
  - repeat constructor; cbn; lia.
  - cbn. intuition discriminate.
  - cbn. intuition discriminate.
  - unfold Delivery_Spec.round. split; [repeat constructor; cbn; auto; lia|]. cbn. intuition eauto 10.
  - do 3 eexists. split; [vm_compute; reflexivity|]. split; vm_compute; reflexivity.
Qed.

(** * What does not hold *)
(** A record that fits in the RAM buffer and not in the file (C80) ends the flush thread: nothing is uploaded, whatever happens later. *)
Definition too_long : list move := log (repeat 1 88) ++ threads 7 ++ [Start] ++ log [1; 2; 3].
Definition run_of (r : res agg) (ms : list move) : option (delivery * list call * list seen) := match r with Ok g => d_run rc hc (d_new g) ms | _ => None end.
Lemma run_of_run r ms d c o : run_of r ms = Some (d, c, o) -> exists g, r = Ok g /\ d_run rc hc (d_new g) ms = Some (d, c, o).
Proof. unfold run_of. destruct r; try discriminate. eauto. Qed.
Definition gone_wrong (x : option (delivery * list call * list seen)) : bool :=
  match x with Some (d, c, o) => match g_pos (d_g d) with FDone => true | _ => false end && forallb (fun x => negb (finishes x)) c | None => false end.
Theorem C136_delivered_refuted : exists g d c o, g_new hc None (fun _ => 0) 92 132 OBlock true st0 = Ok g /\ Forall move_ok too_long /\ ~ In Stop too_long /\ ~ In (World Aggregate_Model.Shutdown) too_long /\
  d_run rc hc (d_new g) too_long = Some (d, c, o) /\ filter (fun c => match c with VCall (VCommit _) _ => true | _ => false end) c = [VCall (VCommit 0) (ORes (Ok tt)); VCall (VCommit 0) (ORes (Ok tt))] /\
  forall ms' d' c' o', Forall move_ok ms' -> d_run rc hc d ms' = Some (d', c', o') -> sent (o ++ o') = [].
Proof.
  assert (F : Forall move_ok too_long) by (repeat constructor; cbn; lia).
  assert (C : match run_of (g_new hc None (fun _ => 0) 92 132 OBlock true st0) too_long with Some (_, c, _) => filter (fun c => match c with VCall (VCommit _) _ => true | _ => false end) c | None => [] end
    = [VCall (VCommit 0) (ORes (Ok tt)); VCall (VCommit 0) (ORes (Ok tt))]) by (vm_compute; reflexivity).
  assert (W : gone_wrong (run_of (g_new hc None (fun _ => 0) 92 132 OBlock true st0) too_long) = true) by (vm_compute; reflexivity).
  assert (N1 : ~ In Stop too_long) by (cbn; intuition discriminate). assert (N2 : ~ In (World Aggregate_Model.Shutdown) too_long) by (cbn; intuition discriminate).
  destruct (run_of (g_new hc None (fun _ => 0) 92 132 OBlock true st0) too_long) as [[[d c] o]|] eqn:R; [|discriminate]. apply run_of_run in R. destruct R as (g & E & R).
  exists g, d, c, o. split; [exact E|]. split; [exact F|]. split; [exact N1|]. split; [exact N2|]. split; [exact R|]. split; [exact C|].
  cbn [gone_wrong] in W. apply andb_true_iff in W as [W1 W2].
  apply (never_sent rc hc (fun _ => 0) 92 132 true st0 g too_long d c o ltac:(lia) ltac:(reflexivity) E F R); [destruct (g_pos (d_g d)); try discriminate; reflexivity|exact W2].
Qed.
Print Assumptions C136_delivered_refuted.
