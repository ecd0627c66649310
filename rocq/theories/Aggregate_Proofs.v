(** Proofs about the aggregate ring buffer. *)
From Verif Require Import Base Ring_Model Volatile_Model Volatile_Spec Nonvolatile_Model Nonvolatile_Spec Aggregate_Model Aggregate_Spec.
From Verif Require NonvolatileClient_Spec Volatile_Proofs Nonvolatile_Proofs NonvolatileStores_Proofs NonvolatileQueue_Proofs NonvolatileUse_Proofs.
Open Scope Z_scope.

Section P.
Variable rcrc : list Z -> Z.
Variable hcrc : Z -> option Z -> option Z -> option Z -> Z.
Variable vcap : Z.
Variable k : config.
Hypothesis hold : k_hold k = true.
Hypothesis small : vcap < 4294967296.
Local Notation sum := (NonvolatileClient_Spec.record_sum rcrc).
Local Notation vstep := (Volatile_Spec.step vcap).
Local Notation nstep := (Nonvolatile_Spec.step k sum).
Local Notation g_step := (g_step rcrc hcrc).
Local Notation g_run := (g_run rcrc hcrc).
Local Notation thread_step := (thread_step rcrc hcrc).
Local Notation shutdown_step := (shutdown_step rcrc hcrc).
Local Notation n_step := (n_step rcrc hcrc).

(** * The volatile side *)
Definition sane (d : list Z) : Prop := 0 < Z.of_nat (length d) /\ Z.of_nat (length d) + 4 <= vcap.
Definition sizes (s : fifo) : Prop := Forall sane (contents (f_unread s) (f_slots s)).

Lemma overwrite_length : forall d off bs, 0 <= off -> off + Z.of_nat (length bs) <= Z.of_nat (length d) -> length (Volatile_Spec.overwrite_bytes d off bs) = length d.
Proof. intros d off bs H1 H2. unfold Volatile_Spec.overwrite_bytes. rewrite !app_length, firstn_length, skipn_length. lia. Qed.

Lemma Forall_on_slot : forall p f l, (forall sl, length (rec_data (sl_rec (f sl))) = length (rec_data (sl_rec sl))) ->
  Forall sane (map (fun s => rec_data (sl_rec s)) l) -> Forall sane (map (fun s => rec_data (sl_rec s)) (on_slot p f l)).
Proof.
  intros p f l Hf H. unfold on_slot. rewrite map_map. rewrite Forall_map in *. eapply Forall_impl; [|exact H]. intros sl Hs. cbv beta in *.
  destruct (sl_owner sl) as [q|]; [|exact Hs]. destruct (Nat.eqb q p); [|exact Hs]. unfold sane in *. rewrite Hf. exact Hs.
Qed.
Lemma publish_app : forall l v r, publish l = (v, r) -> l = map (fun s => s) (firstn (length v) l) ++ r /\ map sl_rec (firstn (length v) l) = v.
Proof.
  induction l as [|sl l IH]; cbn; intros v r E; [inv E; auto|]. destruct (sl_done sl); [|inv E; auto].
  destruct (publish l) as [v0 r0]. inv E. destruct (IH v0 r eq_refl) as [A B]. cbn. rewrite B. split; [f_equal; exact A|reflexivity].
Qed.

Lemma sizes_step : forall s o out s', vstep s o out s' -> sizes s -> sizes s'.
Proof.
  intros s o out s' St HZ. unfold sizes, contents in *. destruct St; cbn [f_unread f_slots set_slots Volatile_Spec.set_reader set_flocks add_wait]; try exact HZ;
    apply Forall_app in HZ; destruct HZ as [HA HB].
  - match goal with H : f_unread s = lost ++ kept |- _ => rewrite H, map_app in HA end. apply Forall_app in HA. destruct HA as [_ HA].
    apply Forall_app. split; [exact HA|]. rewrite map_app. apply Forall_app. split; [exact HB|]. repeat constructor; cbn; lia.
  - apply Forall_app. split; [exact HA|]. apply Forall_on_slot; [|exact HB]. intros sl. cbv zeta.
    destruct (_ && _) eqn:E; [|reflexivity]. cbn. apply overwrite_length; lia.
  - apply (Forall_on_slot p (fun sl => mkSlot (sl_rec sl) None true)) in HB; [|reflexivity].
    match goal with H : publish _ = _ |- _ => destruct (publish_app _ _ _ H) as [A B] end. rewrite map_id in A. rewrite A, map_app in HB. apply Forall_app in HB. destruct HB as [HB HC].
    rewrite <- map_map in HB. rewrite B in HB. rewrite map_app. rewrite <- app_assoc. apply Forall_app. split; [exact HA|]. apply Forall_app. split; assumption.
  - apply Forall_app. split; [exact HA|]. apply Forall_on_slot; [reflexivity|exact HB].
  - match goal with H : f_unread s = x :: l |- _ => rewrite H in HA end. inv HA. apply Forall_app. split; assumption.
Qed.

Definition vside (v : vbuf) (s : fifo) : Prop := (exists U, Volatile_Proofs.rel vcap v s U) /\ history s /\ sizes s.
Lemma v_sim : forall v s o v' out, vside v s -> vop_ok o -> v_step v o = (v', out) -> exists s', vstep s o out s' /\ vside v' s'.
Proof.
  intros v s o v' out ((U & R) & Hi & Hs) Ho E. destruct (Volatile_Proofs.sim_step _ _ _ _ _ _ _ R Hi Ho E) as (s' & U' & St & R').
  exists s'. split; [exact St|]. split; [eauto|]. split; [eapply Volatile_Proofs.history_step; eassumption|eapply sizes_step; eassumption].
Qed.

(** Calls other than those of the flush thread. *)
Definition foreign (o : vop) : bool := match o with VRegisterConsumer | VDropConsumer | VStartRead _ | VFinishRead | VPeek => false | _ => true end.
Lemma foreign_frame : forall s o out s', vstep s o out s' -> foreign o = true ->
  f_reader s' = f_reader s /\ f_consumed s' = f_consumed s /\ (Volatile_Spec.reading s -> exists more, f_unread s' = f_unread s ++ more).
Proof.
  intros s o out s' St F. destruct St; try discriminate; cbn; splits; auto; intros Hr; try (exists []; rewrite app_nil_r; reflexivity); eauto.
  match goal with H : Volatile_Spec.reading s -> lost = [] |- _ => rewrite (H Hr) in * end. exists []. rewrite app_nil_r. symmetry. assumption.
Qed.

(** * The non-volatile side *)
Definition J (plain : bool) (q : queue) : Prop := if plain then NonvolatileQueue_Proofs.no_cursor q else NonvolatileUse_Proofs.cursor_fine k q.
Definition allowed (plain : bool) (o : nop) : Prop :=
  match o with
  | NCrash _ _ | NReopen => False
  | NRegisterCursor => plain = false
  | NRegisterConsumer | NDropConsumer => plain = true
  | _ => True
  end.
Definition nside (plain : bool) (n : nbuf) (q : queue) : Prop :=
  (exists U D, Nonvolatile_Proofs.rel rcrc hcrc k n q U D) /\ NonvolatileQueue_Proofs.well q /\ J plain q.

Lemma J_step : forall plain q o out q', nstep q o out q' -> allowed plain o -> (o = NDropProducer -> q_slot q = None) -> J plain q -> J plain q'.
Proof.
  intros plain q o out q' St A D H. destruct plain; cbn [J] in *.
  - eapply NonvolatileQueue_Proofs.step_no_cursor; [exact St| |exact H]. intros ->. discriminate.
  - destruct o; try contradiction; try discriminate; try (eapply NonvolatileUse_Proofs.step_cursor_fine; [exact St|exact Logic.I|exact H]).
    inv St; [|exact H]. unfold abandon. rewrite (D eq_refl). exact H.
Qed.
Lemma J_fine : forall plain q o, J plain q -> allowed plain o -> ~ misuse k q o.
Proof.
  intros plain q o H A [Q M]. destruct plain; cbn [J] in H.
  - destruct o; try contradiction; try discriminate. destruct M as [m M]. exact (H m M).
  - destruct H as [F1 F2]. destruct o; try contradiction.
    + destruct M as [_ M]. rewrite (F1 M) in Q. discriminate.
    + destruct M as [m M]. destruct (k_ow k) eqn:Ow; [rewrite (F1 eq_refl) in Q; discriminate|]. exact (F2 eq_refl m M).
Qed.
Lemma n_sim : forall plain n q o n' out, nside plain n q -> nop_ok o -> allowed plain o -> (o = NDropProducer -> q_slot q = None) -> n_step n o = (n', out) ->
  exists q', nstep q o out q' /\ nside plain n' q'.
Proof.
  intros plain n q o n' out ((U & D & R) & W & HJ) Ho A Dr E.
  destruct (NonvolatileStores_Proofs.sim_step rcrc hcrc k n q U D o R Ho) as [[T|(o' & j & -> & _)]|(q' & U' & D' & St & R')].
  - exfalso. eapply J_fine; eassumption.
  - contradiction.
  - rewrite E in St, R'. cbn [fst snd] in *. exists q'. split; [exact St|]. split; [eauto|]. split; [eapply NonvolatileQueue_Proofs.step_order; eassumption|].
    eapply J_step; eassumption.
Qed.

(** Calls of the consumer. *)
Lemma consumer_frame : forall q o out q', nstep q o out q' -> consumer_call o = true -> q_gone q = [] -> Forall (fun e => e_done e = true) (written q) ->
  q_prod q' = q_prod q /\ q_slot q' = q_slot q /\ q_wait q' = q_wait q /\ q_gone q' = [] /\ q_locks q' = q_locks q /\ q_shut q' = q_shut q /\
  bytes_written q' = bytes_written q /\ Forall (fun e => e_done e = true) (written q').
Proof.
  assert (LV: forall fs u q, q_gone q = [] -> q_prod (leave fs u q) = q_prod q /\ q_slot (leave fs u q) = q_slot q /\ q_wait (leave fs u q) = q_wait q /\
    q_gone (leave fs u q) = [] /\ q_locks (leave fs u q) = q_locks q /\ q_shut (leave fs u q) = q_shut q /\ written (leave fs u q) = map snd (q_past q) ++ map snd fs ++ u).
  { intros fs u q G. unfold leave, written. destruct u; cbn; rewrite G; cbn; splits; auto; rewrite ?map_app, ?app_nil_r; cbn; rewrite ?app_nil_r, <- ?app_assoc; auto. }
  assert (MS: forall (f : fate) (l : list entry), map snd (map (pair f) l) = l) by (intros f l; rewrite map_map; apply map_id).
  intros q o out q' St C G Fd. destruct St; try discriminate; unfold bytes_written in *; cbn [set_sync Nonvolatile_Spec.set_reader q_prod q_slot q_wait q_gone q_locks q_shut]; try (splits; auto; fail).
  - destruct (LV (map (pair Skipped) skip) (dim k x :: l) q G) as (-> & -> & -> & -> & -> & -> & E). splits; auto.
    + change (written (Nonvolatile_Spec.set_reader (Regular true) (leave (map (pair Skipped) skip) (dim k x :: l) q))) with (written (leave (map (pair Skipped) skip) (dim k x :: l) q)).
      rewrite E, MS. unfold written. rewrite H0, G, app_nil_r. rewrite !map_app. cbn [map]. f_equal. f_equal. f_equal. unfold dim. destruct (k_check k); reflexivity.
    + change (written (Nonvolatile_Spec.set_reader (Regular true) (leave (map (pair Skipped) skip) (dim k x :: l) q))) with (written (leave (map (pair Skipped) skip) (dim k x :: l) q)).
      rewrite E, MS. unfold written in Fd. rewrite H0, G, app_nil_r in Fd. rewrite !Forall_app in *. destruct Fd as (A1 & A2 & A3). splits; auto. inv A3. constructor; [|assumption].
      unfold dim. destruct (k_check k); assumption.
  - destruct (LV (map (pair Skipped) (q_unread q)) [] q G) as (-> & -> & -> & -> & -> & -> & E). rewrite E, MS, app_nil_r. unfold written in *. rewrite G, app_nil_r in *. splits; auto.
  - destruct (LV [(Consumed, x)] l q G) as (-> & -> & -> & -> & -> & -> & E).
    change (written (Nonvolatile_Spec.set_reader (Regular false) (leave [(Consumed, x)] l q))) with (written (leave [(Consumed, x)] l q)). rewrite E. cbn [map snd app].
    unfold written in *. rewrite H0, G, app_nil_r in *. splits; auto.
  - destruct (LV [(Consumed, x)] l q G) as (-> & -> & -> & -> & -> & -> & E).
    change (written (Nonvolatile_Spec.set_reader (Cursor n) (leave [(Consumed, x)] l q))) with (written (leave [(Consumed, x)] l q)). rewrite E. cbn [map snd app].
    unfold written in *. rewrite H0, G, app_nil_r in *. splits; auto.
Qed.

(** * The invariant *)
Definition b2z (b : bool) : Z := if b then 1 else 0.
Definition begun (p : spos) : bool := match p with SIdle => false | _ => true end.
Definition quiet (p : spos) : bool := match p with SIdle | SAwait => false | _ => true end.
Definition flushed (p : spos) : bool := match p with SStop | SVolatile | SNonVolatile | SDone => true | _ => false end.
Definition stopped (p : spos) : bool := match p with SVolatile | SNonVolatile | SDone => true | _ => false end.
Definition vshut (p : spos) : bool := match p with SNonVolatile | SDone => true | _ => false end.
Definition nshut (p : spos) : bool := match p with SDone => true | _ => false end.
Definition ends (p : fpos) : bool := match p with FExit | FExit2 | FDone => true | _ => false end.

(** The thread holds the oldest record of the RAM buffer; [P] about it. *)
Definition holds (s : fifo) (P : list Z -> Prop) : Prop := f_reader s = Some true /\ exists x u, f_unread s = x :: u /\ P (rec_data x).
Definition same (s : fifo) (q : queue) : Prop := bytes_written q = bytes_consumed s.
Definition free (q : queue) : Prop := q_prod q = true /\ q_slot q = None /\ q_wait q = None.

Definition pos_inv (p : fpos) (s : fifo) (q : queue) : Prop :=
  match p with
  | FNew => f_reader s = None /\ q_prod q = false /\ q_slot q = None /\ q_wait q = None /\ same s q
  | FNew2 => f_reader s = Some false /\ q_prod q = false /\ q_slot q = None /\ q_wait q = None /\ same s q
  | FLoop | FRead => f_reader s = Some false /\ free q /\ same s q
  | FReserve n => holds s (fun d => n = Z.of_nat (length d)) /\ free q /\ same s q
  | FWait => holds s (fun d => exists second, q_wait q = Some (Z.of_nat (length d), true, second)) /\ q_prod q = true /\ q_slot q = None /\ same s q
  | FReserved => holds s (fun d => exists i d', q_slot q = Some (i, d') /\ length d' = length d) /\ q_prod q = true /\ q_wait q = None /\ same s q
  | FCopied => holds s (fun d => exists i, q_slot q = Some (i, d)) /\ q_prod q = true /\ q_wait q = None /\ same s q
  | FFinish => holds s (fun d => bytes_written q = bytes_consumed s ++ [d]) /\ free q
  | FExit => (exists b, f_reader s = Some b) /\ free q /\ same s q
  | FExit2 => (exists b, f_reader s = Some b) /\ q_prod q = false /\ q_slot q = None /\ q_wait q = None /\ same s q
  | FDone => q_prod q = false /\ q_slot q = None /\ q_wait q = None /\ same s q
  end.

Record shut_inv (g : agg) (s : fifo) (q : queue) : Prop := {
  h_locks : f_locks s = Z.of_nat (g_handles g) + b2z (begun (g_shut g)) + b2z (vshut (g_shut g));
  h_vshut : f_shut s = vshut (g_shut g);
  h_stop : g_stop g = stopped (g_shut g);
  h_nlocks : q_locks q = b2z (q_shut q);
  h_nshut : q_shut q = nshut (g_shut g);
  h_slots : quiet (g_shut g) = true -> f_slots s = [];
  h_wait : g_shut g = SWaiting -> exists m, In m (f_waits s) /\ forall x, In x (f_unread s) -> (rec_id x < m)%nat;
  h_past : flushed (g_shut g) = true -> k_ow k = OYes -> f_unread s = [];
  h_exit : ends (g_pos g) = true -> vcap + (k_extra k - 4) <= k_cap k -> g_stop g = true }.

Record inv_ (plain : bool) (g : agg) (s : fifo) (q : queue) : Prop := {
  i_v : vside (g_v g) s;
  i_n : nside plain (g_n g) q;
  i_gone : q_gone q = [];
  i_done : Forall (fun e => e_done e = true) (written q);
  i_pos : pos_inv (g_pos g) s q;
  i_shut : shut_inv g s q }.

(** What other callers do to the RAM buffer. *)
Lemma pos_foreign : forall p s s' q, pos_inv p s q -> f_reader s' = f_reader s -> f_consumed s' = f_consumed s ->
  (Volatile_Spec.reading s -> exists more, f_unread s' = f_unread s ++ more) -> pos_inv p s' q.
Proof.
  intros p s s' q H Hr Hc Hu.
  assert (HH: forall P, holds s P -> holds s' P).
  { intros P (A & x & u & B & C). split; [rewrite Hr; exact A|]. destruct (Hu A) as (more & E). exists x, (u ++ more). rewrite E, B. auto. }
  assert (SM: same s q -> same s' q) by (unfold same, bytes_consumed; rewrite Hc; auto).
  destruct p; cbn [pos_inv] in *; rewrite ?Hr; try tauto; try (destruct H as [A B]; split; [apply HH; exact A|]; tauto).
  destruct H as [A B]. split; [|exact B]. apply HH in A. unfold bytes_consumed in *. rewrite Hc. exact A.
Qed.

(** A producer whose buffer is locked and has no reservations left. *)
Lemma locked_producer : forall s o out s', vstep s o out s' -> producer_call o = true -> 0 < f_locks s -> f_slots s = [] ->
  f_unread s' = f_unread s /\ f_slots s' = [].
Proof.
  intros s o out s' St P L E. destruct St; try discriminate; cbn [f_unread f_slots set_slots]; try (split; auto; fail); try lia; try (rewrite E; auto; fail).
  exfalso. destruct H as (sl & Hin & _). rewrite E in Hin. destruct Hin.
Qed.
Lemma producer_frame : forall s o out s', vstep s o out s' -> producer_call o = true -> f_locks s' = f_locks s /\ f_shut s' = f_shut s /\ f_waits s' = f_waits s.
Proof. intros s o out s' St P. destruct St; try discriminate; cbn; auto. Qed.

Lemma vops_app : forall a b, vops (a ++ b) = vops a ++ vops b. Proof. intros. apply flat_map_app. Qed.
Lemma vouts_app : forall a b, vouts (a ++ b) = vouts a ++ vouts b. Proof. intros. apply flat_map_app. Qed.
Lemma nops_app : forall a b, nops (a ++ b) = nops a ++ nops b. Proof. intros. apply flat_map_app. Qed.
Lemma nouts_app : forall a b, nouts (a ++ b) = nouts a ++ nouts b. Proof. intros. apply flat_map_app. Qed.

Lemma explains_v : forall s q o out s', vstep s o out s' -> explains rcrc vcap k s q [VCall o out] s' q.
Proof. intros. split; [econstructor; [eassumption|constructor]|constructor]. Qed.
Lemma explains_n : forall s q o out q', nstep q o out q' -> explains rcrc vcap k s q [NCall o out] s q'.
Proof. intros. split; [constructor|econstructor; [eassumption|constructor]]. Qed.
Lemma explains_nil : forall s q, explains rcrc vcap k s q [] s q.
Proof. intros. split; constructor. Qed.
Lemma vrun_app : forall s1 a oa s2 b ob s3, Volatile_Spec.run vcap s1 a oa s2 -> Volatile_Spec.run vcap s2 b ob s3 -> Volatile_Spec.run vcap s1 (a ++ b) (oa ++ ob) s3.
Proof. intros. eapply Volatile_Proofs.run_app; eassumption. Qed.
Lemma nrun_app : forall s1 a oa s2 b ob s3, Nonvolatile_Spec.run k sum s1 a oa s2 -> Nonvolatile_Spec.run k sum s2 b ob s3 -> Nonvolatile_Spec.run k sum s1 (a ++ b) (oa ++ ob) s3.
Proof. intros s1 a oa s2 b ob s3 H. induction H; intros H2; [exact H2|]. cbn. econstructor; [eassumption|]. auto. Qed.
Lemma explains_app : forall s1 q1 a s2 q2 b s3 q3, explains rcrc vcap k s1 q1 a s2 q2 -> explains rcrc vcap k s2 q2 b s3 q3 -> explains rcrc vcap k s1 q1 (a ++ b) s3 q3.
Proof.
  intros s1 q1 a s2 q2 b s3 q3 [A1 A2] [B1 B2]. unfold explains. rewrite vops_app, vouts_app, nops_app, nouts_app.
  split; [eapply vrun_app; eassumption|eapply nrun_app; eassumption].
Qed.
Local Notation goal plain g' t s q := (exists s' q', explains rcrc vcap k s q t s' q' /\ inv_ plain g' s' q').

Lemma step_produce : forall plain g s q o, inv_ plain g s q -> vop_ok o -> producer_call o = true ->
  goal plain (fst (on_v g o)) [VCall o (snd (on_v g o))] s q.
Proof.
  intros plain g s q o H Ho P. unfold on_v. destruct (v_step (g_v g) o) as [v' out] eqn:E. cbn [fst snd].
  destruct (v_sim _ _ _ _ _ (i_v _ _ _ _ H) Ho E) as (s' & St & V'). exists s', q. split; [apply explains_v; exact St|].
  destruct (foreign_frame _ _ _ _ St) as (F1 & F2 & F3); [destruct o; try discriminate; reflexivity|]. destruct (producer_frame _ _ _ _ St P) as (F4 & F5 & F6).
  destruct H. constructor; auto; try (eapply pos_foreign; eassumption). destruct i_shut0.
  assert (Q: quiet (g_shut g) = true -> f_unread s' = f_unread s /\ f_slots s' = []).
  { intros Hq. eapply locked_producer; eauto. rewrite h_locks0. destruct (g_shut g); cbn in *; try discriminate; lia. }
  constructor; cbn [g_set_v g_shut g_stop g_handles g_pos]; rewrite ?F4, ?F5, ?F6; auto.
  - intros Hq. apply Q. exact Hq.
  - intros Hw. destruct Q as [-> _]; [rewrite Hw; reflexivity|]. auto.
  - intros Hf Hy. destruct Q as [-> _]; [destruct (g_shut g); cbn in *; congruence|]. auto.
Qed.

Lemma step_consume : forall plain g s q o, inv_ plain g s q -> allowed plain o -> consumer_call o = true ->
  goal plain (fst (on_n_signal rcrc hcrc g o)) [NCall o (snd (on_n_signal rcrc hcrc g o))] s q.
Proof.
  intros plain g s q o H A C. unfold on_n_signal. destruct (n_step (g_n g) o) as [n' out] eqn:E. cbn [fst snd].
  assert (Ho: nop_ok o) by (destruct o; try discriminate; exact Logic.I). assert (Hd: o = NDropProducer -> q_slot q = None) by (intros ->; discriminate).
  destruct (n_sim plain _ _ _ _ _ (i_n _ _ _ _ H) Ho A Hd E) as (q' & St & N').
  exists s, q'. split; [apply explains_n; exact St|].
  destruct (consumer_frame _ _ _ _ St C (i_gone _ _ _ _ H) (i_done _ _ _ _ H)) as (F1 & F2 & F3 & F4 & F5 & F6 & F7 & F8).
  destruct H. constructor; auto.
  - cbn [g_set_wake g_set_n g_pos]. destruct (g_pos g); cbn [pos_inv] in *; unfold same, free in *; rewrite ?F1, ?F2, ?F3, ?F7; exact i_pos0.
  - destruct i_shut0. constructor; cbn [g_set_wake g_set_n g_shut g_stop g_handles g_pos]; rewrite ?F5, ?F6; auto.
Qed.

Lemma step_flush : forall plain g s q, inv_ plain g s q ->
  exists s', vstep s VWaitForDrain (snd (on_v g VWaitForDrain)) s' /\ inv_ plain (fst (on_v g VWaitForDrain)) s' q.
Proof.
  intros plain g s q H. unfold on_v. destruct (v_step (g_v g) VWaitForDrain) as [v' out] eqn:E. cbn [fst snd].
  destruct (v_sim _ _ VWaitForDrain _ _ (i_v _ _ _ _ H) Logic.I E) as (s' & St & V'). exists s'. split; [exact St|].
  destruct (foreign_frame _ _ _ _ St eq_refl) as (F1 & F2 & F3).
  assert (F: f_locks s' = f_locks s /\ f_shut s' = f_shut s /\ f_slots s' = f_slots s /\ f_unread s' = f_unread s /\ incl (f_waits s) (f_waits s'))
    by (inv St; cbn; splits; auto; try apply incl_refl; apply incl_tl, incl_refl).
  destruct F as (F4 & F5 & F6 & F7 & F8).
  destruct H. constructor; auto; try (eapply pos_foreign; eassumption). destruct i_shut0.
  constructor; cbn [g_set_v g_shut g_stop g_handles g_pos]; rewrite ?F4, ?F5, ?F6, ?F7; auto.
  intros Hw. destruct (h_wait0 Hw) as (m & A & B). exists m. split; [apply F8; exact A|exact B].
Qed.

Lemma step_lock : forall plain g s q h out, inv_ plain g s q -> on_v g VLock = (h, out) ->
  goal plain (g_set_handles (S (g_handles h)) h) [VCall VLock out] s q.
Proof.
  intros plain g s q h out H E. unfold on_v in E. destruct (v_step (g_v g) VLock) as [v' out'] eqn:E'. inv E.
  destruct (v_sim _ _ VLock _ _ (i_v _ _ _ _ H) Logic.I E') as (s' & St & V'). exists s', q. split; [apply explains_v; exact St|].
  destruct (foreign_frame _ _ _ _ St eq_refl) as (F1 & F2 & F3). inv St.
  destruct H. constructor; auto; try (eapply pos_foreign; eassumption). destruct i_shut0.
  constructor; cbn [g_set_v g_set_handles g_shut g_stop g_handles g_pos set_flocks f_locks f_shut f_slots f_waits f_unread]; auto. rewrite h_locks0. lia.
Qed.

Lemma step_unlock : forall plain g s q h out n, inv_ plain g s q -> g_handles g = S n -> on_v g VUnlock = (h, out) ->
  goal plain (g_set_handles n h) [VCall VUnlock out] s q.
Proof.
  intros plain g s q h out n H Hn E. unfold on_v in E. destruct (v_step (g_v g) VUnlock) as [v' out'] eqn:E'. inv E.
  destruct (v_sim _ _ VUnlock _ _ (i_v _ _ _ _ H) Logic.I E') as (s' & St & V'). exists s', q. split; [apply explains_v; exact St|].
  destruct (foreign_frame _ _ _ _ St eq_refl) as (F1 & F2 & F3). inv St.
  destruct H. constructor; auto; try (eapply pos_foreign; eassumption). destruct i_shut0.
  constructor; cbn [g_set_v g_set_handles g_shut g_stop g_handles g_pos set_flocks f_locks f_shut f_slots f_waits f_unread]; auto. rewrite h_locks0. lia.
Qed.

Lemma must_await : forall v s, vside v s -> v_must_await_reservations v = false -> f_slots s = [].
Proof.
  intros v s ((U & R) & _) E. pose proof (Volatile_Proofs.r_slots _ _ _ _ R) as F. unfold v_must_await_reservations, IntrusiveQueue_Model.iq_is_empty in E.
  destruct (IntrusiveQueue_Model.iq_queue (v_res v)) eqn:Q; [|discriminate]. inv F. reflexivity.
Qed.
Lemma n_ow : forall plain n q, nside plain n q -> c_ow (n_c n) = k_ow k.
Proof. intros plain n q ((U & D & R) & _). exact (Nonvolatile_Proofs.nr_ow _ _ _ _ _ _ _ R). Qed.

Lemma step_shutdown : forall plain g s q, inv_ plain g s q -> goal plain (fst (shutdown_step g)) (snd (shutdown_step g)) s q.
Proof.
  intros plain g s q H. unfold Aggregate_Model.shutdown_step. destruct (g_shut g) eqn:Hs.
  - unfold on_v. destruct (v_step (g_v g) VLock) as [v' out] eqn:E. cbn [fst snd].
    destruct (v_sim _ _ VLock _ _ (i_v _ _ _ _ H) Logic.I E) as (s' & St & V'). exists s', q. split; [apply explains_v; exact St|].
    destruct (foreign_frame _ _ _ _ St eq_refl) as (F1 & F2 & F3). inv St.
    destruct H. constructor; auto; try (eapply pos_foreign; eassumption). destruct i_shut0. rewrite Hs in *.
    constructor; cbn [g_set_v g_set_shut g_shut g_stop g_handles g_pos set_flocks f_locks f_shut f_slots f_waits f_unread]; auto; try discriminate. cbn in *. lia.
  - destruct (v_must_await_reservations (g_v g)) eqn:M; cbn [fst snd]; [exists s, q; split; [apply explains_nil|exact H]|].
    exists s, q. split; [apply explains_nil|]. pose proof (must_await _ _ (i_v _ _ _ _ H) M) as Sl. rewrite (n_ow _ _ _ (i_n _ _ _ _ H)).
    destruct H. constructor; auto. destruct i_shut0. rewrite Hs in *.
    destruct (k_ow k) eqn:Ow; constructor; cbn [g_set_shut g_shut g_stop g_handles g_pos]; auto; try discriminate; try (intros; congruence).
  - destruct (step_flush plain g s q H) as (s' & St & I').
    destruct (on_v g VWaitForDrain) as [h out] eqn:E. cbn [fst snd] in *. exists s', q. split; [apply explains_v; exact St|].
    assert (Hh: g_shut h = SFlush) by (unfold on_v in E; destruct (v_step (g_v g) VWaitForDrain); inv E; exact Hs).
    destruct I'. constructor; auto. destruct i_shut0. rewrite Hh in *.
    inv St; cbn [g_set_shut g_shut]; constructor; cbn [g_set_shut g_shut g_stop g_handles g_pos]; auto; try discriminate; try (intros; congruence).
    intros _. exists k0. split; [left; reflexivity|assumption].
  - exists s, q. split; [apply explains_nil|exact H].
  - exists s, q. split; [apply explains_nil|]. destruct H. constructor; auto. destruct i_shut0. rewrite Hs in *.
    constructor; cbn [g_set_shut g_set_stop g_shut g_stop g_handles g_pos]; auto; try discriminate.
  - unfold on_v. destruct (v_step (g_v g) VShutdown) as [v' out] eqn:E. cbn [fst snd].
    destruct (v_sim _ _ VShutdown _ _ (i_v _ _ _ _ H) Logic.I E) as (s' & St & V'). exists s', q. split; [apply explains_v; exact St|].
    destruct (foreign_frame _ _ _ _ St eq_refl) as (F1 & F2 & F3). inv St.
    destruct H. constructor; auto; try (eapply pos_foreign; eassumption). destruct i_shut0. rewrite Hs in *.
    constructor; cbn [g_set_v g_set_shut g_shut g_stop g_handles g_pos set_flocks f_locks f_shut f_slots f_waits f_unread]; auto; try discriminate. cbn in *. rewrite h_vshut0. lia.
  - unfold on_n_signal. destruct (n_step (g_n g) NShutdown) as [n' out] eqn:E. cbn [fst snd].
    assert (Hd: NShutdown = NDropProducer -> q_slot q = None) by discriminate.
    destruct (n_sim plain _ _ NShutdown _ _ (i_n _ _ _ _ H) Logic.I Logic.I Hd E) as (q' & St & N').
    exists s, q'. split; [apply explains_n; exact St|]. inv St.
    destruct H. constructor; auto.
    destruct i_shut0. rewrite Hs in *. cbn in h_nshut0.
    constructor; cbn [g_set_wake g_set_n g_set_shut g_shut g_stop g_handles g_pos set_qlocks q_locks q_shut]; auto; try discriminate. rewrite h_nshut0 in *. cbn in *. lia.
  - exists s, q. split; [apply explains_nil|exact H].
Qed.
(** * The flush thread *)
Lemma shut_frame : forall g s q g' s' q', shut_inv g s q -> g_shut g' = g_shut g -> g_stop g' = g_stop g -> g_handles g' = g_handles g ->
  f_locks s' = f_locks s -> f_shut s' = f_shut s -> f_slots s' = f_slots s -> f_unread s' = f_unread s -> f_waits s' = f_waits s ->
  q_locks q' = q_locks q -> q_shut q' = q_shut q -> (ends (g_pos g') = true -> vcap + (k_extra k - 4) <= k_cap k -> g_stop g = true) -> shut_inv g' s' q'.
Proof.
  intros g s q g' s' q' [] E1 E2 E3 E4 E5 E6 E7 E8 E9 E10 E11. constructor; rewrite ?E1, ?E2, ?E3, ?E4, ?E5, ?E6, ?E7, ?E8, ?E9, ?E10; auto.
Qed.

Lemma attempt_cases : forall q size second out q', attempt k q size true second out q' -> q_gone q = [] -> q_slot q = None ->
  Forall (fun e => e_done e = true) (written q) ->
  q_gone q' = [] /\ q_prod q' = q_prod q /\ q_locks q' = q_locks q /\ q_shut q' = q_shut q /\ bytes_written q' = bytes_written q /\
  Forall (fun e => e_done e = true) (written q') /\
  ((exists r i d, out = NRange (Ok r) /\ q_slot q' = Some (i, d) /\ Z.of_nat (length d) = size /\ q_wait q' = None) \/
   (exists second', out = NRange (Err WouldBlock) /\ q_wait q' = Some (size, true, second') /\ q_slot q' = None) \/
   (out = NRange (Err Aborted) /\ q_shut q = true /\ q_wait q' = None /\ q_slot q' = None)).
Proof.
  assert (MS: forall (f : fate) (l : list entry), map snd (map (pair f) l) = l) by (intros f l; rewrite map_map; apply map_id).
  intros q size second out q' A G Sl Fd. inv A; try congruence.
  - assert (W: written (leave (map (pair Overwritten) lost) kept q) = written q).
    { unfold written, leave. rewrite H0, G. destruct kept; cbn; rewrite ?map_app, ?MS, ?app_nil_r, <- ?app_assoc; cbn; rewrite ?app_nil_r; reflexivity. }
    assert (L: q_gone (leave (map (pair Overwritten) lost) kept q) = [] /\ q_prod (leave (map (pair Overwritten) lost) kept q) = q_prod q /\
      q_locks (leave (map (pair Overwritten) lost) kept q) = q_locks q /\ q_shut (leave (map (pair Overwritten) lost) kept q) = q_shut q)
      by (unfold leave; destruct kept; cbn; auto).
    destruct L as (L1 & L2 & L3 & L4). cbn [set_qwait take_slot q_gone q_prod q_locks q_shut q_slot q_wait]. splits; auto.
    + unfold bytes_written. change (written (set_qwait None (take_slot init (leave (map (pair Overwritten) lost) kept q)))) with (written (leave (map (pair Overwritten) lost) kept q)).
      rewrite W. reflexivity.
    + change (written (set_qwait None (take_slot init (leave (map (pair Overwritten) lost) kept q)))) with (written (leave (map (pair Overwritten) lost) kept q)).
      rewrite W. exact Fd.
    + left. eauto 10.
  - splits; auto. right. left. eexists. splits; try reflexivity. exact Sl.
  - splits; auto. right. left. eexists. splits; try reflexivity. exact Sl.
  - splits; auto. right. right. splits; auto.
Qed.

Lemma overwrite_all : forall d bs, length bs = length d -> Nonvolatile_Spec.overwrite_bytes d 0 bs = bs.
Proof. intros d bs E. unfold Nonvolatile_Spec.overwrite_bytes. cbn. rewrite skipn_all2 by lia. apply app_nil_r. Qed.

Lemma reserved_ok : forall plain g s q q' n' out second size t, inv_ plain g s q -> nside plain n' q' -> explains rcrc vcap k s q t s q' ->
  holds s (fun d => size = Z.of_nat (length d)) -> q_prod q = true -> q_slot q = None -> same s q ->
  (attempt k q size true second out q' \/ out = NRange (Err Aborted) /\ q_shut q = true /\ q' = set_qwait None q \/
   (exists e, e <> WouldBlock /\ e <> Unavailable /\ out = NRange (Err e)) /\ q_wait q = None /\ q' = q /\ (vcap + (k_extra k - 4) <= k_cap k -> q_shut q = true)) ->
  goal plain (match out with NRange r => reserved (g_set_n n' g) r | _ => g_set_pos FExit (g_set_n n' g) end) t s q.
Proof.
  intros plain g s q q' n' out second size t H N' X Hh Hp Hsl Hsm Cs. exists s, q'. split; [exact X|].
  assert (SS: q_shut q = true -> g_stop g = true).
  { intros E. destruct H. destruct i_shut0. rewrite h_nshut0 in E. rewrite h_stop0. destruct (g_shut g); try discriminate. reflexivity. }
  destruct Hh as (Hr & x & u & Hu & Hz).
  destruct Cs as [A|[(-> & E & ->)|((e & E1 & E2 & ->) & E3 & -> & E4)]].
  - destruct (attempt_cases _ _ _ _ _ A (i_gone _ _ _ _ H) Hsl (i_done _ _ _ _ H)) as (F1 & F2 & F3 & F4 & F5 & F6 & Fo).
    destruct Fo as [(r & i & d & -> & C1 & C2 & C3)|[(se & -> & C1 & C2)|(-> & C1 & C2 & C3)]]; cbn [reserved].
    + destruct H. constructor; auto.
      * cbn [g_set_pos g_pos pos_inv]. split; [split; [exact Hr|]|].
        -- exists x, u. split; [exact Hu|]. exists i, d. split; [exact C1|]. lia.
        -- rewrite F2. unfold same in *. rewrite F5. auto.
      * eapply shut_frame; eauto. cbn. discriminate.
    + destruct H. constructor; auto.
      * cbn [g_set_wake g_set_pos g_pos pos_inv]. split; [split; [exact Hr|]|].
        -- exists x, u. split; [exact Hu|]. exists se. rewrite C1, Hz. reflexivity.
        -- rewrite F2. unfold same in *. rewrite F5. auto.
      * eapply shut_frame; eauto. cbn. discriminate.
    + destruct H. constructor; auto.
      * cbn [g_set_pos g_pos pos_inv]. split; [eauto|]. unfold free, same in *. rewrite F2, F5. auto.
      * eapply shut_frame; eauto.
  - cbn [reserved]. destruct H. constructor; auto.
    + cbn [g_set_pos g_pos pos_inv]. split; [eauto|]. unfold free, same in *. cbn. auto.
    + eapply shut_frame; eauto.
  - destruct H. assert (R: reserved (g_set_n n' g) (Err e) = g_set_pos FExit (g_set_n n' g)) by (destruct e; try congruence; reflexivity). rewrite R. constructor; auto.
    + cbn [g_set_pos g_pos pos_inv]. split; [eauto|]. unfold free, same in *. auto.
    + eapply shut_frame; eauto.
Qed.
Lemma free_of : forall q, q_prod q = true -> q_slot q = None -> q_wait q = None -> free q.
Proof. intros. unfold free. auto. Qed.
Lemma q_stop : forall plain g s q, inv_ plain g s q -> q_shut q = true -> g_stop g = true.
Proof. intros plain g s q [] E. destruct i_shut0. rewrite h_nshut0 in E. rewrite h_stop0. destruct (g_shut g); try discriminate. reflexivity. Qed.
Lemma f_stop : forall plain g s q, inv_ plain g s q -> f_shut s = true -> g_stop g = true.
Proof. intros plain g s q [] E. destruct i_shut0. rewrite h_vshut0 in E. rewrite h_stop0. destruct (g_shut g); try discriminate; reflexivity. Qed.
Lemma unread_sane : forall v s x u, vside v s -> f_unread s = x :: u -> sane (rec_data x).
Proof. intros v s x u (_ & _ & Hs) E. unfold sizes, contents in Hs. rewrite E in Hs. cbn in Hs. inv Hs. assumption. Qed.

Ltac thread_v o := unfold on_v; match goal with |- context [v_step (g_v ?g) o] =>
  let v' := fresh "v'" in let out := fresh "out" in let E := fresh "E" in destruct (v_step (g_v g) o) as [v' out] eqn:E; cbn [fst snd];
  match goal with H : inv_ _ g _ _ |- _ => destruct (v_sim _ _ o _ _ (i_v _ _ _ _ H) Logic.I E) as (s' & St & V') end end.

Lemma step_new : forall plain g s q, inv_ plain g s q -> g_pos g = FNew -> goal plain (fst (thread_step g)) (snd (thread_step g)) s q.
Proof.
  intros plain g s q H Hp. unfold Aggregate_Model.thread_step. rewrite Hp. thread_v VRegisterConsumer.
  exists s', q. split; [apply explains_v; exact St|]. destruct H. rewrite Hp in *. cbn [pos_inv] in i_pos0. destruct i_pos0 as (P1 & P2 & P3 & P4 & P5).
  inv St; [|congruence]. constructor; auto.
  - cbn [g_set_pos g_set_v g_pos pos_inv]. splits; auto.
  - eapply shut_frame; eauto. discriminate.
Qed.

Lemma step_new2 : forall plain g s q, inv_ plain g s q -> g_pos g = FNew2 -> goal plain (fst (thread_step g)) (snd (thread_step g)) s q.
Proof.
  intros plain g s q H Hp. unfold Aggregate_Model.thread_step. rewrite Hp. unfold on_n. destruct (n_step (g_n g) NRegisterProducer) as [n' out] eqn:E. cbn [fst snd].
  assert (Hd: NRegisterProducer = NDropProducer -> q_slot q = None) by discriminate.
  destruct (n_sim plain _ _ NRegisterProducer _ _ (i_n _ _ _ _ H) Logic.I Logic.I Hd E) as (q' & St & N').
  exists s, q'. split; [apply explains_n; exact St|]. destruct H. rewrite Hp in *. cbn [pos_inv] in i_pos0. destruct i_pos0 as (P1 & P2 & P3 & P4 & P5).
  inv St; [|congruence]. constructor; auto.
  - cbn [g_set_pos g_set_n g_pos pos_inv]. splits; auto. apply free_of; auto.
  - eapply shut_frame; eauto. discriminate.
Qed.

Lemma step_loop : forall plain g s q, inv_ plain g s q -> g_pos g = FLoop -> goal plain (fst (thread_step g)) (snd (thread_step g)) s q.
Proof.
  intros plain g s q H Hp. unfold Aggregate_Model.thread_step. rewrite Hp. cbn [fst snd].
  exists s, q. split; [apply explains_nil|]. destruct H. rewrite Hp in *. cbn [pos_inv] in i_pos0. destruct i_pos0 as (P1 & P2 & P3). constructor; auto.
  - cbn [g_set_pos g_pos]. destruct (g_stop g); cbn [pos_inv]; eauto.
  - eapply shut_frame; eauto. cbn [g_set_pos g_pos]. destruct (g_stop g); [auto|discriminate].
Qed.

Lemma step_read : forall plain g s q, inv_ plain g s q -> g_pos g = FRead -> goal plain (fst (thread_step g)) (snd (thread_step g)) s q.
Proof.
  intros plain g s q H Hp. unfold Aggregate_Model.thread_step. rewrite Hp. thread_v (VStartRead true).
  exists s', q. split; [apply explains_v; exact St|]. pose proof (f_stop _ _ _ _ H) as FS. destruct H. rewrite Hp in *. cbn [pos_inv] in i_pos0. destruct i_pos0 as (P1 & P2 & P3).
  inv St; try congruence.
  - constructor; auto.
    + cbn [g_set_pos g_set_v g_pos pos_inv r_size]. splits; auto. split; [reflexivity|]. exists x, l. auto.
    + eapply shut_frame; eauto. discriminate.
  - destruct (f_shut s') eqn:Fs; constructor; auto.
    + cbn [g_set_pos g_set_v g_pos pos_inv]. eauto.
    + eapply shut_frame; eauto.
    + cbn [g_set_v g_pos]. rewrite Hp. cbn [pos_inv]. auto.
    + eapply shut_frame; eauto. cbn [g_set_v g_pos]. rewrite Hp. discriminate.
Qed.

Lemma step_reserve : forall plain g s q size, inv_ plain g s q -> g_pos g = FReserve size -> goal plain (fst (thread_step g)) (snd (thread_step g)) s q.
Proof.
  intros plain g s q size H Hp. unfold Aggregate_Model.thread_step. rewrite Hp. unfold on_n. destruct (n_step (g_n g) (NReserve size true)) as [n' out] eqn:E. cbn [fst snd].
  pose proof (i_pos _ _ _ _ H) as P. rewrite Hp in P. cbn [pos_inv] in P. destruct P as (P1 & (P2 & P3 & P4) & P5). pose proof P1 as (Hr & x & u & Hu & Hz).
  destruct (unread_sane _ _ _ _ (i_v _ _ _ _ H) Hu) as [Z1 Z2].
  assert (Hd: NReserve size true = NDropProducer -> q_slot q = None) by discriminate.
  assert (Ho: nop_ok (NReserve size true)) by (cbn; lia).
  destruct (n_sim plain _ _ (NReserve size true) _ _ (i_n _ _ _ _ H) Ho Logic.I Hd E) as (q' & St & N').
  assert (Id: idle q) by (split; assumption).
  apply (reserved_ok plain g s q q' n' out false size); auto.
  - apply explains_n. exact St.
  - pose proof (h_nlocks _ _ _ (i_shut _ _ _ _ H)) as NL. inv St; try congruence; try (exfalso; auto; fail).
    + left. assumption.
    + right. right. splits; auto.
      * exists FailedPrecondition. splits; auto; discriminate.
      * intros _. destruct (q_shut q'); [reflexivity|]. cbn in NL. lia.
    + right. right. splits; auto.
      * exists InvalidArgument. splits; auto; discriminate.
      * lia.
Qed.

Lemma step_wait : forall plain g s q, inv_ plain g s q -> g_pos g = FWait -> goal plain (fst (thread_step g)) (snd (thread_step g)) s q.
Proof.
  intros plain g s q H Hp. unfold Aggregate_Model.thread_step. rewrite Hp. destruct (g_wake g); cbn [fst snd]; [|exists s, q; split; [apply explains_nil|exact H]].
  unfold on_n. destruct (n_step (g_n g) NResume) as [n' out] eqn:E. cbn [fst snd].
  pose proof (i_pos _ _ _ _ H) as P. rewrite Hp in P. cbn [pos_inv] in P. destruct P as ((Hr & x & u & Hu & se & Hw) & P2 & P3 & P4).
  assert (Hd: NResume = NDropProducer -> q_slot q = None) by discriminate.
  destruct (n_sim plain _ _ NResume _ _ (i_n _ _ _ _ H) Logic.I Logic.I Hd E) as (q' & St & N').
  apply (reserved_ok plain g s q q' n' out se (Z.of_nat (length (rec_data x)))); auto.
  - apply explains_n. exact St.
  - split; [exact Hr|]. exists x, u. auto.
  - inv St; try congruence.
    + left. match goal with A : q_wait q = Some _ |- _ => rewrite Hw in A; inv A end. assumption.
    + right. left. auto.
Qed.

Lemma step_copy : forall plain g s q, inv_ plain g s q -> g_pos g = FReserved -> goal plain (fst (thread_step g)) (snd (thread_step g)) s q.
Proof.
  intros plain g s q H Hp. unfold Aggregate_Model.thread_step. rewrite Hp.
  pose proof (i_pos _ _ _ _ H) as P. rewrite Hp in P. cbn [pos_inv] in P. destruct P as ((Hr & x & u & Hu & i & d' & Hs & Hl) & P2 & P3 & P4).
  thread_v VPeek.
  inv St; [|exfalso; auto]. match goal with A : f_unread s' = x0 :: l |- _ => rewrite Hu in A; inv A end.
  unfold on_n. cbn [g_set_v g_n]. destruct (n_step (g_n g) (NWrite 0 (rec_data x0))) as [n' out] eqn:E2. cbn [fst snd].
  assert (Hd: NWrite 0 (rec_data x0) = NDropProducer -> q_slot q = None) by discriminate.
  destruct (n_sim plain _ _ (NWrite 0 (rec_data x0)) _ _ (i_n _ _ _ _ H) Logic.I Logic.I Hd E2) as (q' & St & N').
  assert (Id: idle q) by (split; assumption).
  exists s', q'. split; [change [VCall VPeek (OBytes (Some (rec_data x0))); NCall (NWrite 0 (rec_data x0)) out] with
    ([VCall VPeek (OBytes (Some (rec_data x0)))] ++ [NCall (NWrite 0 (rec_data x0)) out]); eapply explains_app; [apply explains_v|apply explains_n; exact St]|].
  - econstructor; eassumption.
  - destruct H. inv St; try congruence; try (exfalso; auto; fail). match goal with A : q_slot q = Some (i0, d) |- _ => rewrite Hs in A; inv A end.
    replace ((0 <=? 0) && (0 + Z.of_nat (length (rec_data x0)) <=? Z.of_nat (length d))) with true in * by (symmetry; apply andb_true_intro; split; [reflexivity|apply Z.leb_le; lia]).
    rewrite overwrite_all in * by lia. constructor; auto.
    + cbn [g_set_pos g_set_n g_set_v g_pos pos_inv]. splits; auto. split; [exact Hr|]. exists x0, l. split; [assumption|]. eexists. reflexivity.
    + eapply shut_frame; eauto. discriminate.
Qed.

Lemma step_commit : forall plain g s q, inv_ plain g s q -> g_pos g = FCopied -> goal plain (fst (thread_step g)) (snd (thread_step g)) s q.
Proof.
  intros plain g s q H Hp. unfold Aggregate_Model.thread_step. rewrite Hp. unfold on_n. destruct (n_step (g_n g) NCommit) as [n' out] eqn:E. cbn [fst snd].
  pose proof (i_pos _ _ _ _ H) as P. rewrite Hp in P. cbn [pos_inv] in P. destruct P as ((Hr & x & u & Hu & i & Hs) & P2 & P3 & P4).
  assert (Hd: NCommit = NDropProducer -> q_slot q = None) by discriminate.
  destruct (n_sim plain _ _ NCommit _ _ (i_n _ _ _ _ H) Logic.I Logic.I Hd E) as (q' & St & N').
  assert (Id: idle q) by (split; assumption).
  exists s, q'. split; [apply explains_n; exact St|]. destruct H.
  inv St; try congruence; try (exfalso; auto; fail). match goal with A : q_slot q = Some (i0, d) |- _ => rewrite Hs in A; inv A end.
  assert (W: forall e, written (mkQ (q_unread q ++ q_gone q ++ [e]) [] None (q_next q) (q_prod q) (q_wait q) (q_reader q) (q_sync q) (q_locks q) (q_shut q) (q_past q)) = written q ++ [e]).
  { intros e. unfold written. cbn. rewrite app_nil_r, <- !app_assoc. reflexivity. }
  constructor; auto.
  - rewrite W. apply Forall_app. split; [assumption|]. repeat constructor.
  - cbn [g_set_pos g_set_n g_pos pos_inv]. split; [split; [exact Hr|]|apply free_of; auto]. exists x, u. split; [exact Hu|]. unfold same in P4. rewrite <- P4. unfold bytes_written. rewrite W, map_app. reflexivity.
  - eapply shut_frame; eauto. discriminate.
Qed.

Lemma step_finish : forall plain g s q, inv_ plain g s q -> g_pos g = FFinish -> goal plain (fst (thread_step g)) (snd (thread_step g)) s q.
Proof.
  intros plain g s q H Hp. unfold Aggregate_Model.thread_step. rewrite Hp.
  pose proof (i_pos _ _ _ _ H) as P. rewrite Hp in P. cbn [pos_inv] in P. destruct P as ((Hr & x & u & Hu & Hb) & P2).
  thread_v VFinishRead. exists s', q. split; [apply explains_v; exact St|]. destruct H. inv St; try congruence.
  match goal with A : f_unread s = x0 :: l |- _ => rewrite Hu in A; inv A end.
  assert (HP: pos_inv FLoop (mkFifo l (f_slots s) (f_next s) (Some false) (f_locks s) (f_shut s) (f_consumed s ++ [x0]) (f_lost s) (if b then [] else f_waits s)) q).
  { cbn [pos_inv]. splits; auto. unfold same, bytes_consumed. cbn [f_consumed]. rewrite map_app. exact Hb. }
  assert (Un: flushed (g_shut g) = true -> k_ow k = OYes -> l = []).
  { intros F Y. pose proof (h_past _ _ _ i_shut0 F Y) as A. congruence. }
  assert (Wt: g_shut g = SWaiting -> b = true -> l = []).
  { intros W ->. destruct (h_wait _ _ _ i_shut0 W) as (m & M1 & M2). destruct l as [|y l]; [reflexivity|]. exfalso.
    match goal with A : true = true -> _ |- _ => pose proof (A eq_refl m y M1 (or_introl eq_refl)) as L end. assert (rec_id y < m)%nat by (apply M2; rewrite Hu; right; left; reflexivity). lia. }
  assert (Sh: forall sh, (sh = g_shut g \/ sh = SStop /\ g_shut g = SWaiting /\ b = true) -> (g_shut g = SWaiting -> b = true -> sh = SStop) ->
    shut_inv (g_set_pos FLoop (g_set_shut sh (g_set_v v' g))) (mkFifo l (f_slots s) (f_next s) (Some false) (f_locks s) (f_shut s) (f_consumed s ++ [x0]) (f_lost s) (if b then [] else f_waits s)) q).
  { intros sh Hsh Hsw. destruct i_shut0. destruct Hsh as [->|(-> & W & ->)].
    - constructor; cbn [g_set_pos g_set_shut g_set_v g_shut g_stop g_handles g_pos f_locks f_shut f_slots f_waits f_unread]; auto; try discriminate.
      intros W. destruct b; [rewrite (Hsw W eq_refl) in W; discriminate|]. destruct (h_wait0 W) as (m & M1 & M2). exists m. split; [exact M1|]. intros y Hy. apply M2. rewrite Hu. right. exact Hy.
    - rewrite W in *. constructor; cbn [g_set_pos g_set_shut g_set_v g_shut g_stop g_handles g_pos f_locks f_shut f_slots f_waits f_unread]; auto; try discriminate. }
  assert (EQ: (if b then match g_shut (g_set_v v' g) with SWaiting => g_set_shut SStop (g_set_v v' g) | _ => g_set_v v' g end else g_set_v v' g) =
    g_set_shut (if b then match g_shut g with SWaiting => SStop | p => p end else g_shut g) (g_set_v v' g)).
  { unfold g_set_shut, g_set_v. cbn. destruct b; [|reflexivity]. destruct (g_shut g) eqn:Q; rewrite ?Q; reflexivity. }
  cbv zeta. rewrite EQ. constructor; auto. apply Sh.
  - destruct b; [|auto]. destruct (g_shut g); auto.
  - intros -> ->. reflexivity.
Qed.

Lemma step_exit : forall plain g s q, inv_ plain g s q -> g_pos g = FExit -> goal plain (fst (thread_step g)) (snd (thread_step g)) s q.
Proof.
  intros plain g s q H Hp. unfold Aggregate_Model.thread_step. rewrite Hp. unfold on_n. destruct (n_step (g_n g) NDropProducer) as [n' out] eqn:E. cbn [fst snd].
  pose proof (i_pos _ _ _ _ H) as P. rewrite Hp in P. cbn [pos_inv] in P. destruct P as (P1 & (P2 & P3 & P4) & P5).
  destruct (n_sim plain _ _ NDropProducer _ _ (i_n _ _ _ _ H) Logic.I Logic.I (fun _ => P3) E) as (q' & St & N').
  exists s, q'. split; [apply explains_n; exact St|]. destruct H. assert (Id: idle q) by (split; assumption). inv St; [|exfalso; auto].
  assert (A: abandon q = q) by (unfold abandon; rewrite P3; reflexivity). rewrite A in *. constructor; auto.
  - cbn [g_set_pos g_set_n g_pos pos_inv]. splits; auto.
  - pose proof (h_exit _ _ _ i_shut0) as X. rewrite Hp in X. eapply shut_frame; eauto.
Qed.

Lemma step_exit2 : forall plain g s q, inv_ plain g s q -> g_pos g = FExit2 -> goal plain (fst (thread_step g)) (snd (thread_step g)) s q.
Proof.
  intros plain g s q H Hp. unfold Aggregate_Model.thread_step. rewrite Hp.
  pose proof (i_pos _ _ _ _ H) as P. rewrite Hp in P. cbn [pos_inv] in P. destruct P as (P1 & P2 & P3 & P4 & P5).
  thread_v VDropConsumer. exists s', q. split; [apply explains_v; exact St|]. destruct H. inv St. constructor; auto.
  - cbn [g_set_pos g_set_v g_pos pos_inv]. splits; auto.
  - pose proof (h_exit _ _ _ i_shut0) as X. rewrite Hp in X. eapply shut_frame; eauto.
Qed.

Lemma step_thread : forall plain g s q, inv_ plain g s q -> goal plain (fst (thread_step g)) (snd (thread_step g)) s q.
Proof.
  intros plain g s q H. destruct (g_pos g) eqn:Hp;
    [eapply step_new|eapply step_new2|eapply step_loop|eapply step_read|eapply step_reserve|eapply step_wait|eapply step_copy|eapply step_commit|eapply step_finish|eapply step_exit|eapply step_exit2|]; eauto.
  unfold Aggregate_Model.thread_step. rewrite Hp. exists s, q. split; [apply explains_nil|exact H].
Qed.

(** * Histories *)
Definition label_fine (plain : bool) (l : label) : Prop := label_ok l /\ if plain then plain_label l else cursor_label l.

Lemma step_all : forall plain g s q l, inv_ plain g s q -> label_fine plain l -> goal plain (fst (g_step g l)) (snd (g_step g l)) s q.
Proof.
  intros plain g s q l H [Ho Hk].
  assert (Nil: goal plain g [] s q) by (exists s, q; split; [apply explains_nil|exact H]).
  destruct l; cbn [Aggregate_Model.g_step].
  - destruct (producer_call o) eqn:P; [|exact Nil]. pose proof (step_produce plain g s q o H Ho P) as G. destruct (on_v g o). exact G.
  - destruct (consumer_call o) eqn:C; [|exact Nil].
    assert (A: allowed plain o) by (destruct o; try discriminate; cbn; auto; destruct plain; cbn in Hk; auto; contradiction).
    pose proof (step_consume plain g s q o H A C) as G. destruct (on_n_signal rcrc hcrc g o). exact G.
  - destruct (step_flush plain g s q H) as (s' & St & I'). destruct (on_v g VWaitForDrain). exists s', q. split; [apply explains_v; exact St|exact I'].
  - destruct (on_v g VLock) as [h out] eqn:E. cbn [fst snd]. eapply step_lock; eassumption.
  - destruct (g_handles g) as [|n] eqn:E; [exact Nil|]. destruct (on_v g VUnlock) as [h out] eqn:E2. cbn [fst snd]. eapply step_unlock; eassumption.
  - apply step_shutdown. exact H.
  - apply step_thread. exact H.
Qed.

Lemma run_inv : forall plain l g s q, inv_ plain g s q -> Forall (label_fine plain) l -> goal plain (fst (g_run g l)) (snd (g_run g l)) s q.
Proof.
  induction l as [|a l IH]; intros g s q H F; cbn [Aggregate_Model.g_run]; [exists s, q; split; [apply explains_nil|exact H]|]. inv F.
  destruct (step_all plain g s q a H ltac:(assumption)) as (s1 & q1 & X1 & G1). destruct (g_step g a) as [g1 c1]. cbn [fst snd] in *.
  destruct (IH g1 s1 q1 G1 ltac:(assumption)) as (s2 & q2 & X2 & G2). destruct (g_run g1 l) as [g2 c2]. cbn [fst snd] in *.
  exists s2, q2. split; [eapply explains_app; eassumption|exact G2].
Qed.

Lemma inv_linked : forall plain g s q, inv_ plain g s q -> linked s q.
Proof.
  intros plain g s q []. destruct i_v0 as (_ & Hi & _). destruct i_n0 as (_ & (W & _) & _). split; [exact Hi|]. split; [exact W|]. split; [exact i_done0|].
  destruct (g_pos g); cbn [pos_inv] in i_pos0; unfold same in *; try (left; tauto). right. destruct i_pos0 as ((_ & x & u & A & B) & _). eauto.
Qed.
End P.
