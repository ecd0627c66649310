(** The upload task over the aggregate ring buffer behaves like the task of Batching_Model.v over the queue of the records written to the file. *)
From Verif Require Import Base Ring_Model Volatile_Model Volatile_Spec Nonvolatile_Model Nonvolatile_Spec Aggregate_Model Aggregate_Spec Aggregate_Proofs AggregateUse_Proofs
  Delivery_Model Delivery_Spec.
From Verif Require NonvolatileClient_Spec Batching_Model Batching_Spec Batching_Proofs.
Open Scope Z_scope.

(** * The task over a queue *)
(** The cursor is past the records of the batches being built and under way; the task ends only when asked to. *)
Definition enough (u : Batching_Model.uploader) : Prop :=
  (match Batching_Model.u_phase u with Batching_Model.Uploading n => n + length (Batching_Model.logs (Batching_Model.u_builder u)) | _ => length (Batching_Model.logs (Batching_Model.u_builder u)) end <= Batching_Model.u_cursor u <= length (Batching_Model.u_buf u))%nat /\
  (Batching_Model.u_phase u = Batching_Model.Stopped -> Batching_Model.u_shutdown u = true).

Lemma release_gen n : forall u, (n <= Batching_Model.u_cursor u <= length (Batching_Model.u_buf u))%nat ->
  Batching_Model.release n u = (Batching_Model.mkUploader (skipn n (Batching_Model.u_buf u)) (Batching_Model.u_cursor u - n) (Batching_Model.u_builder u) (Batching_Model.u_deadline u) (Batching_Model.u_shutdown u) Batching_Model.Idle, map Batching_Model.ORelease (firstn n (Batching_Model.u_buf u))).
Proof.
  induction n as [|n IH]; intros u H; cbn [Batching_Model.release].
  - rewrite skipn_O, firstn_O, Nat.sub_0_r. reflexivity.
  - destruct (Batching_Model.u_buf u) as [|r buf] eqn:Eb; [cbn in H; lia|]. destruct (Batching_Model.u_cursor u) as [|c] eqn:Ec; [lia|].
    rewrite IH by (cbn in *; lia). cbn. replace (c - n)%nat with (S c - S n)%nat by lia. reflexivity.
Qed.

Lemma enough_select u l : Batching_Model.u_phase u = Batching_Model.Idle -> enough u -> enough (fst (Batching_Model.after_select u l)).
Proof.
  intros P [E1 E2]. unfold Batching_Model.after_select, Batching_Model.flush_start, Batching_Model.arm, Batching_Model.take. rewrite P in E1. destruct (Batching_Model.limit_reached _ _); cbn.
  - split; cbn; [lia|discriminate].
  - destruct (Batching_Model.logs (Batching_Model.u_builder u)) eqn:L; split; cbn; rewrite ?P, ?L in *; cbn in *; try lia; try discriminate.
Qed.
Lemma enough_step u e u' o : Batching_Model.step u e = Some (u', o) -> enough u -> enough u'.
Proof.
  intros St E. assert (E0 := E). destruct E0 as [E1 E2]. destruct e as [r|l| |l|a| |]; cbn in St.
  - inv St. split; cbn; [rewrite app_length; cbn; destruct (Batching_Model.u_phase u); lia|exact E2].
  - destruct (Batching_Model.u_phase u) eqn:P; try discriminate. destruct (nth_error (Batching_Model.u_buf u) (Batching_Model.u_cursor u)) eqn:En; [|discriminate].
    assert (Hlt : (Batching_Model.u_cursor u < length (Batching_Model.u_buf u))%nat) by (apply nth_error_Some; congruence).
    match type of St with context [Batching_Model.after_select ?x ?y] => pose proof (enough_select x y eq_refl) as Q; destruct (Batching_Model.after_select x y) as [u1 o1] end. inv St. apply Q.
    split; cbn; [rewrite app_length; cbn; lia|discriminate].
  - destruct (Batching_Model.u_phase u) eqn:P; try discriminate. destruct (Batching_Model.u_deadline u); [|discriminate]. unfold Batching_Model.flush_start, Batching_Model.take in St. inv St. split; cbn; [lia|discriminate].
  - destruct (Batching_Model.u_phase u) eqn:P; try discriminate. inv St. pose proof (enough_select u l P E) as Q. rewrite H0 in Q. exact Q.
  - destruct (Batching_Model.u_phase u) eqn:P; try discriminate. rewrite release_gen in St by lia. inv St. split; cbn; [rewrite skipn_length; lia|discriminate].
  - inv St. split; cbn; [exact E1|auto].
  - destruct (Batching_Model.u_shutdown u) eqn:Sd; [|discriminate]. destruct (Batching_Model.u_phase u) eqn:P; inv St; split; cbn; auto; lia.
Qed.
Lemma enough_run es : forall u u' o, Batching_Model.run u es = Some (u', o) -> enough u -> enough u'.
Proof.
  induction es as [|e es IH]; intros u u' o; cbn; [intros E; inv E; auto|].
  destruct (Batching_Model.step u e) as [[u1 o1]|] eqn:St; [|discriminate]. destruct (Batching_Model.run u1 es) as [[u2 o2]|] eqn:Er; [|discriminate]. intros E H. inv E.
  eapply IH; [exact Er|]. eapply enough_step; eassumption.
Qed.
Lemma enough_new : enough (Batching_Model.uploader_new []).
Proof. split; cbn; [lia|discriminate]. Qed.

Lemma run_snoc u es u1 o e u2 o2 : Batching_Model.run u es = Some (u1, o) -> Batching_Model.step u1 e = Some (u2, o2) -> Batching_Model.run u (es ++ [e]) = Some (u2, o ++ o2).
Proof. intros R St. rewrite Batching_Proofs.run_app, R. cbn. rewrite St, app_nil_r. reflexivity. Qed.

(** Records are appended by writers. *)
Lemma run_writes l : forall u, Batching_Model.run u (map Batching_Model.Write l) = Some (Batching_Model.mkUploader (Batching_Model.u_buf u ++ l) (Batching_Model.u_cursor u) (Batching_Model.u_builder u) (Batching_Model.u_deadline u) (Batching_Model.u_shutdown u) (Batching_Model.u_phase u), []).
Proof.
  induction l as [|r l IH]; intros u; cbn; [rewrite app_nil_r; destruct u; reflexivity|]. rewrite IH. cbn. rewrite <- app_assoc. reflexivity.
Qed.
Lemma written_writes l : Batching_Spec.written (map Batching_Model.Write l) = l.
Proof. unfold Batching_Spec.written. rewrite map_map. induction l; cbn; congruence. Qed.

(** * The correspondence *)
Definition hide (x : Batching_Model.obs) : seen :=
  match x with Batching_Model.ORead r l => Got r l | Batching_Model.OUpload b => Sent b | Batching_Model.ODone a => Answered a | Batching_Model.OAbandoned => GaveUp | Batching_Model.ORelease _ => Released end.
Definition image (p : wphase) : Batching_Model.phase := match p with WIdle => Batching_Model.Idle | WUploading n => Batching_Model.Uploading n | WReleasing n => Batching_Model.Uploading n | WEnded => Batching_Model.Stopped end.
Definition up (buf : list (list Z)) (c : nat) (w : worker) (p : Batching_Model.phase) : Batching_Model.uploader := Batching_Model.mkUploader buf c (w_builder w) (w_deadline w) (w_stop w) p.

Lemma map_constant {A C} (y : C) (l : list A) : map (fun _ => y) l = repeat y (length l).
Proof. induction l; cbn; congruence. Qed.
Lemma select_sim buf c w l w' o : w_phase w = WIdle -> w_select w l = (w', o) ->
  exists ob, Batching_Model.after_select (up buf c w Batching_Model.Idle) l = (up buf c w' (image (w_phase w')), ob) /\ o = map hide ob /\ (forall n, w_phase w' <> WReleasing n).
Proof.
  intros P E. unfold w_select, w_flush, w_arm, Batching_Model.after_select, Batching_Model.flush_start, Batching_Model.arm, Batching_Model.take, up in *. cbn [Batching_Model.u_builder Batching_Model.u_buf Batching_Model.u_cursor Batching_Model.u_shutdown Batching_Model.u_phase] in *.
  destruct (Batching_Model.limit_reached (w_builder w) l).
  - inv E. eexists. splits; [reflexivity|reflexivity|discriminate].
  - destruct (Batching_Model.logs (w_builder w)) eqn:L; inv E; eexists; splits; try (cbn; rewrite P; reflexivity); try reflexivity; cbn; rewrite ?P; discriminate.
Qed.

Section P.
Variable rcrc : list Z -> Z.
Variable hcrc : Z -> option Z -> option Z -> option Z -> Z.
Variable vcap : Z.
Variable k : config.
Hypothesis hold : k_hold k = true.
Hypothesis small : vcap < 4294967296.
Hypothesis block : k_ow k = OBlock.
Local Notation sum := (NonvolatileClient_Spec.record_sum rcrc).
Local Notation nstep := (Nonvolatile_Spec.step k sum).
Local Notation nrun := (Nonvolatile_Spec.run k sum).
Local Notation g_step := (g_step rcrc hcrc).
Local Notation d_step := (d_step rcrc hcrc).
Local Notation d_run := (d_run rcrc hcrc).
Local Notation inv_ := (inv_ rcrc hcrc vcap k false).
Local Notation explains := (explains rcrc vcap k).
Local Notation keeps := (keeps rcrc k).

Definition data (q : queue) : list (list Z) := map e_data (q_unread q).
Local Arguments data : simpl never.
Lemma split_written q : q_gone q = [] -> bytes_written q = removed q ++ data q.
Proof. intros G. unfold bytes_written, written, removed, data. rewrite G, app_nil_r, map_app, map_map. reflexivity. Qed.

(** What those who write to the buffer do to the file: they append records. *)
Ltac open_calls := repeat match goal with
  | |- context [on_v ?g ?o] => destruct (on_v g o)
  | |- context [on_n rcrc hcrc ?g ?o] => destruct (on_n rcrc hcrc g o)
  | |- context [on_n_signal rcrc hcrc ?g ?o] => destruct (on_n_signal rcrc hcrc g o)
  | |- context [match ?o with OUnit => _ | ORange _ => _ | ORes _ => _ | OBytes _ => _ | OFin _ => _ | OWait _ => _ end] => destruct o
  | |- context [match ?o with Some _ => _ | None => _ end] => destruct o
  | |- context [if ?b then _ else _] => destruct b
  | |- context [match ?o with O => _ | S _ => _ end] => destruct o
  end.
Definition writer_op (o : nop) : Prop :=
  match o with NRegisterProducer | NReserve _ _ | NResume | NWrite _ _ | NCommit | NShutdown | NWaitForDrain => True | _ => False end.
Lemma writer_step q o out q' : nstep q o out q' -> writer_op o -> q_gone q = [] ->
  q_reader q' = q_reader q /\ removed q' = removed q /\ q_gone q' = [] /\ exists new, data q' = data q ++ new.
Proof.
  intros St W G.
  assert (Id : q_reader q = q_reader q /\ removed q = removed q /\ q_gone q = [] /\ exists new, data q = data q ++ new) by (splits; auto; exists []; rewrite app_nil_r; reflexivity).
  assert (AT : forall size b second out q', attempt k q size b second out q' -> q_reader q' = q_reader q /\ removed q' = removed q /\ q_gone q' = [] /\ exists new, data q' = data q ++ new).
  { intros size b second out0 q0 A. destruct A; try exact Id. assert (lost = []) by auto. subst lost. cbn [map app] in *. subst kept.
    unfold leave. destruct (q_unread q) eqn:U; cbn; rewrite G; unfold removed, data; cbn; rewrite ?U, ?app_nil_r; splits; auto; exists []; rewrite ?app_nil_r; reflexivity. }
  destruct St; try contradiction; try exact Id; try (eapply AT; eassumption).
  - destruct (_ && _); exact Id.
  - unfold removed, data. cbn. rewrite G. cbn. splits; auto. exists [d]. rewrite map_app. reflexivity.
Qed.
Lemma writer_run q ops outs q' : nrun q ops outs q' -> Forall writer_op ops -> q_gone q = [] ->
  q_reader q' = q_reader q /\ removed q' = removed q /\ q_gone q' = [] /\ exists new, data q' = data q ++ new.
Proof.
  intros R. induction R; intros F G; [splits; auto; exists []; rewrite app_nil_r; reflexivity|]. inv F.
  destruct (writer_step _ _ _ _ H ltac:(assumption) G) as (A1 & A2 & A3 & new1 & A4). destruct (IHR ltac:(assumption) A3) as (B1 & B2 & B3 & new2 & B4).
  splits; try congruence. exists (new1 ++ new2). rewrite B4, A4, app_assoc. reflexivity.
Qed.

Lemma world_ops g a : (forall o, a <> Consume o) -> nops (snd (g_step g a)) = [NDropProducer] /\ g_pos g = FExit \/ Forall writer_op (nops (snd (g_step g a))).
Proof.
  intros K. destruct a; cbn [Aggregate_Model.g_step]; try (right; open_calls; cbn; repeat constructor; fail).
  - exfalso. eapply K. reflexivity.
  - right. unfold shutdown_step. destruct (g_shut g); open_calls; cbn; repeat constructor.
  - unfold Aggregate_Model.thread_step. destruct (g_pos g) eqn:P; try (right; open_calls; cbn; repeat constructor; fail).
    left. open_calls. cbn. auto.
Qed.

Lemma one_label g s q a : inv_ g s q -> keeps q -> label_fine false a -> kept_label a ->
  exists s' q', explains s q (snd (g_step g a)) s' q' /\ inv_ (fst (g_step g a)) s' q' /\ keeps q'.
Proof.
  intros I K F L. destruct (keeps_all rcrc hcrc vcap k false [a] g s q block hold small I K ltac:(constructor; auto) ltac:(constructor; auto)) as (s' & q' & X & I' & K').
  exists s', q'. cbn [Aggregate_Model.g_run] in *. destruct (g_step g a) as [g' c]. cbn [fst snd] in *. rewrite app_nil_r in X. auto.
Qed.

Lemma world_sim g s q a : inv_ g s q -> keeps q -> label_ok a -> (forall o, a <> Consume o) ->
  exists s' q', explains s q (snd (g_step g a)) s' q' /\ inv_ (fst (g_step g a)) s' q' /\ keeps q' /\ q_reader q' = q_reader q /\ removed q' = removed q /\
    exists new, data q' = data q ++ new.
Proof.
  intros I K Ok NC.
  assert (F : label_fine false a) by (split; [exact Ok|]; destruct a; try exact Logic.I; exfalso; eapply NC; reflexivity).
  assert (L : kept_label a) by (destruct a; try exact Logic.I; exfalso; eapply NC; reflexivity).
  destruct (one_label g s q a I K F L) as (s' & q' & X & I' & K'). exists s', q'. split; [exact X|]. split; [exact I'|]. split; [exact K'|].
  destruct K as (_ & G & _). destruct (world_ops g a NC) as [[E P]|E].
  - destruct X as [_ R]. rewrite E in R. inv R. match goal with A : nrun _ [] _ _ |- _ => inv A end.
    pose proof (i_pos _ _ _ _ _ _ _ _ I) as Q. rewrite P in Q. cbn [pos_inv] in Q. destruct Q as (_ & (_ & Q & _) & _).
    match goal with A : nstep _ _ _ _ |- _ => inv A end; unfold abandon; rewrite ?Q; splits; auto; exists []; rewrite app_nil_r; reflexivity.
  - destruct X as [_ R]. destruct (writer_run _ _ _ _ R E G) as (A1 & A2 & A3 & A4). auto.
Qed.

Definition task_op (o : nop) : Prop := match o with NRegisterCursor | NStartRead false | NPeek | NAdvance => True | _ => False end.
Lemma task_sim g s q o : inv_ g s q -> keeps q -> task_op o ->
  exists out q', snd (g_step g (Consume o)) = [NCall o out] /\ nstep q o out q' /\ inv_ (fst (g_step g (Consume o))) s q' /\ keeps q' /\ explains s q [NCall o out] s q'.
Proof.
  intros I K T.
  destruct (one_label g s q (Consume o) I K ltac:(split; [exact Logic.I|destruct o; try contradiction; exact Logic.I]) ltac:(destruct o; try contradiction; exact Logic.I)) as (s' & q' & X & I' & K').
  cbn [Aggregate_Model.g_step] in *. assert (C : consumer_call o = true) by (destruct o; try contradiction; reflexivity). rewrite C in *.
  destruct (on_n_signal rcrc hcrc g o) as [g' out]. cbn [fst snd] in *. assert (X0 := X). destruct X as [V R]. inv V. inv R. match goal with A : nrun _ [] _ _ |- _ => inv A end.
  exists out, q'. splits; auto.
Qed.

(** The state of the task as that of a task over a queue. *)
Definition corr (w : worker) (c : nat) (q : queue) (o : list seen) (es : list Batching_Model.event) : Prop :=
  match w_phase w with
  | WReleasing n => exists gone a ob, Batching_Model.run (Batching_Model.uploader_new []) es = Some (up (gone ++ data q) (length gone + c) w (Batching_Model.Uploading (length gone + n)), ob) /\
      o = map hide ob ++ Answered a :: repeat Released (length gone) /\ n <> 0%nat
  | p => exists ob, Batching_Model.run (Batching_Model.uploader_new []) es = Some (up (data q) c w (image p), ob) /\ o = map hide ob
  end.
Definition dinv (d : delivery) (s : fifo) (q : queue) (o : list seen) : Prop :=
  inv_ (d_g d) s q /\ keeps q /\
  match d_w d with
  | None => q_reader q = Nobody /\ removed q = [] /\ o = []
  | Some w => exists c es, q_reader q = Cursor c /\ Batching_Spec.written es = bytes_written q /\ corr w c q o es
  end.

Lemma gone_nil q : keeps q -> q_gone q = [].
Proof. intros (_ & G & _). exact G. Qed.

Lemma corr_write w c q o es q' new : corr w c q o es -> data q' = data q ++ new -> exists es', corr w c q' o es' /\ Batching_Spec.written es' = Batching_Spec.written es ++ new.
Proof.
  intros H D. exists (es ++ map Batching_Model.Write new). split; [|rewrite Batching_Proofs.written_app, written_writes; reflexivity].
  unfold corr in *. destruct (w_phase w).
  1,2,4: destruct H as (ob & R & Eo); exists ob; split; [|exact Eo]; rewrite Batching_Proofs.run_app, R, run_writes, app_nil_r, D; reflexivity.
  destruct H as (gone & a & ob & R & Eo & N). exists gone, a, ob. split; [|auto]. rewrite Batching_Proofs.run_app, R, run_writes, app_nil_r, D. unfold up. cbn. rewrite app_assoc. reflexivity.
Qed.

(** A step of the task that is a step over the queue. *)
Lemma corr_step w c q o es w' c' q' e o' : (forall n, w_phase w <> WReleasing n) -> (forall n, w_phase w' <> WReleasing n) -> corr w c q o es ->
  (forall ob, exists ob', Batching_Model.run (Batching_Model.uploader_new []) es = Some (up (data q) c w (image (w_phase w)), ob) -> Batching_Model.step (up (data q) c w (image (w_phase w))) e = Some (up (data q') c' w' (image (w_phase w')), ob') /\ o' = map hide ob') ->
  corr w' c' q' (o ++ o') (es ++ [e]).
Proof.
  intros N1 N2 H St.
  assert (H1 : exists ob, Batching_Model.run (Batching_Model.uploader_new []) es = Some (up (data q) c w (image (w_phase w)), ob) /\ o = map hide ob)
    by (unfold corr in H; destruct (w_phase w); try exact H; exfalso; eapply N1; reflexivity).
  destruct H1 as (ob & R & ->). destruct (St ob) as (ob' & Q). destruct (Q R) as [S1 ->].
  assert (H2 : exists ob2, Batching_Model.run (Batching_Model.uploader_new []) (es ++ [e]) = Some (up (data q') c' w' (image (w_phase w')), ob2) /\ map hide ob ++ map hide ob' = map hide ob2)
    by (exists (ob ++ ob'); split; [eapply run_snoc; eassumption|rewrite map_app; reflexivity]).
  unfold corr. destruct (w_phase w'); try exact H2. exfalso. eapply N2. reflexivity.
Qed.

Lemma written_snoc es e : (forall r, e <> Batching_Model.Write r) -> Batching_Spec.written (es ++ [e]) = Batching_Spec.written es.
Proof. intros H. rewrite Batching_Proofs.written_app. unfold Batching_Spec.written at 2. destruct e; cbn; rewrite ?app_nil_r; try reflexivity. exfalso. eapply H. reflexivity. Qed.

(** The task is released from the queue it has read: the cursor is far enough. *)
Lemma corr_enough w c q o es n : corr w c q o es -> w_phase w = WReleasing n -> (n <= c <= length (data q))%nat.
Proof.
  intros H P. unfold corr in H. rewrite P in H. destruct H as (gone & a & ob & R & _ & _). pose proof (enough_run _ _ _ _ R enough_new) as [E _]. cbn in E. rewrite app_length in E. lia.
Qed.

Lemma step_dinv d s q o m d' c o' : dinv d s q o -> move_ok m -> d_step d m = Some (d', c, o') -> ~ In Failed o -> 
  exists s' q', explains s q c s' q' /\ dinv d' s' q' (o ++ o') /\ ~ In Failed (o ++ o').
Proof.
  intros (I & K & T) Ok St NF. pose proof (gone_nil _ K) as G.
  assert (Same : forall w0 w, d_w d = Some w0 -> d' = mkD (d_g d) (Some w) -> c = [] -> ~ In Failed o' ->
    (forall cc es, q_reader q = Cursor cc -> Batching_Spec.written es = bytes_written q -> corr w0 cc q o es -> exists es', Batching_Spec.written es' = bytes_written q /\ corr w cc q (o ++ o') es') ->
    exists s' q', explains s q c s' q' /\ dinv d' s' q' (o ++ o') /\ ~ In Failed (o ++ o')).
  { intros w0 w Ew -> -> NF' H. rewrite Ew in T. destruct T as (cc & es & T1 & T2 & T3). destruct (H cc es T1 T2 T3) as (es' & T4 & T5).
    exists s, q. split; [apply explains_nil|]. split; [|rewrite in_app_iff; tauto]. split; [exact I|]. split; [exact K|]. cbn. eauto. }
  destruct m as [a| |l| |l|a| | |].
  - (* the buffer and those who write *)
    assert (NC : forall x, a <> Consume x) by (intros x ->; cbn in St; discriminate).
    assert (St' : (let (g, c) := g_step (d_g d) a in Some (mkD g (d_w d), c, [])) = Some (d', c, o')) by (destruct a; try exact St; exfalso; eapply NC; reflexivity).
    clear St. destruct (world_sim _ _ _ a I K Ok NC) as (s' & q' & X & I' & K' & R1 & R2 & new & R3).
    destruct (g_step (d_g d) a) as [g' c']. cbn [fst snd] in *. inv St'. rewrite app_nil_r. exists s', q'. split; [exact X|]. split; [|exact NF]. split; [exact I'|]. split; [exact K'|]. cbn.
    destruct (d_w d) as [w|]; [|rewrite R1, R2; exact T]. destruct T as (cc & es & T1 & T2 & T3). destruct (corr_write _ _ _ _ _ q' new T3 R3) as (es' & T4 & T5).
    exists cc, es'. split; [congruence|]. split; [|exact T4]. rewrite T5, T2, (split_written q G), (split_written q' (gone_nil _ K')), R2, R3, app_assoc. reflexivity.
  - (* start *)
    cbn in St. destruct (d_w d) as [w|]; [discriminate|]. destruct T as (T1 & T2 & ->).
    destruct (task_sim _ _ _ NRegisterCursor I K Logic.I) as (out & q' & E & St1 & I' & K' & X). cbn [Aggregate_Model.g_step consumer_call] in E, I'.
    destruct (on_n_signal rcrc hcrc (d_g d) NRegisterCursor) as [g' out']. cbn [fst snd] in *. inv E.
    inv St1; try congruence. inv St. exists s, (Nonvolatile_Spec.set_reader (Cursor 0) q). split; [exact X|]. split; [|cbn; auto]. split; [exact I'|]. split; [exact K'|]. cbn [d_w].
    exists 0%nat, (map Batching_Model.Write (data q)). split; [reflexivity|]. split; [rewrite written_writes; rewrite split_written by exact G; change (removed (Nonvolatile_Spec.set_reader (Cursor 0) q)) with (removed q); rewrite T2; reflexivity|].
    unfold corr. cbn. exists []. split; [rewrite run_writes; reflexivity|reflexivity].
  - (* a read *)
    cbn in St. destruct (d_w d) as [w|] eqn:Ew; [|discriminate]. destruct (w_phase w) eqn:P; try discriminate. inv St. rename H0 into St. unfold d_take in St.
    destruct T as (cc & es & T1 & T2 & T3).
    destruct (task_sim _ _ _ (NStartRead false) I K Logic.I) as (out & q' & E & St1 & I' & K' & X).
    destruct (g_step (d_g d) (Consume (NStartRead false))) as [g1 c1]. cbn [fst snd] in *. subst c1.
    inv St1; try congruence.
    + (* a record *)
      rewrite T1 in H0. inv H0.
      destruct (task_sim _ _ _ NPeek I' K' Logic.I) as (out2 & q2 & E2 & St2 & I2 & K2 & X2).
      destruct (g_step g1 (Consume NPeek)) as [g2 c2]. cbn [fst snd] in *. subst c2.
      assert (Q : out2 = NBytes (Some (e_data x)) /\ q2 = Nonvolatile_Spec.set_reader (Cursor (S n)) q).
      { inv St2; cbn [q_reader q_unread Nonvolatile_Spec.set_reader] in *; try congruence.
        - match goal with A : Cursor _ = Cursor _ |- _ => inv A end. split; congruence.
        - exfalso. match goal with A : ~ Nonvolatile_Spec.reading _ |- _ => apply A end. cbn. discriminate. }
      destruct Q as [-> ->].
      destruct (w_select (mkW (Batching_Model.add_log (w_builder w) (e_data x)) (w_deadline w) (w_stop w) WIdle) l) as [w' ow] eqn:Es. inv St.
      exists s, (Nonvolatile_Spec.set_reader (Cursor (S n)) q). split; [exact (explains_app rcrc vcap k _ _ _ _ _ _ _ _ X X2)|].
      destruct (fun P => select_sim (data q) (S n) _ _ _ _ P Es) as (obw & S1 & -> & S2); [reflexivity|].
      assert (Dn : @nth_error Batching_Model.record (data q) n = Some (e_data x)) by (change (@nth_error (list Z) (data q) n = Some (e_data x)); unfold data; rewrite nth_error_map, H2; reflexivity).
      split; [|rewrite in_app_iff; intros [?|[?|Hin]]; [auto|discriminate|]; apply in_map_iff in Hin as ([] & ? & _); discriminate].
      split; [exact I2|]. split; [exact K2|]. cbn [d_w]. exists (S n), (es ++ [Batching_Model.Read l]). split; [reflexivity|]. split; [rewrite written_snoc by discriminate; exact T2|].
      apply (corr_step w n q o es w' (S n) (Nonvolatile_Spec.set_reader (Cursor (S n)) q) (Batching_Model.Read l)); [rewrite P; discriminate|exact S2|exact T3|].
      intros ob. exists (Batching_Model.ORead (e_data x) l :: obw). intros _. split; [|reflexivity]. rewrite P. cbn. rewrite Dn. unfold up in S1. cbn in S1. rewrite S1. reflexivity.
    + (* nothing there *)
      unfold nothing in *. cbn in St. inv St. exists s, q'. split; [exact X|]. rewrite app_nil_r. split; [|exact NF]. split; [exact I'|]. split; [exact K'|]. cbn. eauto.
  - (* deadline *)
    cbn in St. destruct (d_w d) as [w|] eqn:Ew; [|discriminate]. destruct (w_phase w) eqn:P; try discriminate. destruct (w_deadline w) eqn:Dl; [|discriminate].
    unfold w_flush, Batching_Model.take in St. inv St. eapply Same; [reflexivity|reflexivity|reflexivity|intros [?|[]]; discriminate|].
    intros cc es T1 T2 T3. exists (es ++ [Batching_Model.Deadline]). split; [rewrite written_snoc by discriminate; exact T2|].
    apply (corr_step w cc q o es _ cc q Batching_Model.Deadline); [rewrite P; discriminate|discriminate|exact T3|].
    intros ob. eexists. intros _. rewrite P. cbn. rewrite Dl. split; reflexivity.
  - (* new limits *)
    cbn in St. destruct (d_w d) as [w|] eqn:Ew; [|discriminate]. destruct (w_phase w) eqn:P; try discriminate.
    destruct (w_select w l) as [w' ow] eqn:Es. inv St.
    destruct (select_sim [] 0 _ _ _ _ P Es) as (_ & _ & _ & S2).
    eapply Same; [reflexivity|reflexivity|reflexivity| |].
    + destruct (select_sim [] 0 _ _ _ _ P Es) as (obw & _ & -> & _). intros Hin. apply in_map_iff in Hin as ([] & ? & _); discriminate.
    + intros cc es T1 T2 T3. exists (es ++ [Batching_Model.FlagsChanged l]). split; [rewrite written_snoc by discriminate; exact T2|].
      apply (corr_step w cc q o es _ cc q (Batching_Model.FlagsChanged l)); [rewrite P; discriminate|exact S2|exact T3|].
      intros ob. destruct (select_sim (data q) cc _ _ _ _ P Es) as (obw & S1 & S3 & _). exists obw. intros _. rewrite P. split; [|exact S3]. cbn [image Batching_Model.step]. change (Batching_Model.u_phase (up (data q) cc w Batching_Model.Idle)) with Batching_Model.Idle. cbv iota. rewrite S1. reflexivity.
  - (* the service answered *)
    cbn in St. destruct (d_w d) as [w|] eqn:Ew; [|discriminate]. destruct (w_phase w) as [|n| |] eqn:P; try discriminate. inv St.
    eapply Same; [reflexivity|reflexivity|reflexivity|intros [?|[]]; discriminate|]. intros cc es T1 T2 T3. destruct n as [|n].
    + exists (es ++ [Batching_Model.Done a]). split; [rewrite written_snoc by discriminate; exact T2|].
      apply (corr_step w cc q o es _ cc q (Batching_Model.Done a)); [rewrite P; discriminate|discriminate|exact T3|].
      intros ob. eexists. intros _. rewrite P. cbn. split; reflexivity.
    + exists es. split; [exact T2|]. unfold corr in *. rewrite P in T3. cbn. destruct T3 as (ob & R & ->). exists [], a, ob. splits; [exact R|reflexivity|discriminate].
  - (* a release *)
    cbn in St. destruct (d_w d) as [w|] eqn:Ew; [|discriminate]. destruct (w_phase w) as [| |[|n]|] eqn:P; try discriminate. inv St. rename H0 into St. unfold d_release in St.
    destruct T as (cc & es & T1 & T2 & T3). pose proof (corr_enough _ _ _ _ _ _ T3 P) as En.
    destruct (task_sim _ _ _ NAdvance I K Logic.I) as (out & q' & E & St1 & I' & K' & X).
    destruct (g_step (d_g d) (Consume NAdvance)) as [g1 c1]. cbn [fst snd] in *. subst c1.
    inv St1; rewrite T1 in *; try (match goal with A : Cursor _ = Cursor _ |- _ => inv A end); try lia; try (exfalso; match goal with A : forall m, Cursor _ <> Cursor m |- _ => eapply A; reflexivity end).
    inv St. exists s, (Nonvolatile_Spec.set_reader (Cursor n0) (leave [(Consumed, x)] l q)). split; [exact X|]. split; [|rewrite in_app_iff; cbn; intros [?|[?|[]]]; [auto|discriminate]].
    split; [exact I'|]. split; [exact K'|]. cbn [d_w].
    assert (D' : data q = e_data x :: data (Nonvolatile_Spec.set_reader (Cursor n0) (leave [(Consumed, x)] l q))) by (unfold data, leave; match goal with A : q_unread q = _ |- _ => rewrite A end; destruct l; reflexivity).
    assert (W' : bytes_written (Nonvolatile_Spec.set_reader (Cursor n0) (leave [(Consumed, x)] l q)) = bytes_written q).
    { rewrite !split_written; try exact G; try (apply gone_nil; exact K'). rewrite D'. change (e_data x :: ?z) with ([e_data x] ++ z). rewrite app_assoc. f_equal. unfold removed, leave. destruct l; cbn; rewrite ?G; cbn; rewrite map_app; reflexivity. }
    exists n0. unfold corr in T3. rewrite P in T3. destruct T3 as (gone & a & ob & R & Eo & _). set (q' := Nonvolatile_Spec.set_reader (Cursor n0) (leave [(Consumed, x)] l q)) in *.
    destruct n as [|n].
    + exists (es ++ [Batching_Model.Done a]). split; [reflexivity|]. split; [rewrite written_snoc by discriminate; congruence|]. unfold corr. cbn [w_phase].
      exists (ob ++ Batching_Model.ODone a :: map Batching_Model.ORelease (gone ++ [e_data x])). split.
      * eapply run_snoc; [exact R|]. cbn [Batching_Model.step up Batching_Model.u_phase]. rewrite release_gen.
        2:{ cbn. rewrite app_length. rewrite D' in *. cbn [length] in *. lia. }
        unfold up. cbn. rewrite D'. replace (length gone + 1)%nat with (length (gone ++ [e_data x])) by (rewrite app_length; reflexivity).
        change (e_data x :: data q') with ([e_data x] ++ data q'). rewrite app_assoc. rewrite skipn_app, skipn_all, firstn_app, firstn_all, Nat.sub_diag. cbn. rewrite app_nil_r.
        rewrite app_length. cbn. replace (length gone + S n0 - (length gone + 1))%nat with n0 by lia. reflexivity.
      * rewrite Eo. rewrite map_app. cbn. rewrite map_map. cbn. rewrite <- !app_assoc. cbn. f_equal. f_equal. rewrite map_app. cbn.
        rewrite map_constant. reflexivity.
    + exists es. split; [reflexivity|]. split; [congruence|]. unfold corr. cbn [w_phase]. exists (gone ++ [e_data x]), a, ob. rewrite app_length. cbn. split; [|split; [|discriminate]].
      * rewrite R. unfold up. cbn. rewrite D', <- app_assoc. cbn [app]. replace (length gone + 1 + n0)%nat with (length gone + S n0)%nat by lia. replace (length gone + 1 + S n)%nat with (length gone + S (S n))%nat by lia. reflexivity.
      * rewrite Eo, <- !app_assoc. cbn. f_equal. f_equal. rewrite repeat_app. reflexivity.
  - (* it is asked to stop *)
    cbn in St. destruct (d_w d) as [w|] eqn:Ew; [|discriminate]. inv St. eapply Same; [reflexivity|reflexivity|reflexivity|intros []|].
    intros cc es T1 T2 T3. exists (es ++ [Batching_Model.Shutdown]). split; [rewrite written_snoc by discriminate; exact T2|]. rewrite app_nil_r.
    unfold corr in *. cbn. destruct (w_phase w).
    1,2,4: destruct T3 as (ob & R & ->); exists ob; split; [|reflexivity]; rewrite <- (app_nil_r ob); eapply run_snoc; [exact R|reflexivity].
    destruct T3 as (gone & a & ob & R & -> & N). exists gone, a, ob. splits; auto. rewrite <- (app_nil_r ob). eapply run_snoc; [exact R|reflexivity].
  - (* it sees it *)
    cbn in St. destruct (d_w d) as [w|] eqn:Ew; [|discriminate]. destruct (w_stop w) eqn:Sw; [|discriminate]. destruct (w_phase w) eqn:P; try discriminate; inv St.
    + eapply Same; [reflexivity|reflexivity|reflexivity|intros []|]. intros cc es T1 T2 T3. exists (es ++ [Batching_Model.SeeShutdown]). split; [rewrite written_snoc by discriminate; exact T2|].
      apply (corr_step w cc q o es _ cc q Batching_Model.SeeShutdown); [rewrite P; discriminate|discriminate|exact T3|].
      intros ob. eexists. intros _. rewrite P. cbn. rewrite Sw. split; reflexivity.
    + eapply Same; [reflexivity|reflexivity|reflexivity|intros [?|[]]; discriminate|]. intros cc es T1 T2 T3. exists (es ++ [Batching_Model.SeeShutdown]). split; [rewrite written_snoc by discriminate; exact T2|].
      apply (corr_step w cc q o es _ cc q Batching_Model.SeeShutdown); [rewrite P; discriminate|discriminate|exact T3|].
      intros ob. eexists. intros _. rewrite P. cbn. rewrite Sw. split; reflexivity.
Qed.

Lemma run_dinv ms : forall d s q o d' c o', dinv d s q o -> Forall move_ok ms -> d_run d ms = Some (d', c, o') -> ~ In Failed o ->
  exists s' q', explains s q c s' q' /\ dinv d' s' q' (o ++ o') /\ ~ In Failed (o ++ o').
Proof.
  induction ms as [|m ms IH]; intros d s q o d' c o' I F R NF; cbn in R.
  - inv R. exists s, q. rewrite app_nil_r. split; [apply explains_nil|auto].
  - apply Forall_cons_iff in F as [Fm F]. destruct (d_step d m) as [[[d1 c1] o1]|] eqn:St; [|discriminate]. destruct (d_run d1 ms) as [[[d2 c2] o2]|] eqn:Er; [|discriminate]. inv R.
    destruct (step_dinv _ _ _ _ _ _ _ _ I Fm St NF) as (s1 & q1 & X1 & I1 & N1). destruct (IH _ _ _ _ _ _ _ I1 F Er N1) as (s2 & q2 & X2 & I2 & N2).
    exists s2, q2. rewrite app_assoc. split; [eapply explains_app; eassumption|auto].
Qed.
End P.

(** * What follows *)
Lemma sent_app a b : sent (a ++ b) = sent a ++ sent b.
Proof. induction a as [|[] a IH]; cbn; rewrite ?IH; reflexivity. Qed.
Lemma got_app a b : got (a ++ b) = got a ++ got b.
Proof. induction a as [|[] a IH]; cbn; rewrite ?IH; reflexivity. Qed.
Lemma sent_hide ob : sent (map hide ob) = Batching_Spec.uploads ob.
Proof. induction ob as [|[] ob IH]; cbn; rewrite ?IH; reflexivity. Qed.
Lemma got_hide ob : got (map hide ob) = Batching_Spec.reads ob.
Proof. induction ob as [|[] ob IH]; cbn; rewrite ?IH; reflexivity. Qed.
Lemma releases_hide ob : releases (map hide ob) = length (Batching_Spec.releases ob).
Proof. induction ob as [|[] ob IH]; cbn; auto. Qed.
Lemma releases_tail o a n : releases (o ++ Answered a :: repeat Released n) = (releases o + n)%nat.
Proof. induction o as [|[] o IH]; cbn; auto. induction n; cbn; congruence. Qed.
Lemma tail_silent a n : sent (Answered a :: repeat Released n) = [] /\ got (Answered a :: repeat Released n) = [].
Proof. cbn. induction n; cbn; auto. Qed.
Lemma answered_hide ob : forall p, answered p (map hide ob) = Batching_Spec.completed p ob.
Proof. induction ob as [|[] ob IH]; intros p; cbn; rewrite ?IH; reflexivity. Qed.
Lemma answered_released n : forall p, answered p (repeat Released n) = [].
Proof. induction n; intros p; cbn; auto. Qed.
Lemma answered_tail ob : forall p a n, answered p (map hide ob ++ Answered a :: repeat Released n) =
  Batching_Spec.completed p ob ++ match Batching_Proofs.under_way p ob with Some b => [b] | None => [] end.
Proof.
  induction ob as [|[] ob IH]; intros p a n; cbn.
  - destruct p; rewrite answered_released; reflexivity.
  - apply IH.
  - apply IH.
  - destruct p; cbn; rewrite IH; reflexivity.
  - apply IH.
  - apply IH.
Qed.

Section Q.
Variable rcrc : list Z -> Z.
Variable hcrc : Z -> option Z -> option Z -> option Z -> Z.
Local Notation g_step := (g_step rcrc hcrc).
Local Notation d_run := (d_run rcrc hcrc).

(** The run over a queue behind a state of the task. *)
Lemma corr_run w c q o es : corr w c q o es -> exists u ob, Batching_Model.run (Batching_Model.uploader_new []) es = Some (u, ob) /\
  sent o = Batching_Spec.uploads ob /\ got o = Batching_Spec.reads ob /\ Batching_Model.u_builder u = w_builder w /\ (w_phase w = WEnded -> w_stop w = true).
Proof.
  unfold corr. destruct (w_phase w) eqn:P.
  1,2,4: intros (ob & R & ->); exists (up (data q) c w (image (w_phase w))), ob; rewrite P, sent_hide, got_hide; splits; auto; try discriminate.
  - intros _. pose proof (enough_run _ _ _ _ R enough_new) as [_ E]. apply E. reflexivity.
  - intros (gone & a & ob & R & -> & _). eexists. exists ob. split; [exact R|]. destruct (tail_silent a (length gone)) as [E1 E2].
    rewrite sent_app, got_app, E1, E2, !app_nil_r, sent_hide, got_hide. splits; auto. discriminate.
Qed.

Lemma dinv_new mem vsize nsize check st g : 0 <= vsize -> nsize - header_size < 2147483648 -> g_new hcrc None mem vsize nsize OBlock check st = Ok g ->
  dinv rcrc hcrc vsize (cfg nsize OBlock check) (d_new g) fifo_init (queue_init (cfg nsize OBlock check)) [] /\ vsize < 4294967296.
Proof.
  intros H1 H2 E. destruct (new_inv rcrc hcrc false _ _ _ _ _ _ _ H1 H2 E) as [I0 Sm]. split; [|exact Sm]. split; [exact I0|].
  split; [split; [constructor|split; [reflexivity|discriminate]]|]. cbn. auto.
Qed.

Definition written_down (d : delivery) (q : queue) (o : list seen) : Prop := exists rest, bytes_written q = concat (sent o) ++ collecting d ++ rest.
Definition in_batches (d : delivery) (o : list seen) : Prop := exists bs cur, got o = concat bs ++ cur /\ sent o = map (map fst) bs /\ collecting d = map fst cur /\
  Forall (fun b => b <> [] /\ Batching_Spec.grows b) bs.
Definition taken_away (d : delivery) (q : queue) (o : list seen) : Prop :=
  exists rest, concat (answered None o) = removed q ++ rest /\ length rest = to_release d.

Lemma dinv_spec vcap k d s q o : dinv rcrc hcrc vcap k d s q o -> ~ In Failed o -> linked s q /\
    bytes_written q = removed q ++ map e_data (q_unread q) /\ Forall (fun p => fst p = Consumed) (q_past q) /\
    written_down d q o /\ in_batches d o /\ (~ In GaveUp o -> taken_away d q o) /\ ~ In Failed o /\ (ended d -> match d_w d with Some w => w_stop w = true | None => False end) /\
    length (removed q) = releases o.
Proof.
  intros (I & K & T) NF. split; [eapply inv_linked; exact I|]. assert (G := gone_nil _ _ _ K). split; [rewrite split_written by exact G; reflexivity|].
  split; [exact (proj1 K)|]. unfold written_down, in_batches, taken_away, collecting, to_release, ended. destruct (d_w d) as [w|].
  2:{ destruct T as (_ & T & ->). splits; auto.
      - exists (bytes_written q). reflexivity.
      - exists [], []. cbn. splits; auto.
      - intros _. exists []. rewrite T. split; reflexivity.
      - rewrite T. reflexivity. }
  destruct T as (cc & es & T1 & T2 & T3). destruct (corr_run _ _ _ _ _ T3) as (u & ob & Ru & Es & Eg & Eb & En).
  destruct (Batching_Proofs.inv_run _ _ _ _ _ _ _ (Batching_Proofs.inv_new []) Ru) as (bs & cur & V). cbn in V. pose proof (Batching_Proofs.kept _ _ _ _ Ru) as Kp. cbn in Kp.
  splits; auto.
  - exists (skipn (Batching_Model.u_cursor u) (Batching_Model.u_buf u)). rewrite <- T2, Kp, Es, <- Eb. rewrite <- (firstn_skipn (Batching_Model.u_cursor u) (Batching_Model.u_buf u)) at 1.
    rewrite app_assoc, (Batching_Proofs.i_cursor _ _ _ _ V), (Batching_Proofs.i_reads _ _ _ _ V), <- (Batching_Proofs.i_ups _ _ _ _ V), (Batching_Proofs.i_cur _ _ _ _ V).
    rewrite map_app, concat_map, <- app_assoc. reflexivity.
  - exists bs, cur. rewrite Eg, Es, <- Eb. splits; [exact (Batching_Proofs.i_reads _ _ _ _ V)|symmetry; exact (Batching_Proofs.i_ups _ _ _ _ V)|exact (Batching_Proofs.i_cur _ _ _ _ V)|].
    pose proof (Batching_Proofs.i_grow _ _ _ _ V) as V1. pose proof (Batching_Proofs.i_ne _ _ _ _ V) as V2. rewrite Forall_forall in *. auto.
  - intros NG. rewrite split_written in T2 by exact G. clear u ob Ru Es Eg Eb En V Kp bs cur. unfold corr in T3.
    assert (Rel : forall u ob, Batching_Model.run (Batching_Model.uploader_new []) es = Some (u, ob) -> ~ In GaveUp (map hide ob) -> Batching_Proofs.rel u ob).
    { intros u ob Ru N. apply (Batching_Proofs.rel_run es (Batching_Model.uploader_new []) [] u ob); [unfold Batching_Proofs.rel; cbn; splits; auto; lia|exact Ru|].
      intros Hin. apply N. apply in_map_iff. exists Batching_Model.OAbandoned. auto. }
    destruct (w_phase w) eqn:P.
    1,2,4: destruct T3 as (ob & Ru & ->); destruct (Rel _ _ Ru NG) as (_ & Q & _); pose proof (Batching_Proofs.kept _ _ _ _ Ru) as Kp; cbn in Kp; exists [];
      split; [|reflexivity]; rewrite answered_hide, <- Q, app_nil_r; rewrite T2 in Kp; apply app_inv_tail in Kp; symmetry; exact Kp.
    destruct T3 as (gone & a & ob & Ru & -> & N). assert (NG' : ~ In GaveUp (map hide ob)) by (intros Hin; apply NG; apply in_or_app; auto).
    destruct (Rel _ _ Ru NG') as (A & Q & _). cbn in A. destruct A as (b & A1 & A2 & A3 & A4 & A5).
    pose proof (Batching_Proofs.kept _ _ _ _ Ru) as Kp. cbn in Kp. rewrite T2 in Kp. change Batching_Model.record with (list Z) in *. rewrite app_assoc in Kp. apply app_inv_tail in Kp.
    rewrite answered_tail, A1, concat_app. cbn. change Batching_Model.record with (list Z) in *. rewrite app_nil_r, <- Q, Kp.
    rewrite firstn_app, firstn_all2 in A5 by lia. replace (length gone + cc - length gone)%nat with cc in A5 by lia.
    exists (firstn cc (data q)). rewrite <- A5, app_assoc. split; [reflexivity|]. rewrite <- A5, app_length in A2. lia.
  - rewrite split_written in T2 by exact G. clear u ob Ru Es Eg Eb En V Kp bs cur. unfold corr in T3. destruct (w_phase w) eqn:P.
    1,2,4: destruct T3 as (ob & Ru & ->); pose proof (Batching_Proofs.kept _ _ _ _ Ru) as Kp; cbn in Kp; rewrite T2 in Kp; apply app_inv_tail in Kp; rewrite releases_hide, Kp; reflexivity.
    destruct T3 as (gone & a & ob & Ru & -> & N). pose proof (Batching_Proofs.kept _ _ _ _ Ru) as Kp. cbn in Kp. rewrite T2 in Kp. change Batching_Model.record with (list Z) in *. rewrite app_assoc in Kp. apply app_inv_tail in Kp.
    rewrite releases_tail, releases_hide, Kp, app_length. reflexivity.
Qed.

Lemma run_spec mem vsize nsize check st g ms d c o : 0 <= vsize -> nsize - header_size < 2147483648 -> g_new hcrc None mem vsize nsize OBlock check st = Ok g ->
  Forall move_ok ms -> d_run (d_new g) ms = Some (d, c, o) ->
  exists s q, explains rcrc vsize (cfg nsize OBlock check) fifo_init (queue_init (cfg nsize OBlock check)) c s q /\ linked s q /\
    bytes_written q = removed q ++ map e_data (q_unread q) /\ Forall (fun p => fst p = Consumed) (q_past q) /\
    written_down d q o /\ in_batches d o /\ (~ In GaveUp o -> taken_away d q o) /\ ~ In Failed o /\ (ended d -> match d_w d with Some w => w_stop w = true | None => False end) /\
    length (removed q) = releases o.
Proof.
  intros H1 H2 E F R. destruct (dinv_new _ _ _ _ _ _ H1 H2 E) as [I0 Sm].
  destruct (run_dinv rcrc hcrc vsize (cfg nsize OBlock check) eq_refl Sm eq_refl ms _ _ _ _ _ _ _ I0 F R (fun H => H)) as (s & q & X & I & NF).
  exists s, q. split; [exact X|]. exact (dinv_spec _ _ _ _ _ _ I NF).
Qed.

Lemma step_asked d m d' c o : d_step rcrc hcrc d m = Some (d', c, o) -> (match d_w d' with Some w => w_stop w = true | None => False end) -> m = Stop \/ match d_w d with Some w => w_stop w = true | None => False end.
Proof.
  intros St H. destruct m as [a| |l| |l|a| | |]; cbn -[Aggregate_Model.g_step] in St; auto; right.
  all: unfold d_take, d_release, w_select, w_flush, w_arm, Batching_Model.take in St; try (destruct a; try discriminate).
  all: repeat (match type of St with
    | context [Aggregate_Model.g_step ?x ?y ?g ?a] => destruct (Aggregate_Model.g_step x y g a)
    | context [match ?x with _ => _ end] => match x with context [match _ with _ => _ end] => fail 1 | _ => destruct x eqn:? end
    end; try discriminate); inv St; cbn in *; auto; congruence.
Qed.
Lemma run_asked ms : forall d d' c o, d_run d ms = Some (d', c, o) -> (match d_w d' with Some w => w_stop w = true | None => False end) ->
  In Stop ms \/ match d_w d with Some w => w_stop w = true | None => False end.
Proof.
  induction ms as [|m ms IH]; intros d d' c o R H; cbn in R; [inv R; auto|].
  destruct (d_step rcrc hcrc d m) as [[[d1 c1] o1]|] eqn:St; [|discriminate]. destruct (d_run d1 ms) as [[[d2 c2] o2]|] eqn:Er; [|discriminate]. inv R.
  destruct (IH _ _ _ _ Er H) as [A|A]; [left; right; exact A|]. destruct (step_asked _ _ _ _ _ St A) as [->|B]; [left; left; reflexivity|auto].
Qed.
End Q.
