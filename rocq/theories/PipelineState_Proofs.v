(** The configuration of the pipeline and the state file. *)
From Verif Require Import Base Str_Base Log_Model LogMatcher_Model BufferMatcher_Model Workflow_Model WorkflowEngine_Model Pipeline_Model Pipeline_Spec Pipeline_Proofs PipelineEffects_Proofs.
From Verif Require Filter_Model.
Local Open Scope string_scope. Local Open Scope list_scope.

Section State.
Variables (re_match : string -> string -> bool) (re_replace : string -> string -> string -> string) (to_i32 : string -> option Z)
  (sha : string -> string) (f64 : string -> option Z).
Notation pipe_step := (Pipeline_Model.pstep re_match re_replace to_i32 sha f64).
Notation pipe_run := (Pipeline_Model.prun re_match re_replace to_i32 sha f64).

Lemma same_engine p : p = with_engine p (p_engine p). Proof. destruct p. reflexivity. Qed.
Lemma engine_step_frame p o p' : Pipeline_Model.engine_step re_match to_i32 sha f64 p o = Some p' -> exists e, p' = with_engine p e.
Proof.
  unfold Pipeline_Model.engine_step. destruct (p_engine p) as [y|f] eqn:E; [|intros H; inv H; exists (p_engine p'); apply same_engine].
  destruct (WorkflowEngine_Model.step _ _ _ _ _ _) as [[y' ev]|]; [|discriminate]. intros H. inv H. eauto.
Qed.
(** Only updates and the flag change more than the engine. *)
Lemma step_frame p o p' es : pipe_step p o = Some (p', es) -> (forall u b n, o <> PUpdate u b n) -> (forall b, o <> PFilterFlag b) -> exists e, p' = with_engine p e.
Proof.
  intros H N1 N2. destruct o as [l b v|u b n|d| |a|n|b|b|b]; cbn [Pipeline_Model.pstep] in H.
  - apply log_shape in H. destruct (p_engine p) as [y|f] eqn:E; [destruct H as (e & r & y' & _ & _ & ->); eauto|subst; exists (p_engine p); apply same_engine].
  - destruct (N1 _ _ _ eq_refl).
  - destruct (Pipeline_Model.engine_step _ _ _ _ _ _) eqn:E; inv H. eapply engine_step_frame; eauto.
  - destruct (Pipeline_Model.engine_step _ _ _ _ _ _) eqn:E; inv H. eapply engine_step_frame; eauto.
  - destruct (p_engine p) as [y|f] eqn:E; [|inv H; exists (p_engine p'); apply same_engine]. destruct (e_buffers (y_engine y)) as [|[n ids] r]; [inv H; exists (p_engine p'); apply same_engine|].
    destruct (Pipeline_Model.engine_step _ _ _ _ p TakeFlush) as [p1|] eqn:E1; [|discriminate]. apply engine_step_frame in E1 as (e1 & ->). destruct a; [inv H; eauto|].
    destruct (Pipeline_Model.engine_step _ _ _ _ _ (FlushDone n)) as [p2|] eqn:E2; [|discriminate]. apply engine_step_frame in E2 as (e2 & ->). inv H. exists e2. reflexivity.
  - destruct (Pipeline_Model.engine_step _ _ _ _ _ _) eqn:E; inv H. eapply engine_step_frame; eauto.
  - inv H. destruct b; [exists (p_engine p); apply same_engine|eauto].
  - destruct (N2 _ eq_refl).
  - destruct (Pipeline_Model.engine_step _ _ _ _ _ _) eqn:E; inv H. eapply engine_step_frame; eauto.
Qed.
Lemma config_run ops : forall u on p p' ess, p_producers p = u_producers u -> p_selector p = u_selector u -> p_tails p = u_tails u -> p_filters p = u_filters u -> p_filter_on p = on ->
  pipe_run p ops = Some (p', ess) ->
  let w := latest u ops in p_producers p' = u_producers w /\ p_selector p' = u_selector w /\ p_tails p' = u_tails w /\ p_filters p' = u_filters w /\ p_filter_on p' = filtering on ops.
Proof.
  induction ops as [|o ops IH]; intros u on p p' ess H1 H2 H3 H4 H5 R; cbn [Pipeline_Model.prun] in R; [inv R; cbn; auto|].
  destruct (pipe_step p o) as [[p1 es]|] eqn:St; [|discriminate]. destruct (pipe_run p1 ops) as [[p2 ess2]|] eqn:R2; [|discriminate]. injection R as <- <-.
  assert (C : (exists w b n, o = PUpdate w b n) \/ (exists b, o = PFilterFlag b) \/ (forall w b n, o <> PUpdate w b n) /\ (forall b, o <> PFilterFlag b)).
  { destruct o; try (right; right; split; intros; discriminate); eauto 6. }
  destruct C as [(w & b & n & ->)|[(b & ->)|[N1 N2]]].
  - cbn in St. inv St. cbn [latest filtering]. eapply IH; try exact R2; reflexivity.
  - cbn in St. inv St. cbn [latest filtering]. eapply IH; try exact R2; cbn; auto.
  - destruct (step_frame _ _ _ _ St N1 N2) as (e & ->). replace (latest u (o :: ops)) with (latest u ops) by (destruct o; try reflexivity; destruct (N1 _ _ _ eq_refl)).
    replace (filtering on (o :: ops)) with (filtering on ops) by (destruct o; try reflexivity; destruct (N2 _ eq_refl)). apply (IH u on (with_engine p e) _ _ H1 H2 H3 H4 H5 R2).
Qed.

(** The state file. *)
Lemma engine_step_file p o p' : Pipeline_Model.engine_step re_match to_i32 sha f64 p o = Some p' -> quiet o = true -> (forall b, o <> Persist b) -> engine_file (p_engine p') = engine_file (p_engine p).
Proof.
  unfold Pipeline_Model.engine_step. destruct (p_engine p) as [y|f] eqn:E; [|intros H; inv H; rewrite E; reflexivity].
  destruct (WorkflowEngine_Model.step _ _ _ _ _ _) as [[y' ev]|] eqn:St; [|discriminate]. intros H Q N. inv H. cbn [p_engine with_engine engine_file].
  destruct o; try discriminate; cbn in St.
  - repeat dmatch_in St; inv St; reflexivity.
  - repeat dmatch_in St; inv St; reflexivity.
  - inv St. reflexivity.
  - inv St. reflexivity.
  - destruct (N _ eq_refl).
Qed.
Lemma file_kept p o p' es : pipe_step p o = Some (p', es) -> engine_file (p_engine p') = engine_file (p_engine p) \/ (exists b, o = PPersist b) \/ exists l b v, o = PLog l b v /\ (b = true \/ v_persist v = true).
Proof.
  intros H. destruct o as [l b v|u b n|d| |a|n|b|b|b]; cbn [Pipeline_Model.pstep] in H.
  - destruct (b || v_persist v) eqn:B; [apply orb_true_iff in B; eauto 8|left]. unfold Pipeline_Model.process_log in H. cbv zeta in H. destruct (p_engine p) as [y|f] eqn:E.
    + destruct (WorkflowEngine_Model.process_log _ _ _ _ _ _ _ _) as [[e r]|]; [|discriminate]. destruct (write_loop _ _ _ _) as [w ok]. destruct ok.
      * destruct (process_flush_buffers_actions _ _ _ _ _ _) as [syn ex]. rewrite B in H. inv H. reflexivity.
      * inv H. reflexivity.
    + destruct (write_loop _ _ _ _) as [w ok]. destruct ok; inv H; rewrite E; reflexivity.
  - left. inv H. cbn. destruct b; [|reflexivity]. destruct (p_engine p); reflexivity.
  - left. destruct (Pipeline_Model.engine_step _ _ _ _ _ _) eqn:E; inv H. eapply engine_step_file; eauto. discriminate.
  - left. destruct (Pipeline_Model.engine_step _ _ _ _ _ _) eqn:E; inv H. eapply engine_step_file; eauto. discriminate.
  - left. destruct (p_engine p) as [y|f] eqn:E; [|inv H; rewrite E; reflexivity]. destruct (e_buffers (y_engine y)) as [|[n ids] r]; [inv H; rewrite E; reflexivity|].
    destruct (Pipeline_Model.engine_step _ _ _ _ p TakeFlush) as [p1|] eqn:E1; [|discriminate]. apply engine_step_file in E1; [|reflexivity|discriminate]. rewrite <- E, <- E1. destruct a; [inv H; reflexivity|].
    destruct (Pipeline_Model.engine_step _ _ _ _ p1 (FlushDone n)) as [p2|] eqn:E2; [|discriminate]. inv H. eapply engine_step_file; eauto. discriminate.
  - left. destruct (Pipeline_Model.engine_step _ _ _ _ _ _) eqn:E; inv H. eapply engine_step_file; eauto. discriminate.
  - left. inv H. destruct b; reflexivity.
  - left. inv H. reflexivity.
  - right. left. eauto.
Qed.
(** A blocking log saves the state of the workflows. *)
Lemma saved_step re_ok cfg p l0 v p' es y : pinv p -> pfit p -> buffers_work v -> selector_new re_ok cfg = Some (p_selector p) -> pipe_step p (PLog l0 true v) = Some (p', es) ->
  p_engine p = On y -> v_torn v = false -> exists y', p_engine p' = On y' /\ e_dirty (y_engine y') = false /\
    (y_file y' = Some (state_optimized (y_engine y')) \/
     y_file y' = y_file y /\ exists r, WorkflowEngine_Model.process_log re_match to_i32 sha f64 (y_engine y) (filtered re_match re_replace to_i32 p l0) (matching_of re_match p (filtered re_match re_replace to_i32 p l0)) (is_done (y_done y)) = Some (y_engine y', r)).
Proof.
  intros I F BW SN H E T. cbn [Pipeline_Model.pstep] in H. destruct (log_effects _ _ _ _ _ _ _ _ _ _ _ H) as (dests & acts & pre & wr & ok & syn & ex & D & W & _).
  pose proof (dests_goes re_match re_replace to_i32 sha f64 re_ok cfg p _ _ _ _ _ _ _ I SN D) as G. destruct (write_loop_spec _ _ _ _ _ _ W) as (k & _ & _ & _ & K3).
  assert (OK : ok = true) by (apply K3; auto; intros d Hd; apply G in Hd; eapply goes_known; eauto). subst ok.
  unfold decides in D. rewrite E in D. destruct D as (r & (y0 & e & Ey & V) & -> & -> & _). rewrite E in Ey. injection Ey as <-.
  unfold Pipeline_Model.process_log in H. cbv zeta in H. rewrite E, V, W in H. destruct (process_flush_buffers_actions _ _ _ _ _ _) as [syn' ex'].
  cbn [orb] in H. rewrite T in H. cbn [WorkflowEngine_Model.step y_engine] in H. destruct (e_dirty e) eqn:Dy; inv H; eexists; (split; [reflexivity|]); cbn; split; auto; right; eauto.
Qed.
Lemma new_config u on fon stats limit file ops p ess : pipe_run (pipe_new u on fon stats limit file) ops = Some (p, ess) ->
  let w := latest u ops in p_producers p = u_producers w /\ p_selector p = u_selector w /\ p_tails p = u_tails w /\
  forall l, filtered re_match re_replace to_i32 p l = if filtering fon ops then Filter_Model.process re_match re_replace to_i32 (u_filters w) l else l.
Proof.
  intros R. destruct (config_run ops u fon (pipe_new u on fon stats limit file) _ _ eq_refl eq_refl eq_refl eq_refl eq_refl R) as (A & B & C & D & E). cbv zeta. splits; auto.
  intros l. unfold filtered. rewrite D, E. reflexivity.
Qed.
Lemma new_saved u on fon stats limit file ops p ess re_ok cfg l0 v p' es y :
  pipe_run (pipe_new u on fon stats limit file) ops = Some (p, ess) -> coherent u -> file_fits (pr_conts (u_producers u)) file -> growing (pr_conts (u_producers u)) ops ->
  buffers_work v -> selector_new re_ok cfg = Some (p_selector p) -> pipe_step p (PLog l0 true v) = Some (p', es) -> p_engine p = On y -> v_torn v = false ->
  exists y', p_engine p' = On y' /\ e_dirty (y_engine y') = false /\
    (y_file y' = Some (state_optimized (y_engine y')) \/
     y_file y' = y_file y /\ exists r, WorkflowEngine_Model.process_log re_match to_i32 sha f64 (y_engine y) (filtered re_match re_replace to_i32 p l0) (matching_of re_match p (filtered re_match re_replace to_i32 p l0)) (is_done (y_done y)) = Some (y_engine y', r)).
Proof.
  intros R C F G BW SN H E T. destruct (reached_pfit re_match re_replace to_i32 sha f64 u on fon stats limit file ops p ess R C F G) as [I FT]. eapply saved_step; eauto.
Qed.
End State.
