(** Proofs about the processing pipeline. *)
From Verif Require Import Base Str_Base Log_Model LogMatcher_Model BufferMatcher_Model Matcher_Spec Matcher_Proofs Workflow_Model Workflow_Spec WorkflowEngine_Model WorkflowEngine_Spec WorkflowEngine_Proofs WorkflowRestore_Proofs WorkflowEqual_Proofs WorkflowActions_Proofs WorkflowNegotiation_Proofs Pipeline_Model Pipeline_Spec.
From Verif Require Filter_Model.
From Coq Require Import Sorted.
Local Open Scope string_scope. Local Open Scope list_scope.

(** * Streaming destinations stay configured *)
Definition pfits (c : list string) (q : pending) : Prop := forall s, pa_streaming q = Some s -> incl (sc_dest s) c.
Definition efits (c : list string) (e : engine) : Prop :=
  (forall a, In a (e_streaming e) -> incl (sa_dests a) c) /\ (forall q, In q (e_pending e) \/ In q (e_input e) -> pfits c q).
Definition yfits (c : list string) (y : system) : Prop := efits c (y_engine y) /\ (forall o, In o (y_outputs y) -> pfits c (pending_of o)) /\ file_fits c (y_file y).

Lemma pfits_mono c c' q : incl c c' -> pfits c q -> pfits c' q. Proof. intros I F s Hs. eapply incl_tran; eauto. Qed.
Lemma file_fits_mono c c' f : incl c c' -> file_fits c f -> file_fits c' f. Proof. intros I F s E q Hq s' Hs. eapply incl_tran; eauto. Qed.
Lemma efits_mono c c' e : incl c c' -> efits c e -> efits c' e.
Proof. intros I [F1 F2]. split; intros; [eapply incl_tran; eauto|eapply pfits_mono; eauto]. Qed.

Lemma pending_new_fits a session t c p : pending_new a session t c = Some p -> pfits c p.
Proof.
  unfold pending_new. cbv zeta. intros H s Hs. destruct (match af_buffers a with [] => t | _ => _ end) as [|tx tl]; [discriminate|]. injection H as <-. cbn [pa_streaming] in Hs.
  destruct (af_streaming a) as [s0|]; [|discriminate]. destruct c as [|f c]; [discriminate|]. remember (match sc_dest s0 with [] => [f] | _ => _ end) as d eqn:ED. destruct d as [|x d]; [discriminate|]. injection Hs as <-. cbn [sc_dest]. intros y Hy.
  rewrite ED in Hy. destruct (sc_dest s0); [destruct Hy as [<-|[] ]; now left|]. apply filter_In in Hy. tauto.
Qed.
Lemma insert_in {A} dec (x y : A) l : In y (insert dec x l) -> y = x \/ In y l.
Proof. unfold insert. destruct (in_dec dec x l); auto. rewrite in_app_iff. cbn. intuition. Qed.
Lemma fold_insert_in {A} dec (l s : list A) x : In x (fold_left (fun s x => insert dec x s) l s) -> In x s \/ In x l.
Proof. revert s. induction l as [|y l IH]; intros s H; cbn [fold_left] in H; auto. apply IH in H as [H|H]; cbn; auto. apply insert_in in H as [ -> | H]; auto. Qed.
Lemma flush_loop_fits session t c pend strm : forall acts cr ids bufs cr' ids' bufs', flush_loop session t c pend strm acts cr ids bufs = (cr', ids', bufs') ->
  (forall q, In q cr -> pfits c q) -> forall q, In q cr' -> pfits c q.
Proof.
  induction acts as [|a acts IH]; intros cr ids bufs cr' ids' bufs' H F; cbn [flush_loop] in H; [inv H; auto|]. cbv zeta in H.
  destruct (pending_new a session t c) as [p|] eqn:E; [|eapply IH; eauto]. destruct (_ || _) eqn:EO; [eapply IH; eauto|]. eapply IH; [exact H|]. intros q Hq. apply insert_in in Hq as [-> | Hq]; auto. eapply pending_new_fits; eauto.
Qed.
Lemma try_send_in {A} cap (q l : list A) x : In x (try_send_all cap q l) -> In x q \/ In x l.
Proof. destruct (try_send_prefix cap q l) as (k & ->). intros H. apply in_app_or in H as [H|H]; auto. right. rewrite <- (firstn_skipn k l). apply in_or_app. auto. Qed.

Lemma standardize_pending_fits c t l q : In q (standardize_pending t l) -> (forall q, In q l -> pfits c q) -> pfits c q.
Proof.
  unfold standardize_pending. intros H F. apply fold_insert_in in H as [ []|H]. apply WorkflowEqual_Proofs.catSomes_in in H. apply in_map_iff in H as (p & E & Hp). destruct (inter _ _); [discriminate|]. injection E as <-. exact (F p Hp).
Qed.
Lemma standardize_streaming_fits t c l a : In a (standardize_streaming t c l) -> incl (sa_dests a) c.
Proof.
  unfold standardize_streaming. intros H. apply WorkflowEqual_Proofs.catSomes_in in H. apply in_map_iff in H as (s & E & Hs). destruct (inter (sa_sources s) t); [discriminate|]. destruct (inter (sa_dests s) c) eqn:EI; [discriminate|]. injection E as <-. cbn [sa_dests]. rewrite <- EI.
  intros x Hx. apply inter_in in Hx. tauto.
Qed.

Section Pipeline.
Variables (re_match : string -> string -> bool) (re_replace : string -> string -> string -> string) (to_i32 : string -> option Z)
  (sha : string -> string) (f64 : string -> option Z).
Notation eprocess := (WorkflowEngine_Model.process_log re_match to_i32 sha f64).
Notation estep := (WorkflowEngine_Model.step re_match to_i32 sha f64).

Lemma process_fits e l dests done e' r : eprocess e l dests done = Some (e', r) -> efits (e_conts e) e -> efits (e_conts e) e' /\ e_conts e' = e_conts e /\ e_triggers e' = e_triggers e.
Proof.
  intros H F. destruct (e_workflows e) as [|w0 ws0] eqn:EW.
  - rewrite process_log_finish in H. cbv zeta in H. destruct (enter_fixed e l) as (E1 & E2 & E3 & E4 & E5 & E6 & E7 & E8 & E9 & E10). cbv zeta in *. set (e1 := enter_session e l) in *. clearbody e1.
    destruct (e_workflows e1) as [|w1 ws1] eqn:EW1; [|apply E9 in EW; congruence]. injection H as <- <-. unfold efits in *. rewrite E2, E3, E4. auto.
  - assert (NW : e_workflows e <> []) by congruence. pose proof (process_log_streaming re_match to_i32 sha f64 _ _ _ _ _ _ H NW) as (P1 & P2 & P3 & P4 & P5 & P6). splits; auto.
    rewrite process_log_finish in H. cbv zeta in H. destruct (enter_fixed e l) as (E1 & E2 & E3 & E4 & E5 & E6 & E7 & E8 & E9 & E10). cbv zeta in *. set (e1 := enter_session e l) in *. clearbody e1.
    destruct (e_workflows e1) as [|w1 ws1] eqn:EW1; [destruct (proj1 E9 eq_refl); congruence|]. rewrite <- EW1 in H. destruct (all_process _ _ _ _ _ _ _) as [ [ [ [ws cur] b] acts]|]; [|discriminate]. injection H as H. unfold finish in H. cbv zeta in H.
    destruct (process_streaming _ _ _ _ _) as [ [dests' strm] changed]. destruct (process_flush_actions _ _ _ _ _ _) as [ [created ids] bufs] eqn:EF. injection H as <- <-. destruct F as [F1 F2].
    unfold process_flush_actions in EF. cbn [set_workflows e_session e_triggers e_conts e_pending] in EF.
    assert (CR : forall q, In q created -> pfits (e_conts e) q) by (rewrite <- E6; eapply flush_loop_fits; [exact EF|intros q [] ]). split.
    + rewrite P1. intros a Ha. apply in_map_iff in Ha as (a0 & <- & Ha). apply filter_In in Ha as [Ha _]. destruct (routesb a0 dests); cbn [counted sa_dests]; auto.
    + cbn [set_actions set_workflows e_pending e_input]. rewrite E3, E4. intros q [Hq|Hq]; [apply fold_insert_in in Hq as [Hq|Hq]|apply try_send_in in Hq as [Hq|Hq] ]; auto.
Qed.
Definition quiet (o : op) : bool := match o with Negotiate _ | RunOnce | TakeFlush | FlushDone _ | Persist _ => true | _ => false end.
Lemma on_approved_fits e q done : efits (e_conts e) e -> pfits (e_conts e) q -> efits (e_conts e) (on_approved e q done) /\ e_conts (on_approved e q done) = e_conts e /\ e_triggers (on_approved e q done) = e_triggers e.
Proof.
  intros [F1 F2] FQ. unfold on_approved. cbv zeta. match goal with |- context [set_actions ?x _ _ _ _] => set (e2 := x) end.
  assert (E2 : e_streaming e2 = e_streaming e /\ e_conts e2 = e_conts e /\ e_triggers e2 = e_triggers e /\ e_input e2 = e_input e) by (unfold e2; destruct (find _ _) as [ [? n]|]; [destruct (done n)|]; try destruct (_ <? _)%nat; cbn; auto).
  clearbody e2. destruct E2 as (ES2 & EC & ET & EI). unfold efits. cbn [set_actions e_streaming e_pending e_input e_conts e_triggers]. rewrite ES2, EC, ET, EI. splits; auto.
  - intros a Ha. destruct (streaming_action_new q (e_conts e)) as [a'|] eqn:ES; auto. apply in_app_or in Ha as [Ha|[<-|[] ] ]; auto. unfold streaming_action_new in ES. destruct (pa_streaming q) as [s|] eqn:EP; [|discriminate]. destruct (inter _ _); [discriminate|].
    injection ES as <-. cbn [sa_dests]. apply FQ. auto.
  - intros q' [Hq|Hq]; auto. apply in_remove in Hq as [Hq _]. auto.
Qed.
Lemma step_fits y o y' ev : quiet o = true -> estep y o = Some (y', ev) -> yfits (e_conts (y_engine y)) y -> yfits (e_conts (y_engine y)) y' /\ e_conts (y_engine y') = e_conts (y_engine y) /\ e_triggers (y_engine y') = e_triggers (y_engine y).
Proof.
  intros Q H (F1 & F2 & F3). destruct o; try discriminate Q; cbn [WorkflowEngine_Model.step] in H; cbv zeta in H.
  - destruct (e_input (y_engine y)) as [|q rest] eqn:EI; [inv H; unfold yfits; auto|]. destruct (_ <? _)%nat; [|inv H; unfold yfits; auto]. destruct (negotiate _ _ _) as [rej out] eqn:EN. injection H as <- <-.
    assert (FQ : pfits (e_conts (y_engine y)) q) by (apply F1; rewrite EI; right; now left).
    assert (PO : pending_of out = q) by (unfold negotiate in EN; destruct (mem _ _); [|destruct d]; inv EN; auto). unfold yfits. cbn [y_engine y_outputs y_file set_actions e_conts e_triggers]. splits; auto.
    + destruct F1 as [G1 G2]. split; cbn [e_streaming e_pending e_input]; auto. intros q' Hq. apply G2. rewrite EI. cbn [In]. tauto.
    + intros o Ho. apply in_app_or in Ho as [Ho|[<-|[] ] ]; auto. rewrite PO. auto.
  - destruct (y_outputs y) as [|[q|q] rest] eqn:EO; [inv H; unfold yfits; rewrite EO; auto| |]; injection H as <- <-; unfold yfits; cbn [y_engine y_outputs y_file].
    + destruct (on_approved_fits (y_engine y) q (is_done (y_done y))) as (A1 & A2 & A3); auto. { apply (F2 (Approved q)). now left. } splits; auto. intros o Ho. apply F2. now right.
    + unfold on_rejected. cbn [set_actions e_conts e_triggers]. splits; auto; [|intros o Ho; apply F2; now right]. destruct F1 as [G1 G2]. split; cbn [e_streaming e_pending e_input]; auto. intros q' [Hq|Hq]; [apply in_remove in Hq as [Hq _]|]; auto.
  - injection H as <- <-. unfold yfits. cbn. splits; auto.
  - injection H as <- <-. unfold yfits. cbn. splits; auto.
  - destruct (e_dirty (y_engine y)); injection H as <- <-; unfold yfits; cbn [y_engine y_outputs y_file set_workflows e_conts e_triggers]; splits; auto.
    destruct torn; intros s E; [discriminate|]. injection E as <-. unfold state_optimized. cbn [sv_pending]. intros q Hq. apply F1. auto.
Qed.

Lemma update_fits e g : efits (g_conts g) (mkEngine (e_configs e) (e_workflows e) (e_session e) (e_pending e) [] 0 0 false [] [] [] (e_input e) [] 0) ->
  efits (g_conts g) (update e g) /\ e_conts (update e g) = g_conts g /\ e_triggers (update e g) = g_triggers g.
Proof.
  intros [_ F]. cbn [e_pending e_input] in F. unfold update. cbv zeta. set (e1 := fold_left _ _ _).
  assert (E1 : e_pending e1 = e_pending e /\ e_input e1 = e_input e).
  { unfold e1. generalize (map w_id (e_workflows (set_workflows e (map fst (filter (unchanged (g_workflows g)) (combine (e_configs e) (e_workflows e)))) (map snd (filter (unchanged (g_workflows g)) (combine (e_configs e) (e_workflows e))))
      (removed_current (e_current e) (filter (fun x => negb (unchanged (g_workflows g) x)) (combine (e_configs e) (e_workflows e)))) (e_dirty e || existsb (fun x => negb (w_initial (snd x))) (filter (fun x => negb (unchanged (g_workflows g) x)) (combine (e_configs e) (e_workflows e))))))).
    intros ex. set (e0 := set_workflows e _ _ _ _). assert (E0 : e_pending e0 = e_pending e /\ e_input e0 = e_input e) by (split; reflexivity). clearbody e0. revert e0 E0. induction (g_workflows g) as [|c l IH]; intros e0 E0; cbn [fold_left]; auto. apply IH.
    destruct (mem (c_id c) ex); auto. }
  clearbody e1. destruct E1 as [E1 E2]. cbn [set_actions set_resolver e_conts e_triggers e_streaming e_pending e_input]. splits; auto. split; cbn [set_actions set_resolver e_streaming e_pending e_input].
  - intros a Ha. eapply standardize_streaming_fits; exact Ha.
  - rewrite E1, E2. intros q [Hq|Hq]; auto. eapply standardize_pending_fits; [exact Hq|auto].
Qed.
Lemma start_fits limit g f : file_fits (g_conts g) f -> let e := start (engine_new limit) g f in efits (g_conts g) e /\ e_conts e = g_conts g /\ e_triggers e = g_triggers g.
Proof.
  intros F. cbv zeta. unfold start. cbv zeta. destruct f as [s|].
  - set (e0 := set_session _ _). pose proof (add_workflows_actions (g_workflows g) e0 (sv_workflows s)) as A. cbv zeta in A. set (e1 := add_workflows _ _ _) in *. clearbody e1. destruct A as (A1 & A2 & A3 & A4 & A5).
    unfold e0 in *. cbn [set_session set_actions set_resolver engine_new e_streaming e_conts e_triggers e_pending e_input] in *. unfold efits. cbn [set_actions e_streaming e_pending e_input]. rewrite A1, A4, A5. split; [split|auto].
    + intros a Ha. eapply standardize_streaming_fits; exact Ha.
    + assert (X : forall q, In q (standardize_pending (g_triggers g) (sv_pending s)) -> pfits (g_conts g) q) by (intros q Hq; eapply standardize_pending_fits; [exact Hq|]; intros; intros c Hc; eapply F; eauto).
      intros q [Hq|Hq]; auto. apply try_send_in in Hq as [ []|Hq]; auto.
  - set (e0 := set_resolver _ _ _). pose proof (add_workflows_actions (g_workflows g) e0 []) as A. cbv zeta in A. set (e1 := add_workflows _ _ _) in *. clearbody e1. destruct A as (A1 & A2 & A3 & A4 & A5).
    unfold e0 in *. cbn [set_resolver engine_new e_streaming e_conts e_triggers e_pending e_input] in *. splits; auto. unfold efits. cbn [set_actions e_streaming e_pending e_input]. rewrite A1, A4, A5. split; [intros a []|].
    intros q [ []|Hq]. apply try_send_in in Hq as [ []|[] ].
Qed.

(** * The invariant of the pipeline *)
Definition pcfg (p : pipe) : update_cfg := mkUpdate (p_producers p) (p_selector p) [] (p_tails p) (p_filters p).
Definition peng (c : list string) (p : pipe) : Prop := match p_engine p with On y => yfits c y | Off f => file_fits c f end.
Definition same_buffers (p : pipe) : Prop :=
  match p_engine p with
  | On y => e_conts (y_engine y) = pr_conts (p_producers p) /\ e_triggers (y_engine y) = pr_triggers (p_producers p) /\ routable (y_engine y)
  | Off _ => True
  end.
Definition pinv (p : pipe) : Prop := coherent (pcfg p) /\ same_buffers p.
Definition pfit (p : pipe) : Prop := peng (pr_conts (p_producers p)) p.
Notation pprocess := (Pipeline_Model.process_log re_match re_replace to_i32 sha f64).
Notation pipe_step := (Pipeline_Model.pstep re_match re_replace to_i32 sha f64).
Notation pipe_run := (Pipeline_Model.prun re_match re_replace to_i32 sha f64).
Notation pipe_filtered := (Pipeline_Model.filtered re_match re_replace to_i32).
Notation matching := (Pipeline_Model.matching_of re_match).

(** The engine's part of a log. *)
Lemma log_shape p l b v p' es : pprocess p l b v = Some (p', es) ->
  match p_engine p with
  | Off _ => p' = p
  | On y => exists e r y', eprocess (y_engine y) (pipe_filtered p l) (matching p (pipe_filtered p l)) (is_done (y_done y)) = Some (e, r) /\
      (let y1 := mkSystem e (y_rejected y) (y_outputs y) (y_done y) (y_file y) in y' = y1 \/ exists t ev, estep y1 (Persist t) = Some (y', ev)) /\ p' = with_engine p (On y')
  end.
Proof.
  unfold Pipeline_Model.process_log. cbv zeta. intros H. destruct (p_engine p) as [y|f].
  - destruct (eprocess _ _ _ _) as [ [e r]|]; [|discriminate]. destruct (write_loop _ _ _ _) as [w ok]. destruct ok.
    + destruct (process_flush_buffers_actions _ _ _ _ _ _) as [syn ex]. injection H as <- _. exists e, r. eexists. split; [reflexivity|]. split; [|reflexivity]. destruct (b || v_persist v); auto.
      right. exists (v_torn v), []. cbn [WorkflowEngine_Model.step y_engine]. destruct (e_dirty e); reflexivity.
    + injection H as <- _. exists e, r. eexists. eauto.
  - destruct (write_loop _ _ _ _) as [w ok]. destruct ok; inv H; auto.
Qed.
Lemma with_engine_pinv p y : pinv p -> same_buffers (with_engine p (On y)) -> pinv (with_engine p (On y)). Proof. intros [C _] S. split; auto. Qed.

Lemma eng_log y l d e r : eprocess (y_engine y) l d (is_done (y_done y)) = Some (e, r) -> routable (y_engine y) -> yfits (e_conts (y_engine y)) y \/ True ->
  let y1 := mkSystem e (y_rejected y) (y_outputs y) (y_done y) (y_file y) in
  routable e /\ e_conts e = e_conts (y_engine y) /\ e_triggers e = e_triggers (y_engine y) /\ (yfits (e_conts (y_engine y)) y -> yfits (e_conts (y_engine y)) y1).
Proof.
  intros H R _. cbv zeta. assert (S : estep y (Log l d) = Some (mkSystem e (y_rejected y) (y_outputs y) (y_done y) (y_file y), [Processed l r])) by (cbn [WorkflowEngine_Model.step]; rewrite H; auto).
  split; [exact (step_routable _ _ _ _ _ _ _ _ R S)|]. 
  assert (X : e_conts e = e_conts (y_engine y) /\ e_triggers e = e_triggers (y_engine y)).
  { destruct (e_workflows (y_engine y)) as [|w0 ws0] eqn:EW.
    - rewrite process_log_finish in H. cbv zeta in H. destruct (enter_fixed (y_engine y) l) as (E1 & E2 & E3 & E4 & E5 & E6 & E7 & E8 & E9 & E10). cbv zeta in *. set (e1 := enter_session (y_engine y) l) in *. clearbody e1.
      destruct (e_workflows e1) as [|w1 ws1] eqn:EW1; [|apply E9 in EW; congruence]. injection H as <- <-. auto.
    - assert (NW : e_workflows (y_engine y) <> []) by congruence. pose proof (process_log_streaming re_match to_i32 sha f64 _ _ _ _ _ _ H NW) as (P1 & P2 & P3 & _). auto. }
  destruct X as [X1 X2]. splits; auto. intros (F1 & F2 & F3). unfold yfits. cbn [y_engine y_outputs y_file]. splits; auto. eapply process_fits in H; eauto. tauto.
Qed.
Lemma quiet_step y o y' ev : quiet o = true -> estep y o = Some (y', ev) -> routable (y_engine y) ->
  routable (y_engine y') /\ e_conts (y_engine y') = e_conts (y_engine y) /\ e_triggers (y_engine y') = e_triggers (y_engine y) /\ (yfits (e_conts (y_engine y)) y -> yfits (e_conts (y_engine y)) y').
Proof.
  intros Q H R. split; [exact (step_routable _ _ _ _ _ _ _ _ R H)|].
  assert (X : e_conts (y_engine y') = e_conts (y_engine y) /\ e_triggers (y_engine y') = e_triggers (y_engine y)).
  { destruct o; try discriminate Q; cbn [WorkflowEngine_Model.step] in H; cbv zeta in H.
    - destruct (e_input (y_engine y)) as [|q rest]; [inv H; auto|]. destruct (_ <? _)%nat; [|inv H; auto]. destruct (negotiate _ _ _) as [rej out]. injection H as <- <-. auto.
    - destruct (y_outputs y) as [|[q|q] rest]; injection H as <- <-; auto. cbn [y_engine]. destruct (approved_actions (y_engine y) q (is_done (y_done y))) as (A1 & A2 & _). auto.
    - injection H as <- <-. auto.
    - injection H as <- <-. auto.
    - destruct (e_dirty (y_engine y)); injection H as <- <-; auto. }
  destruct X as [X1 X2]. splits; auto. intros F. eapply step_fits in H; eauto. tauto.
Qed.
Lemma log_keeps p l b v p' es : pprocess p l b v = Some (p', es) -> pinv p -> pinv p' /\ (pfit p -> pfit p') /\ p_producers p' = p_producers p /\ p_selector p' = p_selector p.
Proof.
  intros H I. apply log_shape in H. assert (I' := I). destruct I as [C S]. unfold same_buffers in S. destruct (p_engine p) as [y|f] eqn:EE; [|subst; auto]. destruct S as (S1 & S2 & S3).
  destruct H as (e & r & y' & H & Y & ->). cbv zeta in Y. destruct (eng_log _ _ _ _ _ H S3) as (L1 & L2 & L3 & L4); auto. cbv zeta in L4.
  assert (Z : routable (y_engine y') /\ e_conts (y_engine y') = e_conts (y_engine y) /\ e_triggers (y_engine y') = e_triggers (y_engine y) /\ (yfits (e_conts (y_engine y)) y -> yfits (e_conts (y_engine y)) y')).
  { destruct Y as [-> | (t & ev & Y)]; [cbn [y_engine]; auto|]. apply quiet_step in Y; auto. cbn [y_engine] in Y. rewrite L2, L3 in Y. destruct Y as (Y1 & Y2 & Y3 & Y4). splits; auto. }
  destruct Z as (Z1 & Z2 & Z3 & Z4). splits; auto.
  - apply with_engine_pinv; auto. unfold same_buffers. cbn [with_engine p_engine p_producers]. splits; auto; congruence.
  - unfold pfit, peng. rewrite EE. cbn [with_engine p_engine p_producers]. rewrite <- S1. exact Z4.
Qed.
Lemma engine_step_keeps p o p' : quiet o = true -> engine_step re_match to_i32 sha f64 p o = Some p' -> pinv p -> pinv p' /\ (pfit p -> pfit p') /\ p_producers p' = p_producers p /\ p_selector p' = p_selector p.
Proof.
  intros Q H I. unfold engine_step in H. assert (I' := I). destruct I as [C S]. unfold same_buffers in S. destruct (p_engine p) as [y|f] eqn:EE; [|inv H; auto]. destruct S as (S1 & S2 & S3).
  destruct (estep y o) as [ [y' ev]|] eqn:ES; [|discriminate]. injection H as <-. apply quiet_step in ES; auto. destruct ES as (Z1 & Z2 & Z3 & Z4). splits; auto.
  - apply with_engine_pinv; auto. unfold same_buffers. cbn [with_engine p_engine p_producers]. splits; auto; congruence.
  - unfold pfit, peng. rewrite EE. cbn [with_engine p_engine p_producers]. rewrite <- S1. exact Z4.
Qed.
Definition upd (o : pop) : option update_cfg := match o with PUpdate u _ _ => Some u | _ => None end.
Lemma step_keeps p o p' es : pipe_step p o = Some (p', es) -> upd o = None -> pinv p -> pinv p' /\ (pfit p -> pfit p') /\ p_producers p' = p_producers p /\ p_selector p' = p_selector p.
Proof.
  intros H U I. destruct o; try discriminate U; cbn [Pipeline_Model.pstep] in H.
  - eapply log_keeps; eauto.
  - destruct (engine_step _ _ _ _ _ _) as [p1|] eqn:E; [|discriminate]. inv H. eapply engine_step_keeps; [|exact E|auto]; auto.
  - destruct (engine_step _ _ _ _ _ _) as [p1|] eqn:E; [|discriminate]. inv H. eapply engine_step_keeps; [|exact E|auto]; auto.
  - destruct (p_engine p) as [y|f]; [|inv H; auto]. destruct (e_buffers (y_engine y)) as [|[n ids] bs]; [inv H; auto|]. destruct (engine_step _ _ _ _ p TakeFlush) as [p1|] eqn:E; [|discriminate].
    apply engine_step_keeps in E as (E1 & E2 & E3 & E4); auto. destruct accepted.
    + inv H. auto.
    + destruct (engine_step _ _ _ _ p1 (FlushDone n)) as [p2|] eqn:E'; [|discriminate]. inv H. apply engine_step_keeps in E' as (F1 & F2 & F3 & F4); auto. splits; auto; congruence.
  - destruct (engine_step _ _ _ _ _ _) as [p1|] eqn:E; [|discriminate]. inv H. eapply engine_step_keeps; [|exact E|auto]; auto.
  - inv H. destruct on; auto. splits; auto. { split; [apply I|exact Logic.I]. } unfold pfit, peng. cbn [with_engine p_engine p_producers]. destruct (p_engine p); cbn [engine_file]; auto. intros (_ & _ & F). auto.
  - inv H. splits; auto.
  - destruct (engine_step _ _ _ _ _ _) as [p1|] eqn:E; [|discriminate]. inv H. eapply engine_step_keeps; [|exact E|auto]; auto.
Qed.
Lemma update_keeps' p u on limit : coherent u -> pinv (pipe_update p u on limit) /\ p_producers (pipe_update p u on limit) = u_producers u /\
  (incl (pr_conts (p_producers p)) (pr_conts (u_producers u)) -> pfit p -> pfit (pipe_update p u on limit)).
Proof.
  intros C. unfold pipe_update. cbv zeta. split; [|split; [reflexivity|] ].
  - split; [exact C|]. unfold same_buffers. cbn [p_engine p_producers]. destruct on; [|exact Logic.I]. destruct (p_engine p) as [y|f]; cbn [y_engine].
    + destruct (update_actions (y_engine y) (mkEngineCfg (u_workflows u) (pr_triggers (u_producers u)) (pr_conts (u_producers u)))) as (U1 & U2 & _ & U4 & _). cbv zeta in *. splits; auto. unfold routable. rewrite U1, U4. apply (standardize_routable re_match to_i32 sha f64).
    + unfold engine_start. cbn [y_engine]. destruct (start_actions limit (mkEngineCfg (u_workflows u) (pr_triggers (u_producers u)) (pr_conts (u_producers u))) f) as (S1 & S2 & _ & S4 & _). cbv zeta in *. splits; auto.
      unfold routable. rewrite S1, S4. destruct f; [apply (standardize_routable re_match to_i32 sha f64)|intros a []].
  - intros I F. unfold pfit, peng in *. cbn [p_engine p_producers]. assert (FF : file_fits (pr_conts (u_producers u)) (engine_file (p_engine p))).
    { eapply file_fits_mono; eauto. destruct (p_engine p); cbn [engine_file]; auto. apply F. }
    destruct on; [|exact FF]. destruct (p_engine p) as [y|f].
    + destruct F as ([F1 F2] & F3 & F4). unfold yfits. cbn [y_engine y_outputs y_file]. splits; auto.
      * apply update_fits. split; cbn [e_streaming e_pending e_input]; [intros a []|]. intros q Hq. eapply pfits_mono; eauto.
      * intros o Ho. eapply pfits_mono; eauto.
    + unfold engine_start, yfits. cbn [y_engine y_outputs y_file]. splits; auto; [|intros o []]. cbn [engine_file] in FF. apply start_fits. exact FF.
Qed.
Lemma new_keeps u on fon stats limit file : coherent u -> let p := pipe_new u on fon stats limit file in pinv p /\ p_producers p = u_producers u /\ (file_fits (pr_conts (u_producers u)) file -> pfit p).
Proof.
  intros C. cbv zeta. unfold pipe_new. split; [|split; [reflexivity|] ].
  - split; [exact C|]. unfold same_buffers. cbn [p_engine p_producers]. destruct on; [|exact Logic.I]. unfold engine_start. cbn [y_engine].
    destruct (start_actions limit (mkEngineCfg (u_workflows u) (pr_triggers (u_producers u)) (pr_conts (u_producers u))) file) as (S1 & S2 & _ & S4 & _). cbv zeta in *. splits; auto.
    unfold routable. rewrite S1, S4. destruct file; [apply (standardize_routable re_match to_i32 sha f64)|intros a []].
  - intros F. unfold pfit, peng. cbn [p_engine p_producers]. destruct on; [|exact F]. unfold engine_start, yfits. cbn [y_engine y_outputs y_file]. splits; auto; [|intros o []]. apply start_fits. exact F.
Qed.
Lemma run_pinv : forall ops p p' ess, pinv p -> all_coherent ops -> pipe_run p ops = Some (p', ess) -> pinv p'.
Proof.
  induction ops as [|o ops IH]; intros p p' ess I A H; cbn [Pipeline_Model.prun] in H; [inv H; auto|]. destruct (pipe_step p o) as [ [p1 es]|] eqn:E; [|discriminate]. destruct (pipe_run p1 ops) as [ [p2 ess2]|] eqn:R; [|discriminate]. inv H.
  eapply IH; [| |exact R]; [|intros u on lim Hu; eapply A; right; eauto]. destruct (upd o) eqn:U; [|eapply step_keeps; eauto]. destruct o; try discriminate. cbn [Pipeline_Model.pstep] in E. injection E as <- <-. apply update_keeps'. eapply A. now left.
Qed.
Lemma growing_coherent : forall ops c, growing c ops -> all_coherent ops.
Proof.
  induction ops as [|o ops IH]; intros c G u on lim Hu; [destruct Hu|]. destruct Hu as [-> | Hu]; [cbn in G; tauto|]. destruct o; cbn [growing] in G; try (eapply IH; eauto; fail). destruct G as (_ & _ & G). eapply IH; eauto.
Qed.
Lemma run_pfit : forall ops p p' ess, pinv p -> pfit p -> growing (pr_conts (p_producers p)) ops -> pipe_run p ops = Some (p', ess) -> pfit p'.
Proof.
  induction ops as [|o ops IH]; intros p p' ess I F G H; cbn [Pipeline_Model.prun] in H; [inv H; auto|]. destruct (pipe_step p o) as [ [p1 es]|] eqn:E; [|discriminate]. destruct (pipe_run p1 ops) as [ [p2 ess2]|] eqn:R; [|discriminate]. inv H.
  destruct (upd o) eqn:U.
  - destruct o; try discriminate. cbn [Pipeline_Model.pstep] in E. injection E as <- <-. cbn [growing] in G. destruct G as (G1 & G2 & G3). destruct (update_keeps' p u0 workflows_on limit G1) as (K1 & K2 & K3). eapply IH; [| | |exact R]; auto.
  - destruct (step_keeps _ _ _ _ E U I) as (K1 & K2 & K3 & K4). eapply IH; [| | |exact R]; auto. rewrite K3. destruct o; try discriminate; exact G.
Qed.
End Pipeline.
