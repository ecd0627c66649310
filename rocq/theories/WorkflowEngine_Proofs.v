(** Proofs about the workflows engine. *)
From Verif Require Import Base Str_Base Log_Model LogMatcher_Model BufferMatcher_Model Workflow_Model Matcher_Proofs Workflow_Spec Workflow_Proofs WorkflowEngine_Model WorkflowEngine_Spec.
Local Open Scope string_scope. Local Open Scope list_scope. Local Open Scope Z_scope.

Section Proofs.
Variables (re_match : string -> string -> bool) (to_i32 : string -> option Z) (sha : string -> string) (f64 : string -> option Z).
Notation w_process := (w_process re_match to_i32 sha).
Notation all_process := (all_process re_match to_i32 sha).
Notation process_log := (process_log re_match to_i32 sha f64).
Notation step := (step re_match to_i32 sha f64).
Notation run_ops := (run_ops re_match to_i32 sha f64).

(** * Lists *)
Lemma Forall2_combine_filter {A B} (R : A -> B -> Prop) f l m : Forall2 R l m -> Forall2 R (map fst (filter f (combine l m))) (map snd (filter f (combine l m))).
Proof. induction 1; cbn [combine List.filter map]; [constructor|]. destruct (f (x, y)); cbn [map fst snd]; auto. Qed.
Lemma in_combine_Forall2 {A B} (R : A -> B -> Prop) l m x y : Forall2 R l m -> In (x, y) (combine l m) -> R x y.
Proof. induction 1; cbn [combine In]; [tauto|]. intros [E|E]; [inv E|]; auto. Qed.
Lemma combine_fst_in {A B} (l : list A) (m : list B) f x : In x (map fst (filter f (combine l m))) -> In x l.
Proof. intros H. apply in_map_iff in H as ((a & b) & <- & H). apply filter_In in H as [H _]. eapply in_combine_l; eauto. Qed.

Lemma trim_prefix : forall rest n cur limit, exists m, rev rest = trim_runs rest n cur limit ++ m.
Proof.
  induction rest as [|r rest IH]; intros; cbn [rev trim_runs]; [exists []; auto|]. destruct (_ <=? limit); [eauto|]. destruct (IH (n - run_count r) cur limit) as (m & E). exists (m ++ [r]). rewrite E, app_assoc. auto.
Qed.
Lemma w_process_id c l w cur limit w' cur' res : w_process c l w cur limit = Some (w', cur', res) -> w_id w' = w_id w.
Proof.
  unfold Workflow_Model.w_process. destruct (if needs_new_run w then _ else _) as [ [ [? ?] ?]|]; [|discriminate]. destruct (Workflow_Model.w_loop _ _ _ _ _ _ _ _ _ _ _) as [ [ [? ?] ?]|]; [|discriminate]. intros H; inv H. auto.
Qed.

(** * An invariant of each workflow is an invariant of the engine *)
Section Inv.
Variables (cs : list config) (P : config -> list run -> Prop) (Q : config -> log -> triggered -> Prop).
Hypothesis P_new : forall c, In c cs -> P c [].
Hypothesis P_prefix : forall c l m, P c (l ++ m) -> P c l.
Hypothesis P_opt : forall c l, P c l -> P c (filter (fun r => negb (r_initial r)) l).
Hypothesis P_step : forall c l w cur limit w' cur' res, In c cs -> P c (w_runs w) -> w_process c l w cur limit = Some (w', cur', res) -> P c (w_runs w') /\ Forall (Q c l) (wr_actions res).

Definition matched_up (c : config) (w : workflow) : Prop := In c cs /\ w_id w = c_id c /\ P c (w_runs w).
Definition good (e : engine) : Prop := Forall2 matched_up (e_configs e) (e_workflows e).
Definition suits (ws : list workflow) : Prop := forall w c, In w ws -> In c cs -> c_id c = w_id w -> P c (w_runs w).

Lemma add_workflow_good e w c : good e -> In c cs -> w_id w = c_id c -> P c (w_runs w) -> good (add_workflow e w c).
Proof.
  intros G H1 H2 H3. unfold good, add_workflow. cbn [e_configs e_workflows set_workflows]. apply Forall2_app; auto. constructor; [|constructor].
  destruct (e_limit e <? _); [|split; auto]. split; auto. split; auto. cbn [w_runs]. destruct (trim_prefix (rev (w_runs w)) (workflow_count w) (e_current e) (e_limit e)) as (m & E). rewrite rev_involutive in E.
  eapply P_prefix. rewrite <- E. auto.
Qed.
Lemma last_workflow_some id l w : last_workflow id l = Some w -> In w l /\ w_id w = id.
Proof.
  induction l as [|x l IH]; cbn [last_workflow]; [discriminate|]. destruct (last_workflow id l) as [y|]; [intros H; inv H; destruct IH; auto; split; [now right|auto]|].
  destruct (String.eqb_spec (w_id x) id); [|discriminate]. intros H; inv H. split; [now left|auto].
Qed.
Lemma add_workflows_good : forall l e ws, good e -> incl l cs -> suits ws -> good (add_workflows e l ws).
Proof.
  induction l as [|c l IH]; intros e ws G I S; cbn [add_workflows]; auto. apply IH.
  - apply add_workflow_good; auto; [apply I; now left| |].
    + destruct (last_workflow (c_id c) ws) as [w|] eqn:E; auto. apply last_workflow_some in E. tauto.
    + destruct (last_workflow (c_id c) ws) as [w|] eqn:E; [|apply P_new; apply I; now left]. apply last_workflow_some in E as [E1 E2]. apply S; auto. apply I; now left.
  - intros x Hx. apply I. now right.
  - intros w c' Hw. apply filter_In in Hw as [Hw _]. auto.
Qed.
Lemma start_good limit g st : incl (g_workflows g) cs -> match st with Some s => suits (sv_workflows s) | None => True end -> good (start (engine_new limit) g st).
Proof.
  intros I S. unfold start. cbv zeta. unfold good, set_actions at 1 2. cbn [e_configs e_workflows]. destruct st as [s|]; apply add_workflows_good; auto.
  - unfold good. cbn. constructor.
  - constructor.
  - intros w c [].
Qed.
Lemma add_new_good existing : forall l e, good e -> incl l cs -> good (fold_left (fun e c => if mem (c_id c) existing then e else add_workflow e (mkWorkflow (c_id c) []) c) l e).
Proof.
  induction l as [|c l IH]; intros e G I; cbn [fold_left]; auto. apply IH; [|intros x Hx; apply I; now right]. destruct (mem (c_id c) existing); auto.
  apply add_workflow_good; auto; [apply I; now left|cbn; apply P_new; apply I; now left].
Qed.
Lemma update_good e g : good e -> incl (g_workflows g) cs -> good (update e g).
Proof.
  intros G I. unfold update. cbv zeta. unfold good, set_actions at 1 2, set_resolver at 1 3. cbn [e_configs e_workflows]. apply add_new_good; auto.
  unfold good. cbn [set_workflows e_configs e_workflows]. apply Forall2_combine_filter. exact G.
Qed.
Lemma clean_good e : good e -> good (clean_state e).
Proof.
  unfold good, clean_state. cbn [set_session set_workflows e_configs e_workflows]. induction 1 as [|c w l m (H1 & H2 & H3) _ IH]; cbn [map]; constructor; auto. split; auto.
Qed.
Lemma enter_good e l : good e -> good (enter_session e l).
Proof.
  intros G. unfold enter_session. destruct (String.eqb (e_session e) ""); [exact G|]. destruct (String.eqb _ _); [exact G|]. apply clean_good in G. exact G.
Qed.
Lemma all_process_good l limit : forall l1 l2, Forall2 matched_up l1 l2 -> forall cur dirty ws cur' d' acts, all_process l (combine l1 l2) cur limit dirty = Some (ws, cur', d', acts) ->
  Forall2 matched_up l1 ws /\ Forall (fun x => exists c, In c cs /\ Q c l x) acts.
Proof.
  induction 1 as [|c w l1 l2 (H1 & H2 & H3) _ IH]; intros cur dirty ws cur' d' acts H; cbn [combine WorkflowEngine_Model.all_process] in H; [inv H; auto|].
  destruct (w_process c l w cur limit) as [ [ [w' cur1] r]|] eqn:E; [|discriminate]. cbv zeta in H.
  destruct (all_process l (combine l1 l2) cur1 limit _) as [ [ [ [ws' cur2] d2] acts']|] eqn:EA; [|discriminate]. inv H. apply IH in EA as [I1 I2].
  destruct (P_step _ _ _ _ _ _ _ _ H1 H3 E) as [S1 S2]. split.
  - constructor; auto. split; auto. split; auto. rewrite <- H2. eapply w_process_id; eauto.
  - apply Forall_app. split; auto. eapply Forall_impl; [|exact S2]. eauto.
Qed.
Lemma dedup_in {A} dec (l : list A) x : In x (dedup dec l) <-> In x l.
Proof.
  unfold dedup. enough (H : forall s, In x (fold_left (fun s x => insert dec x s) l s) <-> In x s \/ In x l) by (rewrite H; cbn; tauto).
  induction l as [|y l IH]; intros s; cbn [fold_left In]; [tauto|]. rewrite IH. unfold insert. destruct (in_dec dec y s); [|rewrite in_app_iff; cbn; tauto]. split; [tauto|]. intros [H|[H|H]]; auto. subst; auto.
Qed.
Lemma process_log_good e l dests done e' r : good e -> process_log e l dests done = Some (e', r) ->
  good e' /\ forall p, In p (o_paths r) -> exists c a, In c cs /\ Q c l (TSankey a p).
Proof.
  intros G H. apply (enter_good e l) in G. unfold WorkflowEngine_Model.process_log in H. cbv zeta in H. set (e1 := enter_session e l) in *. clearbody e1.
  assert (X : match all_process l (combine (e_configs e1) (e_workflows e1)) (e_current e1) (e_limit e1) (e_dirty e1) with
     | Some (ws, cur, dirty, acts) => Forall2 matched_up (e_configs e1) ws /\ Forall (fun x => exists c, In c cs /\ Q c l x) acts | None => True end).
  { destruct (all_process _ _ _ _ _) as [ [ [ [ws cur] dirty] acts]|] eqn:E; auto. eapply all_process_good; eauto. }
  destruct (e_workflows e1) eqn:EW; [inv H; split; auto; cbn; tauto|]. rewrite <- EW in *.
  destruct (all_process _ _ _ _ _) as [ [ [ [ws cur] dirty] acts]|]; [|discriminate]. destruct X as [X1 X2].
  destruct (process_streaming _ _ _ _ _) as [ [dests' strm] changed]. destruct (process_flush_actions _ _ _ _ _ _) as [ [created ids] bufs]. inv H. split; [exact X1|].
  cbn [o_paths]. intros p Hp. apply in_map_iff in Hp as ((a & p') & <- & Hp). unfold sankeys_of in Hp. rewrite dedup_in in Hp. apply in_flat_map in Hp as (x & Hx & Hp). destruct x; try contradiction. destruct Hp as [Hp|[] ]. inv Hp.
  rewrite Forall_forall in X2. destruct (X2 _ Hx) as (c & C1 & C2). eauto.
Qed.
Lemma optimized_suits e : (forall c c', In c cs -> In c' cs -> c_id c = c_id c' -> c = c') -> good e -> suits (sv_workflows (state_optimized e)).
Proof.
  intros U G w c Hw Hc E. unfold state_optimized in Hw. cbn [sv_workflows] in Hw. apply filter_In in Hw as [Hw _]. apply in_map_iff in Hw as (w0 & <- & Hw). cbn [workflow_optimized w_id w_runs] in *. apply P_opt.
  destruct (Forall2_in_r _ _ _ _ G Hw) as (c0 & H1 & H2 & H3 & H4). rewrite (U c c0); auto. congruence.
Qed.

(** The invariant of the system; [restarts]: whether the process is ever restarted. *)
Definition sys_good (restarts : bool) (y : system) : Prop := good (y_engine y) /\ (restarts = true -> match y_file y with Some s => suits (sv_workflows s) | None => True end).
Definition event_good (ev : event) : Prop := match ev with Processed l r => forall p, In p (o_paths r) -> exists c a, In c cs /\ Q c l (TSankey a p) | _ => True end.

Lemma step_good restarts y o y' ev : (restarts = true -> forall c c', In c cs -> In c' cs -> c_id c = c_id c' -> c = c') -> incl (given o) cs -> (is_restart o = true -> restarts = true) ->
  sys_good restarts y -> step y o = Some (y', ev) -> sys_good restarts y' /\ Forall event_good ev.
Proof.
  intros U I R [G F] H. destruct o; cbn [WorkflowEngine_Model.step given is_restart] in *.
  - destruct (process_log _ _ _ _) as [[e' r]|] eqn:E; [|discriminate]. inv H. destruct (process_log_good _ _ _ _ _ _ G E) as [P1 P2]. split; [split; auto|]. constructor; auto.
  - destruct (e_input (y_engine y)) as [|p rest]; [inv H; split; [split; auto|auto]|]. destruct (_ <? _)%nat; [|inv H; split; [split; auto|auto] ].
    destruct (negotiate (y_rejected y) p d) as [rej out]. inv H. split; [split; auto|]. destruct (mem _ _); repeat constructor.
  - destruct (y_outputs y) as [|[p|p] rest]; inv H; split; auto; try (split; auto); auto.
    cbn [y_engine]. unfold good, on_approved. cbv zeta. unfold set_actions at 1 2. cbn [e_configs e_workflows]. match goal with |- Forall2 _ (e_configs (if ?b then _ else _)) _ => destruct b end; [|exact G].
    destruct (_ <? _)%nat; exact G.
  - inv H. split; auto. split; auto.
  - inv H. split; auto. split; auto.
  - inv H. split; auto. split; auto. apply update_good; auto.
  - destruct (e_dirty (y_engine y)); [|inv H; split; [split; auto|auto] ]. inv H. split; auto. split; auto. cbn [y_file]. intros RT. destruct torn; auto. apply optimized_suits; auto.
  - inv H. specialize (R eq_refl). split; [|auto]. split; [|exact F]. apply start_good; [exact I|exact (F R)].
Qed.
Lemma run_good restarts ops : (restarts = true -> forall c c', In c cs -> In c' cs -> c_id c = c_id c' -> c = c') -> forall y y' ev, incl (flat_map given ops) cs ->
  (existsb is_restart ops = true -> restarts = true) -> sys_good restarts y -> run_ops y ops = Some (y', ev) -> sys_good restarts y' /\ Forall event_good ev.
Proof.
  intros U. induction ops as [|o ops IH]; intros y y' ev I R G H; cbn [WorkflowEngine_Model.run_ops flat_map existsb] in *; [inv H; auto|].
  destruct (step y o) as [[y1 ev1]|] eqn:ES; [|discriminate]. destruct (run_ops y1 ops) as [[y2 ev2]|] eqn:ER; [|discriminate]. inv H.
  destruct (step_good restarts y o y1 ev1) as [S1 S2]; auto.
  - intros x Hx. apply I. apply in_or_app. auto.
  - intros E. apply R. rewrite E. auto.
  - destruct (IH y1 y' ev2) as [T1 T2]; auto; [intros x Hx; apply I; apply in_or_app; auto|intros E; apply R; rewrite E; apply orb_true_r|]. split; auto. apply Forall_app; auto.
Qed.
End Inv.

Lemma system_inv g limit ops y ev (P : config -> list run -> Prop) (Q : config -> log -> triggered -> Prop) : stable g ops -> 
  (forall c, In c (all_given g ops) -> P c []) -> (forall c l m, P c (l ++ m) -> P c l) -> (forall c l, P c l -> P c (filter (fun r => negb (r_initial r)) l)) ->
  (forall c l w cur limit w' cur' res, In c (all_given g ops) -> P c (w_runs w) -> w_process c l w cur limit = Some (w', cur', res) -> P c (w_runs w') /\ Forall (Q c l) (wr_actions res)) ->
  run_ops (system_new g limit) ops = Some (y, ev) ->
  good (all_given g ops) P (y_engine y) /\ Forall (event_good (all_given g ops) Q) ev.
Proof.
  intros S P1 P2 P3 P4 H. edestruct (run_good (all_given g ops) P Q P1 P2 P3 P4 (existsb is_restart ops) ops S (system_new g limit) y ev) as [ [R1 _] R2]; auto.
  - intros x Hx. apply in_or_app. auto.
  - split; [|cbn; auto]. cbn [system_new y_engine]. apply start_good; auto. intros x Hx. apply in_or_app. auto.
Qed.

(** * No panic *)
Definition fits_runs (c : config) (l : list run) : Prop := Forall (run_fits c) l.
Lemma fits_prefix c l m : fits_runs c (l ++ m) -> fits_runs c l.
Proof. intros H. apply Forall_app in H. tauto. Qed.
Lemma fits_filter c l f : fits_runs c l -> fits_runs c (filter f l).
Proof. unfold fits_runs. rewrite !Forall_forall. intros H x Hx. apply filter_In in Hx as [Hx _]. auto. Qed.
Lemma fits_step c l w cur limit w' cur' res : well_formed c -> fits_runs c (w_runs w) -> w_process c l w cur limit = Some (w', cur', res) -> fits_runs c (w_runs w').
Proof. intros W F H. destruct (w_process_total re_match to_i32 sha c l w cur limit W F) as (w2 & c2 & r2 & E & F2 & _). rewrite H in E. inv E. exact F2. Qed.

Lemma all_process_total cs l limit : Forall well_formed cs -> forall l1 l2, Forall2 (matched_up cs fits_runs) l1 l2 -> forall cur dirty, all_process l (combine l1 l2) cur limit dirty <> None.
Proof.
  intros W. induction 1 as [|c w l1 l2 (H1 & H2 & H3) _ IH]; intros cur dirty; cbn [combine WorkflowEngine_Model.all_process]; [discriminate|].
  rewrite Forall_forall in W. destruct (w_process_total re_match to_i32 sha c l w cur limit (W _ H1) H3) as (w2 & c2 & r2 & E & F2 & _). rewrite E. cbv zeta.
  specialize (IH c2 (dirty || progressed (wr_stats r2) && negb (w_initial w && w_initial w2))). destruct (all_process _ _ _ _ _) as [ [ [ [? ?] ?] ?]|]; congruence.
Qed.
Lemma step_total cs y o : Forall well_formed cs -> good cs fits_runs (y_engine y) -> step y o <> None.
Proof.
  intros W G. destruct o; cbn [WorkflowEngine_Model.step]; try discriminate.
  - unfold WorkflowEngine_Model.process_log. cbv zeta. assert (G' : good cs fits_runs (enter_session (y_engine y) l)) by (apply enter_good; auto; constructor).
    set (e1 := enter_session (y_engine y) l) in *. clearbody e1. pose proof (all_process_total cs l (e_limit e1) W _ _ G' (e_current e1) (e_dirty e1)) as T.
    destruct (e_workflows e1) eqn:EW; [discriminate|]. rewrite <- EW in *. destruct (all_process _ _ _ _ _) as [ [ [ [ws cur] dirty] acts]|]; [|congruence].
    destruct (process_streaming _ _ _ _ _) as [ [dests' strm] changed]. destruct (process_flush_actions _ _ _ _ _ _) as [ [created ids] bufs]. discriminate.
  - destruct (e_input (y_engine y)); [discriminate|]. destruct (_ <? _)%nat; [|discriminate]. destruct (negotiate _ _ _). discriminate.
  - destruct (y_outputs y) as [|[p|p] rest]; discriminate.
  - destruct (e_dirty _); discriminate.
Qed.

Lemma run_total g limit ops : Forall well_formed (all_given g ops) -> stable g ops -> run_ops (system_new g limit) ops <> None.
Proof.
  intros W S.
  assert (H : forall l2 l1 y, ops = l1 ++ l2 -> sys_good (all_given g ops) fits_runs (existsb is_restart ops) y -> run_ops y l2 <> None).
  { induction l2 as [|o l2 IH]; intros l1 y E G; cbn [WorkflowEngine_Model.run_ops]; [discriminate|]. pose proof (step_total _ y o W (proj1 G)) as T.
    destruct (step y o) as [[y1 ev1]|] eqn:ES; [|congruence].
    assert (G1 : sys_good (all_given g ops) fits_runs (existsb is_restart ops) y1).
    { eapply (step_good (all_given g ops) fits_runs (fun _ _ _ => True)); [constructor|apply fits_prefix|intros; apply fits_filter; auto| |exact S| | |exact G|exact ES].
      - intros c l w cur lim w' cur' res Hc F Hw. split; [|apply Forall_forall; auto]. eapply fits_step; eauto. rewrite Forall_forall in W. auto.
      - intros x Hx. unfold all_given. apply in_or_app. right. rewrite E, flat_map_app. apply in_or_app. right. cbn [flat_map]. apply in_or_app. auto.
      - intros R. rewrite E, existsb_app. cbn [existsb]. rewrite R. apply orb_true_r. }
    specialize (IH (l1 ++ [o]) y1). rewrite <- app_assoc in IH. specialize (IH E G1). destruct (run_ops y1 l2) as [[? ?]|]; congruence. }
  apply (H ops []); auto. split; [|cbn; auto]. cbn [system_new y_engine]. apply start_good; auto; [constructor|apply fits_prefix|]. intros x Hx. apply in_or_app. auto.
Qed.

(** * The budget of traversals *)
Definition wtot (ws : list workflow) : Z := fold_right Z.add 0 (map workflow_count ws).
Lemma wtot_cons w ws : wtot (w :: ws) = workflow_count w + wtot ws. Proof. reflexivity. Qed.
Lemma wtot_app a b : wtot (a ++ b) = wtot a + wtot b.
Proof. induction a; cbn [app]; rewrite ?wtot_cons; [reflexivity|lia]. Qed.
Lemma workflow_count_nonneg w : 0 <= workflow_count w. Proof. apply tot_nonneg. Qed.
Lemma wtot_nonneg ws : 0 <= wtot ws.
Proof. induction ws; [cbn; lia|]. rewrite wtot_cons. pose proof (workflow_count_nonneg a). lia. Qed.

Definition exact (cs : list config) : Prop := forall c, In c cs -> c_matched c = None.
Definition budget (cs : list config) (e : engine) : Prop := wtot (e_workflows e) <= e_current e <= e_limit e /\ (exact cs -> wtot (e_workflows e) = e_current e).

Lemma trim_fits : forall rest n cur limit, cur <= limit -> n = tot rest -> tot (trim_runs rest n cur limit) + cur <= limit.
Proof.
  induction rest as [|r rest IH]; intros n cur limit H E; cbn [trim_runs]; [cbn; lia|]. rewrite tot_cons in E. destruct (_ <=? limit) eqn:EL; [apply Z.leb_le in EL; rewrite tot_rev; lia|]. apply IH; auto. lia.
Qed.
Lemma add_workflow_budget cs e w c : budget cs e -> budget cs (add_workflow e w c) /\ e_limit (add_workflow e w c) = e_limit e.
Proof.
  intros [B1 B2]. split; auto. unfold budget, add_workflow. cbn [set_workflows e_workflows e_current e_limit]. rewrite wtot_app, wtot_cons. change (wtot []) with 0.
  destruct (e_limit e <? workflow_count w + e_current e) eqn:EL; [apply Z.ltb_lt in EL|apply Z.ltb_ge in EL; split; [lia|intros X; specialize (B2 X); lia] ].
  pose proof (trim_fits (rev (w_runs w)) (workflow_count w) (e_current e) (e_limit e)) as T. rewrite tot_rev in T. specialize (T ltac:(lia) eq_refl).
  set (rs := trim_runs _ _ _ _) in *. replace (workflow_count (mkWorkflow (w_id w) rs)) with (tot rs) by reflexivity. split; [lia|]. intros X. specialize (B2 X). lia.
Qed.
Lemma add_workflows_budget cs : forall l e ws, budget cs e -> budget cs (add_workflows e l ws) /\ e_limit (add_workflows e l ws) = e_limit e.
Proof.
  induction l as [|c l IH]; intros e ws B; cbn [add_workflows]; auto. destruct (add_workflow_budget cs e (match last_workflow (c_id c) ws with Some w => w | None => mkWorkflow (c_id c) [] end) c B) as [B1 B2].
  destruct (IH _ (without (c_id c) ws) B1) as [B3 B4]. split; [auto|congruence].
Qed.
Lemma set_actions_budget cs e p st d i n : budget cs e /\ e_limit e = n -> budget cs (set_actions e p st d i) /\ e_limit (set_actions e p st d i) = n.
Proof. auto. Qed.
Lemma set_resolver_budget cs e t c n : budget cs e /\ e_limit e = n -> budget cs (set_resolver e t c) /\ e_limit (set_resolver e t c) = n.
Proof. auto. Qed.
Lemma start_budget cs limit g st : 0 <= limit -> budget cs (start (engine_new limit) g st) /\ e_limit (start (engine_new limit) g st) = limit.
Proof.
  intros L. unfold start. cbv zeta. apply set_actions_budget. destruct st as [s|].
  - match goal with |- budget cs (add_workflows ?e0 ?l ?w) /\ _ => destruct (add_workflows_budget cs l e0 w) as [A1 A2] end; [split; cbn; [lia|auto]|]. split; [exact A1|]. etransitivity; [exact A2|reflexivity].
  - match goal with |- budget cs (add_workflows ?e0 ?l ?w) /\ _ => destruct (add_workflows_budget cs l e0 w) as [A1 A2] end; [split; cbn; [lia|auto]|]. split; [exact A1|]. etransitivity; [exact A2|reflexivity].
Qed.
Lemma removed_le : forall l cur, fold_right Z.add 0 (map (fun x : config * workflow => workflow_count (snd x)) l) <= cur ->
  removed_current cur l = cur - fold_right Z.add 0 (map (fun x => workflow_count (snd x)) l).
Proof.
  induction l as [|x l IH]; intros cur H; cbn [removed_current fold_right map] in *; [lia|]. fold (removed_current cur l). pose proof (workflow_count_nonneg (snd x)). rewrite IH by lia. unfold sat_sub. lia.
Qed.
Lemma split_sum f : forall l : list (config * workflow), fold_right Z.add 0 (map (fun x => workflow_count (snd x)) l) =
  wtot (map snd (filter f l)) + fold_right Z.add 0 (map (fun x => workflow_count (snd x)) (filter (fun x => negb (f x)) l)).
Proof. induction l as [|x l IH]; cbn [List.filter map fold_right]; [reflexivity|]. rewrite IH. destruct (f x); cbn [negb map fold_right]; rewrite ?wtot_cons; lia. Qed.
Lemma combine_sum : forall (l : list config) (m : list workflow), List.length l = List.length m -> fold_right Z.add 0 (map (fun x => workflow_count (snd x)) (combine l m)) = wtot m.
Proof. induction l; destruct m; cbn [List.length combine map fold_right snd]; intros H; try discriminate; auto. rewrite IHl by lia. auto. Qed.
Lemma update_budget cs e g : List.length (e_configs e) = List.length (e_workflows e) -> budget cs e -> budget cs (update e g) /\ e_limit (update e g) = e_limit e.
Proof.
  intros L [B1 B2]. unfold update. cbv zeta. apply set_actions_budget, set_resolver_budget.
  assert (X : forall ex l e, budget cs e -> budget cs (fold_left (fun e c => if mem (c_id c) ex then e else add_workflow e (mkWorkflow (c_id c) []) c) l e) /\
    e_limit (fold_left (fun e c => if mem (c_id c) ex then e else add_workflow e (mkWorkflow (c_id c) []) c) l e) = e_limit e).
  { intros ex. induction l as [|c l IH]; intros e0 B; cbn [fold_left]; auto. destruct (mem (c_id c) ex); auto. destruct (add_workflow_budget cs e0 (mkWorkflow (c_id c) []) c B) as [A1 A2]. destruct (IH _ A1) as [A3 A4]. split; [auto|congruence]. }
  match goal with |- context [fold_left ?f (g_workflows g) ?e0] => assert (B0 : budget cs e0) end.
  { unfold budget. cbn [set_workflows e_workflows e_current e_limit].
    pose proof (combine_sum _ _ L) as S1. rewrite (split_sum (unchanged (g_workflows g))) in S1. pose proof (wtot_nonneg (map snd (filter (unchanged (g_workflows g)) (combine (e_configs e) (e_workflows e))))) as NN.
    rewrite removed_le by lia. assert (NG : 0 <= fold_right Z.add 0 (map (fun x => workflow_count (snd x)) (filter (fun x => negb (unchanged (g_workflows g) x)) (combine (e_configs e) (e_workflows e))))).
    { clear. induction (filter _ _) as [|x l IH]; cbn; [lia|]. pose proof (workflow_count_nonneg (snd x)). lia. }
    split; [lia|]. intros E. specialize (B2 E). lia. }
  destruct (X (map w_id (map snd (filter (unchanged (g_workflows g)) (combine (e_configs e) (e_workflows e))))) (g_workflows g) _ B0) as [B3 B4]. split; [exact B3|]. exact B4.
Qed.
Lemma enter_budget cs e l : budget cs e -> budget cs (enter_session e l) /\ e_limit (enter_session e l) = e_limit e.
Proof.
  intros [B1 B2]. unfold enter_session. destruct (String.eqb (e_session e) ""); [split; [split; auto|auto]|]. destruct (String.eqb _ _); [split; [split; auto|auto]|]. split; auto.
  unfold budget. cbn [set_session clean_state set_workflows e_workflows e_current e_limit].
  assert (Z0 : wtot (map (fun w => mkWorkflow (w_id w) []) (e_workflows e)) = 0). { clear. induction (e_workflows e) as [|w ws IH]; [reflexivity|]. cbn [map]. rewrite wtot_cons, IH. reflexivity. }
  rewrite Z0. pose proof (wtot_nonneg (e_workflows e)). split; [lia|auto].
Qed.

Lemma all_process_budget cs l limit : Forall well_formed cs -> Forall steady cs -> forall l1 l2, Forall2 (matched_up cs fits_runs) l1 l2 -> forall cur dirty ws cur' d' acts,
  wtot l2 <= cur <= limit -> all_process l (combine l1 l2) cur limit dirty = Some (ws, cur', d', acts) ->
  cur' <= limit /\ cur - wtot l2 <= cur' - wtot ws /\ (exact cs -> cur - wtot l2 = cur' - wtot ws).
Proof.
  intros W S. induction 1 as [|c w l1 l2 (H1 & H2 & H3) _ IH]; intros cur dirty ws cur' d' acts B H; cbn [combine WorkflowEngine_Model.all_process] in H; [inv H; splits; intros; lia|].
  rewrite wtot_cons in B. destruct (w_process c l w cur limit) as [ [ [w' cur1] r]|] eqn:E; [|discriminate]. cbv zeta in H. rewrite Forall_forall in W, S.
  pose proof (wtot_nonneg l2) as N2. destruct (w_process_count re_match to_i32 sha c l w cur limit w' cur1 r (W _ H1) (S _ H1) H3 ltac:(lia) E) as (C1 & C2 & C3).
  destruct (all_process l (combine l1 l2) cur1 limit _) as [ [ [ [ws' cur2] d2] acts']|] eqn:EA; [|discriminate]. inv H.
  pose proof (workflow_count_nonneg w') as NW. assert (B1 : wtot l2 <= cur1 <= limit) by lia. destruct (IH _ _ _ _ _ _ B1 EA) as (I1 & I2 & I3). rewrite !wtot_cons. splits; try lia. intros X. specialize (I3 X). specialize (C3 (X _ H1)). lia.
Qed.
Lemma process_log_budget cs e l dests done e' r : Forall well_formed cs -> Forall steady cs -> good cs fits_runs e -> budget cs e -> process_log e l dests done = Some (e', r) ->
  budget cs e' /\ e_limit e' = e_limit e.
Proof.
  intros W S G B H. apply (enter_good cs fits_runs (fun _ _ => Forall_nil _) e l) in G. destruct (enter_budget cs e l B) as [B' L']. rewrite <- L'. unfold WorkflowEngine_Model.process_log in H. cbv zeta in H. set (e1 := enter_session e l) in *. clearbody e1. clear B e L'.
  destruct (e_workflows e1) eqn:EW; [inv H; auto|]. rewrite <- EW in *. destruct B' as [B1 B2].
  destruct (all_process _ _ _ _ _) as [ [ [ [ws cur] dirty] acts]|] eqn:EA; [|discriminate]. destruct (all_process_budget cs l (e_limit e1) W S _ _ G _ _ _ _ _ _ B1 EA) as (A1 & A2 & A3).
  destruct (process_streaming _ _ _ _ _) as [ [dests' strm] changed]. destruct (process_flush_actions _ _ _ _ _ _) as [ [created ids] bufs]. inv H. split; [|reflexivity].
  unfold budget. cbn [set_actions set_workflows e_workflows e_current e_limit]. split; [lia|]. intros X. specialize (A3 X). specialize (B2 X). lia.
Qed.
Lemma step_budget cs y o y' ev : Forall well_formed cs -> Forall steady cs -> good cs fits_runs (y_engine y) -> (forall g n, o = Restart g n -> 0 <= n) -> budget cs (y_engine y) -> step y o = Some (y', ev) ->
  budget cs (y_engine y') /\ e_limit (y_engine y') = match o with Restart _ m => m | _ => e_limit (y_engine y) end.
Proof.
  intros W S G N B H. destruct o; cbn [WorkflowEngine_Model.step] in *.
  - destruct (process_log _ _ _ _) as [[e' r]|] eqn:E; [|discriminate]. inv H. cbn [y_engine]. eapply process_log_budget; eauto.
  - destruct (e_input (y_engine y)) as [|p rest]; [inv H; auto|]. destruct (_ <? _)%nat; [|inv H; auto]. destruct (negotiate (y_rejected y) p d) as [rej out]. inv H. auto.
  - destruct (y_outputs y) as [|[p|p] rest]; inv H; auto. cbn [y_engine]. unfold on_approved. cbv zeta. apply set_actions_budget.
    match goal with |- context [if ?b then _ else y_engine y] => destruct b end; [|exact (conj B eq_refl)]. destruct (_ <? _)%nat; exact (conj B eq_refl).
  - inv H. auto.
  - inv H. auto.
  - inv H. cbn [y_engine]. apply update_budget; auto. eapply Forall2_len; eauto.
  - destruct (e_dirty (y_engine y)); inv H; auto.
  - inv H. cbn [y_engine]. apply start_budget. eauto.
Qed.
Lemma run_budget g limit ops y ev : 0 <= limit -> limits_ok ops -> Forall well_formed (all_given g ops) -> Forall steady (all_given g ops) -> stable g ops -> run_ops (system_new g limit) ops = Some (y, ev) ->
  budget (all_given g ops) (y_engine y) /\ e_limit (y_engine y) = limit_after limit ops.
Proof.
  intros L LO W S ST H. set (cs := all_given g ops) in *.
  assert (X : forall l2 l1 y0 ev0, ops = l1 ++ l2 -> sys_good cs fits_runs (existsb is_restart ops) y0 -> budget cs (y_engine y0) -> run_ops y0 l2 = Some (y, ev0) ->
    budget cs (y_engine y) /\ e_limit (y_engine y) = limit_after (e_limit (y_engine y0)) l2).
  { induction l2 as [|o l2 IH]; intros l1 y0 ev0 E G B HR; cbn [WorkflowEngine_Model.run_ops] in HR; [inv HR; auto|].
    destruct (step y0 o) as [[y1 ev1]|] eqn:ES; [|discriminate]. destruct (run_ops y1 l2) as [[y2 ev2]|] eqn:ER; [|discriminate]. injection HR as -> <-.
    assert (G1 : sys_good cs fits_runs (existsb is_restart ops) y1).
    { eapply (step_good cs fits_runs (fun _ _ _ => True)); [constructor|apply fits_prefix|intros; apply fits_filter; auto| |exact ST| | |exact G|exact ES].
      - intros c l w cur lim w' cur' res Hc F Hw. split; [|apply Forall_forall; auto]. eapply fits_step; eauto. rewrite Forall_forall in W. auto.
      - intros x Hx. unfold cs, all_given. apply in_or_app. right. rewrite E, flat_map_app. apply in_or_app. right. cbn [flat_map]. apply in_or_app. auto.
      - intros R. rewrite E, existsb_app. cbn [existsb]. rewrite R. apply orb_true_r. }
    destruct (step_budget cs y0 o y1 ev1 W S (proj1 G)) as [B1 B2]; auto.
    { intros g0 n ->. apply (LO g0). rewrite E. apply in_or_app. right. now left. }
    destruct (IH (l1 ++ [o]) y1 ev2) as [I1 I2]; auto; [rewrite <- app_assoc; auto|]. split; auto. rewrite I2, B2. reflexivity. }
  destruct (start_budget cs limit g None L) as [B1 B2]. destruct (X ops [] (system_new g limit) ev) as [X1 X2]; auto.
  - split; [|cbn; auto]. cbn [system_new y_engine]. apply start_good; auto; [constructor|apply fits_prefix|]. intros x Hx. apply in_or_app. auto.
  - split; auto. rewrite X2. cbn [system_new y_engine]. rewrite B2. auto.
Qed.

Lemma held_wtot e : Z.of_nat (List.length (held e)) = wtot (e_workflows e).
Proof.
  unfold held. induction (e_workflows e) as [|w ws IH]; [reflexivity|]. cbn [flat_map]. rewrite flat_map_app, app_length, wtot_cons, workflow_count_tot, Nat2Z.inj_add, IH. f_equal.
  induction (w_runs w) as [|r rs IHr]; [reflexivity|]. cbn [flat_map]. rewrite app_length, tot_cons, Nat2Z.inj_add, IHr. reflexivity.
Qed.

(** * Exclusive workflows have at most two runs *)
Lemma two_prefix l m : two (l ++ m) -> two l.
Proof.
  intros [E|[(x & E)|(i & a & E & I)]].
  - left. destruct l; auto; discriminate.
  - destruct l as [|y l]; [left; auto|]. inv E. destruct l; [|discriminate]. right; left; eauto.
  - destruct l as [|y [|z l]]; [left; auto|right; left; eauto|]. inv E. destruct l; [|discriminate]. right; right. eauto.
Qed.
Lemma two_opt l : two l -> two (filter (fun r => negb (r_initial r)) l).
Proof.
  intros [E|[(x & E)|(i & a & E & I)]]; subst; cbn [List.filter]; [left; auto| |].
  - destruct (negb (r_initial x)); [right; left; eauto|left; auto].
  - rewrite I. cbn [negb]. destruct (negb (r_initial a)); [right; left; eauto|left; auto].
Qed.
Lemma two_length l : two l -> (List.length l <= 2)%nat /\ (List.length l = 2%nat -> exists i, nth_error l 0 = Some i /\ r_initial i = true).
Proof. intros [E|[(x & E)|(i & a & E & I)]]; subst; cbn; split; try lia; eauto. Qed.

Lemma exclusive_runs g limit ops y ev : Forall well_formed (all_given g ops) -> stable g ops -> run_ops (system_new g limit) ops = Some (y, ev) ->
  forall c w, In (c, w) (combine (e_configs (y_engine y)) (e_workflows (y_engine y))) -> c_exec c = Exclusive -> workflow_fits c w /\ well_formed c /\ two (w_runs w).
Proof.
  intros W S H c w HC HX.
  destruct (system_inv g limit ops y ev (fun c l => fits_runs c l /\ (c_exec c = Exclusive -> two l)) (fun _ _ _ => True) S) as [G _]; auto.
  - intros. split; [constructor|left; auto].
  - intros c0 l m [F T]. split; [eapply fits_prefix; eauto|]. intros X. eapply two_prefix; eauto.
  - intros c0 l [F T]. split; [apply fits_filter; auto|]. intros X. apply two_opt; auto.
  - intros c0 l w0 cur lim w' cur' res Hc [F T] Hw. rewrite Forall_forall in W. split; [|apply Forall_forall; auto]. split; [eapply fits_step; eauto|]. intros X. eapply w_process_two; eauto.
  - destruct (in_combine_Forall2 _ _ _ _ _ G HC) as (I1 & _ & F & T). rewrite Forall_forall in W. split; [exact F|]. auto.
Qed.

(** * Sankey paths *)
Lemma sankey_paths g limit ops y ev lim : Forall well_formed (all_given g ops) -> stable g ops -> (forall c x, In c (all_given g ops) -> In x (extractions c) -> x_limit x = lim c (x_id x)) ->
  run_ops (system_new g limit) ops = Some (y, ev) ->
  forall l r p, In (Processed l r) ev -> In p (o_paths r) -> exists c a, In c (all_given g ops) /\ path_follows re_match to_i32 c (lim c) l a p.
Proof.
  intros W S L H l r p Hr Hp.
  destruct (system_inv g limit ops y ev (fun c l => Forall (fun r => Forall (on_trail re_match to_i32 c (lim c)) (r_traversals r)) l)
    (fun c l x => match x with TSankey a p => path_follows re_match to_i32 c (lim c) l a p | _ => True end) S) as [_ G]; auto.
  - intros c0 l0 m F. apply Forall_app in F. tauto.
  - intros c0 l0 F. rewrite Forall_forall in *. intros x Hx. apply filter_In in Hx as [Hx _]. auto.
  - intros c0 l0 w0 cur lim0 w' cur' res Hc F Hw. rewrite Forall_forall in W. eapply w_process_inv; [| |exact F|exact Hw].
    + intros t t' res' Ht Hp'. eapply trail_process; eauto.
    + intros t Ht. eapply trail_new; eauto.
  - rewrite Forall_forall in G. apply (G _ Hr) in Hp. exact Hp.
Qed.
Lemma counting_le xs : (counting xs <= List.length xs)%nat.
Proof. unfold counting. induction xs as [|x xs IH]; cbn [List.filter List.length]; auto. destruct (n_counts x); cbn [List.length]; lia. Qed.
Lemma all_counting xs : Forall (fun x => n_counts x = true) xs -> counting xs = List.length xs.
Proof. unfold counting. induction 1; cbn [List.filter List.length]; auto. rewrite H. cbn [List.length]. auto. Qed.
Lemma recent_sub n xs : incl (recent n xs) xs.
Proof. induction xs as [|x xs IH]; cbn [recent]; [intros ? []|]. destruct (_ && _); intros y Hy; [right; auto|destruct Hy as [->|Hy]; [now left|right; auto] ]. Qed.
Lemma trail_counts c id i xs : (forall x, In x (extractions c) -> x_id x = id -> x_counts x = true) -> trail re_match to_i32 c id i xs -> Forall (fun x => n_counts x = true) xs.
Proof.
  intros A. assert (E : forall s tr l i, nth_error (c_states c) i = Some s -> In tr (s_transitions s) -> Forall (fun x => n_counts x = true) (extracted id tr l)).
  { intros s tr l i0 Hs Ht. apply Forall_forall. intros x Hx. apply in_flat_map in Hx as (e & He & Hx). destruct (String.eqb_spec (x_id e) id); [|destruct Hx]. destruct (extract_value (x_value e) l); [|destruct Hx]. destruct Hx as [<-|[] ]. cbn.
    apply A; auto. unfold extractions. apply in_flat_map. exists tr. split; auto. apply in_flat_map. exists s. split; auto. eapply nth_error_In; eauto. }
  induction 1; [constructor|]. destruct (emits id tr); [constructor|]. apply Forall_app. split; eauto.
Qed.
Lemma path_bound c lim l a p : (forall x, In x (extractions c) -> x_id x = as_id a -> x_counts x = true) -> path_follows re_match to_i32 c lim l a p -> (List.length (p_nodes p) <= lim (as_id a))%nat.
Proof.
  intros A (i & xs & s & tr & T & Hs & Ht & Hh & Ha & P). cbv zeta in P. destruct P as (_ & -> & _). rewrite map_length.
  set (ys := xs ++ extracted (as_id a) tr l). assert (F : Forall (fun x => n_counts x = true) ys).
  { apply Forall_app. split; [eapply trail_counts; eauto|]. pose proof (trail_step re_match to_i32 c (as_id a) i [] s tr l) as Z0.
    apply Forall_forall. intros x Hx. apply in_flat_map in Hx as (e & He & Hx). destruct (String.eqb_spec (x_id e) (as_id a)); [|destruct Hx]. destruct (extract_value (x_value e) l); [|destruct Hx]. destruct Hx as [<-|[] ]. cbn.
    apply A; auto. unfold extractions. apply in_flat_map. exists tr. split; auto. apply in_flat_map. exists s. split; auto. eapply nth_error_In; eauto. }
  rewrite <- (all_counting (recent (lim (as_id a)) ys)); [rewrite counting_recent; lia|]. rewrite Forall_forall in *. intros x Hx. apply F. eapply recent_sub; eauto.
Qed.

(** * Sessions *)
Lemma new_session_forgets e1 e2 l dests done : e_session e1 <> "" -> e_session e1 <> l_session l -> same_but_runs e1 e2 -> process_log e1 l dests done = process_log e2 l dests done.
Proof.
  intros N1 N2 (E1 & E2 & E3 & E4 & E5 & E6 & E7 & E8 & E9 & E10 & E11 & E12). unfold WorkflowEngine_Model.process_log. replace (enter_session e2 l) with (enter_session e1 l); auto.
  unfold enter_session. rewrite <- E3. destruct (String.eqb_spec (e_session e1) ""); [congruence|]. destruct (String.eqb_spec (e_session e1) (l_session l)); [congruence|].
  unfold clean_state, set_session, set_workflows. cbn [e_configs e_workflows e_pending e_streaming e_current e_limit e_dirty e_triggers e_conts e_flushes e_input e_buffers e_next].
  replace (map (fun w => mkWorkflow (w_id w) []) (e_workflows e1)) with (map (fun w => mkWorkflow (w_id w) []) (e_workflows e2)); [congruence|].
  rewrite <- !(map_map w_id (fun i => mkWorkflow i [])). congruence.
Qed.
Lemma process_log_session e l dests done e' r : process_log e l dests done = Some (e', r) -> e_session e' = l_session l.
Proof.
  unfold WorkflowEngine_Model.process_log. cbv zeta. assert (S : e_session (enter_session e l) = l_session l). { unfold enter_session. destruct (String.eqb_spec (e_session e) ""); auto. destruct (String.eqb_spec (e_session e) (l_session l)); auto. }
  destruct (e_workflows (enter_session e l)); [intros H; inv H; auto|]. destruct (all_process _ _ _ _ _) as [ [ [ [ws cur] dirty] acts]|]; [|discriminate].
  destruct (process_streaming _ _ _ _ _) as [ [dests' strm] changed]. destruct (process_flush_actions _ _ _ _ _ _) as [ [created ids] bufs]. intros H; inv H. auto.
Qed.

(** * Updates *)
Lemma add_empty e id c : e_configs (add_workflow e (mkWorkflow id []) c) = e_configs e ++ [c] /\ e_workflows (add_workflow e (mkWorkflow id []) c) = e_workflows e ++ [mkWorkflow id []].
Proof. unfold add_workflow. cbn [set_workflows e_configs e_workflows]. split; auto. destruct (_ <? _); auto. Qed.
Lemma add_new_spec ex : forall l e, let e' := fold_left (fun e c => if mem (c_id c) ex then e else add_workflow e (mkWorkflow (c_id c) []) c) l e in
  e_configs e' = e_configs e ++ filter (fun c => negb (mem (c_id c) ex)) l /\
  e_workflows e' = e_workflows e ++ map (fun c => mkWorkflow (c_id c) []) (filter (fun c => negb (mem (c_id c) ex)) l).
Proof.
  induction l as [|c l IH]; intros e; cbn [fold_left List.filter map]; [rewrite !app_nil_r; auto|]. destruct (mem (c_id c) ex); cbn [negb].
  - apply IH.
  - destruct (IH (add_workflow e (mkWorkflow (c_id c) []) c)) as [I1 I2]. destruct (add_empty e (c_id c) c) as [A1 A2]. split; [rewrite I1, A1, <- app_assoc; auto|rewrite I2, A2, <- app_assoc; auto].
Qed.
Lemma mem_in x l : mem x l = true <-> In x l.
Proof. unfold mem. rewrite existsb_exists. split; [intros (y & H & E); apply String.eqb_eq in E; subst; auto|]. intros H. exists x. rewrite String.eqb_refl. auto. Qed.
Lemma latest_unique : forall cs c id, NoDup (map c_id cs) -> latest id cs = Some c <-> In c cs /\ c_id c = id.
Proof.
  intros cs c id N. unfold latest.
  assert (H : forall r, fold_left (fun r c => if String.eqb (c_id c) id then Some c else r) cs r = Some c <-> (In c cs /\ c_id c = id) \/ (r = Some c /\ ~ In id (map c_id cs))).
  { induction cs as [|d cs IH]; intros r; cbn [fold_left map In]; [tauto|]. cbn [map] in N. apply NoDup_cons_iff in N as [N1 N2]. rewrite IH by auto. destruct (String.eqb_spec (c_id d) id) as [E|E].
    - split.
      + intros [H|[H1 H2]]; [left; tauto|]. inv H1. left. auto.
      + intros [[[->|H1] H2]|[H1 H2]]; [right; split; auto; rewrite <- H2; auto|left; auto|tauto].
    - split; [intros [H|[H1 H2]]; [left; tauto|right; tauto]|]. intros [[[->|H1] H2]|[H1 H2]]; [congruence|left; auto|right; tauto]. }
  rewrite H. split; [intros [X|[X _]]; [auto|discriminate]|auto].
Qed.
Lemma config_eqb_id a b : config_eqb a b = true -> c_id a = c_id b.
Proof. unfold config_eqb. intros H. repeat (apply andb_true_iff in H as [H _]). apply String.eqb_eq. auto. Qed.
Lemma combine_map_pair {A B} (l : list (A * B)) : combine (map fst l) (map snd l) = l.
Proof. induction l as [|[a b] l IH]; cbn; f_equal; auto. Qed.
Lemma combine_app {A B} (l1 l2 : list A) (m1 m2 : list B) : List.length l1 = List.length m1 -> combine (l1 ++ l2) (m1 ++ m2) = combine l1 m1 ++ combine l2 m2.
Proof. revert m1. induction l1; destruct m1; cbn; intros; try discriminate; auto. f_equal. auto. Qed.

Definition kept_of (e : engine) (g : engine_cfg) := filter (unchanged (g_workflows g)) (workflows_of e).
Definition new_of (e : engine) (g : engine_cfg) := filter (fun c => negb (mem (c_id c) (map w_id (map snd (kept_of e g))))) (g_workflows g).
Lemma update_spec e g : workflows_of (update e g) = kept_of e g ++ map (fun c => (c, mkWorkflow (c_id c) [])) (new_of e g).
Proof.
  assert (S1 : forall x a b c d, workflows_of (set_actions x a b c d) = workflows_of x) by reflexivity.
  assert (S2 : forall x a b, workflows_of (set_resolver x a b) = workflows_of x) by reflexivity.
  unfold update. cbv zeta. rewrite S1, S2. clear S1 S2. unfold workflows_of at 1.
  match goal with |- context [fold_left (fun e c => if mem (c_id c) ?ex then _ else _) _ ?e0] => destruct (add_new_spec ex (g_workflows g) e0) as [A1 A2] end. cbv zeta in A1, A2.
  etransitivity; [exact (f_equal2 (@combine _ _) A1 A2)|].
  cbn [set_workflows e_configs e_workflows]. rewrite combine_app by (rewrite !map_length; auto). rewrite combine_map_pair. f_equal.
  unfold new_of, kept_of, workflows_of. clear. match goal with |- combine ?a _ = map _ ?b => change a with b; generalize b as l end. induction l as [|c l IH]; cbn; f_equal; auto.
Qed.
Lemma update_keeps e g c : consistent e -> NoDup (map c_id (g_workflows g)) -> In c (g_workflows g) ->
  (exists c0 w0, In (c0, w0) (workflows_of e) /\ config_eqb c c0 = true /\ In (c0, w0) (workflows_of (update e g))) \/
  ((forall c0 w0, In (c0, w0) (workflows_of e) -> config_eqb c c0 = false) /\ In (c, mkWorkflow (c_id c) []) (workflows_of (update e g))).
Proof.
  intros [C1 C2] N H. rewrite update_spec. destruct (existsb (fun x => config_eqb c (fst x)) (workflows_of e)) eqn:EX.
  - apply existsb_exists in EX as ((c0 & w0) & H1 & H2). cbn [fst] in H2. left. exists c0, w0. splits; auto. apply in_or_app. left. apply filter_In. split; auto. unfold unchanged. cbn [fst snd].
    assert (E : latest (w_id w0) (g_workflows g) = Some c). { apply latest_unique; auto. split; auto. rewrite (in_combine_Forall2 _ _ _ _ _ C1 H1). apply config_eqb_id; auto. } rewrite E. auto.
  - right. assert (A : forall c0 w0, In (c0, w0) (workflows_of e) -> config_eqb c c0 = false).
    { intros c0 w0 H1. destruct (config_eqb c c0) eqn:E; auto. rewrite (proj2 (existsb_exists _ _)) in EX; [discriminate|]. exists (c0, w0). auto. }
    split; auto. apply in_or_app. right. apply in_map_iff. exists c. split; auto. apply filter_In. split; auto. apply negb_true_iff. destruct (mem _ _) eqn:E; auto. exfalso. apply mem_in in E. apply in_map_iff in E as (w & E & Hw). apply in_map_iff in Hw as ((c0 & w0) & E2 & Hw). cbn [snd] in E2. subst w0. apply filter_In in Hw as [H1 H2].
    unfold unchanged in H2. cbn [fst snd] in H2. destruct (latest (w_id w) (g_workflows g)) as [c'|] eqn:EL; [|discriminate]. apply latest_unique in EL as [L1 L2]; auto.
    assert (c' = c). { clear - N L1 L2 H E. rewrite E in L2. revert N L1 H L2. induction (g_workflows g) as [|d l IH]; cbn [map In]; [tauto|]. intros N [->|H1] [->|H2] E2; auto.
      - apply NoDup_cons_iff in N as [N _]. exfalso. apply N. rewrite E2. apply in_map; auto.
      - apply NoDup_cons_iff in N as [N _]. exfalso. apply N. rewrite <- E2. apply in_map; auto.
      - apply NoDup_cons_iff in N as [_ N]. auto. }
    subst c'. rewrite (A _ _ H1) in H2. discriminate.
Qed.
Lemma in_workflows_id e c w : consistent e -> In (c, w) (workflows_of e) -> w_id w = c_id c.
Proof. intros [C _] H. exact (in_combine_Forall2 _ _ _ _ _ C H). Qed.
Lemma NoDup_map_filter {A B} (f : A -> B) p l : NoDup (map f l) -> NoDup (map f (filter p l)).
Proof.
  induction l as [|x l IH]; cbn [map List.filter]; auto. intros N. apply NoDup_cons_iff in N as [N1 N2]. destruct (p x); cbn [map]; auto. constructor; auto. intros H. apply N1. apply in_map_iff in H as (y & E & H). apply filter_In in H as [H _]. rewrite <- E. apply in_map; auto.
Qed.
Lemma NoDup_app_intro {A} (l m : list A) : NoDup l -> NoDup m -> (forall x, In x l -> ~ In x m) -> NoDup (l ++ m).
Proof. induction l as [|x l IH]; cbn [app]; auto. intros N1 N2 D. apply NoDup_cons_iff in N1 as [N1 N3]. constructor; [rewrite in_app_iff; intros [H|H]; [auto|apply (D x); [now left|auto] ]|]. apply IH; auto. intros y Hy. apply D. now right. Qed.
Lemma update_ids e g : consistent e -> NoDup (map c_id (g_workflows g)) -> Permutation (map (fun x => c_id (fst x)) (workflows_of (update e g))) (map c_id (g_workflows g)).
Proof.
  intros C N. pose proof C as [C1 C2]. rewrite update_spec, map_app, map_map. cbn [fst].
  assert (KI : forall x, In x (kept_of e g) -> w_id (snd x) = c_id (fst x) /\ In (c_id (fst x)) (map c_id (g_workflows g))).
  { intros [c0 w0] H. apply filter_In in H as [H1 H2]. cbn [fst snd]. pose proof (in_workflows_id _ _ _ C H1) as E. split; auto. unfold unchanged in H2. cbn [fst snd] in H2.
    destruct (latest (w_id w0) (g_workflows g)) as [c'|] eqn:EL; [|discriminate]. apply latest_unique in EL as [L1 L2]; auto. rewrite <- E, <- L2. apply in_map; auto. }
  assert (KM : map (fun x => c_id (fst x)) (kept_of e g) = map w_id (map snd (kept_of e g))). { rewrite map_map. apply map_ext_in. intros x Hx. symmetry. apply KI; auto. }
  apply NoDup_Permutation; auto.
  - apply NoDup_app_intro.
    + unfold kept_of, workflows_of. apply NoDup_map_filter. rewrite <- (map_map fst c_id). replace (map fst (combine (e_configs e) (e_workflows e))) with (e_configs e); auto. clear - C1. induction C1; cbn; f_equal; auto.
    + apply NoDup_map_filter; auto.
    + intros id H1 H2. rewrite KM in H1. apply in_map_iff in H2 as (c & <- & H2). apply filter_In in H2 as [_ H2]. apply negb_true_iff in H2. apply mem_in in H1. congruence.
  - intros id. rewrite in_app_iff. split.
    + intros [H|H]; [apply in_map_iff in H as (x & <- & H); apply KI; auto|]. apply in_map_iff in H as (c & <- & H). apply filter_In in H as [H _]. apply in_map; auto.
    + intros H. destruct (mem id (map w_id (map snd (kept_of e g)))) eqn:E; [left; rewrite KM; apply mem_in; auto|right]. apply in_map_iff in H as (c & <- & H). apply in_map. apply filter_In. rewrite E. auto.
Qed.
Lemma update_consistent e g : consistent e -> NoDup (map c_id (g_workflows g)) -> consistent (update e g).
Proof.
  intros C N. pose proof (update_ids e g C N) as P. 
  assert (F2 : Forall2 (fun c w => w_id w = c_id c) (e_configs (update e g)) (e_workflows (update e g))).
  { pose proof (update_good (e_configs e ++ g_workflows g) (fun _ _ => True)) as G. assert (G0 : good (e_configs e ++ g_workflows g) (fun _ _ => True) e).
    { clear G P. destruct C as [C _]. unfold good. assert (IN : incl (e_configs e) (e_configs e ++ g_workflows g)) by (intros x Hx; apply in_or_app; auto). revert IN. generalize (e_configs e ++ g_workflows g) as cs. induction C as [|c w l1 l2 E _ IH]; intros cs IN; constructor; [split; [apply IN; now left|auto]|]. apply IH. intros z Hz. apply IN. now right. }
    specialize (G (fun _ _ => I) (fun _ _ _ _ => I) e g G0 (fun x Hx => in_or_app _ _ _ (or_intror Hx))). unfold good in G. clear - G. induction G; constructor; auto. destruct H as (_ & H & _). auto. }
  split; auto. eapply Permutation_NoDup in N; [|symmetry; exact P]. unfold workflows_of in N. rewrite <- (map_map fst c_id) in N.
  replace (map fst (combine (e_configs (update e g)) (e_workflows (update e g)))) with (e_configs (update e g)) in N; auto. clear - F2. induction F2; cbn; f_equal; auto.
Qed.
End Proofs.
