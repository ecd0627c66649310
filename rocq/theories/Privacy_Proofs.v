(** Proofs that matching fields stay on the device. *)
From Verif Require Import Base Str_Base Log_Model LogMatcher_Model Workflow_Model Workflow_Spec Workflow_Proofs WorkflowEngine_Model WorkflowEngine_Spec WorkflowEngine_Proofs Pipeline_Model Pipeline_Spec PipelineEffects_Proofs PipelineState_Proofs Privacy_Spec.
From Verif Require Filter_Model.
Import Filter_Model(transform, CaptureField, SetField, RemoveField, RegexMatchAndSubstitute, StringValue, ExistingField, Captured, MatchingOnly, fi_transforms).
Local Open Scope string_scope. Local Open Scope list_scope.

(** * Filters *)
Section Filters.
Variables (re_match : string -> string -> bool) (re_replace : string -> string -> string -> string) (to_i32 : string -> option Z) (ts : list transform) (l0 : log).
Notation kept := (kept re_replace ts l0). Notation hidden := (hidden re_replace ts l0). Notation known := (known re_replace ts l0).
Notation open_field := (open_field re_replace ts l0). Notation open_text := (open_text re_replace ts l0).
Definition traced (l : log) : Prop :=
  Forall kept (l_fields l) /\ Forall hidden (l_matching l) /\ l_message l = l_message l0 /\ l_level l = l_level l0 /\ l_type l = l_type l0.

Lemma find_known fs k f : find_field k fs = Some f -> In f fs /\ f_key f = k.
Proof. unfold find_field. intros H. apply find_some in H as [A B]. apply String.eqb_eq in B. auto. Qed.
Lemma value_known l k s : traced l -> Filter_Model.log_field_value l k = Some s -> known k s.
Proof.
  intros (A & B & C & D & E). unfold Filter_Model.log_field_value. destruct (String.eqb_spec k LOG_FIELD_NAME_MESSAGE).
  - subst k. intros H. apply N_message. rewrite <- C. destruct (l_message l); [inv H; auto|discriminate].
  - destruct (String.eqb_spec k LOG_FIELD_NAME_LEVEL); [intros H; inv H; rewrite D; apply N_level|]. destruct (String.eqb_spec k LOG_FIELD_NAME_TYPE); [intros H; inv H; rewrite E; apply N_type|].
    destruct (find_field k (l_fields l ++ l_matching l)) as [f|] eqn:F; [|discriminate]. apply find_known in F as [F K]. intros H. destruct f as [key [s'|b]]; [|discriminate]. cbn in H, K. inv H.
    apply in_app_or in F as [F|F]; [apply N_kept; rewrite Forall_forall in A; auto|apply N_hidden; rewrite Forall_forall in B; auto].
Qed.
Lemma take_first_in n : forall fs f rest, Filter_Model.take_first n fs = Some (f, rest) -> In f fs /\ f_key f = n /\ incl rest fs.
Proof.
  induction fs as [|g fs IH]; cbn; intros f rest H; [discriminate|]. destruct (String.eqb_spec (f_key g) n).
  - inv H. splits; auto. intros x Hx. now right.
  - destruct (Filter_Model.take_first n fs) as [[h r]|]; [|discriminate]. inv H. destruct (IH _ _ eq_refl) as (A & B & C). splits; auto. intros x [->|Hx]; [now left|right; auto].
Qed.
Lemma set_field_forall (P : field -> Prop) fs f : Forall P fs -> P f -> Forall P (Filter_Model.set_field fs f).
Proof. intros A B. unfold Filter_Model.set_field. apply Forall_app. split; [|auto]. rewrite Forall_forall in *. intros x Hx. apply filter_In in Hx as [Hx _]. auto. Qed.
Lemma filter_forall {A} (P : A -> Prop) f fs : Forall P fs -> Forall P (List.filter f fs).
Proof. rewrite !Forall_forall. intros H x Hx. apply filter_In in Hx as [Hx _]. auto. Qed.
Lemma substitute_forall (P : field -> Prop) n p r : (forall s, P (mkField n (VStr s)) -> P (mkField n (VStr (re_replace p r s)))) ->
  forall fs fs', Filter_Model.substitute re_replace n p r fs = Some fs' -> Forall P fs -> Forall P fs'.
Proof.
  intros S. induction fs as [|f fs IH]; cbn; intros fs' H F; [discriminate|]. apply Forall_cons_iff in F as [F1 F2]. destruct (String.eqb_spec (f_key f) n).
  - inv H. constructor; auto. destruct f as [key [s|b]]; cbn in *; auto.
  - destruct (Filter_Model.substitute _ _ _ _ fs) as [fs2|]; [|discriminate]. inv H. constructor; auto.
Qed.
Lemma transform_traced t l : In t ts -> traced l -> traced (Filter_Model.transform_apply re_replace t l).
Proof.
  intros Ht T. pose proof T as (A & B & C & D & E). destruct t as [n|n v ft o|n|n p r]; cbn [Filter_Model.transform_apply].
  - destruct (Filter_Model.take_first n (l_matching l)) as [[f rest]|] eqn:F; [|exact T]. apply take_first_in in F as (F1 & F2 & F3). unfold traced. cbn. splits; auto.
    + apply set_field_forall; auto. destruct f as [key v]. cbn in F2. subst. apply K_capture; auto. rewrite Forall_forall in B. auto.
    + rewrite Forall_forall in *. auto.
  - destruct (negb o && _); [exact T|]. destruct v as [s|k].
    + destruct ft; unfold traced; cbn; splits; auto; apply set_field_forall; auto; [eapply H_text|eapply K_text]; eauto.
    + destruct (Filter_Model.log_field_value l k) as [s|] eqn:V; [|exact T]. apply value_known in V; [|exact T].
      destruct ft; unfold traced; cbn; splits; auto; apply set_field_forall; auto; [eapply H_copy|eapply K_copy]; eauto.
  - unfold traced. cbn. splits; auto; apply filter_forall; auto.
  - destruct (Filter_Model.substitute re_replace n p r (l_fields l)) as [fs|] eqn:S1.
    + unfold traced. cbn. splits; auto. eapply substitute_forall; [|exact S1|exact A]. intros s Hs. eapply K_sub; eauto.
    + destruct (Filter_Model.substitute re_replace n p r (l_matching l)) as [fs|] eqn:S2; [|exact T]. unfold traced. cbn. splits; auto. eapply substitute_forall; [|exact S2|exact B]. intros s Hs. eapply H_sub; eauto.
Qed.
Lemma apply_all_traced us : incl us ts -> forall l, traced l -> traced (Filter_Model.apply_all re_replace us l).
Proof.
  unfold Filter_Model.apply_all. induction us as [|t us IH]; cbn; intros I l T; auto. apply IH; [intros x Hx; apply I; now right|]. apply transform_traced; auto. apply I. now left.
Qed.
Lemma process_traced fs : incl (flat_map fi_transforms fs) ts -> forall l, traced l -> traced (Filter_Model.process re_match re_replace to_i32 fs l).
Proof.
  unfold Filter_Model.process. induction fs as [|f fs IH]; cbn; intros I l T; auto. apply IH; [intros x Hx; apply I; apply in_or_app; auto|].
  unfold Filter_Model.filter_apply. destruct (do_match _ _ _ _ _ _ _); auto. apply apply_all_traced; auto. intros x Hx; apply I; apply in_or_app; auto.
Qed.
Lemma traced_self : traced l0.
Proof. unfold traced. splits; auto; apply Forall_forall; intros f Hf; first [apply K_own; auto; fail|apply H_own; auto]. Qed.

Lemma hidden_named f : hidden f -> hidden_name ts l0 (f_key f).
Proof.
  intros H. unfold hidden_name. remember f as g eqn:E. revert f E. enough (X : hidden g -> In (f_key g) (map f_key (l_matching l0)) \/ exists v o, In (SetField (f_key g) v MatchingOnly o) ts) by auto.
  clear H. revert g. fix IH 2. intros g H. destruct H as [g H|n s o H|n k s o H _|n p r s H H2]; [left; apply in_map; exact H|right; eauto|right; eauto|]. exact (IH _ H2).
Qed.
Lemma kept_open : discreet ts l0 -> forall f, kept f -> open_field f.
Proof.
  intros D. enough (X : (forall f, kept f -> open_field f)) by exact X. fix IH 2. intros f H. destruct H as [f H|n s o H|n k s o H K|n p r s H K|n v H K].
  - apply O_own; exact H.
  - eapply O_text; exact H.
  - eapply O_copy; [exact H|]. destruct K as [s E| | |k s K|k s K]; [apply T_message; exact E|apply T_level|apply T_type|apply T_field; exact (IH _ K)|].
    exfalso. exact (proj2 (D k (hidden_named _ K)) _ _ H).
  - eapply O_sub; [exact H|exact (IH _ K)].
  - exfalso. exact (proj1 (D n (hidden_named _ K)) H).
Qed.
End Filters.

(** * Records *)
Section Records.
Variables (re_match : string -> string -> bool) (re_replace : string -> string -> string -> string) (to_i32 : string -> option Z) (sha : string -> string) (f64 : string -> option Z).
Lemma filtered_traced p l : traced re_replace (transforms (p_filter_on p) (p_filters p)) l (filtered re_match re_replace to_i32 p l).
Proof.
  unfold filtered, transforms. destruct (p_filter_on p); [|apply traced_self]. apply process_traced; [apply incl_refl|apply traced_self].
Qed.
Lemma write_loop_records known r w : forall dests es ok, write_loop known dests r w = (es, ok) -> forall x, In x (sent es) -> x = r.
Proof.
  induction dests as [|d dests IH]; cbn; intros es ok H x Hx; [inv H; destruct Hx|]. destruct (mem d known); [|inv H; destruct Hx].
  destruct (write_loop known dests r w) as [es2 ok2] eqn:E. destruct (w d); inv H; cbn in Hx; destruct Hx as [<-|Hx]; auto; try (eapply IH; eauto; fail). destruct Hx.
Qed.
Lemma sent_app a b : sent (a ++ b) = sent a ++ sent b. Proof. apply flat_map_app. Qed.
Lemma record_fields p l b v p' es r : process_log re_match re_replace to_i32 sha f64 p l b v = Some (p', es) -> In r (sent es) -> rc_fields r = l_fields (filtered re_match re_replace to_i32 p l).
Proof.
  intros H Hr. apply log_effects in H as (dests & acts & pre & wr & ok & syn & ex & D & W & _ & (sc & -> & SC) & ->). set (l1 := filtered _ _ _ _ _) in *. rewrite !sent_app in Hr.
  apply in_app_or in Hr as [Hr|Hr].
  - apply in_app_or in Hr as [Hr|Hr]; [|destruct SC as [->| ->]; destruct Hr]. unfold maybe_stream_log in Hr. destruct (stream_ids _ _ _ _); [destruct Hr|]. cbn in Hr. destruct Hr as [<-|[]]. reflexivity.
  - apply in_app_or in Hr as [Hr|Hr]; [apply (write_loop_records _ _ _ _ _ _ W) in Hr; subst; reflexivity|]. apply in_app_or in Hr as [Hr|Hr].
    + unfold decides in D. destruct (p_engine p); [|destruct D as (_ & _ & -> & _); destruct Hr]. destruct D as (r0 & _ & _ & -> & E). destruct ok; [|inv E; destruct Hr].
      unfold process_flush_buffers_actions in E. destruct (o_action_ids r0); [inv E; destruct Hr|]. destruct (o_flushed r0); [inv E; destruct Hr|]. destruct (_ || _); [inv E; destruct Hr|]. inv E. destruct (mem _ _); [|destruct Hr]. cbn in Hr. destruct Hr as [<-|[]]. reflexivity.
    + exfalso. revert Hr. destruct b; [|intros []]. rewrite sent_app. unfold finish_blocking. destruct ok; cbn; [|tauto]. repeat match goal with |- context [match ?x with _ => _ end] => destruct x end; cbn; tauto.
Qed.
Lemma records_kept p l b v p' es r f : process_log re_match re_replace to_i32 sha f64 p l b v = Some (p', es) -> In r (sent es) -> In f (rc_fields r) ->
  kept re_replace (transforms (p_filter_on p) (p_filters p)) l f.
Proof. intros H Hr Hf. rewrite (record_fields _ _ _ _ _ _ _ H Hr) in Hf. destruct (filtered_traced p l) as (A & _). rewrite Forall_forall in A. auto. Qed.
End Records.

(** * Reports of the workflows *)
Section Reports.
Variables (re_match : string -> string -> bool) (to_i32 : string -> option Z) (sha : string -> string) (f64 : string -> option Z).
Variables (cs : list config) (ls : list log).
Notation w_process := (w_process re_match to_i32 sha).
Notation all_process := (all_process re_match to_i32 sha).
Notation process_log := (WorkflowEngine_Model.process_log re_match to_i32 sha f64).
Notation step := (step re_match to_i32 sha f64).
Notation run_ops := (run_ops re_match to_i32 sha f64).

(** A text of the configurations, or a value they ask for of one of the logs. *)
Definition asked (v : string) : Prop := asks cs (TFixed v) \/ exists k l, In l ls /\ asks cs (TExtract k) /\ log_ref_value l k = Some v.
Definition sankey_ok (s : sankey) : Prop := Forall (fun n => asked (n_value n)) (sk_nodes s).
Definition paths_ok (m : option sankeys) : Prop := match m with Some m => Forall (fun p => sankey_ok (snd p)) m | None => True end.
Definition trav_ok (t : traversal) : Prop := paths_ok (t_sankeys t).
Definition runs_ok (l : list run) : Prop := Forall (fun r => Forall trav_ok (r_traversals r)) l.
Definition trig_ok (x : triggered) : Prop :=
  match x with
  | TMetric a => exists tr, transitions cs tr /\ In (AMetric a) (tr_actions tr)
  | TSankey a p => (exists tr, transitions cs tr /\ In (ASankey a) (tr_actions tr)) /\ Forall asked (p_nodes p)
  | _ => True
  end.

Lemma remove_first_incl {A} (f : A -> bool) l : incl (remove_first f l) l.
Proof. induction l as [|x l IH]; cbn; [apply incl_refl|]. destruct (f x); intros y Hy; [now right|]. destruct Hy as [->|Hy]; [now left|right; auto]. Qed.
Lemma push_ok s v n b : sankey_ok s -> asked v -> sankey_ok (sankey_push s v n b).
Proof.
  unfold sankey_ok, sankey_push. cbv zeta. intros H V. set (nodes := sk_nodes s ++ [_]). assert (N : Forall (fun n => asked (n_value n)) nodes) by (apply Forall_app; auto).
  destruct (b && _); cbn [sk_nodes]; auto. rewrite Forall_forall in *. intros x Hx. apply N. eapply remove_first_incl; eauto.
Qed.
Lemma pushes_ok id v n b : asked v -> forall m, Forall (fun p => sankey_ok (snd p)) m -> Forall (fun p => sankey_ok (snd p)) (sankeys_push m id v n b).
Proof.
  intros V. induction m as [|[i s] m IH]; cbn; intros H; [repeat constructor; apply push_ok; auto; constructor|]. apply Forall_cons_iff in H as [H1 H2]. destruct (String.eqb i id); constructor; auto. apply push_ok; auto.
Qed.
Lemma take_ok id : forall m s m', sankeys_take m id = Some (s, m') -> Forall (fun p => sankey_ok (snd p)) m -> sankey_ok s /\ Forall (fun p => sankey_ok (snd p)) m'.
Proof.
  induction m as [|[i s0] m IH]; cbn; intros s m' H F; [discriminate|]. apply Forall_cons_iff in F as [F1 F2]. destruct (String.eqb i id); [inv H; auto|].
  destruct (sankeys_take m id) as [[s1 m1]|]; [|discriminate]. inv H. destruct (IH _ _ eq_refl F2). auto.
Qed.
Lemma states_ok tr l : transitions cs tr -> In l ls -> forall xs m, incl xs (tr_sankeys tr) -> paths_ok m -> paths_ok (sankey_states m xs l).
Proof.
  intros T Hl. unfold sankey_states. induction xs as [|x xs IH]; cbn; intros m I H; auto. apply IH; [intros y Hy; apply I; now right|]. destruct (extract_value (x_value x) l) as [v|] eqn:E; auto. cbn. apply pushes_ok.
  - assert (A : asks cs (x_value x)) by (exists tr; split; auto; right; right; right; exists x; split; auto; apply I; now left).
    destruct (x_value x) as [k|s]; cbn in E; [right; eauto|left; inv E; auto].
  - destruct m; auto.
Qed.
Lemma triggered_ok tr : transitions cs tr -> forall acts m r m', incl acts (tr_actions tr) -> paths_ok m -> triggered_actions sha acts m = (r, m') -> Forall trig_ok r /\ paths_ok m'.
Proof.
  intros T. induction acts as [|a acts IH]; cbn; intros m r m' I H E; [inv E; auto|]. assert (I2 : incl acts (tr_actions tr)) by (intros y Hy; apply I; now right). assert (I1 : In a (tr_actions tr)) by (apply I; now left).
  destruct a as [a|a|a|i].
  - destruct (triggered_actions sha acts m) as [r2 m2] eqn:E2. inv E. destruct (IH _ _ _ I2 H E2). split; auto. constructor; cbn; auto.
  - destruct (triggered_actions sha acts m) as [r2 m2] eqn:E2. inv E. destruct (IH _ _ _ I2 H E2). split; auto. constructor; cbn; eauto.
  - destruct m as [mm|]; [|eapply IH; eauto]. destruct (sankeys_take mm (as_id a)) as [[s mm']|] eqn:ET; [|eapply IH; eauto]. destruct (take_ok _ _ _ _ ET H) as [S1 S2].
    destruct (triggered_actions sha acts (Some mm')) as [r2 m2] eqn:E2. inv E. destruct (IH (Some mm') _ _ I2 S2 E2). split; auto. constructor; auto. cbn. split; eauto. unfold sankey_ok in S1. apply Forall_map. exact S1.
  - destruct (triggered_actions sha acts m) as [r2 m2] eqn:E2. inv E. destruct (IH _ _ _ I2 H E2). split; auto. constructor; cbn; auto.
Qed.
Lemma new_ok c i m t : paths_ok m -> traversal_new c i m = Some (Some t) -> trav_ok t.
Proof. unfold traversal_new. intros H E. destruct (nth_error _ _) as [s|]; [|discriminate]. destruct (s_transitions s); inv E. exact H. Qed.
Lemma t_process_ok c l t t' res : In c cs -> In l ls -> trav_ok t -> t_process re_match to_i32 sha c l t = Some (t', res) -> trav_ok t' /\ Forall trav_ok (res_out res) /\ Forall trig_ok (res_actions res).
Proof.
  intros Hc Hl. unfold t_process. destruct (nth_error (c_states c) (t_state t)) as [s|] eqn:N; [|discriminate]. apply nth_error_In in N.
  enough (X : forall trs i t r t' res, incl trs (s_transitions s) -> trav_ok t -> Forall trav_ok (res_out r) -> Forall trig_ok (res_actions r) -> t_loop re_match to_i32 sha c l i trs t r = Some (t', res) ->
    trav_ok t' /\ Forall trav_ok (res_out res) /\ Forall trig_ok (res_actions res)) by (intros H E; eapply X; [apply incl_refl|exact H| | |exact E]; constructor).
  clear t t' res. induction trs as [|tr trs IH]; cbn; intros i t r t' res I H R1 R2 E; [inv E; auto|]. assert (I2 : incl trs (s_transitions s)) by (intros y Hy; apply I; now right).
  assert (T : transitions cs tr) by (exists c, s; splits; auto; apply I; now left). destruct (tr_rule tr) as [m n|ms]; [|eapply IH; eauto].
  destruct (matches re_match to_i32 m l); [|eapply IH; eauto]. destruct (bump i (t_counts t)) as [[k counts]|]; [|discriminate]. destruct (k =? n)%N.
  - destruct (triggered_actions sha (tr_actions tr) _) as [acts sk] eqn:EA. cbn in EA. eapply triggered_ok in EA; [|exact T|apply incl_refl|apply (states_ok tr l T Hl); [apply incl_refl|exact H]]. destruct EA as [A1 A2].
    destruct (traversal_new c (tr_target tr) sk) as [next|] eqn:EN; [|discriminate]. eapply IH; [exact I2| | | |exact E]; cbn; auto; apply Forall_app; split; auto. destruct next; constructor; auto. eapply new_ok; eauto.
  - eapply IH; [exact I2| | | |exact E]; auto.
Qed.
Lemma w_process_ok c l w cur limit w' cur' res : In c cs -> In l ls -> runs_ok (w_runs w) -> w_process c l w cur limit = Some (w', cur', res) -> runs_ok (w_runs w') /\ Forall trig_ok (wr_actions res).
Proof.
  intros Hc Hl H E. eapply (w_process_inv re_match to_i32 sha c l trav_ok trig_ok); [| |exact H|exact E].
  - intros t t' r. apply t_process_ok; auto.
  - intros t Ht. eapply new_ok; [|exact Ht]. exact I.
Qed.

Definition eok (e : engine) : Prop := incl (e_configs e) cs /\ Forall (fun w => runs_ok (w_runs w)) (e_workflows e).
Lemma add_eok e w c : eok e -> In c cs -> runs_ok (w_runs w) -> eok (add_workflow e w c).
Proof.
  intros [E1 E2] Hc Hw. unfold eok, add_workflow. cbv zeta. cbn [e_configs e_workflows set_workflows]. split; [intros x Hx; apply in_app_or in Hx as [Hx|[<-|[]]]; auto|].
  apply Forall_app. split; auto. constructor; [|constructor]. destruct (_ <? _)%Z; auto. cbn [w_runs]. destruct (trim_prefix (rev (w_runs w)) (workflow_count w) (e_current e) (e_limit e)) as (m & E). rewrite rev_involutive in E.
  unfold runs_ok in *. rewrite E in Hw. apply Forall_app in Hw. tauto.
Qed.
Lemma adds_eok : forall l e ws, eok e -> incl l cs -> Forall (fun w => runs_ok (w_runs w)) ws -> eok (add_workflows e l ws).
Proof.
  induction l as [|c l IH]; intros e ws G I S; cbn [add_workflows]; auto. apply IH; [|intros x Hx; apply I; now right|apply filter_forall; auto].
  apply add_eok; auto; [apply I; now left|]. destruct (last_workflow (c_id c) ws) as [w|] eqn:E; [|constructor]. apply last_workflow_some in E as [E _]. rewrite Forall_forall in S. auto.
Qed.
Lemma start_eok limit g st : incl (g_workflows g) cs -> match st with Some s => Forall (fun w => runs_ok (w_runs w)) (sv_workflows s) | None => True end -> eok (start (engine_new limit) g st).
Proof.
  intros I S. unfold start. cbv zeta. destruct st as [s|]; [apply (adds_eok _ (set_session _ _))|apply (adds_eok _ (set_resolver _ _ _) [])]; auto; split; cbn; auto using incl_nil_l; intros x [].
Qed.
Lemma update_eok e g : eok e -> incl (g_workflows g) cs -> eok (update e g).
Proof.
  intros [G1 G2] I. unfold update. cbv zeta. unfold eok, set_actions at 1 2, set_resolver at 1 3. cbn [e_configs e_workflows].
  match goal with |- context [fold_left ?f _ _] => assert (X : forall l1 e1, eok e1 -> incl l1 cs -> eok (fold_left f l1 e1)) end.
  { induction l1 as [|c l1 IH]; intros e1 E1 I1; cbn [fold_left]; auto. apply IH; [|intros x Hx; apply I1; now right]. destruct (mem _ _); auto. apply add_eok; auto; [apply I1; now left|constructor]. }
  apply X; auto. split; cbn [set_workflows e_configs e_workflows].
  - intros x Hx. apply G1. eapply combine_fst_in; eauto.
  - rewrite Forall_forall in *. intros w Hw. apply in_map_iff in Hw as ((a & b) & <- & Hw). apply filter_In in Hw as [Hw _]. apply in_combine_r in Hw. auto.
Qed.
Lemma enter_eok e l : eok e -> eok (enter_session e l).
Proof.
  intros G. unfold enter_session. destruct (String.eqb (e_session e) ""); [exact G|]. destruct (String.eqb _ _); [exact G|]. destruct G as [G1 G2]. split; cbn; auto.
  apply Forall_map. apply Forall_forall. intros w _. constructor.
Qed.
Lemma all_eok l limit : In l ls -> forall l1 l2 cur dirty ws cur' d' acts, incl l1 cs -> Forall (fun w => runs_ok (w_runs w)) l2 -> all_process l (combine l1 l2) cur limit dirty = Some (ws, cur', d', acts) ->
  Forall (fun w => runs_ok (w_runs w)) ws /\ Forall trig_ok acts.
Proof.
  intros Hl. induction l1 as [|c l1 IH]; intros [|w l2] cur dirty ws cur' d' acts I F H; cbn [combine WorkflowEngine_Model.all_process] in H; try (inv H; auto; fail).
  apply Forall_cons_iff in F as [F1 F2]. destruct (w_process c l w cur limit) as [ [ [w' cur1] r]|] eqn:E; [|discriminate]. cbv zeta in H.
  destruct (all_process l (combine l1 l2) cur1 limit _) as [ [ [ [ws' cur2] d2] acts']|] eqn:EA; [|discriminate]. inv H. apply IH in EA as [A1 A2]; [|intros x Hx; apply I; now right|auto].
  apply w_process_ok in E as [B1 B2]; auto; [|apply I; now left]. split; [constructor; auto|apply Forall_app; auto].
Qed.

(** What a result reports. *)
Definition result_ok (l : log) (r : result) : Prop :=
  (forall em, In em (o_metrics r) -> exists (acts : list (string * tag_value)) i, (forall t v, In (t, v) acts -> asks cs v) /\ metric_id cs i /\
     ((em_tags em = tag_insert "_id" i (extract_tags l acts) /\ ((exists n, em_value em = Z.of_N n) \/ exists k s, asks cs (TExtract k) /\ resolve_field_name k l = Some s /\ f64 s = Some (em_value em))) \/
      (exists p, In p (o_paths r) /\ em_tags em = tag_insert "_path_id" (p_id p) (tag_insert "_id" i (extract_tags l acts)) /\ em_value em = 1%Z))) /\
  forall p, In p (o_paths r) -> Forall asked (p_nodes p).
Lemma process_eok e l dests done e' r : eok e -> In l ls -> process_log e l dests done = Some (e', r) -> eok e' /\ result_ok l r.
Proof.
  intros G Hl H. apply (enter_eok e l) in G. unfold WorkflowEngine_Model.process_log in H. cbv zeta in H. set (e1 := enter_session e l) in *. clearbody e1. destruct G as [G1 G2].
  assert (X : match all_process l (combine (e_configs e1) (e_workflows e1)) (e_current e1) (e_limit e1) (e_dirty e1) with
     | Some (ws, cur, dirty, acts) => Forall (fun w => runs_ok (w_runs w)) ws /\ Forall trig_ok acts | None => True end).
  { destruct (all_process _ _ _ _ _) as [ [ [ [ws cur] dirty] acts]|] eqn:E; auto. eapply all_eok; eauto. }
  destruct (e_workflows e1) eqn:EW; [inv H; split; [split; auto; rewrite EW; auto|split; cbn; tauto]|]. rewrite <- EW in *.
  destruct (all_process _ _ _ _ _) as [ [ [ [ws cur] dirty] acts]|]; [|discriminate]. destruct X as [X1 X2].
  destruct (process_streaming _ _ _ _ _) as [ [dests' strm] changed]. destruct (process_flush_actions _ _ _ _ _ _) as [ [created ids] bufs]. inv H. split; [split; [exact G1|exact X1]|].
  assert (SK : forall a p, In (a, p) (sankeys_of acts) -> trig_ok (TSankey a p)).
  { intros a p Hp. unfold sankeys_of in Hp. rewrite dedup_in in Hp. apply in_flat_map in Hp as (x & Hx & Hp). destruct x; try contradiction. destruct Hp as [Hp|[] ]. inv Hp. rewrite Forall_forall in X2. auto. }
  split; cbn [o_paths o_metrics].
  - intros em Hem. apply in_app_or in Hem as [Hem|Hem].
    + apply in_flat_map in Hem as (a & Ha & Hem). unfold metrics_of in Ha. rewrite dedup_in in Ha. apply in_flat_map in Ha as (x & Hx & Ha). destruct x; try contradiction. destruct Ha as [Ha|[] ]. inv Ha.
      rewrite Forall_forall in X2. destruct (X2 _ Hx) as (tr & T & A). exists (am_tags a), (am_id a). splits.
      * intros t v Hv. exists tr. split; auto. left. eauto.
      * exists tr. split; auto. left. eauto.
      * left. unfold emit_metric in Hem. destruct (am_inc a) as [n|k] eqn:EI.
        -- destruct Hem as [<-|[]]. cbn. eauto.
        -- destruct (resolve_field_name k l) as [s|] eqn:ES; [|destruct Hem]. destruct (f64 s) as [z|] eqn:EF; [|destruct Hem]. destruct Hem as [<-|[]]. cbn. split; auto. right. exists k, s. splits; auto.
           exists tr. split; auto. right. left. eauto.
    + apply in_map_iff in Hem as ((a & p) & <- & Hp). destruct (SK _ _ Hp) as [(tr & T & A) _]. exists (as_tags a), (as_id a). splits.
      * intros t v Hv. exists tr. split; auto. right. right. left. eauto.
      * exists tr. split; auto. right. eauto.
      * right. exists p. splits; auto. apply in_map_iff. exists (a, p). auto.
  - intros p Hp. apply in_map_iff in Hp as ((a & p') & <- & Hp). apply SK in Hp. apply Hp.
Qed.

Definition sok (y : system) : Prop := eok (y_engine y) /\ match y_file y with Some s => Forall (fun w => runs_ok (w_runs w)) (sv_workflows s) | None => True end.
Definition ev_ok (ev : event) : Prop := match ev with Processed l r => result_ok l r | _ => True end.
Lemma step_sok y o y' ev : incl (given o) cs -> incl (logs [o]) ls -> sok y -> step y o = Some (y', ev) -> sok y' /\ Forall ev_ok ev.
Proof.
  intros I L [G F] H. destruct o; cbn [WorkflowEngine_Model.step given] in *.
  - destruct (process_log _ _ _ _) as [[e' r]|] eqn:E; [|discriminate]. inv H. apply process_eok in E as [E1 E2]; auto; [|apply L; now left]. split; [split; auto|auto].
  - destruct (e_input (y_engine y)) as [|p rest]; [inv H; split; [split; auto|auto]|]. destruct (_ <? _)%nat; [|inv H; split; [split; auto|auto] ].
    destruct (negotiate (y_rejected y) p d) as [rej out]. inv H. split; [split; auto|]. destruct (mem _ _); repeat constructor.
  - destruct (y_outputs y) as [|[p|p] rest]; inv H; split; auto; try (split; auto); auto.
    cbn [y_engine]. unfold eok, on_approved. cbv zeta. unfold set_actions at 1 2. cbn [e_configs e_workflows]. match goal with |- context [if ?b then _ else _] => destruct b end; [|exact G].
    destruct (_ <? _)%nat; exact G.
  - inv H. split; auto. split; auto.
  - inv H. split; auto. split; auto.
  - inv H. split; auto. split; auto. apply update_eok; auto.
  - destruct (e_dirty (y_engine y)); [|inv H; split; [split; auto|auto] ]. inv H. split; auto. split; auto. cbn [y_file]. destruct torn; auto. cbn. apply filter_forall. apply Forall_map. destruct G as [_ G].
    rewrite Forall_forall in *. intros w Hw. cbn. unfold runs_ok. apply filter_forall. apply (G w Hw).
  - inv H. split; [|auto]. split; [|exact F]. apply start_eok; [exact I|exact F].
Qed.
Lemma run_sok ops : forall y y' ev, incl (flat_map given ops) cs -> incl (logs ops) ls -> sok y -> run_ops y ops = Some (y', ev) -> Forall ev_ok ev.
Proof.
  induction ops as [|o ops IH]; intros y y' ev I L S H; cbn in *; [inv H; auto|]. destruct (step y o) as [[y1 ev1]|] eqn:E1; [|discriminate]. destruct (run_ops y1 ops) as [[y2 ev2]|] eqn:E2; [|discriminate]. inv H.
  apply step_sok in E1 as [S1 S2]; auto; [|intros x Hx; apply I; apply in_or_app; auto|intros x Hx; apply L; cbn in Hx; rewrite app_nil_r in Hx; apply in_or_app; auto].
  apply Forall_app. split; auto. eapply IH; [| |exact S1|exact E2]; intros x Hx; [apply I|apply L]; apply in_or_app; auto.
Qed.
End Reports.

(** * Values without matching fields *)
Lemma ref_shown cs l k v : asks cs (TExtract k) -> unasked cs l -> log_ref_value l k = Some v -> shown cs l v.
Proof.
  intros A U. unfold log_ref_value. destruct (String.eqb k LOG_FIELD_NAME_LEVEL); [intros H; inv H; right; left; auto|]. destruct (String.eqb k LOG_FIELD_NAME_TYPE); [intros H; inv H; right; right; left; auto|].
  unfold fields_ref_value, matching_field_value. destruct (find_field k (l_fields l)) as [[key [s|b]]|] eqn:F; cbn.
  - intros H. inv H. apply find_known in F as [F1 F2]. cbn in F2. subst. right. right. right. eauto.
  - destruct (find_field k (l_matching l)) as [g|] eqn:G; [|discriminate]. apply find_known in G as [G1 G2]. exfalso. apply (U k A). subst. apply in_map. exact G1.
  - destruct (find_field k (l_matching l)) as [g|] eqn:G; [|discriminate]. apply find_known in G as [G1 G2]. exfalso. apply (U k A). subst. apply in_map. exact G1.
Qed.
Lemma tag_insert_in k v : forall l t x, In (t, x) (tag_insert k v l) -> (t = k /\ x = v) \/ In (t, x) l.
Proof.
  induction l as [|[k' v'] l IH]; cbn; intros t x H; [destruct H as [H|[]]; inv H; auto|]. destruct (String.eqb k' k); destruct H as [H|H]; try (inv H; auto; fail); auto. apply IH in H. tauto.
Qed.
Lemma extract_tags_in l tags t x : In (t, x) (extract_tags l tags) -> exists s, In (t, s) tags /\ (s = TFixed x \/ exists k, s = TExtract k /\ log_ref_value l k = Some x).
Proof.
  unfold extract_tags. enough (X : forall tags r, In (t, x) (fold_left (fun r p => match (match snd p with TExtract k => resolve_field_name k l | TFixed v => Some v end) with Some v => tag_insert (fst p) v r | None => r end) tags r) ->
    In (t, x) r \/ exists s, In (t, s) tags /\ (s = TFixed x \/ exists k, s = TExtract k /\ log_ref_value l k = Some x)) by (intros H; apply X in H as [[]|H]; exact H).
  clear tags. induction tags as [|[t' s] tags IH]; cbn [fold_left]; intros r H; auto. apply IH in H as [H|(s' & A & B)]; [|right; exists s'; split; auto; now right]. cbn [fst snd] in H.
  destruct s as [k|w].
  - destruct (resolve_field_name k l) as [w|] eqn:E; auto. apply tag_insert_in in H as [[-> ->]|H]; auto. right. exists (TExtract k). split; [now left|]. right. exists k. split; auto.
  - apply tag_insert_in in H as [[-> ->]|H]; auto. right. exists (TFixed w). split; [now left|]. left. auto.
Qed.

Section Final.
Variables (re_match : string -> string -> bool) (re_replace : string -> string -> string -> string) (to_i32 : string -> option Z) (sha : string -> string) (f64 : string -> option Z).
Lemma stored_fields u on fon stats limit file ops p ess l b v p' es r f :
  prun re_match re_replace to_i32 sha f64 (pipe_new u on fon stats limit file) ops = Some (p, ess) -> pstep re_match re_replace to_i32 sha f64 p (PLog l b v) = Some (p', es) ->
  In r (sent es) -> In f (rc_fields r) -> kept re_replace (transforms (filtering fon ops) (u_filters (Pipeline_Spec.latest u ops))) l f.
Proof.
  intros R S Hr Hf. rewrite (record_fields _ _ _ _ _ _ _ _ _ _ _ _ S Hr) in Hf. destruct (new_config re_match re_replace to_i32 sha f64 u on fon stats limit file ops p ess R) as (_ & _ & _ & F). rewrite F in Hf. unfold transforms.
  destruct (filtering fon ops); [|apply K_own; exact Hf].
  destruct (process_traced re_match re_replace to_i32 (flat_map fi_transforms (u_filters (Pipeline_Spec.latest u ops))) l (u_filters (Pipeline_Spec.latest u ops)) (incl_refl _) l) as (A & _); [apply traced_self|]. rewrite Forall_forall in A. auto.
Qed.
Lemma history g limit ops y ev l r : run_ops re_match to_i32 sha f64 (system_new g limit) ops = Some (y, ev) -> In (Processed l r) ev -> result_ok f64 (all_given g ops) (logs ops) l r.
Proof.
  intros R H. assert (F : Forall (ev_ok f64 (all_given g ops) (logs ops)) ev).
  { apply (run_sok re_match to_i32 sha f64 (all_given g ops) (logs ops) ops (system_new g limit) y ev); [intros x Hx; apply in_or_app; auto|apply incl_refl| |exact R].
    split; [|exact I]. apply (start_eok (all_given g ops) (logs ops) limit g None); [|exact I]. intros x Hx. apply in_or_app. auto. }
  rewrite Forall_forall in F. exact (F _ H).
Qed.
Lemma metric_values g limit ops y ev l r em : run_ops re_match to_i32 sha f64 (system_new g limit) ops = Some (y, ev) -> In (Processed l r) ev -> unasked (all_given g ops) l -> In em (o_metrics r) ->
  (forall t v, In (t, v) (em_tags em) -> shown (all_given g ops) l v \/ (t = "_id" /\ metric_id (all_given g ops) v) \/ (t = "_path_id" /\ exists p, In p (o_paths r) /\ v = p_id p)) /\
  ((exists n, em_value em = Z.of_N n) \/ exists s, shown (all_given g ops) l s /\ f64 s = Some (em_value em)).
Proof.
  intros R H U Hem. destruct (history _ _ _ _ _ _ _ R H) as [M _]. destruct (M _ Hem) as (acts & i & A & MI & C).
  assert (X : forall t v, In (t, v) (extract_tags l acts) -> shown (all_given g ops) l v).
  { intros t v Hv. apply extract_tags_in in Hv as (s & S1 & [->|(k & -> & S2)]); [left; eapply A; eauto|eapply ref_shown; eauto]. }
  destruct C as [[-> V]|(p & Hp & -> & V)].
  - split.
    + intros t v Hv. apply tag_insert_in in Hv as [[-> ->]|Hv]; [right; left; auto|left; eauto].
    + destruct V as [V|(k & s & K1 & K2 & K3)]; [left; exact V|right]. exists s. split; [eapply ref_shown; eauto|exact K3].
  - split.
    + intros t v Hv. apply tag_insert_in in Hv as [[-> ->]|Hv]; [right; right; eauto|]. apply tag_insert_in in Hv as [[-> ->]|Hv]; [right; left; auto|left; eauto].
    + left. exists 1%N. exact V.
Qed.
Lemma path_values g limit ops y ev l r p v : run_ops re_match to_i32 sha f64 (system_new g limit) ops = Some (y, ev) -> In (Processed l r) ev -> (forall l', In l' (logs ops) -> unasked (all_given g ops) l') ->
  In p (o_paths r) -> In v (p_nodes p) -> exists l', In l' (logs ops) /\ shown (all_given g ops) l' v.
Proof.
  intros R H U Hp Hv. assert (L : In l (logs ops)).
  { clear U Hp Hv. revert R H. generalize (system_new g limit). revert y ev. induction ops as [|o ops IH]; intros y ev s R H; cbn in R; [inv R; destruct H|].
    destruct (step re_match to_i32 sha f64 s o) as [[s1 ev1]|] eqn:E; [|discriminate]. destruct (run_ops re_match to_i32 sha f64 s1 ops) as [[s2 ev2]|] eqn:E2; [|discriminate]. inv R. cbn. apply in_or_app. apply in_app_or in H as [H|H]; [|right; eapply IH; eauto].
    left. destruct o; cbn in E; repeat match type of E with context [match ?x with _ => _ end] => destruct x end; inv E; cbn in H; repeat match goal with H : _ \/ _ |- _ => destruct H end; try contradiction; try discriminate.
    match goal with H : Processed _ _ = _ |- _ => inv H end. now left. }
  destruct (history _ _ _ _ _ _ _ R H) as [_ M]. specialize (M _ Hp). rewrite Forall_forall in M. destruct (M _ Hv) as [A|(k & l' & L' & A & B)].
  - exists l. split; auto. left. exact A.
  - exists l'. split; auto. eapply ref_shown; eauto.
Qed.
End Final.
