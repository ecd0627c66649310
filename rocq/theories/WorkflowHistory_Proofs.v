(** The actions of the engine are due: an invariant with the history of the execution. *)
From Verif Require Import Base Str_Base Log_Model LogMatcher_Model BufferMatcher_Model Workflow_Model Workflow_Spec Workflow_Proofs WorkflowEngine_Model WorkflowEngine_Spec WorkflowEngine_Proofs.
Local Open Scope string_scope. Local Open Scope list_scope. Local Open Scope Z_scope.

Lemma sub_nil_l {A} (l : list A) : sub [] l.
Proof. induction l; constructor; auto. Qed.
Lemma sub_app_r {A} (xs ys zs : list A) : sub xs ys -> sub xs (ys ++ zs).
Proof. induction 1; cbn [app]; [apply sub_nil_l|apply sub_skip; auto|apply sub_keep; auto]. Qed.
Lemma sub_snoc {A} (xs ys : list A) z : sub xs ys -> sub (xs ++ [z]) (ys ++ [z]).
Proof. induction 1; cbn [app]; [apply sub_keep; constructor|apply sub_skip; auto|apply sub_keep; auto]. Qed.

(** The action of a triggered action. *)
Definition cause (x : triggered) : action := match x with TFlush a => AFlush a | TMetric a => AMetric a | TSankey a _ => ASankey a | TScreenshot i => AScreenshot i end.

Section History.
Variables (re_match : string -> string -> bool) (to_i32 : string -> option Z) (sha : string -> string) (f64 : string -> option Z).
Notation stays := (stays re_match to_i32 sha).
Notation due := (due re_match to_i32).
Notation t_process := (t_process re_match to_i32 sha).
Notation r_loop := (r_loop re_match to_i32 sha).
Notation r_process := (r_process re_match to_i32 sha).
Notation w_loop := (w_loop re_match to_i32 sha).
Notation w_process := (w_process re_match to_i32 sha).
Notation all_process := (all_process re_match to_i32 sha).
Notation process_log := (process_log re_match to_i32 sha f64).
Notation step := (step re_match to_i32 sha f64).
Notation run_ops := (run_ops re_match to_i32 sha f64).

(** The traversal entered its state and stays there since the logs [ls] of the session [S]. *)
Definition since (c : config) (S : string) (H : list log) (t : traversal) : Prop :=
  exists s ls sk, nth_error (c_states c) (t_state t) = Some s /\ sub ls H /\ Forall (fun x => l_session x = S) ls /\
  stays c (mkTraversal (t_state t) (repeat 0%N (List.length (s_transitions s))) sk) ls = Some t.
Definition caused (c : config) (H : list log) (l : log) (x : triggered) : Prop :=
  exists s tr ls, In s (c_states c) /\ In tr (s_transitions s) /\ In (cause x) (tr_actions tr) /\ sub ls H /\ Forall (fun y => l_session y = l_session l) ls /\ due tr ls l = true.

Lemma since_weaken c S H l t : since c S H t -> since c S (H ++ [l]) t.
Proof. intros (s & ls & sk & H1 & H2 & H3 & H4). exists s, ls, sk. splits; auto. apply sub_app_r; auto. Qed.
Lemma since_fresh c S H i m t : traversal_new c i m = Some (Some t) -> since c S H t.
Proof.
  unfold traversal_new. destruct (nth_error (c_states c) i) as [s|] eqn:E; [|discriminate]. intros X. assert (Y : t = mkTraversal i (repeat 0%N (List.length (s_transitions s))) m) by (destruct (s_transitions s); inv X; auto).
  subst t. exists s, [], m. cbn [t_state]. splits; auto. apply sub_nil_l.
Qed.
Lemma triggered_cause sk l tr x : In x (acts_of sha sk l tr) -> In (cause x) (tr_actions tr).
Proof.
  unfold acts_of. generalize (sankey_states sk (tr_sankeys tr) l). induction (tr_actions tr) as [|a acts IH]; intros m; cbn [triggered_actions fst]; [cbn; tauto|].
  destruct a as [a|a|a|i].
  - specialize (IH m). destruct (triggered_actions sha acts m). cbn [fst In] in *. intros [<-|X]; auto.
  - specialize (IH m). destruct (triggered_actions sha acts m). cbn [fst In] in *. intros [<-|X]; auto.
  - destruct m as [mm|]; [|intros X; right; eapply IH; eauto]. destruct (sankeys_take mm (as_id a)) as [[s mm']|]; [|intros X; right; eapply IH; eauto].
    specialize (IH (Some mm')). destruct (triggered_actions sha acts (Some mm')). cbn [fst In] in *. intros [<-|X]; auto.
  - specialize (IH m). destruct (triggered_actions sha acts m). cbn [fst In] in *. intros [<-|X]; auto.
Qed.
Lemma stays_app c : forall l1 l2 t, stays c t (l1 ++ l2) = match stays c t l1 with Some t' => stays c t' l2 | None => None end.
Proof. induction l1 as [|l l1 IH]; intros l2 t; cbn [app Workflow_Spec.stays]; auto. destruct (t_process c l t) as [[t' r]|]; auto. destruct (_ =? 0)%N; auto. Qed.

Lemma since_step c H l t t' res : well_formed c -> since c (l_session l) H t -> t_process c l t = Some (t', res) ->
  (res_followed res = 0%N -> since c (l_session l) (H ++ [l]) t') /\ Forall (since c (l_session l) (H ++ [l])) (res_out res) /\ Forall (caused c H l) (res_actions res).
Proof.
  intros W (s & ls & sk & H1 & H2 & H3 & H4) E. set (i := t_state t) in *.
  destruct (stays_spec re_match to_i32 sha c i s sk W H1 ls) as [S1 S2]. cbv zeta in S1, S2. assert (Q : quiet re_match to_i32 (s_transitions s) ls) by (apply S2; congruence).
  assert (ET : t = mkTraversal i (map (fun tr => hits re_match to_i32 tr ls) (s_transitions s)) sk) by (rewrite S1 in H4; auto; congruence).
  assert (E' := E). rewrite ET in E'. rewrite (t_process_spec re_match to_i32 sha c l _ s) in E'; auto; [|cbn [t_counts]; rewrite map_length; auto]. cbn [t_counts t_sankeys t_state] in E'.
  rewrite fired_due in E'. injection E' as E1 E2. splits.
  - intros F. exists s, (ls ++ [l]), sk. splits.
    + rewrite <- E1. auto.
    + apply sub_snoc; auto.
    + apply Forall_app. auto.
    + replace (t_state t') with i by (rewrite <- E1; auto). rewrite stays_app, H4. cbn [Workflow_Spec.stays]. rewrite E, F. reflexivity.
  - rewrite <- E2. cbn [res_out]. apply Forall_forall. intros x Hx. apply in_flat_map in Hx as (tr & _ & Hx). unfold outs_of in Hx. destruct (traversal_new _ _ _) as [[t0|]|] eqn:EN; try contradiction. destruct Hx as [<-|[] ].
    eapply since_fresh; eauto.
  - rewrite <- E2. cbn [res_actions]. apply Forall_forall. intros x Hx. apply in_flat_map in Hx as (tr & Ht & Hx). apply filter_In in Ht as [T1 T2]. exists s, tr, ls. splits; auto.
    + eapply nth_error_In; eauto.
    + eapply triggered_cause; eauto.
Qed.

Definition run_since c S H (r : run) := Forall (since c S H) (r_traversals r).
Lemma r_loop_since c H l : well_formed c -> forall rest done matched first acts cr ad co rm r' rr, Forall (since c (l_session l) H) rest -> Forall (since c (l_session l) (H ++ [l])) done -> Forall (caused c H l) acts ->
  r_loop c l rest done matched first acts cr ad co rm = Some (r', rr) -> (rr_state rr <> Stopped -> run_since c (l_session l) (H ++ [l]) r') /\ Forall (caused c H l) (rr_actions rr).
Proof.
  intros W. induction rest as [|t rest IH]; intros done matched first acts cr ad co rm r' rr Hr Hd Ha E; cbn [Workflow_Model.r_loop] in E; [inv E; auto|].
  apply Forall_cons_iff in Hr as [H1 H2]. destruct (t_process c l t) as [[t' res]|] eqn:ET; [|discriminate]. destruct (since_step _ _ _ _ _ _ W H1 ET) as (S1 & S2 & S3).
  cbv zeta in E. destruct (over_matched c _ || over_duration c first (l_time l)).
  - inv E. cbn [rr_state rr_actions]. split; [congruence|constructor].
  - destruct (res_followed res =? 0)%N eqn:EF; [apply N.eqb_eq in EF|]; apply IH in E; auto; try (apply Forall_app; auto).
Qed.
Lemma r_process_since c H l r r' rr : well_formed c -> run_since c (l_session l) H r -> r_process c l r = Some (r', rr) ->
  (rr_state rr <> Stopped -> run_since c (l_session l) (H ++ [l]) r') /\ Forall (caused c H l) (rr_actions rr).
Proof. intros W F E. unfold Workflow_Model.r_process in E. eapply r_loop_since in E; eauto. apply Forall_rev; auto. Qed.
Lemma run_since_weaken c S H l r : run_since c S H r -> run_since c S (H ++ [l]) r.
Proof. intros F. eapply Forall_impl; [|exact F]. intros t. apply since_weaken. Qed.
Lemma w_loop_since c H l : well_formed c -> forall rest done cur limit p res runs cur' res', Forall (run_since c (l_session l) H) rest -> Forall (run_since c (l_session l) (H ++ [l])) done -> Forall (caused c H l) (wr_actions res) ->
  w_loop c l rest done cur limit p res = Some (runs, cur', res') -> Forall (run_since c (l_session l) (H ++ [l])) runs /\ Forall (caused c H l) (wr_actions res').
Proof.
  intros W. induction rest as [|r rest IH]; intros done cur limit p res runs cur' res' Hr Hd Ha E; [cbn in E; inv E; auto|]. rewrite w_loop_cons in E.
  apply Forall_cons_iff in Hr as [H1 H2]. destruct (r_process c l r) as [[r' rr]|] eqn:ER; [|discriminate]. destruct (r_process_since _ _ _ _ _ _ W H1 ER) as [S1 S2]. cbv zeta in E.
  destruct (decide_run r' rr _ limit p _) as [ [ [kept cur1] p'] st'] eqn:ED. pose proof (decide_running _ _ _ _ _ _ _ _ _ _ ED) as K.
  assert (FK : Forall (run_since c (l_session l) (H ++ [l])) (kept ++ done)).
  { apply Forall_app; split; auto; destruct K as [-> | [-> K] ]; auto. constructor; auto. apply S1. congruence. }
  assert (FA : Forall (caused c H l) (wr_actions res ++ rr_actions rr)) by (apply Forall_app; auto).
  destruct (c_exec c); [|apply IH in E; auto]. destruct ((1 <? count rest + count (kept ++ done)) && p'); [|apply IH in E; auto].
  destruct rest as [|y rest].
  - destruct (remove_second (kept ++ done)) as [[x d']|] eqn:E2; [|discriminate]. inv E. cbn [wr_actions]. split; auto.
    destruct (kept ++ done) as [|z0 [|z1 zs]]; try discriminate. cbn in E2. injection E2 as <- <-. apply Forall_cons_iff in FK as [F1 F2]. apply Forall_cons_iff in F2 as [F2 F3]. constructor; auto.
  - destruct (run_new c); [|discriminate]. destruct (r_process c l r0) as [[? ?]|]; [|discriminate]. injection E as <- _ <-. cbn [wr_actions]. split; auto. apply Forall_app. split; auto.
    change (rev rest ++ [y]) with (rev (y :: rest)). apply Forall_rev. eapply Forall_impl; [|exact H2]. intros z. apply run_since_weaken.
Qed.
Lemma w_process_since c H l w cur limit w' cur' res : well_formed c -> Forall (run_since c (l_session l) H) (w_runs w) -> w_process c l w cur limit = Some (w', cur', res) ->
  Forall (run_since c (l_session l) (H ++ [l])) (w_runs w') /\ Forall (caused c H l) (wr_actions res).
Proof.
  intros W F E. unfold Workflow_Model.w_process in E.
  assert (X : forall runs cur1 st, (if needs_new_run w then match run_new c with None => None | Some r => Some (maybe_add_run c (w_runs w) r cur limit no_stats) end else Some (w_runs w, cur, no_stats)) = Some (runs, cur1, st) ->
    Forall (run_since c (l_session l) H) runs).
  { intros runs cur1 st X. destruct (needs_new_run w); [|inv X; auto]. destruct (run_new c) as [n|] eqn:EN; [|discriminate].
    assert (PN : run_since c (l_session l) H n). { unfold run_new in EN. destruct (traversal_new c 0 None) as [[t|]|] eqn:ET; inv EN; unfold run_since; cbn; auto. constructor; auto. eapply since_fresh; eauto. }
    unfold maybe_add_run in X. destruct (_ <=? limit); inv X; auto. destruct (c_exec c); auto. apply Forall_app; auto. }
  destruct (if needs_new_run w then _ else _) as [ [ [runs cur1] st]|]; [|discriminate]. specialize (X _ _ _ eq_refl).
  destruct (w_loop c l (rev runs) [] cur1 limit false (mkWresult [] st)) as [ [ [runs' cur2] res']|] eqn:EL; [|discriminate]. inv E. cbn [w_runs].
  eapply w_loop_since; [exact W| | | |exact EL]; [apply Forall_rev; exact X|constructor|constructor].
Qed.

(** * The engine *)
(** No traversal of another session. *)
Definition known_since (S : string) (H : list log) (c : config) (runs : list run) : Prop := Forall (run_since c S H) runs /\ (S = "" -> runs = []).
Variable cs : list config.
Hypothesis wf : Forall well_formed cs.
Notation good := (good cs).
Lemma ks_new S H c : In c cs -> known_since S H c [].
Proof. split; auto. Qed.
Lemma ks_prefix S H c l m : known_since S H c (l ++ m) -> known_since S H c l.
Proof. intros [X Y]. apply Forall_app in X. split; [tauto|]. intros E. apply Y in E. destruct l; auto; discriminate. Qed.
Lemma ks_opt S H c l : known_since S H c l -> known_since S H c (filter (fun r => negb (r_initial r)) l).
Proof. unfold known_since. rewrite !Forall_forall. intros [X Y]. split; [|intros E; rewrite (Y E); auto]. intros x Hx. apply filter_In in Hx as [Hx _]. auto. Qed.
Lemma ks_weaken S H c l runs : known_since S H c runs -> known_since S (H ++ [l]) c runs.
Proof. intros [X Y]. split; auto. eapply Forall_impl; [|exact X]. intros r. apply run_since_weaken. Qed.

Definition in_session (H : list log) (e : engine) : Prop := good (known_since (e_session e) H) e.
Definition file_in_session (H : list log) (f : option saved) : Prop := match f with Some s => suits cs (known_since (sv_session s) H) (sv_workflows s) | None => True end.

Lemma good_weaken S H l e : good (known_since S H) e -> good (known_since S (H ++ [l])) e.
Proof. unfold WorkflowEngine_Proofs.good. induction 1 as [|c w l1 l2 (G1 & G2 & G3) _ IH]; constructor; auto. split; auto. split; auto. apply ks_weaken; auto. Qed.
Lemma empty_good S S' H e : good (known_since S H) e -> Forall (fun w => w_runs w = []) (e_workflows e) -> good (known_since S' H) e.
Proof.
  unfold WorkflowEngine_Proofs.good. intros G E. revert E. induction G as [|c w l1 l2 (G1 & G2 & G3) _ IH]; intros E; constructor; apply Forall_cons_iff in E as [E1 E2]; auto. split; auto. split; auto. rewrite E1. split; auto.
Qed.
Lemma good_empty H e : good (known_since "" H) e -> Forall (fun w => w_runs w = []) (e_workflows e).
Proof. unfold WorkflowEngine_Proofs.good. induction 1 as [|c w l1 l2 (G1 & G2 & G3 & G4) _ IH]; constructor; auto. Qed.
Lemma clean_empty e : Forall (fun w => w_runs w = []) (e_workflows (clean_state e)).
Proof. unfold clean_state. cbn. apply Forall_forall. intros w Hw. apply in_map_iff in Hw as (w0 & <- & _). auto. Qed.
Lemma enter_in H e l : in_session H e -> good (known_since (l_session l) H) (enter_session e l) /\ e_session (enter_session e l) = l_session l.
Proof.
  intros G. unfold in_session in G. unfold enter_session. destruct (String.eqb_spec (e_session e) "").
  - split; auto. rewrite e0 in G. exact (empty_good _ _ _ _ G (good_empty _ _ G)).
  - destruct (String.eqb_spec (e_session e) (l_session l)) as [X|X]; [rewrite <- X; auto|]. split; auto.
    assert (G1 : good (known_since (e_session e) H) (clean_state e)) by (apply clean_good; auto; apply ks_new). exact (empty_good _ _ _ _ G1 (clean_empty e)).
Qed.
Lemma all_process_since H l limit : l_session l <> "" -> forall l1 l2, Forall2 (matched_up cs (known_since (l_session l) H)) l1 l2 -> forall cur dirty ws cur' d' acts, all_process l (combine l1 l2) cur limit dirty = Some (ws, cur', d', acts) ->
  Forall2 (matched_up cs (known_since (l_session l) (H ++ [l]))) l1 ws /\ Forall (fun x => exists c, In c cs /\ caused c H l x) acts.
Proof.
  intros NE. induction 1 as [|c w l1 l2 (H1 & H2 & H3 & _) _ IH]; intros cur dirty ws cur' d' acts E; cbn [combine WorkflowEngine_Model.all_process] in E; [inv E; auto|].
  destruct (w_process c l w cur limit) as [ [ [w' cur1] r]|] eqn:EW; [|discriminate]. cbv zeta in E.
  destruct (all_process l (combine l1 l2) cur1 limit _) as [ [ [ [ws' cur2] d2] acts']|] eqn:EA; [|discriminate]. inv E. apply IH in EA as [I1 I2].
  assert (Wc : well_formed c) by (rewrite Forall_forall in wf; auto).
  destruct (w_process_since _ _ _ _ _ _ _ _ _ Wc H3 EW) as [S1 S2]. split.
  - constructor; auto. split; auto. split; [rewrite <- H2; eapply w_process_id; eauto|]. split; auto. congruence.
  - apply Forall_app. split; auto. eapply Forall_impl; [|exact S2]. eauto.
Qed.
Lemma flush_loop_ids session triggers conts pend strm : forall acts created ids bufs created' ids' bufs', flush_loop session triggers conts pend strm acts created ids bufs = (created', ids', bufs') ->
  forall i, In i ids' -> In i ids \/ exists a, In a acts /\ af_id a = i.
Proof.
  induction acts as [|a acts IH]; intros created ids bufs created' ids' bufs' E i Hi; cbn [flush_loop] in E; [inv E; auto|]. cbv zeta in E.
  assert (X : In i (set_insert (af_id a) ids) \/ (exists b, In b acts /\ af_id b = i)).
  { destruct (pending_new a session triggers conts) as [p|]; [destruct (_ || _)|]; eapply IH in E; eauto. }
  destruct X as [X|(b & X1 & X2)]; [|right; exists b; split; auto; now right]. apply (Matcher_Proofs.set_insert_in (fun _ => true) (fun _ _ => true) (fun _ => None)) in X as [-> | X]; auto. right. exists a. split; auto. now left.
Qed.
(** What a result shows is caused by transitions. *)
Definition result_caused (H : list log) (l : log) (r : result) : Prop :=
  (forall i, In i (o_action_ids r) -> exists a, af_id a = i /\ called_for re_match to_i32 cs H l (AFlush a)) /\
  (forall m, In m (o_metrics r) -> (exists a, In m (emit_metric f64 a l) /\ called_for re_match to_i32 cs H l (AMetric a)) \/ (exists a p, m = emit_sankey a p l /\ called_for re_match to_i32 cs H l (ASankey a))) /\
  (o_screenshot r = true -> exists i, called_for re_match to_i32 cs H l (AScreenshot i)) /\
  (forall p, In p (o_paths r) -> exists a, called_for re_match to_i32 cs H l (ASankey a)).
Lemma caused_called H l acts x : Forall (fun x => exists c, In c cs /\ caused c H l x) acts -> In x acts -> called_for re_match to_i32 cs H l (cause x).
Proof. intros F Hx. rewrite Forall_forall in F. destruct (F _ Hx) as (c & C & s & tr & ls & X). exists c, s, tr, ls. tauto. Qed.
Lemma process_log_since H e l dests done e' r : l_session l <> "" -> in_session H e -> process_log e l dests done = Some (e', r) -> in_session (H ++ [l]) e' /\ result_caused H l r.
Proof.
  intros NE G E. assert (ES : e_session e' = l_session l) by (eapply process_log_session; eauto). destruct (enter_in H e l G) as [G1 E1]. clear G.
  unfold WorkflowEngine_Model.process_log in E. cbv zeta in E. set (e1 := enter_session e l) in *. clearbody e1.
  assert (X : match all_process l (combine (e_configs e1) (e_workflows e1)) (e_current e1) (e_limit e1) (e_dirty e1) with
     | Some (ws, cur, dirty, acts) => Forall2 (matched_up cs (known_since (l_session l) (H ++ [l]))) (e_configs e1) ws /\ Forall (fun x => exists c, In c cs /\ caused c H l x) acts | None => True end).
  { destruct (all_process _ _ _ _ _) as [ [ [ [ws cur] dirty] acts]|] eqn:EA; auto. eapply all_process_since; eauto. }
  destruct (e_workflows e1) eqn:EW.
  - injection E as <- <-. split.
    + unfold in_session. rewrite E1. apply good_weaken. auto.
    + unfold result_caused. cbn. splits; try (intros; contradiction). discriminate.
  - rewrite <- EW in *. destruct (all_process _ _ _ _ _) as [ [ [ [ws cur] dirty] acts]|]; [|discriminate]. destruct X as [X1 X2].
    destruct (process_streaming _ _ _ _ _) as [ [dests' strm] changed]. destruct (process_flush_actions _ _ _ _ _ _) as [ [created ids] bufs] eqn:EF. injection E as <- <-. split.
    + unfold in_session. rewrite ES. exact X1.
    + unfold result_caused. cbn [o_action_ids o_metrics o_screenshot o_paths]. splits.
      * intros i Hi. destruct (flush_loop_ids _ _ _ _ _ _ _ _ _ _ _ _ EF i Hi) as [ []|(a & A1 & A2)]. exists a. split; auto. unfold flushes_of in A1. apply dedup_in in A1; try exact (fun _ _ => true); auto. apply in_flat_map in A1 as (x & Hx & A1). destruct x; try contradiction. destruct A1 as [<-|[] ].
        apply (caused_called H l acts (TFlush a0)); auto.
      * intros m Hm. apply in_app_or in Hm as [Hm|Hm].
        -- apply in_flat_map in Hm as (a & A1 & A2). left. exists a. split; auto. unfold metrics_of in A1. apply dedup_in in A1; try exact (fun _ _ => true). apply in_flat_map in A1 as (x & Hx & A1). destruct x; try contradiction. destruct A1 as [<-|[] ].
           apply (caused_called H l acts (TMetric a0)); auto.
        -- apply in_map_iff in Hm as ([a p] & <- & A1). right. exists a, p. split; auto. unfold sankeys_of in A1. apply dedup_in in A1; try exact (fun _ _ => true). apply in_flat_map in A1 as (x & Hx & A1). destruct x; try contradiction. destruct A1 as [A1|[] ]. inv A1.
           apply (caused_called H l acts (TSankey a p)); auto.
      * destruct (screenshots_of acts) as [|i si] eqn:E2; [discriminate|]. intros _. assert (A1 : In i (screenshots_of acts)) by (rewrite E2; now left). unfold screenshots_of in A1. apply in_flat_map in A1 as (x & Hx & A1). destruct x; try contradiction.
        exists id. apply (caused_called H l acts (TScreenshot id)); auto.
      * intros p Hp. apply in_map_iff in Hp as ([a q] & <- & A1). exists a. unfold sankeys_of in A1. apply dedup_in in A1; try exact (fun _ _ => true). apply in_flat_map in A1 as (x & Hx & A1). destruct x; try contradiction. destruct A1 as [A1|[] ]. inv A1.
        apply (caused_called H l acts (TSankey a q)); auto.
Qed.

(** * The system *)
Definition sys_since (restarts : bool) (H : list log) (y : system) : Prop := in_session H (y_engine y) /\ (restarts = true -> file_in_session H (y_file y)).
Definition history (H : list log) (o : op) : list log := match o with Log l _ => H ++ [l] | _ => H end.
Lemma add_workflows_session : forall l e ws, e_session (add_workflows e l ws) = e_session e.
Proof. induction l as [|c l IH]; intros e ws; cbn [add_workflows]; auto. rewrite IH. reflexivity. Qed.
Lemma update_session e g : e_session (update e g) = e_session e.
Proof.
  unfold update. cbv zeta. cbn [set_actions set_resolver e_session].
  match goal with |- context [fold_left ?f ?l ?x] => assert (X : forall l0 e0, e_session (fold_left f l0 e0) = e_session e0) by (induction l0 as [|c l0 IH]; intros e0; cbn [fold_left]; auto; rewrite IH; destruct (mem _ _); reflexivity) end.
  rewrite X. reflexivity.
Qed.
Lemma suits_weaken S H l ws : suits cs (known_since S H) ws -> suits cs (known_since S (H ++ [l])) ws.
Proof. intros X w c H1 H2 H3. apply ks_weaken. auto. Qed.
Lemma step_since restarts H y o y' ev : (restarts = true -> forall c c', In c cs -> In c' cs -> c_id c = c_id c' -> c = c') -> incl (given o) cs -> (is_restart o = true -> restarts = true) ->
  (forall l d, o = Log l d -> l_session l <> "") -> sys_since restarts H y -> step y o = Some (y', ev) ->
  sys_since restarts (history H o) y' /\ forall l r, In (Processed l r) ev -> result_caused H l r.
Proof.
  intros U I R NE [G F] E. destruct o; cbn [WorkflowEngine_Model.step given is_restart history] in *.
  - destruct (process_log _ _ _ _) as [[e' r]|] eqn:EP; [|discriminate]. inv E. destruct (process_log_since _ _ _ _ _ _ _ (NE _ _ eq_refl) G EP) as [P1 P2]. split; [split; auto|].
    + intros X. specialize (F X). cbn [y_file]. unfold file_in_session in *. destruct (y_file y); auto. apply suits_weaken; auto.
    + intros l0 r0 [X|[] ]. inv X. auto.
  - destruct (e_input (y_engine y)) as [|p rest]; [inv E; split; [split; auto|intros ? ? [] ]|]. destruct (_ <? _)%nat; [|inv E; split; [split; auto|intros ? ? [] ] ].
    destruct (negotiate (y_rejected y) p d) as [rej out]. inv E. split; [split; auto|]. destruct (mem _ _); intros ? ? X; [destruct X|destruct X as [X|[] ]; discriminate].
  - destruct (y_outputs y) as [|[p|p] rest]; inv E; (split; [|intros ? ? [] ]); split; auto.
    cbn [y_engine]. unfold in_session, WorkflowEngine_Proofs.good, on_approved. cbv zeta. unfold set_actions at 1 2 3. cbn [e_configs e_workflows e_session]. match goal with |- Forall2 _ (e_configs (if ?b then _ else _)) _ => destruct b end; [|exact G].
    destruct (_ <? _)%nat; exact G.
  - inv E. split; [split; auto|intros ? ? [] ].
  - inv E. split; [split; auto|intros ? ? [] ].
  - inv E. split; [|intros ? ? [] ]. split; auto. unfold in_session. cbn [y_engine]. rewrite update_session. apply update_good; auto; [intros c; apply ks_new|intros c; apply ks_prefix].
  - destruct (e_dirty (y_engine y)); [|inv E; split; [split; auto|intros ? ? [] ] ]. inv E. split; [|intros ? ? [] ]. split; auto. cbn [y_file]. intros RT. destruct torn; [exact Logic.I|]. cbn [file_in_session]. apply optimized_suits; auto. intros c. apply ks_opt.
  - inv E. specialize (R eq_refl). split; [|intros ? ? [] ]. split; auto. unfold in_session. cbn [y_engine]. specialize (F R).
    replace (e_session (start (engine_new limit) g (y_file y))) with (match y_file y with Some s => sv_session s | None => "" end).
    + apply start_good; [intros c; apply ks_new|intros c; apply ks_prefix|exact I|]. destruct (y_file y); auto.
    + unfold start. cbv zeta. cbn [set_actions e_session]. destruct (y_file y); rewrite add_workflows_session; reflexivity.
Qed.
End History.

Section Run.
Variables (re_match : string -> string -> bool) (to_i32 : string -> option Z) (sha : string -> string) (f64 : string -> option Z).
Notation step := (step re_match to_i32 sha f64).
Notation run_ops := (run_ops re_match to_i32 sha f64).
Lemma system_since g limit : forall ops y ev cs, incl (all_given g ops) cs -> Forall well_formed cs -> (existsb is_restart ops = true -> forall c c', In c cs -> In c' cs -> c_id c = c_id c' -> c = c') ->
  Forall (fun l => l_session l <> "") (logs_of ops) -> run_ops (system_new g limit) ops = Some (y, ev) -> sys_since re_match to_i32 sha cs (existsb is_restart ops) (logs_of ops) y.
Proof.
  intros ops y ev cs IN W U NE H.
  assert (X : forall l2 l1 y0 ev0, ops = l1 ++ l2 -> sys_since re_match to_i32 sha cs (existsb is_restart ops) (logs_of l1) y0 -> run_ops y0 l2 = Some (y, ev0) -> sys_since re_match to_i32 sha cs (existsb is_restart ops) (logs_of ops) y).
  { induction l2 as [|o l2 IH]; intros l1 y0 ev0 E G HR; cbn [WorkflowEngine_Model.run_ops] in HR; [inv HR; rewrite app_nil_r in *; auto|].
    destruct (step y0 o) as [[y1 ev1]|] eqn:ES; [|discriminate]. destruct (run_ops y1 l2) as [[y2 ev2]|] eqn:ER; [|discriminate]. injection HR as -> <-.
    apply (IH (l1 ++ [o]) y1 ev2); auto; [rewrite <- app_assoc; auto|].
    replace (logs_of (l1 ++ [o])) with (history (logs_of l1) o) by (unfold logs_of; rewrite flat_map_app; cbn [flat_map]; destruct o; cbn [history app]; rewrite ?app_nil_r; auto).
    eapply step_since; [exact W|exact U| | | |exact G|exact ES].
    - intros x Hx. apply IN. unfold all_given. apply in_or_app. right. rewrite E, flat_map_app. apply in_or_app. right. cbn [flat_map]. apply in_or_app. auto.
    - intros R. rewrite E, existsb_app. cbn [existsb]. rewrite R. apply orb_true_r.
    - intros l d ->. rewrite Forall_forall in NE. apply NE. rewrite E. unfold logs_of. rewrite flat_map_app. apply in_or_app. right. now left. }
  apply (X ops [] (system_new g limit) ev); auto. split; [|cbn; auto]. unfold in_session. cbn [system_new y_engine].
  apply start_good; [intros c; apply ks_new; exact f64|intros c; apply ks_prefix; exact f64| |exact Logic.I]. intros x Hx. apply IN. apply in_or_app. auto.
Qed.
Lemma actions_due g limit ops l dests y ev y' r : let all := ops ++ [Log l dests] in Forall well_formed (all_given g all) -> stable g all -> Forall (fun x => l_session x <> "") (logs_of all) ->
  run_ops (system_new g limit) ops = Some (y, ev) -> step y (Log l dests) = Some (y', [Processed l r]) -> result_caused re_match to_i32 f64 (all_given g all) (logs_of ops) l r.
Proof.
  cbv zeta. intros W ST NE H HS. set (cs := all_given g (ops ++ [Log l dests])) in *.
  assert (R : existsb is_restart (ops ++ [Log l dests]) = existsb is_restart ops) by (rewrite existsb_app; cbn; rewrite !orb_false_r; auto).
  unfold logs_of in NE. rewrite flat_map_app in NE. apply Forall_app in NE as [N1 N2]. cbn in N2. apply Forall_cons_iff in N2 as [N2 _].
  assert (G : sys_since re_match to_i32 sha cs (existsb is_restart ops) (logs_of ops) y).
  { apply (system_since g limit ops y ev cs); [ |exact W| |exact N1|exact H].
    - intros x Hx. unfold cs, all_given in *. rewrite flat_map_app. apply in_app_or in Hx as [Hx|Hx]; apply in_or_app; auto. right. apply in_or_app. auto.
    - intros X. apply ST. rewrite R. auto. }
  destruct (step_since re_match to_i32 sha f64 cs W (existsb is_restart ops) (logs_of ops) y (Log l dests) y' [Processed l r]) as [_ Q]; auto.
  - intros X. apply ST. rewrite R. auto.
  - intros x [].
  - cbn. discriminate.
  - intros l0 d0 X. inv X. auto.
  - apply Q. now left.
Qed.
End Run.
