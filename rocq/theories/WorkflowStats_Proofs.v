From Verif Require Import Base Str_Base Log_Model LogMatcher_Model Workflow_Model Workflow_Spec Workflow_Proofs WorkflowEngine_Model WorkflowEngine_Spec WorkflowEngine_Proofs WorkflowStats_Model WorkflowStats_Spec.
Local Open Scope string_scope. Local Open Scope list_scope. Local Open Scope Z_scope.

Section Balance.
Variables (re_match : string -> string -> bool) (to_i32 : string -> option Z) (sha : string -> string) (f64 : string -> option Z).
Notation r_process := (r_process re_match to_i32 sha).
Notation r_loop := (r_loop re_match to_i32 sha).
Notation w_loop := (w_loop re_match to_i32 sha).
Notation w_process := (w_process re_match to_i32 sha).
Notation all_stats := (all_stats re_match to_i32 sha).
Notation all_process := (all_process re_match to_i32 sha).

Lemma count0 (A : Type) : count (@nil A) = 0.
Proof. reflexivity. Qed.
Definition bal (a b c : stat) (s : stats) : Z := s a - s b - s c.
Definition bal_runs := bal CreatedRuns StoppedRuns CompletedRuns.
Definition bal_trav := bal CreatedTraversals StoppedTraversals CompletedTraversals.

(** One run *)
Lemma r_loop_count c l : forall rest done matched first acts cr ad co rm r' rr, r_loop c l rest done matched first acts cr ad co rm = Some (r', rr) ->
  rr_state rr = Stopped \/ run_count r' - rr_created rr + rr_completed rr = count rest + count done - cr + co.
Proof.
  induction rest as [|t rest IH]; intros done matched first acts cr ad co rm r' rr H; cbn [Workflow_Model.r_loop] in H.
  - inv H. right. unfold run_count. cbn. lia.
  - destruct (t_process _ _ _ c l t) as [[t' res]|]; [|discriminate]. cbv zeta in H. destruct (over_matched _ _ || over_duration _ _ _); [inv H; auto|].
    destruct (res_followed res =? 0)%N; apply IH in H; destruct H as [H|H]; auto; right.
    + rewrite count_cons in *. lia.
    + rewrite count_app in H. rewrite count_cons. destruct (res_out res); rewrite ?count_cons, ?count0 in H; lia.
Qed.
Lemma r_process_count c l r r' rr : r_process c l r = Some (r', rr) -> rr_state rr = Stopped \/ run_count r' = run_count r + rr_created rr - rr_completed rr.
Proof. unfold Workflow_Model.r_process. intros H. apply r_loop_count in H. rewrite count_rev, count0 in H. unfold run_count in *. destruct H; [auto|right; lia]. Qed.
Lemma r_loop_stopped c l : forall rest done matched first acts cr ad co rm r' rr, r_loop c l rest done matched first acts cr ad co rm = Some (r', rr) ->
  rr_state rr = Stopped -> rr_created rr = 0 /\ rr_completed rr = 0.
Proof.
  induction rest as [|t rest IH]; intros done matched first acts cr ad co rm r' rr H S; cbn [Workflow_Model.r_loop] in H; [inv H; destruct done; discriminate|].
  destruct (t_process _ _ _ c l t) as [[t' res]|]; [|discriminate]. cbv zeta in H. destruct (over_matched _ _ || over_duration _ _ _); [inv H; auto|].
  destruct (res_followed res =? 0)%N; exact (IH _ _ _ _ _ _ _ _ _ _ H S).
Qed.
Lemma r_loop_done c l : forall rest done matched first acts cr ad co rm r' rr, r_loop c l rest done matched first acts cr ad co rm = Some (r', rr) ->
  rr_state rr = Completed -> run_count r' = 0.
Proof.
  induction rest as [|t rest IH]; intros done matched first acts cr ad co rm r' rr H S; cbn [Workflow_Model.r_loop] in H; [inv H; destruct done; [reflexivity|discriminate]|].
  destruct (t_process _ _ _ c l t) as [[t' res]|]; [|discriminate]. cbv zeta in H. destruct (over_matched _ _ || over_duration _ _ _); [inv H; discriminate|].
  destruct (res_followed res =? 0)%N; exact (IH _ _ _ _ _ _ _ _ _ _ H S).
Qed.

(** The decision about a run *)
Ltac st := unfold bal_runs, bal_trav, bal, run_stats, inc; cbn [stat_eqb].
Lemma decide_runs r rr cur limit p s kept cur' p' s' : decide_run r rr cur limit p (run_stats s rr) = (kept, cur', p', s') -> bal_runs s' - bal_runs s = count kept - 1.
Proof.
  unfold decide_run. destruct (rr_state rr), (limit <? cur); intros H; inv H; repeat match goal with |- context [if ?b then _ else _] => destruct b end; rewrite ?count_cons, ?count0; st; lia.
Qed.
Definition calm (c : config) : Prop := well_formed c /\ c_matched c = None.
Lemma decide_trav c l r r' rr cur limit p s kept cur' p' s' : calm c -> r_process c l r = Some (r', rr) ->
  decide_run r' rr cur limit p (run_stats s rr) = (kept, cur', p', s') -> bal_trav s' - bal_trav s = tot kept - run_count r.
Proof.
  intros [W M] E H. assert (X : run_count r' = run_count r + rr_created rr - rr_completed rr).
  { destruct (r_process_count _ _ _ _ _ E) as [S|S]; [|exact S]. destruct (r_loop_stopped _ _ _ _ _ _ _ _ _ _ _ _ _ E S) as [-> ->]. rewrite (stop_no_drift _ _ _ _ _ _ _ _ W M E S). lia. }
  assert (D : rr_state rr = Completed -> run_count r' = 0) by (intros S; exact (r_loop_done _ _ _ _ _ _ _ _ _ _ _ _ _ E S)).
  unfold decide_run in H. destruct (rr_state rr), (limit <? cur); inv H; rewrite ?tot_cons; change (tot []) with 0; repeat match goal with |- context [if ?b then _ else _] => destruct b end; st; try (specialize (D eq_refl)); lia.
Qed.
Lemma remove_second_count (l : list run) x m : remove_second l = Some (x, m) -> count m = count l - 1 /\ tot m = tot l - run_count x.
Proof. unfold remove_second. destruct l as [|a [|b l]]; intros H; inv H. rewrite !count_cons, !tot_cons. lia. Qed.

(** One workflow *)
Lemma w_loop_runs c l : forall rest done cur limit p res runs cur' res', w_loop c l rest done cur limit p res = Some (runs, cur', res') ->
  bal_runs (wr_stats res') - bal_runs (wr_stats res) = count runs - count rest - count done.
Proof.
  induction rest as [|r rest IH]; intros done cur limit p res runs cur' res' H.
  - cbn in H. inv H. rewrite count0. lia.
  - rewrite w_loop_cons in H. destruct (r_process c l r) as [[r' rr]|] eqn:ER; [|discriminate]. cbv zeta in H.
    destruct (decide_run r' rr _ limit p _) as [[[kept cur1] p'] s'] eqn:ED. apply decide_runs in ED.
    assert (N : w_loop c l rest (kept ++ done) cur1 limit p' (mkWresult (wr_actions res ++ rr_actions rr) s') = Some (runs, cur', res') ->
       bal_runs (wr_stats res') - bal_runs (wr_stats res) = count runs - count (r :: rest) - count done).
    { intros G. apply IH in G. cbn [wr_stats] in G. rewrite count_app in G. rewrite count_cons. lia. }
    destruct (c_exec c); [|auto]. destruct ((1 <? _) && p'); [|auto]. destruct rest as [|r1 rest].
    + destruct (remove_second (kept ++ done)) as [[x done']|] eqn:E2; [|discriminate]. inv H. apply remove_second_count in E2 as [E2 _]. rewrite count_app in E2. rewrite count_cons, count0.
      cbn [wr_stats]. revert ED. st. lia.
    + destruct (run_new c) as [i|]; [|discriminate]. destruct (r_process c l i) as [[i' ir]|]; [|discriminate]. inv H. cbn [wr_stats].
      rewrite !count_app, count_rev, !count_cons, count0. destruct (0 <? rr_matched ir)%N; revert ED; st; lia.
Qed.
Lemma w_loop_trav c l : calm c -> forall rest done cur limit p res runs cur' res', w_loop c l rest done cur limit p res = Some (runs, cur', res') ->
  bal_trav (wr_stats res') - bal_trav (wr_stats res) = tot runs - tot rest - tot done.
Proof.
  intros C. induction rest as [|r rest IH]; intros done cur limit p res runs cur' res' H.
  - cbn in H. inv H. change (tot []) with 0. lia.
  - rewrite w_loop_cons in H. destruct (r_process c l r) as [[r' rr]|] eqn:ER; [|discriminate]. cbv zeta in H.
    destruct (decide_run r' rr _ limit p _) as [[[kept cur1] p'] s'] eqn:ED. apply (decide_trav c l r) in ED; auto.
    assert (N : w_loop c l rest (kept ++ done) cur1 limit p' (mkWresult (wr_actions res ++ rr_actions rr) s') = Some (runs, cur', res') ->
       bal_trav (wr_stats res') - bal_trav (wr_stats res) = tot runs - tot (r :: rest) - tot done).
    { intros G. apply IH in G. cbn [wr_stats] in G. rewrite tot_app in G. rewrite tot_cons. lia. }
    destruct (c_exec c); [|auto]. destruct ((1 <? _) && p'); [|auto]. destruct rest as [|r1 rest].
    + destruct (remove_second (kept ++ done)) as [[x done']|] eqn:E2; [|discriminate]. inv H. apply remove_second_count in E2 as [_ E2]. rewrite tot_app in E2. rewrite tot_cons. change (tot []) with 0.
      cbn [wr_stats]. revert ED. st. lia.
    + destruct (run_new c) as [i|]; [|discriminate]. destruct (r_process c l i) as [[i' ir]|]; [|discriminate]. inv H. cbn [wr_stats].
      rewrite !tot_app, tot_rev, !tot_cons. change (tot []) with 0. destruct (0 <? rr_matched ir)%N; revert ED; st; lia.
Qed.
Lemma add_run_runs c runs n cur limit runs' cur' s : maybe_add_run c runs n cur limit no_stats = (runs', cur', s) ->
  bal_runs s = count runs' - count runs /\ bal_trav s = tot runs' - tot runs.
Proof.
  unfold maybe_add_run. destruct (_ <=? limit); intros H; inv H; [|split; st; unfold no_stats; lia].
  destruct (c_exec c); rewrite ?count_app, ?tot_app, !count_cons, !tot_cons; rewrite ?count0; change (tot []) with 0; split; st; unfold no_stats; lia.
Qed.
Lemma w_process_runs c l w cur limit w' cur' res : w_process c l w cur limit = Some (w', cur', res) -> bal_runs (wr_stats res) = count (w_runs w') - count (w_runs w).
Proof.
  unfold Workflow_Model.w_process. intros H. destruct (if needs_new_run w then _ else _) as [[[runs cur1] s]|] eqn:EY; [|discriminate].
  destruct (w_loop c l (rev runs) [] cur1 limit false (mkWresult [] s)) as [[[runs' cur2] res']|] eqn:EL; [|discriminate]. inv H. cbn [w_runs]. apply w_loop_runs in EL. rewrite count_rev, count0 in EL. cbn [wr_stats] in EL.
  assert (X : bal_runs s = count runs - count (w_runs w)).
  { destruct (needs_new_run w); [destruct (run_new c) as [n|]; [|discriminate]; injection EY as EY; exact (proj1 (add_run_runs _ _ _ _ _ _ _ _ EY))|]. inv EY. st. unfold no_stats. lia. }
  lia.
Qed.
Lemma w_process_trav c l w cur limit w' cur' res : calm c -> w_process c l w cur limit = Some (w', cur', res) -> bal_trav (wr_stats res) = workflow_count w' - workflow_count w.
Proof.
  intros C. unfold Workflow_Model.w_process. intros H. destruct (if needs_new_run w then _ else _) as [[[runs cur1] s]|] eqn:EY; [|discriminate].
  destruct (w_loop c l (rev runs) [] cur1 limit false (mkWresult [] s)) as [[[runs' cur2] res']|] eqn:EL; [|discriminate]. inv H. unfold workflow_count. cbn [w_runs]. fold (tot runs'). fold (tot (w_runs w)).
  apply (w_loop_trav c l C) in EL. rewrite tot_rev in EL. change (tot []) with 0 in EL. cbn [wr_stats] in EL.
  assert (X : bal_trav s = tot runs - tot (w_runs w)).
  { destruct (needs_new_run w); [destruct (run_new c) as [n|]; [|discriminate]; injection EY as EY; exact (proj2 (add_run_runs _ _ _ _ _ _ _ _ EY))|]. inv EY. st. unfold no_stats. lia. }
  lia.
Qed.
(** Hits of the limit: a run that could not be created, or one that was stopped. *)
Lemma w_loop_limit c l : forall rest done cur limit p res runs cur' res', w_loop c l rest done cur limit p res = Some (runs, cur', res') ->
  0 <= wr_stats res' LimitHits - wr_stats res LimitHits <= wr_stats res' StoppedRuns - wr_stats res StoppedRuns /\ wr_stats res' CreatedRuns = wr_stats res CreatedRuns.
Proof.
  induction rest as [|r rest IH]; intros done cur limit p res runs cur' res' H.
  - cbn in H. inv H. lia.
  - rewrite w_loop_cons in H. destruct (r_process c l r) as [[r' rr]|] eqn:ER; [|discriminate]. cbv zeta in H.
    destruct (decide_run r' rr _ limit p _) as [[[kept cur1] p'] s'] eqn:ED.
    assert (D : 0 <= s' LimitHits - wr_stats res LimitHits <= s' StoppedRuns - wr_stats res StoppedRuns /\ s' CreatedRuns = wr_stats res CreatedRuns).
    { unfold decide_run in ED. destruct (rr_state rr), (limit <? _); inv ED; repeat match goal with |- context [if ?b then _ else _] => destruct b end; st; lia. }
    assert (N : w_loop c l rest (kept ++ done) cur1 limit p' (mkWresult (wr_actions res ++ rr_actions rr) s') = Some (runs, cur', res') ->
       0 <= wr_stats res' LimitHits - wr_stats res LimitHits <= wr_stats res' StoppedRuns - wr_stats res StoppedRuns /\ wr_stats res' CreatedRuns = wr_stats res CreatedRuns).
    { intros G. apply IH in G. cbn [wr_stats] in G. lia. }
    destruct (c_exec c); [|auto]. destruct ((1 <? _) && p'); [|auto]. destruct rest as [|r1 rest].
    + destruct (remove_second (kept ++ done)) as [[x done']|] eqn:E2; [|discriminate]. inv H. cbn [wr_stats]. st. lia.
    + destruct (run_new c) as [i|]; [|discriminate]. destruct (r_process c l i) as [[i' ir]|]; [|discriminate]. inv H. cbn [wr_stats]. destruct (0 <? rr_matched ir)%N; st; lia.
Qed.
Lemma w_process_limit c l w cur limit w' cur' res : w_process c l w cur limit = Some (w', cur', res) ->
  let short := (if needs_new_run w then 1 else 0) - wr_stats res CreatedRuns in short <= wr_stats res LimitHits <= short + wr_stats res StoppedRuns.
Proof.
  unfold Workflow_Model.w_process. intros H. destruct (if needs_new_run w then _ else _) as [[[runs cur1] s]|] eqn:EY; [|discriminate].
  destruct (w_loop c l (rev runs) [] cur1 limit false (mkWresult [] s)) as [[[runs' cur2] res']|] eqn:EL; [|discriminate]. inv H. apply w_loop_limit in EL. cbn [wr_stats] in EL. cbv zeta.
  assert (X : s LimitHits = (if needs_new_run w then 1 else 0) - s CreatedRuns /\ s StoppedRuns = 0).
  { destruct (needs_new_run w); [destruct (run_new c) as [n|]; [|discriminate]; injection EY as EY; unfold maybe_add_run in EY; destruct (_ <=? limit); inv EY; st; unfold no_stats; lia|]. inv EY. unfold no_stats. lia. }
  lia.
Qed.

(** * The engine *)
Notation step := (step re_match to_i32 sha f64).
Notation count_ops := (count_ops re_match to_i32 sha f64).
Notation count_op := (count_op re_match to_i32 sha).
Notation count_log := (count_log re_match to_i32 sha).
Definition quiet (o : op) : Prop := match o with Log _ _ | Update _ | Restart _ _ => False | _ => True end.
Lemma quiet_step y o y' ev : step y o = Some (y', ev) -> quiet o ->
  e_configs (y_engine y') = e_configs (y_engine y) /\ e_workflows (y_engine y') = e_workflows (y_engine y) /\ e_session (y_engine y') = e_session (y_engine y).
Proof.
  intros H Q. destruct o; cbn [quiet WorkflowEngine_Model.step] in *; try contradiction.
  - destruct (e_input (y_engine y)) as [|p rest]; [inv H; auto|]. destruct (_ <? _)%nat; [|inv H; auto]. destruct (negotiate (y_rejected y) p d) as [rej out]. inv H. auto.
  - destruct (y_outputs y) as [|[p|p] rest]; inv H; auto. cbn [y_engine]. unfold on_approved. cbv zeta. unfold set_actions. cbn [e_configs e_workflows e_session].
    match goal with |- e_configs (if ?b then _ else _) = _ /\ _ => destruct b end; auto. destruct (_ <? _)%nat; auto.
  - inv H. auto.
  - inv H. auto.
  - destruct (e_dirty (y_engine y)); inv H; auto.
Qed.
Lemma quiet_count k y o : quiet o -> count_op k y o = k.
Proof. destruct o; cbn; tauto. Qed.
Lemma process_log_parts e l dests done e' r : process_log re_match to_i32 sha f64 e l dests done = Some (e', r) ->
  exists cur d acts, all_process l (combine (e_configs (enter_session e l)) (e_workflows (enter_session e l))) (e_current (enter_session e l)) (e_limit (enter_session e l)) (e_dirty (enter_session e l)) = Some (e_workflows e', cur, d, acts) \/
    (e_workflows (enter_session e l) = [] /\ e_workflows e' = []).
Proof.
  unfold process_log. cbv zeta. set (e1 := enter_session e l). intros H. destruct (e_workflows e1) eqn:EW; [inv H; exists 0, true, []; right; rewrite EW; auto|]. rewrite <- EW in *.
  destruct (all_process _ _ _ _ _) as [[[[ws cur] d] acts]|] eqn:E; [|discriminate]. destruct (process_streaming _ _ _ _ _) as [[? ?] ?]. destruct (process_flush_actions _ _ _ _ _ _) as [[? ?] ?]. inv H. exists cur, d, acts. left. reflexivity.
Qed.
Lemma process_log_configs e l dests done e' r : process_log re_match to_i32 sha f64 e l dests done = Some (e', r) -> e_configs e' = e_configs e /\ e_session e' = l_session l.
Proof.
  unfold process_log. cbv zeta. set (e1 := enter_session e l). intros H.
  assert (X : e_configs e1 = e_configs e /\ e_session e1 = l_session l).
  { unfold e1, enter_session. destruct (String.eqb (e_session e) ""); [auto|]. destruct (String.eqb (e_session e) (l_session l)) eqn:Q; [apply String.eqb_eq in Q; auto|]. auto. }
  clearbody e1. destruct (e_workflows e1) eqn:EW; [inv H; auto|]. destruct (all_process _ _ _ _ _) as [[[[ws cur] d] acts]|]; [|discriminate].
  destruct (process_streaming _ _ _ _ _) as [[? ?] ?]. destruct (process_flush_actions _ _ _ _ _ _) as [[? ?] ?]. inv H. exact X.
Qed.
Lemma all_process_length l limit : forall l1 l2 cur d ws cur' d' acts, List.length l1 = List.length l2 -> all_process l (combine l1 l2) cur limit d = Some (ws, cur', d', acts) -> List.length ws = List.length l2.
Proof.
  induction l1 as [|c l1 IH]; intros [|w l2] cur d ws cur' d' acts L H; cbn [combine WorkflowEngine_Model.all_process List.length] in *; try discriminate; [inv H; auto|].
  destruct (w_process c l w cur limit) as [[[w' cur1] r]|]; [|discriminate]. cbv zeta in H. destruct (all_process l (combine l1 l2) cur1 limit _) as [[[[ws' cur2] d2] acts']|] eqn:E; [|discriminate]. inv H.
  cbn [List.length]. f_equal. eapply IH; eauto.
Qed.
Lemma enter_length e l : List.length (e_workflows (enter_session e l)) = List.length (e_workflows e) /\ e_configs (enter_session e l) = e_configs e.
Proof. unfold enter_session. destruct (String.eqb (e_session e) ""); [auto|]. destruct (String.eqb _ _); [auto|]. cbn. rewrite map_length. auto. Qed.
Definition lined (e : engine) : Prop := List.length (e_configs e) = List.length (e_workflows e).
Lemma log_lined e l dests done e' r : lined e -> process_log re_match to_i32 sha f64 e l dests done = Some (e', r) -> lined e' /\ List.length (e_workflows e') = List.length (e_workflows e).
Proof.
  unfold lined. intros L H. destruct (process_log_configs _ _ _ _ _ _ H) as [C _]. destruct (enter_length e l) as [N1 N2].
  assert (X : List.length (e_workflows e') = List.length (e_workflows e)).
  { apply process_log_parts in H as (cur & d & acts & [H|[H1 H2]]); [|rewrite H2, <- N1, H1; auto]. apply all_process_length in H; [|rewrite N2, N1; auto]. congruence. }
  rewrite C, X. auto.
Qed.
Lemma combine_filter_lengths {A B} (f : A * B -> bool) : forall (l : list A) (m : list B), List.length l = List.length m ->
  (List.length (filter f (combine l m)) + List.length (filter (fun x => negb (f x)) (combine l m)) = List.length m)%nat.
Proof. induction l as [|x l IH]; intros [|y m] E; cbn in *; try discriminate; auto. inv E. specialize (IH m H0). destruct (f (x, y)); cbn; lia. Qed.

(** Starts and updates *)
Lemma add_workflow_kept e w c : e_configs (add_workflow e w c) = e_configs e ++ [c] /\ e_workflows (add_workflow e w c) = e_workflows e ++ [kept_workflow e w].
Proof. split; reflexivity. Qed.
Lemma count_adds_spec : forall cs k e ex, lined e -> lined (add_workflows e cs ex) /\
  workflows_open (count_adds k e cs ex) - workflows_open k = count (e_workflows (add_workflows e cs ex)) - count (e_workflows e).
Proof.
  induction cs as [|c cs IH]; intros k e ex L; cbn [count_adds add_workflows]; [split; auto; lia|]. set (w := match last_workflow _ _ with Some _ => _ | None => _ end).
  destruct (IH (count_add k e w) (add_workflow e w c) (without (c_id c) ex)) as [L1 E1].
  { unfold lined. destruct (add_workflow_kept e w c) as [-> ->]. rewrite !app_length, L. auto. }
  split; auto. destruct (add_workflow_kept e w c) as [_ EW]. rewrite EW, count_app, count_cons, count0 in E1. unfold workflows_open, count_add in *. cbn [k_started k_ended] in *. lia.
Qed.
Definition new_adds (ex : list string) (cs : list config) (k : counters) (e : engine) : counters * engine :=
  fold_left (fun ke c => if mem (c_id c) ex then ke else (count_add (fst ke) (snd ke) (mkWorkflow (c_id c) []), add_workflow (snd ke) (mkWorkflow (c_id c) []) c)) cs (k, e).
Lemma new_adds_engine ex : forall cs k e, snd (new_adds ex cs k e) = fold_left (fun e c => if mem (c_id c) ex then e else add_workflow e (mkWorkflow (c_id c) []) c) cs e.
Proof. unfold new_adds. induction cs as [|c cs IH]; intros k e; cbn [fold_left]; auto. cbn [fst snd]. destruct (mem (c_id c) ex); apply IH. Qed.
Lemma count_add_empty k e id : k_stats (count_add k e (mkWorkflow id [])) = k_stats (count_add k e (mkWorkflow id [])) /\ (forall x, k_stats (count_add k e (mkWorkflow id [])) x = k_stats k x).
Proof.
  split; auto. intros x. unfold count_add, kept_workflow. cbn [k_stats w_runs]. change (workflow_count (mkWorkflow id [])) with 0. destruct (e_limit e <? _); cbn [rev trim_runs w_runs w_id]; rewrite count0; unfold inc; destruct x; cbn [stat_eqb]; lia.
Qed.
Lemma new_adds_spec ex : forall cs k e, lined e -> let x := new_adds ex cs k e in lined (snd x) /\
  workflows_open (fst x) - workflows_open k = count (e_workflows (snd x)) - count (e_workflows e) /\ (forall s, k_stats (fst x) s = k_stats k s) /\
  (exists m, e_workflows (snd x) = e_workflows e ++ m /\ flat_map w_runs m = []) /\ (exists m, e_configs (snd x) = e_configs e ++ m /\ incl m cs).
Proof.
  unfold new_adds. induction cs as [|c cs IH]; intros k e L; cbn [fold_left fst snd]; cbv zeta.
  - splits; auto; try lia; exists []; rewrite app_nil_r; split; auto. intros x [].
  - destruct (mem (c_id c) ex).
    + destruct (IH k e L) as (I1 & I2 & I3 & I4 & (m & M1 & M2)). splits; auto. exists m. split; auto. intros x Hx. right. auto.
    + destruct (add_empty e (c_id c) c) as [A1 A2]. destruct (IH (count_add k e (mkWorkflow (c_id c) [])) (add_workflow e (mkWorkflow (c_id c) []) c)) as (I1 & I2 & I3 & (m & M1 & M2) & (n & N1 & N2)).
      { unfold lined. rewrite A1, A2, !app_length, L. auto. }
      splits; auto.
      * rewrite A2, count_app, count_cons, count0 in I2. unfold workflows_open, count_add in *. cbn [k_started k_ended] in *. lia.
      * intros s. rewrite I3. apply count_add_empty.
      * exists (mkWorkflow (c_id c) [] :: m). rewrite M1, A2, <- app_assoc. split; auto.
      * exists (c :: n). rewrite N1, A1, <- app_assoc. split; auto. intros x [->|Hx]; [left; auto|right; auto].
Qed.
Lemma removes_spec : forall (gone : list (config * workflow)) k, let k' := fold_right (fun x k => count_remove k (snd x)) k gone in
  workflows_open k' = workflows_open k - count gone /\ k_stats k' StoppedRuns = k_stats k StoppedRuns + count (flat_map w_runs (map snd gone)) /\
  k_stats k' StoppedTraversals = k_stats k StoppedTraversals + wtot (map snd gone) /\ (forall s, s <> StoppedRuns -> s <> StoppedTraversals -> k_stats k' s = k_stats k s).
Proof.
  induction gone as [|x gone IH]; intros k; cbn [fold_right map flat_map]; cbv zeta.
  - rewrite !count0. change (wtot []) with 0. splits; auto; lia.
  - destruct (IH k) as (I1 & I2 & I3 & I4). cbv zeta in *. rewrite count_cons, count_app, wtot_cons. set (k0 := fold_right _ k gone) in *. clearbody k0. unfold count_remove. unfold workflows_open in *. cbn [k_started k_ended k_stats]. splits; try lia.
    + unfold inc. cbn [stat_eqb]. rewrite I2. lia.
    + unfold inc. cbn [stat_eqb]. rewrite I3. lia.
    + intros s N1 N2. unfold inc. destruct s; cbn [stat_eqb]; try contradiction; auto.
Qed.
Lemma rtot_split (f : config * workflow -> bool) : forall l m, List.length l = List.length m ->
  count (flat_map w_runs m) = count (flat_map w_runs (map snd (filter f (combine l m)))) + count (flat_map w_runs (map snd (filter (fun x => negb (f x)) (combine l m)))).
Proof. induction l as [|c l IH]; intros [|w m] E; cbn in *; try discriminate; auto. inv E. rewrite count_app, (IH m H0). destruct (f (c, w)); cbn [negb map flat_map snd]; rewrite count_app; lia. Qed.
Lemma wtot_split (f : config * workflow -> bool) : forall l m, List.length l = List.length m ->
  wtot m = wtot (map snd (filter f (combine l m))) + wtot (map snd (filter (fun x => negb (f x)) (combine l m))).
Proof. induction l as [|c l IH]; intros [|w m] E; cbn [combine List.filter List.length] in *; try discriminate; auto. inv E. rewrite wtot_cons, (IH m H0). destruct (f (c, w)); cbn [negb map snd]; rewrite wtot_cons; lia. Qed.
Lemma wtot_empty : forall m, flat_map w_runs m = [] -> wtot m = 0.
Proof. induction m as [|w m IH]; auto. cbn [flat_map]. intros H. apply app_eq_nil in H as [H1 H2]. rewrite wtot_cons, (IH H2). unfold workflow_count. rewrite H1. reflexivity. Qed.
Lemma update_counts k e g : lined e -> lined (update e g) /\ workflows_open (count_update k e g) - workflows_open k = count (e_workflows (update e g)) - count (e_workflows e) /\
  bal_runs (k_stats (count_update k e g)) - bal_runs (k_stats k) = count (flat_map w_runs (e_workflows (update e g))) - count (flat_map w_runs (e_workflows e)) /\
  bal_trav (k_stats (count_update k e g)) - bal_trav (k_stats k) = wtot (e_workflows (update e g)) - wtot (e_workflows e) /\
  e_session (update e g) = e_session e /\ (forall c, In c (e_configs (update e g)) -> In c (e_configs e) \/ In c (g_workflows g)).
Proof.
  intros L. unfold count_update, update. cbv zeta. set (f := unchanged (g_workflows g)). set (ws := combine (e_configs e) (e_workflows e)).
  set (k1 := fold_right _ k _). set (e1 := set_workflows e _ _ _ _). set (ex := map w_id (e_workflows e1)).
  assert (L1 : lined e1) by (unfold lined, e1; cbn [set_workflows e_configs e_workflows]; rewrite !map_length; auto).
  pose proof (new_adds_spec ex (g_workflows g) k1 e1 L1) as X. cbv zeta in X. rewrite new_adds_engine in X. unfold new_adds in X. destruct X as (X1 & X2 & X3 & (m & M1 & M2) & (n & N1 & N2)).
  set (k2 := fst _) in *. set (e2 := fold_left _ _ e1) in *.
  change (e_workflows (set_actions (set_resolver e2 (g_triggers g) (g_conts g)) _ _ _ _)) with (e_workflows e2). change (e_configs (set_actions (set_resolver e2 (g_triggers g) (g_conts g)) _ _ _ _)) with (e_configs e2).
  destruct (removes_spec (filter (fun x => negb (f x)) ws) k) as (R1 & R2 & R3 & R4). fold k1 in R1, R2, R3, R4. cbv zeta in *.
  assert (E1 : e_workflows e1 = map snd (filter f ws)) by reflexivity.
  split; [exact X1|]. split; [|split; [|split; [|split]]].
  - pose proof (combine_filter_lengths f _ _ L) as CL. fold ws in CL. rewrite E1 in X2. unfold count in *. rewrite map_length in X2. lia.
  - pose proof (rtot_split f _ _ L) as RS. fold ws in RS. unfold bal_runs, bal. rewrite !X3, R2, !R4 by discriminate. rewrite M1, flat_map_app, M2, app_nil_r, E1. lia.
  - pose proof (wtot_split f _ _ L) as RS. fold ws in RS. unfold bal_trav, bal. rewrite !X3, R3, !R4 by discriminate. rewrite M1, wtot_app, (wtot_empty _ M2), E1. lia.
  - cbn [set_actions set_resolver e_session]. unfold e2. clear. assert (S1 : e_session e1 = e_session e) by reflexivity. rewrite <- S1. clearbody e1 ex. revert e1 S1. induction (g_workflows g) as [|c cs IH]; intros e1 S1; cbn [fold_left]; auto.
    destruct (mem (c_id c) ex); [auto|]. rewrite IH; auto.
  - intros c Hc. rewrite N1 in Hc. apply in_app_or in Hc as [Hc|Hc]; [left|right; auto]. unfold e1 in Hc. cbn [set_workflows e_configs] in Hc. apply combine_fst_in in Hc. exact Hc.
Qed.

(** Starts *)
Definition rtot (ws : list workflow) : Z := count (flat_map w_runs ws).
Lemma rtot_app a b : rtot (a ++ b) = rtot a + rtot b.
Proof. unfold rtot. rewrite flat_map_app, count_app. auto. Qed.
Lemma kept_prefix e w : exists m, w_runs w = w_runs (kept_workflow e w) ++ m.
Proof.
  unfold kept_workflow. destruct (_ <? _); [|exists []; rewrite app_nil_r; auto]. cbn [w_runs]. destruct (trim_prefix (rev (w_runs w)) (workflow_count w) (e_current e) (e_limit e)) as (m & E). rewrite rev_involutive in E. eauto.
Qed.
Lemma adds_runs : forall cs k e ex, bal_runs (k_stats (count_adds k e cs ex)) - bal_runs (k_stats k) = rtot (e_workflows (add_workflows e cs ex)) - rtot (e_workflows e).
Proof.
  induction cs as [|c cs IH]; intros k e ex; cbn [count_adds add_workflows]; [lia|]. set (w := match last_workflow _ _ with Some _ => _ | None => _ end).
  specialize (IH (count_add k e w) (add_workflow e w c) (without (c_id c) ex)). destruct (add_workflow_kept e w c) as [_ EW]. rewrite EW, rtot_app in IH.
  assert (X : bal_runs (k_stats (count_add k e w)) = bal_runs (k_stats k) + rtot [kept_workflow e w]).
  { unfold count_add, rtot. cbn [k_stats flat_map]. rewrite app_nil_r. st. lia. }
  lia.
Qed.
Lemma adds_trav : forall cs k e ex, let k' := count_adds k e cs ex in k_stats k LimitHits <= k_stats k' LimitHits /\
  (k_stats k' LimitHits = k_stats k LimitHits -> bal_trav (k_stats k') - bal_trav (k_stats k) = wtot (e_workflows (add_workflows e cs ex)) - wtot (e_workflows e)).
Proof.
  induction cs as [|c cs IH]; intros k e ex; cbn [count_adds add_workflows]; cbv zeta; [split; [lia|intros _; lia]|]. set (w := match last_workflow _ _ with Some _ => _ | None => _ end).
  destruct (IH (count_add k e w) (add_workflow e w c) (without (c_id c) ex)) as [I1 I2]. destruct (add_workflow_kept e w c) as [_ EW]. rewrite EW, wtot_app, wtot_cons in I2. change (wtot []) with 0 in I2.
  destruct (kept_prefix e w) as (m & KP). assert (H1 : k_stats (count_add k e w) LimitHits = k_stats k LimitHits + count m).
  { unfold count_add. cbn [k_stats]. rewrite KP at 1. rewrite count_app. st. lia. }
  pose proof (count_nonneg m). split; [lia|]. intros H2. assert (M : m = []). { destruct m as [|r m']; auto. rewrite count_cons in H1. pose proof (count_nonneg m'). lia. }
  subst m. rewrite app_nil_r in KP. assert (KC : workflow_count (kept_workflow e w) = workflow_count w) by (unfold workflow_count; rewrite KP; auto).
  assert (X : bal_trav (k_stats (count_add k e w)) = bal_trav (k_stats k) + workflow_count w) by (unfold count_add; cbn [k_stats]; st; lia).
  rewrite count0 in H1. specialize (I2 ltac:(lia)). lia.
Qed.
Lemma start_workflows limit g st : exists e, lined e /\ e_workflows e = [] /\ e_configs e = [] /\ e_limit e = limit /\ e_current e = 0 /\ e_session e = match st with Some s => sv_session s | None => "" end /\
  let e' := add_workflows e (g_workflows g) (match st with Some s => sv_workflows s | None => [] end) in
  e_workflows (start (engine_new limit) g st) = e_workflows e' /\ e_configs (start (engine_new limit) g st) = e_configs e' /\ e_session (start (engine_new limit) g st) = e_session e'.
Proof. destruct st as [s|]; eexists; (split; [|split; [|split; [|split; [|split; [|split; [|cbv zeta; split; [reflexivity|split; reflexivity]]]]]]]); reflexivity. Qed.
(** The counters depend on the limit and the count of the engine only. *)
Lemma count_adds_ext : forall cs k e1 e2 ex, e_limit e1 = e_limit e2 -> e_current e1 = e_current e2 -> count_adds k e1 cs ex = count_adds k e2 cs ex.
Proof.
  induction cs as [|c cs IH]; intros k e1 e2 ex H1 H2; cbn [count_adds]; auto. set (w := match last_workflow _ _ with Some _ => _ | None => _ end).
  assert (K : kept_workflow e1 w = kept_workflow e2 w) by (unfold kept_workflow; rewrite H1, H2; auto).
  replace (count_add k e1 w) with (count_add k e2 w) by (unfold count_add; rewrite K; auto). apply IH; [exact H1|]. unfold add_workflow. cbn [set_workflows e_current]. rewrite H1, H2. auto.
Qed.
Lemma add_workflows_configs : forall cs e ex, e_configs (add_workflows e cs ex) = e_configs e ++ cs /\ e_session (add_workflows e cs ex) = e_session e.
Proof.
  induction cs as [|c cs IH]; intros e ex; cbn [add_workflows]; [rewrite app_nil_r; auto|]. set (w := match last_workflow _ _ with Some _ => _ | None => _ end).
  destruct (IH (add_workflow e w c) (without (c_id c) ex)) as [-> ->]. destruct (add_workflow_kept e w c) as [-> _]. rewrite <- app_assoc. auto.
Qed.
Lemma start_counts limit g st : let e := start (engine_new limit) g st in let k := count_start limit g st in
  lined e /\ workflows_open k = count (e_workflows e) /\ bal_runs (k_stats k) = rtot (e_workflows e) /\ (k_stats k LimitHits = 0 -> bal_trav (k_stats k) = wtot (e_workflows e)) /\
  e_configs e = g_workflows g /\ e_session e = match st with Some s => sv_session s | None => "" end.
Proof.
  cbv zeta. destruct (start_workflows limit g st) as (e & L & W & C & LM & CU & S & E1 & E2 & E3). unfold lined. rewrite E1, E2, E3. unfold count_start.
  rewrite (count_adds_ext _ no_counters (engine_new limit) e) by (rewrite ?LM, ?CU; reflexivity). set (ex := match st with Some s => sv_workflows s | None => [] end).
  destruct (count_adds_spec (g_workflows g) no_counters e ex L) as [A1 A2]. pose proof (adds_runs (g_workflows g) no_counters e ex) as A3. destruct (adds_trav (g_workflows g) no_counters e ex) as [_ A4]. cbv zeta in A4.
  destruct (add_workflows_configs (g_workflows g) e ex) as [A5 A6]. rewrite W in A2, A3, A4. change (rtot []) with 0 in A3. change (wtot []) with 0 in A4. rewrite count0 in A2. change (workflows_open no_counters) with 0 in A2.
  change (bal_runs (k_stats no_counters)) with 0 in A3. change (bal_trav (k_stats no_counters)) with 0 in A4. change (k_stats no_counters LimitHits) with 0 in A4.
  split; [exact A1|]. split; [lia|]. split; [lia|]. split; [intros H; specialize (A4 H); lia|]. split; [rewrite A5, C; auto|rewrite A6, S; auto].
Qed.

(** Logs *)
Lemma all_stats_some l limit : forall l1 l2 cur d ws cur' d' acts, List.length l1 = List.length l2 -> all_process l (combine l1 l2) cur limit d = Some (ws, cur', d', acts) ->
  exists s, all_stats l (combine l1 l2) cur limit = Some s /\ bal_runs s = rtot ws - rtot l2 /\ (Forall calm l1 -> bal_trav s = wtot ws - wtot l2) /\
  (let short := count (filter needs_new_run l2) - s CreatedRuns in short <= s LimitHits <= short + s StoppedRuns).
Proof.
  induction l1 as [|c l1 IH]; intros [|w l2] cur d ws cur' d' acts L H; cbn [combine WorkflowEngine_Model.all_process WorkflowStats_Model.all_stats List.length] in *; try discriminate.
  - inv H. exists no_stats. splits; auto; cbv zeta; cbn [List.filter]; rewrite ?count0; unfold no_stats; lia.
  - destruct (w_process c l w cur limit) as [[[w' cur1] r]|] eqn:EW; [|discriminate]. cbv zeta in H. destruct (all_process l (combine l1 l2) cur1 limit _) as [[[[ws' cur2] d2] acts']|] eqn:E; [|discriminate]. inv H.
    destruct (IH l2 cur1 _ _ _ _ _ ltac:(lia) E) as (s & S1 & S2 & S3 & S4). rewrite S1. eexists. split; [reflexivity|].
    pose proof (w_process_runs _ _ _ _ _ _ _ _ EW) as R1. pose proof (w_process_limit _ _ _ _ _ _ _ _ EW) as R2. cbv zeta in *.
    change (w' :: ws') with ([w'] ++ ws'). change (w :: l2) with ([w] ++ l2) at 1. rewrite !rtot_app. unfold rtot at 1 3. cbn [flat_map]. rewrite !app_nil_r. split; [|split].
    + revert R1 S2. unfold bal_runs, bal, add_stats. lia.
    + intros F. inv F. specialize (S3 H2). pose proof (w_process_trav _ _ _ _ _ _ _ _ H1 EW) as R3. cbn [app]. rewrite !wtot_cons. revert R3 S3. unfold bal_trav, bal, add_stats. lia.
    + cbn [List.filter]. unfold add_stats. destruct (needs_new_run w); rewrite ?count_cons; lia.
Qed.
Lemma log_counts k e l dests done e' r : lined e -> process_log re_match to_i32 sha f64 e l dests done = Some (e', r) ->
  let e1 := enter_session e l in let k' := count_log k e l in
  workflows_open k' = workflows_open k /\ bal_runs (k_stats k') - bal_runs (k_stats k) = rtot (e_workflows e') - rtot (e_workflows e1) /\
  (Forall calm (e_configs e) -> bal_trav (k_stats k') - bal_trav (k_stats k) = wtot (e_workflows e') - wtot (e_workflows e1)) /\
  (let short := in_need e1 - (k_stats k' CreatedRuns - k_stats k CreatedRuns) in short <= k_stats k' LimitHits - k_stats k LimitHits <= short + (k_stats k' StoppedRuns - k_stats k StoppedRuns)).
Proof.
  intros L H. cbv zeta. destruct (enter_length e l) as [N1 N2]. apply process_log_parts in H as (cur & d & acts & H). unfold WorkflowStats_Model.count_log. cbv zeta. set (e1 := enter_session e l) in *. clearbody e1. unfold in_need.
  destruct H as [H|[H1 H2]].
  - apply all_stats_some in H; [|unfold lined in L; congruence]. destruct H as (s & S1 & S2 & S3 & S4). rewrite S1. cbv zeta in S4. fold (count (filter needs_new_run (e_workflows e1))). rewrite N2 in S3. unfold workflows_open. cbn [k_started k_ended k_stats]. splits; auto.
    + revert S2. unfold bal_runs, bal, add_stats. lia.
    + intros F. specialize (S3 F). revert S3. unfold bal_trav, bal, add_stats. lia.
    + unfold add_stats. lia.
    + unfold add_stats. lia.
  - rewrite H1, H2. replace (combine (e_configs e1) (@nil workflow)) with (@nil (config * workflow)) by (destruct (e_configs e1); auto). cbn [WorkflowStats_Model.all_stats]. unfold workflows_open. cbn [k_started k_ended k_stats List.filter List.length].
    change (rtot []) with 0; change (wtot []) with 0; unfold bal_runs, bal_trav, bal, add_stats, no_stats. splits; try lia. all: try (intros _; lia).
Qed.

(** * Histories *)
Lemma workflows_balance : forall ops y k y' k', lined (y_engine y) -> workflows_open k = count (e_workflows (y_engine y)) -> count_ops y k ops = Some (y', k') ->
  lined (y_engine y') /\ workflows_open k' = count (e_workflows (y_engine y')).
Proof.
  induction ops as [|o ops IH]; intros y k y' k' L B H; cbn [WorkflowStats_Model.count_ops] in H; [inv H; auto|].
  destruct (step y o) as [[y1 ev]|] eqn:ES; [|discriminate]. apply IH in H; auto.
  - destruct o; try (destruct (quiet_step y _ y1 ev ES Logic.I) as (Q1 & Q2 & _); unfold lined; rewrite Q1, Q2; exact L).
    + cbn [WorkflowEngine_Model.step] in ES. destruct (process_log _ _ _ _ _ _ _ _) as [[e' r]|] eqn:E; [|discriminate]. inv ES. exact (proj1 (log_lined _ _ _ _ _ _ L E)).
    + cbn [WorkflowEngine_Model.step] in ES. inv ES. apply (update_counts k _ g L).
    + cbn [WorkflowEngine_Model.step] in ES. inv ES. apply start_counts.
  - destruct o; try (destruct (quiet_step y _ y1 ev ES Logic.I) as (Q1 & Q2 & _); rewrite Q2; exact B).
    + cbn [WorkflowEngine_Model.step WorkflowStats_Model.count_op] in *. destruct (process_log _ _ _ _ _ _ _ _) as [[e' r]|] eqn:E; [|discriminate]. inv ES. cbn [y_engine]. destruct (log_lined _ _ _ _ _ _ L E) as [_ N]. destruct (log_counts k _ _ _ _ _ _ L E) as [W _].
      rewrite W, B. unfold count. rewrite N. auto.
    + cbn [WorkflowEngine_Model.step] in ES. inv ES. cbn [WorkflowStats_Model.count_op y_engine]. destruct (update_counts k _ g L) as (_ & U & _). lia.
    + cbn [WorkflowEngine_Model.step] in ES. inv ES. cbn [WorkflowStats_Model.count_op y_engine]. apply start_counts.
Qed.
Lemma same_session_enter e l s : e_session e = "" \/ e_session e = s -> l_session l = s -> e_workflows (enter_session e l) = e_workflows e.
Proof.
  intros H <-. unfold enter_session. destruct H as [H|H]; rewrite H; [reflexivity|]. destruct (String.eqb (l_session l) ""); [reflexivity|]. rewrite String.eqb_refl. reflexivity.
Qed.
Lemma runs_balance s : forall ops y k y' k', one_process ops -> (forall l, In l (logs_of ops) -> l_session l = s) -> lined (y_engine y) -> e_session (y_engine y) = "" \/ e_session (y_engine y) = s ->
  count_ops y k ops = Some (y', k') ->
  bal_runs (k_stats k') - bal_runs (k_stats k) = rtot (e_workflows (y_engine y')) - rtot (e_workflows (y_engine y)) /\
  (Forall calm (e_configs (y_engine y) ++ flat_map given ops) -> bal_trav (k_stats k') - bal_trav (k_stats k) = wtot (e_workflows (y_engine y')) - wtot (e_workflows (y_engine y))).
Proof.
  induction ops as [|o ops IH]; intros y k y' k' OP OS L S H; cbn [WorkflowStats_Model.count_ops flat_map] in *; [inv H; split; [lia|intros _; lia]|].
  destruct (step y o) as [[y1 ev]|] eqn:ES; [|discriminate].
  assert (OP' : one_process ops) by (intros g n I; exact (OP g n (or_intror I))). assert (OS' : forall l, In l (logs_of ops) -> l_session l = s) by (intros l I; apply OS; apply in_or_app; right; exact I).
  assert (X : lined (y_engine y1) /\ (e_session (y_engine y1) = "" \/ e_session (y_engine y1) = s) /\ (forall c, In c (e_configs (y_engine y1)) -> In c (e_configs (y_engine y)) \/ In c (given o)) /\
     bal_runs (k_stats (count_op k y o)) - bal_runs (k_stats k) = rtot (e_workflows (y_engine y1)) - rtot (e_workflows (y_engine y)) /\
     (Forall calm (e_configs (y_engine y)) -> bal_trav (k_stats (count_op k y o)) - bal_trav (k_stats k) = wtot (e_workflows (y_engine y1)) - wtot (e_workflows (y_engine y)))).
  { destruct o; try (destruct (quiet_step y _ y1 ev ES Logic.I) as (Q1 & Q2 & Q3); rewrite quiet_count by exact Logic.I; unfold lined; rewrite Q1, Q2, Q3; splits; auto; [lia|intros _; lia]).
    - cbn [WorkflowEngine_Model.step WorkflowStats_Model.count_op] in *. destruct (process_log _ _ _ _ _ _ _ _) as [[e' r]|] eqn:E; [|discriminate]. inv ES. cbn [y_engine]. destruct (log_lined _ _ _ _ _ _ L E) as [N _].
      destruct (process_log_configs _ _ _ _ _ _ E) as [C1 C2]. destruct (log_counts k _ _ _ _ _ _ L E) as (_ & W1 & W2 & _). assert (LS : l_session l = s) by (apply OS; left; auto).
      rewrite (same_session_enter _ _ s S LS) in W1, W2. rewrite C1, C2. splits; auto.
    - cbn [WorkflowEngine_Model.step] in ES. inv ES. cbn [WorkflowStats_Model.count_op y_engine given]. destruct (update_counts k _ g L) as (U1 & _ & U2 & U3 & U4 & U5). rewrite U4. unfold rtot. splits; auto.
    - destruct (OP g limit (or_introl eq_refl)). }
  destruct X as (X1 & X2 & X3 & X4 & X5). destruct (IH _ _ _ _ OP' OS' X1 X2 H) as [I1 I2]. split; [lia|]. intros F. apply Forall_app in F as [F1 F2]. apply Forall_app in F2 as [F2 F3]. specialize (X5 F1).
  assert (F4 : Forall calm (e_configs (y_engine y1) ++ flat_map given ops)). { apply Forall_app. split; auto. rewrite Forall_forall in *. intros c Hc. destruct (X3 c Hc); auto. }
  specialize (I2 F4). lia.
Qed.

(** * The claims *)
Lemma counters_workflows g limit st ops y k : count_ops (process_new g limit st) (count_start limit g st) ops = Some (y, k) -> workflows_open k = workflows_running y.
Proof. intros H. apply workflows_balance in H; [exact (proj2 H)| |]; apply start_counts. Qed.
Lemma counters_runs g limit st ops y k : one_process ops -> one_session st ops -> count_ops (process_new g limit st) (count_start limit g st) ops = Some (y, k) -> runs_open k = runs_running y.
Proof.
  intros OP (s & OS & SS) H. destruct (start_counts limit g st) as (L & _ & B & _ & _ & E). apply (runs_balance s) in H as [H _]; auto.
  - cbn [process_new y_engine] in H. unfold runs_open, runs_running. fold (bal CreatedRuns StoppedRuns CompletedRuns (k_stats k)). fold (bal_runs (k_stats k)). fold (count (flat_map w_runs (e_workflows (y_engine y)))). fold (rtot (e_workflows (y_engine y))). lia.
  - cbn [process_new y_engine]. rewrite E. destruct st; auto.
Qed.
Lemma counters_traversals g limit st ops y k : one_process ops -> one_session st ops -> Forall (fun c => well_formed c /\ c_matched c = None) (all_given g ops) -> k_stats (count_start limit g st) LimitHits = 0 ->
  count_ops (process_new g limit st) (count_start limit g st) ops = Some (y, k) -> traversals_open k = traversals_running y.
Proof.
  intros OP (s & OS & SS) F N H. destruct (start_counts limit g st) as (L & _ & _ & B & C & E). apply (runs_balance s) in H as [_ H]; auto.
  - cbn [process_new y_engine] in H. unfold traversals_open, traversals_running. rewrite held_wtot. fold (bal CreatedTraversals StoppedTraversals CompletedTraversals (k_stats k)). fold (bal_trav (k_stats k)). rewrite C in H. specialize (H F). specialize (B N). lia.
  - cbn [process_new y_engine]. rewrite E. destruct st; auto.
Qed.
Lemma counters_limit g limit st ops y k l dests y' k' : count_ops (process_new g limit st) (count_start limit g st) ops = Some (y, k) -> count_ops y k [Log l dests] = Some (y', k') ->
  let short := in_need (enter_session (y_engine y) l) - (k_stats k' CreatedRuns - k_stats k CreatedRuns) in short <= k_stats k' LimitHits - k_stats k LimitHits <= short + (k_stats k' StoppedRuns - k_stats k StoppedRuns).
Proof.
  intros H H2. destruct (workflows_balance ops (process_new g limit st) (count_start limit g st) y k (proj1 (start_counts limit g st)) (proj1 (proj2 (start_counts limit g st))) H) as [L _].
  cbn [WorkflowStats_Model.count_ops WorkflowEngine_Model.step WorkflowStats_Model.count_op] in H2. destruct (process_log _ _ _ _ _ _ _ _) as [[e' r]|] eqn:E; [|discriminate]. inv H2. exact (proj2 (proj2 (proj2 (log_counts k _ _ _ _ _ _ L E)))).
Qed.
(** The counters watch a history that happens anyway. *)
Lemma counters_watch : forall ops y k, (exists y' ev, run_ops re_match to_i32 sha f64 y ops = Some (y', ev)) -> exists y' k' ev, count_ops y k ops = Some (y', k') /\ run_ops re_match to_i32 sha f64 y ops = Some (y', ev).
Proof.
  induction ops as [|o ops IH]; intros y k (y' & ev & H); cbn [WorkflowStats_Model.count_ops run_ops] in *; [inv H; eauto|]. destruct (step y o) as [[y1 e1]|]; [|discriminate].
  destruct (run_ops _ _ _ _ y1 ops) as [[y2 e2]|] eqn:E; [|discriminate]. inv H. destruct (IH y1 (count_op k y o)) as (a & b & c & A & B); [eauto|]. rewrite E in B. inv B. eauto.
Qed.
End Balance.
