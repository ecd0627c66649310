(** The statements about executions, put together. *)
From Verif Require Import Base Str_Base Log_Model LogMatcher_Model Workflow_Model Workflow_Spec Workflow_Proofs WorkflowEngine_Model WorkflowEngine_Spec WorkflowEngine_Proofs WorkflowEqual_Proofs WorkflowRestore_Proofs WorkflowActions_Proofs WorkflowNegotiation_Proofs.
Local Open Scope string_scope. Local Open Scope list_scope. Local Open Scope Z_scope.

Lemma add_workflows_shape : forall cs e ws, let e' := add_workflows e cs ws in
  e_configs e' = e_configs e ++ cs /\ map w_id (e_workflows e') = map w_id (e_workflows e) ++ map c_id cs /\ e_session e' = e_session e /\ e_pending e' = e_pending e /\ e_streaming e' = e_streaming e /\
  e_limit e' = e_limit e /\ e_triggers e' = e_triggers e /\ e_conts e' = e_conts e /\ e_flushes e' = e_flushes e /\ e_input e' = e_input e /\ e_buffers e' = e_buffers e /\ e_next e' = e_next e.
Proof.
  cbv zeta. induction cs as [|c cs IH]; intros e ws; cbn [add_workflows]; [rewrite !app_nil_r; splits; auto|].
  set (w := match last_workflow (c_id c) ws with Some w => w | None => mkWorkflow (c_id c) [] end).
  assert (WI : w_id w = c_id c). { unfold w. destruct (last_workflow (c_id c) ws) eqn:E; auto. apply last_workflow_some in E. tauto. }
  destruct (IH (add_workflow e w c) (without (c_id c) ws)) as (I1 & I2 & I3 & I4 & I5 & I6 & I7 & I8 & I9 & I10 & I11 & I12). rewrite I1, I2, I3, I4, I5, I6, I7, I8, I9, I10, I11, I12.
  unfold add_workflow. cbn [set_workflows e_configs e_workflows e_session e_pending e_streaming e_limit e_triggers e_conts e_flushes e_input e_buffers e_next]. rewrite map_app, <- !app_assoc. cbn [map app]. splits; auto.
  f_equal. f_equal. destruct (_ <? _); cbn [w_id]; auto.
Qed.
Lemma start_shape limit g st : let e := start (engine_new limit) g st in
  e_configs e = g_workflows g /\ map w_id (e_workflows e) = map c_id (g_workflows g) /\ e_session e = match st with Some s => sv_session s | None => "" end /\ e_limit e = limit /\ e_flushes e = [] /\ e_buffers e = [] /\ e_next e = 0%nat.
Proof.
  cbv zeta. unfold start. cbv zeta. destruct st as [s|]; cbn [set_actions e_configs e_workflows e_session e_limit e_flushes e_buffers e_next];
    match goal with |- context [add_workflows ?e0 ?cs ?ws] => destruct (add_workflows_shape cs e0 ws) as (I1 & I2 & I3 & I4 & I5 & I6 & I7 & I8 & I9 & I10 & I11 & I12); set (x := add_workflows e0 cs ws) in *; clearbody x end;
    rewrite I1, I2, I3, I6, I9, I11, I12; splits; auto.
Qed.
Lemma start_same limit g s1 s2 : sv_session s1 = sv_session s2 -> sv_pending s1 = sv_pending s2 -> sv_streaming s1 = sv_streaming s2 -> same_but_runs (start (engine_new limit) g (Some s1)) (start (engine_new limit) g (Some s2)).
Proof.
  intros E1 E2 E3. destruct (start_shape limit g (Some s1)) as (A1 & A2 & A3 & A4 & A5 & A6 & A7). destruct (start_shape limit g (Some s2)) as (B1 & B2 & B3 & B4 & B5 & B6 & B7).
  destruct (start_actions limit g (Some s1)) as (C1 & C2 & C3 & C4 & C5). destruct (start_actions limit g (Some s2)) as (D1 & D2 & D3 & D4 & D5). cbv zeta in *. unfold same_but_runs.
  rewrite A1, A2, A3, A4, A5, A6, A7, B1, B2, B3, B4, B5, B6, B7, C1, C2, C5, C3, C4, D1, D2, D5, D3, D4, E1, E2, E3. splits; auto.
Qed.

Section Final.
Variables (re_match : string -> string -> bool) (to_i32 : string -> option Z) (sha : string -> string) (f64 : string -> option Z).
Notation w_process := (w_process re_match to_i32 sha).
Notation process_log := (process_log re_match to_i32 sha f64).
Notation all_process := (all_process re_match to_i32 sha).
Notation step := (step re_match to_i32 sha f64).
Notation run_ops := (run_ops re_match to_i32 sha f64).
Notation feed := (feed re_match to_i32 sha f64).
Notation roomy := (roomy re_match to_i32 sha).

(** * The engine has a state for each of its definitions *)
Lemma all_process_ids l limit : forall l1 l2, Forall2 (fun c w => w_id w = c_id c) l1 l2 -> forall cur d ws cur' d' acts, all_process l (combine l1 l2) cur limit d = Some (ws, cur', d', acts) -> Forall2 (fun c w => w_id w = c_id c) l1 ws.
Proof.
  induction 1 as [|c w l1 l2 H _ IH]; intros cur d ws cur' d' acts E; cbn [combine WorkflowEngine_Model.all_process] in E; [inv E; auto|].
  destruct (w_process c l w cur limit) as [ [ [w' cur1] r]|] eqn:EW; [|discriminate]. cbv zeta in E. destruct (all_process l (combine l1 l2) cur1 limit _) as [ [ [ [ws' cur2] d2] acts']|] eqn:EA; [|discriminate]. inv E.
  constructor; eauto. rewrite <- H. eapply w_process_id; eauto.
Qed.
Lemma enter_consistent e l : consistent e -> consistent (enter_session e l).
Proof.
  intros [F N]. unfold enter_session. destruct (String.eqb (e_session e) ""); [split; auto|]. destruct (String.eqb _ _); [split; auto|]. split; auto.
  unfold clean_state. cbn [set_session set_workflows e_configs e_workflows]. clear N. induction F; cbn [map]; constructor; auto.
Qed.
Lemma process_log_consistent e l dests done e' r : consistent e -> process_log e l dests done = Some (e', r) -> consistent e' /\ e_configs e' = e_configs e.
Proof.
  intros C H. assert (EC : e_configs (enter_session e l) = e_configs e) by (unfold enter_session; destruct (String.eqb (e_session e) ""); auto; destruct (String.eqb _ _); auto).
  apply (enter_consistent e l) in C. unfold WorkflowEngine_Model.process_log in H. cbv zeta in H. set (e1 := enter_session e l) in *. clearbody e1. destruct C as [F N].
  destruct (e_workflows e1) eqn:EW; [inv H; split; auto; split; auto; rewrite EW; auto|]. rewrite <- EW in *. destruct (all_process _ _ _ _ _) as [ [ [ [ws cur] dirty] acts]|] eqn:EA; [|discriminate].
  apply all_process_ids in EA; auto. destruct (process_streaming _ _ _ _ _) as [ [dests' strm] changed]. destruct (process_flush_actions _ _ _ _ _ _) as [ [created ids] bufs]. inv H. split; auto. split; auto.
Qed.
Lemma ids_Forall2 : forall cs ws, map w_id ws = map c_id cs -> Forall2 (fun c w => w_id w = c_id c) cs ws.
Proof. induction cs as [|c cs IH]; intros [|w ws] E; cbn [map] in E; try discriminate; constructor; try congruence. apply IH. congruence. Qed.
Lemma start_consistent limit g st : NoDup (map c_id (g_workflows g)) -> consistent (start (engine_new limit) g st).
Proof. intros N. destruct (start_shape limit g st) as (A1 & A2 & _). cbv zeta in *. split; rewrite A1; auto. apply ids_Forall2. auto. Qed.
Lemma approved_consistent e p done : consistent e -> consistent (on_approved e p done).
Proof. intros C. unfold on_approved. cbv zeta. match goal with |- context [if ?b then _ else e] => destruct b end; [destruct (_ <? _)%nat|]; exact C. Qed.
Lemma step_consistent y o y' ev : consistent (y_engine y) -> (forall g, (o = Update g \/ exists n, o = Restart g n) -> NoDup (map c_id (g_workflows g))) -> step y o = Some (y', ev) -> consistent (y_engine y').
Proof.
  intros C N H. destruct o; cbn [WorkflowEngine_Model.step] in H.
  - destruct (process_log _ _ _ _) as [[e' r]|] eqn:E; [|discriminate]. inv H. cbn [y_engine]. apply process_log_consistent in E; tauto.
  - destruct (e_input (y_engine y)) as [|p rest]; [inv H; auto|]. destruct (_ <? _)%nat; [|inv H; auto]. destruct (negotiate (y_rejected y) p d). inv H. exact C.
  - destruct (y_outputs y) as [|[p|p] rest]; inv H; auto. cbn [y_engine]. apply approved_consistent; auto.
  - inv H. exact C.
  - inv H. exact C.
  - inv H. cbn [y_engine]. apply update_consistent; eauto.
  - destruct (e_dirty (y_engine y)); inv H; exact C.
  - inv H. cbn [y_engine]. apply start_consistent. eauto.
Qed.
Lemma run_consistent g limit ops y ev : distinct g ops -> run_ops (system_new g limit) ops = Some (y, ev) -> consistent (y_engine y).
Proof.
  intros [N D] H. assert (C : consistent (y_engine (system_new g limit))) by (apply start_consistent; auto). revert C H. generalize (system_new g limit). revert ev D. induction ops as [|o ops IH]; intros ev D y0 C H; cbn [WorkflowEngine_Model.run_ops] in H; [inv H; auto|].
  destruct (step y0 o) as [[y1 ev1]|] eqn:ES; [|discriminate]. destruct (run_ops y1 ops) as [[y2 ev2]|] eqn:ER; [|discriminate]. injection H as -> <-.
  eapply (IH ev2); [| |exact ER].
  - intros g' [X|(n & X)]; apply D; [left; now right|right; exists n; now right].
  - eapply step_consistent; [exact C| |exact ES]. intros g' [-> | (n & ->)]; apply D; [left; now left|right; exists n; now left].
Qed.

(** * Sessions *)
Lemma session_step y1 y2 l dests : e_session (y_engine y1) <> "" -> e_session (y_engine y1) <> l_session l -> same_but_runs_system y1 y2 -> step y1 (Log l dests) = step y2 (Log l dests).
Proof.
  intros N1 N2 (E & E1 & E2 & E3 & E4). cbn [WorkflowEngine_Model.step]. rewrite <- E1, <- E2, <- E3, <- E4. rewrite (new_session_forgets re_match to_i32 sha f64 (y_engine y1) (y_engine y2)); auto.
Qed.
Lemma session_run y1 y2 l dests ops : e_session (y_engine y1) <> "" -> e_session (y_engine y1) <> l_session l -> same_but_runs_system y1 y2 -> run_ops y1 (Log l dests :: ops) = run_ops y2 (Log l dests :: ops).
Proof. intros N1 N2 E. cbn [WorkflowEngine_Model.run_ops]. rewrite (session_step y1 y2); auto. Qed.
Lemma session_restored limit g s1 s2 l dests done : sv_session s1 <> "" -> sv_session s1 <> l_session l -> sv_session s1 = sv_session s2 -> sv_pending s1 = sv_pending s2 -> sv_streaming s1 = sv_streaming s2 ->
  process_log (start (engine_new limit) g (Some s1)) l dests done = process_log (start (engine_new limit) g (Some s2)) l dests done.
Proof.
  intros N1 N2 E1 E2 E3. destruct (start_shape limit g (Some s1)) as (_ & _ & A3 & _). cbv zeta in A3. apply new_session_forgets; rewrite ?A3; auto. apply start_same; auto.
Qed.

(** * The budget of traversals *)
Lemma run_held g limit ops y ev : 0 <= limit -> limits_ok ops -> Forall well_formed (all_given g ops) -> Forall steady (all_given g ops) -> stable g ops -> run_ops (system_new g limit) ops = Some (y, ev) ->
  Z.of_nat (List.length (held (y_engine y))) <= limit_after limit ops.
Proof. intros L LO W S ST H. destruct (run_budget re_match to_i32 sha f64 g limit ops y ev L LO W S ST H) as [ [B _] E]. rewrite held_wtot, <- E. lia. Qed.
Lemma run_exact g limit ops y ev : 0 <= limit -> limits_ok ops -> Forall well_formed (all_given g ops) -> Forall (fun c => c_matched c = None) (all_given g ops) -> stable g ops -> run_ops (system_new g limit) ops = Some (y, ev) ->
  Z.of_nat (List.length (held (y_engine y))) = e_current (y_engine y) /\ e_current (y_engine y) <= limit_after limit ops.
Proof.
  intros L LO W S ST H. rewrite Forall_forall in S. destruct (run_budget re_match to_i32 sha f64 g limit ops y ev L LO W) as [ [B BX] E]; auto.
  - apply Forall_forall. intros c Hc. left. auto.
  - rewrite held_wtot, <- E. specialize (BX S). lia.
Qed.

(** * Restored states *)
Lemma restored_run g limit ops y ev l d dn ls d' dn' ls' e1 rs : let e := y_engine y in
  0 <= limit -> limits_ok ops -> Forall well_formed (all_given g ops) -> Forall no_return (all_given g ops) -> Forall (fun c => c_matched c = None) (all_given g ops) -> stable g ops -> distinct g ops ->
  run_ops (system_new g limit) ops = Some (y, ev) ->
  (e_session e = "" \/ e_session e = l_session l -> roomy l (workflows_of e) (e_current e) (e_limit e)) ->
  map (fun x => fst (fst x)) ls = map (fun x => fst (fst x)) ls' -> feed e ((l, d, dn) :: ls) = Some (e1, rs) ->
  exists e1' rs', feed (start (engine_new (e_limit e)) (mkEngineCfg (e_configs e) (e_triggers e) (e_conts e)) (Some (state_optimized e))) ((l, d', dn') :: ls') = Some (e1', rs') /\ Forall2 same_actions rs rs'.
Proof.
  cbv zeta. intros L LO W NR S ST D H R E F. rewrite Forall_forall in S.
  assert (G := reach_orderly re_match to_i32 sha f64 g limit ops y ev W NR ST H).
  destruct (run_budget re_match to_i32 sha f64 g limit ops y ev L LO W) as [B _]; auto.
  - apply Forall_forall. intros c Hc. left. auto.
  - destruct (run_consistent _ _ _ _ _ D H) as [_ N]. exact (restored re_match to_i32 sha f64 (y_engine y) (mkEngineCfg (e_configs (y_engine y)) (e_triggers (y_engine y)) (e_conts (y_engine y))) l d dn ls d' dn' ls' e1 rs (all_given g ops) G W S N B eq_refl eq_refl eq_refl R E F).
Qed.

(** * Exclusive workflows *)
Lemma exclusive_two g limit ops y ev : Forall well_formed (all_given g ops) -> stable g ops -> run_ops (system_new g limit) ops = Some (y, ev) ->
  forall c w, In (c, w) (workflows_of (y_engine y)) -> c_exec c = Exclusive ->
  (List.length (w_runs w) <= 2)%nat /\ forall i a, w_runs w = [i; a] -> r_initial i = true.
Proof.
  intros W S H c w I X. destruct (exclusive_runs re_match to_i32 sha f64 g limit ops y ev W S H c w I X) as (_ & _ & T). destruct (two_length _ T) as [T1 T2]. split; auto. intros i a E. rewrite E in T2. destruct (T2 eq_refl) as (j & J & K). cbn in J. inv J. auto.
Qed.
Lemma exclusive_one g limit ops y ev : Forall well_formed (all_given g ops) -> stable g ops -> run_ops (system_new g limit) ops = Some (y, ev) ->
  forall c w, In (c, w) (workflows_of (y_engine y)) -> c_exec c = Exclusive -> forall l cur lim w' cur' res i a a' ra, w_runs w = [i; a] ->
  w_process c l w cur lim = Some (w', cur', res) -> r_process re_match to_i32 sha c l a = Some (a', ra) -> rr_state ra = Running -> cur + rr_created ra - rr_completed ra <= lim -> 0 <= lim ->
  (w_runs w' = [i; a'] /\ wr_actions res = rr_actions ra) \/
  (a' = a /\ exists i' ri, r_process re_match to_i32 sha c l i = Some (i', ri) /\ wr_actions res = rr_actions ri /\ (w_runs w' = [i'] \/ w_runs w' = [a] \/ w_runs w' = [i'; a] /\ i' = i)).
Proof.
  intros W S H c w I X l cur lim w' cur' res i a a' ra E HP HR RR C L. destruct (exclusive_runs re_match to_i32 sha f64 g limit ops y ev W S H c w I X) as (F & WF & T).
  destruct T as [T|[(x & T)|(j & b & T & J)]]; rewrite E in T; try discriminate. injection T as <- <-. eapply w_process_one_run; eauto.
Qed.
End Final.
