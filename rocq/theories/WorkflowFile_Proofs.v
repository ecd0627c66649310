(** The state file is up to date whenever the engine sees no need to write it. *)
From Verif Require Import Base Str_Base Log_Model LogMatcher_Model Workflow_Model Workflow_Spec Workflow_Proofs WorkflowEngine_Model WorkflowEngine_Spec WorkflowEngine_Proofs WorkflowRestore_Proofs.
Local Open Scope string_scope. Local Open Scope list_scope. Local Open Scope Z_scope.

Section File.
Variables (re_match : string -> string -> bool) (to_i32 : string -> option Z) (sha : string -> string) (f64 : string -> option Z).
Notation r_process := (r_process re_match to_i32 sha).
Notation w_loop := (w_loop re_match to_i32 sha).
Notation w_process := (w_process re_match to_i32 sha).
Notation all_process := (all_process re_match to_i32 sha).
Notation process_log := (process_log re_match to_i32 sha f64).
Notation step := (step re_match to_i32 sha f64).
Notation run_ops := (run_ops re_match to_i32 sha f64).

Definition keys : list stat := [CreatedRuns; AdvancedRuns; StoppedRuns; CompletedRuns; CreatedTraversals; AdvancedTraversals; StoppedTraversals; CompletedTraversals; MatchedLogs; Resets].
Definition below (a b : stats) : Prop := forall k, In k keys -> a k <= b k.
Definition idle (a : stats) : Prop := forall k, In k keys -> a k <= 0.
Lemma progressed_idle st : progressed st = false <-> idle st.
Proof.
  change (progressed st) with (existsb (fun k => 0 <? st k) keys). unfold idle. split.
  - intros H k I. destruct (0 <? st k) eqn:E; [|apply Z.ltb_ge in E; lia]. assert (X : existsb (fun k => 0 <? st k) keys = true) by (apply existsb_exists; eauto). congruence.
  - intros H. destruct (existsb _ _) eqn:E; auto. apply existsb_exists in E as (k & I & E). apply Z.ltb_lt in E. specialize (H k I). lia.
Qed.
Lemma inc_above st k n x : 0 <= n -> st x <= inc st k n x.
Proof. unfold inc. destruct (stat_eqb k x); lia. Qed.
Lemma inc_same st k n : inc st k n k = st k + n.
Proof. unfold inc. destruct k; cbn; lia. Qed.
Lemma below_trans a b c : below a b -> below b c -> below a c.
Proof. intros H1 H2 k I. specialize (H1 k I). specialize (H2 k I). lia. Qed.
Lemma below_refl a : below a a. Proof. intros k I. lia. Qed.
Lemma inc_below a b k n : 0 <= n -> below a b -> below a (inc b k n).
Proof. intros N H x I. specialize (H x I). pose proof (inc_above b k n x N). lia. Qed.

Lemma run_stats_below st rr : 0 <= rr_created rr -> 0 <= rr_advanced rr -> 0 <= rr_completed rr -> below st (run_stats st rr).
Proof. intros. unfold run_stats. repeat (apply inc_below; [lia|]). apply below_refl. Qed.
Lemma decide_below r rr cur limit p st kept cur' p' st' : decide_run r rr cur limit p st = (kept, cur', p', st') -> below st st'.
Proof.
  unfold decide_run. pose proof (run_count_nonneg r). destruct (rr_state rr), (limit <? cur); intros H0; inv H0; repeat (apply inc_below; [lia|]); try apply below_refl; destruct (0 <? rr_advanced rr); repeat (apply inc_below; [lia|]); apply below_refl.
Qed.
Lemma decide_removed r rr cur limit p st cur' p' st' : decide_run r rr cur limit p st = ([], cur', p', st') -> st StoppedRuns < st' StoppedRuns \/ st CompletedRuns < st' CompletedRuns.
Proof.
  unfold decide_run. pose proof (run_count_nonneg r). destruct (rr_state rr), (limit <? cur); intros H0; inv H0; unfold inc; cbn; lia.
Qed.
Lemma nonneg_result c l r r' rr : well_formed c -> run_fits c r -> r_process c l r = Some (r', rr) -> 0 <= rr_created rr /\ 0 <= rr_advanced rr /\ 0 <= rr_completed rr.
Proof.
  intros W F H. destruct (r_process_ok re_match to_i32 sha c l r W F) as (r2 & rr2 & E & _ & [S|S] & _); rewrite H in E; inv E; [|intuition lia]. destruct S as (m & ->). cbn. lia.
Qed.

Lemma w_loop_below c l : well_formed c -> forall rest done cur limit p res runs cur' res', Forall (run_fits c) rest -> w_loop c l rest done cur limit p res = Some (runs, cur', res') -> below (wr_stats res) (wr_stats res').
Proof.
  intros W. induction rest as [|r rest IH]; intros done cur limit p res runs cur' res' F H; [cbn in H; inv H; apply below_refl|]. rewrite w_loop_cons in H. apply Forall_cons_iff in F as [F1 F2].
  destruct (r_process c l r) as [[r' rr]|] eqn:ER; [|discriminate]. destruct (nonneg_result _ _ _ _ _ W F1 ER) as (N1 & N2 & N3). cbv zeta in H.
  destruct (decide_run r' rr _ limit p _) as [ [ [kept cur1] p'] st'] eqn:ED. pose proof (decide_below _ _ _ _ _ _ _ _ _ _ ED) as DB.
  eapply below_trans; [apply (run_stats_below (wr_stats res) rr); auto|]. eapply below_trans; [exact DB|].
  assert (IH' : w_loop c l rest (kept ++ done) cur1 limit p' (mkWresult (wr_actions res ++ rr_actions rr) st') = Some (runs, cur', res') -> below st' (wr_stats res')) by (intros X; apply IH in X; auto).
  destruct (c_exec c); [|auto]. destruct (_ && _); [|auto]. destruct rest.
  - destruct (remove_second _) as [ [x d]|]; [|discriminate]. injection H as <- <- <-. cbn [wr_stats]. pose proof (run_count_nonneg x). repeat (apply inc_below; [lia|]). apply below_refl.
  - destruct (run_new c) as [i0|]; [|discriminate]. destruct (r_process c l i0) as [[? ir]|]; [|discriminate]. injection H as <- <- <-. cbn [wr_stats]. destruct (0 <? rr_matched ir)%N; [apply inc_below; [lia|] |]; apply below_refl.
Qed.

Lemma w_loop_idle c l : well_formed c -> forall rest done cur limit p res runs cur' res', Forall (run_fits c) rest -> (forall k, In k keys -> 0 <= wr_stats res k) ->
  w_loop c l rest done cur limit p res = Some (runs, cur', res') -> idle (wr_stats res') -> runs = rev rest ++ done.
Proof.
  intros W. induction rest as [|r rest IH]; intros done cur limit p res runs cur' res' F P H I; [cbn in H; inv H; auto|]. rewrite w_loop_cons in H. apply Forall_cons_iff in F as [F1 F2].
  destruct (r_process c l r) as [[r' rr]|] eqn:ER; [|discriminate]. destruct (nonneg_result _ _ _ _ _ W F1 ER) as (N1 & N2 & N3). cbv zeta in H.
  destruct (decide_run r' rr _ limit p _) as [ [ [kept cur1] p'] st'] eqn:ED. pose proof (decide_below _ _ _ _ _ _ _ _ _ _ ED) as DB. pose proof (run_stats_below (wr_stats res) rr N1 N2 N3) as RB.
  assert (P' : forall k, In k keys -> 0 <= st' k) by (intros k Hk; specialize (P k Hk); specialize (DB k Hk); specialize (RB k Hk); lia).
  assert (B : below st' (wr_stats res')).
  { assert (IH' : w_loop c l rest (kept ++ done) cur1 limit p' (mkWresult (wr_actions res ++ rr_actions rr) st') = Some (runs, cur', res') -> below st' (wr_stats res')) by (intros X; apply w_loop_below in X; auto).
    clear - H IH'. destruct (c_exec c); [|auto]. destruct (_ && _); [|auto]. destruct rest.
    - destruct (remove_second _) as [ [x d]|]; [|discriminate]. injection H as <- <- <-. cbn [wr_stats]. pose proof (run_count_nonneg x). repeat (apply inc_below; [lia|]). apply below_refl.
    - destruct (run_new c) as [i0|]; [|discriminate]. destruct (r_process c l i0) as [[? ir]|]; [|discriminate]. injection H as <- <- <-. cbn [wr_stats]. destruct (0 <? rr_matched ir)%N; [apply inc_below; [lia|] |]; apply below_refl. }
  assert (I' : forall k, In k keys -> st' k = 0 /\ run_stats (wr_stats res) rr k = 0 /\ wr_stats res k = 0).
  { intros k Hk. specialize (P k Hk). specialize (P' k Hk). specialize (B k Hk). specialize (I k Hk). specialize (DB k Hk). specialize (RB k Hk). lia. }
  assert (K : kept = [r]).
  { pose proof (decide_running _ _ _ _ _ _ _ _ _ _ ED) as [-> | [-> RN] ].
    - apply decide_removed in ED. pose proof (I' StoppedRuns ltac:(cbn; tauto)) as X1. pose proof (I' CompletedRuns ltac:(cbn; tauto)) as X2. lia.
    - assert (M : rr_matched rr = 0%N).
      { pose proof (I' MatchedLogs ltac:(cbn; tauto)) as (_ & X2 & X3). unfold run_stats in X2. rewrite inc_same in X2. unfold inc in X2. cbn in X2. lia. }
      destruct (r_process_no_match re_match to_i32 sha c l r r' rr W F1 ER M) as (-> & _); [congruence|auto]. }
  subst kept. cbn [app] in H. cbn [rev]. rewrite <- app_assoc. cbn [app].
  destruct (c_exec c); [|eapply IH; [exact F2| |exact H|exact I]; exact P']. destruct (_ && _); [|eapply IH; [exact F2| |exact H|exact I]; exact P']. destruct rest.
  - destruct (remove_second _) as [ [x d]|]; [|discriminate]. injection H as <- <- <-. cbn [wr_stats] in *. pose proof (I Resets ltac:(cbn; tauto)) as X. rewrite inc_same in X. pose proof (P' Resets ltac:(cbn; tauto)). unfold inc in X. cbn in X. lia.
  - destruct (run_new c) as [i0|]; [|discriminate]. destruct (r_process c l i0) as [[? ir]|]; [|discriminate]. injection H as <- <- <-. auto.
Qed.
Lemma w_process_idle c l w cur limit w' cur' res : well_formed c -> workflow_fits c w -> w_process c l w cur limit = Some (w', cur', res) -> progressed (wr_stats res) = false -> w' = w.
Proof.
  intros W F H P. apply progressed_idle in P. unfold Workflow_Model.w_process in H. destruct (run_new_ok c W) as (n & En & Fn & _ & Cn). rewrite En in H.
  destruct (if needs_new_run w then _ else _) as [ [ [runs cur1] st]|] eqn:EY; [|discriminate].
  destruct (w_loop c l (rev runs) [] cur1 limit false (mkWresult [] st)) as [ [ [runs' cur2] res']|] eqn:EL; [|discriminate]. injection H as <- <- <-.
  assert (R : (runs = w_runs w \/ 0 < st CreatedRuns) /\ (forall k, In k keys -> 0 <= st k) /\ Forall (run_fits c) runs).
  { destruct (needs_new_run w); [|inv EY; splits; auto; unfold no_stats; intros; lia]. unfold maybe_add_run in EY. destruct (_ <=? limit); inv EY; splits; auto.
    - right. unfold inc, no_stats. cbn. lia.
    - intros k _. unfold inc, no_stats. destruct (stat_eqb _ _), (stat_eqb _ _); lia.
    - destruct (c_exec c); [constructor; auto|apply Forall_app; auto].
    - intros k _. unfold inc, no_stats. destruct (stat_eqb _ _); lia. }
  destruct R as (R1 & R2 & R3). pose proof (w_loop_below c l W _ _ _ _ _ _ _ _ _ (Forall_rev R3) EL) as B. destruct R1 as [-> | R1].
  - apply w_loop_idle in EL; auto; [|apply Forall_rev; exact F]. rewrite app_nil_r, rev_involutive in EL. subst runs'. destruct w. reflexivity.
  - exfalso. specialize (B CreatedRuns ltac:(cbn; tauto)). specialize (P CreatedRuns ltac:(cbn; tauto)). cbn [wr_stats] in B. lia.
Qed.

(** * The engine *)
Definition held_ws (ws : list workflow) : list workflow := filter (fun w => match w_runs w with [] => false | _ => true end) (map workflow_optimized ws).
Lemma held_cons w ws : held_ws (w :: ws) = (match w_runs (workflow_optimized w) with [] => [] | _ => [workflow_optimized w] end) ++ held_ws ws.
Proof. unfold held_ws. cbn [map filter]. destruct (w_runs (workflow_optimized w)); auto. Qed.
Lemma held_app a b : held_ws (a ++ b) = held_ws a ++ held_ws b.
Proof. unfold held_ws. rewrite map_app. apply filter_app. Qed.
Lemma initial_not_held w : w_initial w = true -> w_runs (workflow_optimized w) = [].
Proof.
  unfold w_initial, workflow_optimized. cbn [w_runs]. induction (w_runs w) as [|r rs IH]; cbn; auto. intros H. apply andb_true_iff in H as [H1 H2]. rewrite H1. cbn. auto.
Qed.
Lemma all_process_current cs l limit : Forall well_formed cs -> forall l1 l2, Forall2 (matched_up cs fits_runs) l1 l2 -> forall cur d ws cur' acts, all_process l (combine l1 l2) cur limit d = Some (ws, cur', false, acts) -> d = false /\ held_ws ws = held_ws l2.
Proof.
  intros W. induction 1 as [|c w l1 l2 (H1 & H2 & H3) _ IH]; intros cur d ws cur' acts H; cbn [combine WorkflowEngine_Model.all_process] in H; [inv H; auto|].
  destruct (w_process c l w cur limit) as [ [ [w' cur1] r]|] eqn:EW; [|discriminate]. cbv zeta in H. destruct (all_process l (combine l1 l2) cur1 limit _) as [ [ [ [ws1 cur2] d2] acts1]|] eqn:EA; [|discriminate]. inv H.
  apply IH in EA as [D E]. apply orb_false_iff in D as [-> D]. split; auto. rewrite !held_cons, E. f_equal. rewrite Forall_forall in W. destruct (progressed (wr_stats r)) eqn:EP.
  - cbn [andb] in D. apply negb_false_iff in D. apply andb_true_iff in D as [D1 D2]. rewrite (initial_not_held _ D1), (initial_not_held _ D2). auto.
  - rewrite (w_process_idle _ _ _ _ _ _ _ _ (W _ H1) H3 EW EP). auto.
Qed.

Lemma route_loop_quiet dests : forall l final rest b acts final' rest', route_loop dests l final rest b = (acts, final', rest', false) -> b = false /\ acts = l.
Proof.
  induction l as [|a l IH]; intros final rest b acts final' rest' H; cbn [route_loop] in H; [inv H; auto|]. destruct (inter (sa_sources a) dests).
  - destruct (route_loop dests l final rest b) as [ [ [r f] re] bb] eqn:ER. inv H. apply IH in ER as [-> ->]. auto.
  - destruct (route_loop dests l _ _ true) as [ [ [r f] re] bb] eqn:ER. inv H. apply IH in ER as [ER _]. discriminate.
Qed.
Lemma filter_length_le {A} (f : A -> bool) l : (List.length (filter f l) <= List.length l)%nat.
Proof. induction l; cbn; [lia|]. destruct (f a); cbn; lia. Qed.
Lemma streaming_quiet triggers conts l dests session d acts : process_streaming triggers conts l dests session = (d, acts, false) -> acts = map fst l.
Proof.
  unfold process_streaming. destruct (route_loop _ _ _ _ _) as [ [ [strm final] rest] rr] eqn:ER. intros H. injection H as _ <- H. apply orb_false_iff in H as [H ->]. apply route_loop_quiet in ER as [_ ->].
  apply negb_false_iff in H. apply Z.eqb_eq in H. f_equal. clear - H. unfold count in H. induction l as [|x l IH]; auto. cbn [filter] in *. destruct (keep_streaming session x).
  - f_equal. apply IH. cbn [List.length] in H. lia.
  - pose proof (filter_length_le (keep_streaming session) l). cbn [List.length] in H. lia.
Qed.

(** What the file holds of the engine; [upd]: whether a configuration update may have occurred. *)
Definition reflects (upd : bool) (y : system) : Prop :=
  let e := y_engine y in
  e_dirty e = false ->
  match y_file y with
  | Some s => sv_workflows s = held_ws (e_workflows e) /\ (sv_session s = e_session e \/ sv_session s = "") /\ (upd = false -> sv_pending s = e_pending e /\ sv_streaming s = e_streaming e)
  | None => held_ws (e_workflows e) = [] /\ (upd = false -> e_pending e = [] /\ e_streaming e = [])
  end.

Lemma enter_clean e l : e_dirty (enter_session e l) = false -> e_dirty e = false /\ e_workflows (enter_session e l) = e_workflows e /\ e_configs (enter_session e l) = e_configs e /\ e_pending (enter_session e l) = e_pending e /\ e_streaming (enter_session e l) = e_streaming e /\
  (e_session (enter_session e l) = e_session e \/ e_session e = "").
Proof.
  unfold enter_session. destruct (String.eqb_spec (e_session e) ""); [cbn; auto 10|]. destruct (String.eqb _ _); [auto 10|]. cbn. discriminate.
Qed.
Lemma process_log_current cs e l dests done e' r : Forall well_formed cs -> good cs fits_runs e -> process_log e l dests done = Some (e', r) -> e_dirty e' = false ->
  e_dirty e = false /\ held_ws (e_workflows e') = held_ws (e_workflows e) /\ e_pending e' = e_pending e /\ e_streaming e' = e_streaming e /\ (e_session e' = e_session e \/ e_session e = "").
Proof.
  intros W G H D. assert (G1 : good cs fits_runs (enter_session e l)) by (apply enter_good; auto; constructor). unfold WorkflowEngine_Model.process_log in H. cbv zeta in H.
  assert (EC := enter_clean e l). set (e1 := enter_session e l) in *. clearbody e1.
  destruct (e_workflows e1) eqn:EW; [inv H; destruct (EC D) as (E1 & E2 & E3 & E4 & E5 & E6); rewrite E4, E5; splits; auto; congruence|]. rewrite <- EW in *. clear EW.
  destruct (all_process l (combine (e_configs e1) (e_workflows e1)) (e_current e1) (e_limit e1) (e_dirty e1)) as [ [ [ [ws cur] dirty] acts]|] eqn:EA; [|discriminate].
  destruct (process_streaming _ _ _ _ _) as [ [dests' strm] changed] eqn:ES. destruct (process_flush_actions _ _ _ _ _ _) as [ [created ids] bufs]. injection H as <- <-. cbn [set_actions set_workflows e_dirty e_workflows e_pending e_streaming e_session] in *.
  apply orb_false_iff in D as [D D3]. apply orb_false_iff in D as [D1 D2]. subst dirty changed. apply (all_process_current cs l _ W _ _ G1) in EA as [D1 HW]. destruct (EC D1) as (E1 & E2 & E3 & E4 & E5 & E6).
  apply streaming_quiet in ES. rewrite map_map in ES. cbn [fst] in ES. rewrite map_id in ES. destruct created; [|discriminate]. cbn [fold_left]. rewrite E4, ES, E5. splits; auto; congruence.
Qed.
Lemma fold_add_held existing : forall l e, let e' := fold_left (fun e c => if mem (c_id c) existing then e else add_workflow e (mkWorkflow (c_id c) []) c) l e in held_ws (e_workflows e') = held_ws (e_workflows e) /\ e_dirty e' = e_dirty e /\ e_session e' = e_session e.
Proof.
  cbv zeta. induction l as [|c l IH]; intros e; cbn [fold_left]; auto. destruct (IH (if mem (c_id c) existing then e else add_workflow e (mkWorkflow (c_id c) []) c)) as (I1 & I2 & I3). rewrite I1, I2, I3. destruct (mem (c_id c) existing); auto.
  unfold add_workflow. cbn [set_workflows e_workflows e_dirty e_session w_id w_runs rev trim_runs]. rewrite held_app. splits; auto. rewrite held_cons. replace (w_runs (workflow_optimized _)) with (@nil run) by (destruct (_ <? _); reflexivity). cbn. apply app_nil_r.
Qed.
Lemma held_filter f : forall (ws : list (config * workflow)), existsb (fun x => negb (w_initial (snd x))) (filter (fun x => negb (f x)) ws) = false -> held_ws (map snd (filter f ws)) = held_ws (map snd ws).
Proof.
  induction ws as [|[c w] ws IH]; intros H; auto. cbn [filter map snd] in *. destruct (f (c, w)); cbn [negb] in H.
  - cbn [map snd]. rewrite !held_cons. f_equal. auto.
  - cbn [existsb snd] in H. apply orb_false_iff in H as [H1 H2]. apply negb_false_iff in H1. rewrite held_cons, (initial_not_held _ H1). cbn [app]. auto.
Qed.
Lemma combine_snd {A B} (R : A -> B -> Prop) l m : Forall2 R l m -> map snd (combine l m) = m.
Proof. induction 1; cbn; congruence. Qed.
Lemma update_current cs P e g : good cs P e -> e_dirty (update e g) = false -> e_dirty e = false /\ held_ws (e_workflows (update e g)) = held_ws (e_workflows e) /\ e_session (update e g) = e_session e.
Proof.
  intros G. unfold update. cbv zeta. cbn [set_actions set_resolver e_dirty e_workflows e_session].
  match goal with |- context [fold_left ?f ?l ?e0] => destruct (fold_add_held (map w_id (e_workflows e0)) l e0) as (A1 & A2 & A3); cbv zeta in A1, A2, A3; set (x := fold_left f l e0) in *; clearbody x end.
  rewrite A1, A2, A3. cbn [set_workflows e_dirty e_workflows e_session]. intros D. apply orb_false_iff in D as [D1 D2]. splits; auto. rewrite (held_filter _ _ D2). f_equal. eapply combine_snd. exact G.
Qed.
Lemma step_reflects cs upd y o y' ev : Forall well_formed cs -> good cs fits_runs (y_engine y) -> is_restart o = false -> torn_write o = false -> (upd = false -> is_update o = false) -> reflects upd y -> step y o = Some (y', ev) -> reflects upd y'.
Proof.
  intros W G NR NT NU R H. unfold reflects in *. cbv zeta in *. destruct o; cbn [is_restart torn_write is_update WorkflowEngine_Model.step] in *; try discriminate.
  - destruct (process_log _ _ _ _) as [[e' r]|] eqn:E; [|discriminate]. inv H. cbn [y_engine y_file]. intros D. destruct (process_log_current _ _ _ _ _ _ _ W G E D) as (D0 & H1 & H2 & H3 & H4). specialize (R D0). rewrite H1, H2, H3.
    destruct (y_file y); auto. destruct R as (R1 & R2 & R3). splits; auto. destruct H4 as [-> | H4]; auto. right. destruct R2; congruence.
  - destruct (e_input (y_engine y)) as [|p rest]; [inv H; auto|]. destruct (_ <? _)%nat; [|inv H; auto]. destruct (negotiate (y_rejected y) p d) as [rej out]. inv H. exact R.
  - destruct (y_outputs y) as [|[p|p] rest]; inv H; auto; cbn; discriminate.
  - inv H. exact R.
  - inv H. exact R.
  - inv H. cbn [y_engine y_file]. intros D. destruct (update_current _ _ _ _ G D) as (D0 & H1 & H2). specialize (R D0). rewrite H1, H2. destruct upd; [|specialize (NU eq_refl); discriminate].
    destruct (y_file y); splits; try tauto; discriminate.
  - subst torn. destruct (e_dirty (y_engine y)) eqn:ED; inv H; cbn [y_engine y_file]; [intros _; splits; auto|intros _; exact (R eq_refl)].
Qed.

Lemma run_reflects g limit ops y ev : Forall well_formed (all_given g ops) -> existsb is_restart ops = false -> existsb torn_write ops = false -> run_ops (system_new g limit) ops = Some (y, ev) -> reflects (existsb is_update ops) y.
Proof.
  intros W NR NT H.
  assert (X : forall l2 l1 y0 y' ev', ops = l1 ++ l2 -> sys_good (all_given g ops) fits_runs false y0 -> reflects (existsb is_update ops) y0 -> run_ops y0 l2 = Some (y', ev') -> reflects (existsb is_update ops) y').
  { induction l2 as [|o l2 IH]; intros l1 y0 y' ev' E G R HR; cbn [WorkflowEngine_Model.run_ops] in HR; [inv HR; auto|].
    destruct (step y0 o) as [[y1 ev1]|] eqn:ES; [|discriminate]. destruct (run_ops y1 l2) as [[y2 ev2]|] eqn:ER; [|discriminate]. inv HR.
    rewrite existsb_app in NR, NT. cbn [existsb] in NR, NT. apply orb_false_iff in NR as [_ NR]. apply orb_false_iff in NR as [NR _]. apply orb_false_iff in NT as [_ NT]. apply orb_false_iff in NT as [NT _].
    apply (IH (l1 ++ [o]) y1 y' ev2); auto; [rewrite <- app_assoc; auto| |].
    - eapply (step_good re_match to_i32 sha f64 (all_given g (l1 ++ o :: l2)) fits_runs (fun _ _ _ => True)) with (restarts := false); [intros; apply Forall_nil|apply fits_prefix|intros; apply fits_filter; auto| |discriminate| | |exact G|exact ES].
      + intros c l w cur lim w' cur' res Hc F Hw. split; [|apply Forall_forall; auto]. eapply (fits_step re_match to_i32 sha); eauto. rewrite Forall_forall in W. auto.
      + intros x Hx. unfold all_given. apply in_or_app. right. rewrite flat_map_app. apply in_or_app. right. cbn [flat_map]. apply in_or_app. auto.
      + intros X. rewrite NR in X. discriminate.
    - eapply step_reflects; [exact W|exact (proj1 G)|exact NR|exact NT| |exact R|exact ES]. rewrite existsb_app. cbn [existsb]. destruct (is_update o); auto. rewrite orb_true_r. auto. }
  eapply (X ops []); [reflexivity| | |exact H].
  - split; [|discriminate]. cbn [system_new y_engine]. apply start_good; auto; [constructor|apply fits_prefix|]. intros x Hx. apply in_or_app. auto.
  - unfold reflects. cbv zeta. intros _. cbn [system_new y_engine y_file]. unfold start. cbv zeta. cbn [set_actions e_workflows e_pending e_streaming].
    assert (A : forall cs e, let e' := add_workflows e cs [] in held_ws (e_workflows e') = held_ws (e_workflows e) /\ e_pending e' = e_pending e /\ e_streaming e' = e_streaming e).
    { cbv zeta. induction cs as [|c cs IH]; intros e; cbn [add_workflows last_workflow without filter]; auto. destruct (IH (add_workflow e (mkWorkflow (c_id c) []) c)) as (I1 & I2 & I3). rewrite I1, I2, I3.
      unfold add_workflow. cbn [set_workflows e_workflows e_pending e_streaming w_id w_runs rev trim_runs]. rewrite held_app. splits; auto. rewrite held_cons. replace (w_runs (workflow_optimized _)) with (@nil run) by (destruct (_ <? _); reflexivity). cbn. apply app_nil_r. }
    destruct (A (g_workflows g) (set_resolver (engine_new limit) (g_triggers g) (g_conts g))) as (A1 & A2 & A3). cbv zeta in A1, A2, A3. rewrite A1, A2, A3. cbn. auto.
Qed.

Lemma file_current g limit ops y ev : let e := y_engine y in
  Forall well_formed (all_given g ops) -> existsb is_restart ops = false -> existsb torn_write ops = false -> run_ops (system_new g limit) ops = Some (y, ev) -> e_dirty e = false ->
  match y_file y with
  | Some s => sv_workflows s = sv_workflows (state_optimized e) /\ (sv_session s = e_session e \/ sv_session s = "") /\ (existsb is_update ops = false -> sv_pending s = e_pending e /\ sv_streaming s = e_streaming e)
  | None => sv_workflows (state_optimized e) = [] /\ (existsb is_update ops = false -> e_pending e = [] /\ e_streaming e = [])
  end.
Proof. intros e W NR NT H D. exact (run_reflects g limit ops y ev W NR NT H D). Qed.
End File.
