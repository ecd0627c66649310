(** Streaming and negotiation of flush actions. *)
From Verif Require Import Base Str_Base Log_Model LogMatcher_Model BufferMatcher_Model Matcher_Proofs Workflow_Model Workflow_Spec Workflow_Proofs WorkflowEngine_Model WorkflowEngine_Spec WorkflowEngine_Proofs WorkflowRestore_Proofs WorkflowEqual_Proofs.
Local Open Scope string_scope. Local Open Scope list_scope. Local Open Scope Z_scope.

Lemma union_in d : forall b a, In d (union a b) <-> In d a \/ In d b.
Proof. unfold union. induction b as [|x b IH]; intros a; cbn [fold_left In]; [tauto|]. rewrite IH, (set_insert_in (fun _ => true) (fun _ _ => true) (fun _ => None)). split; intros H; decompose [or] H; subst; auto. Qed.
Lemma inter_in d a b : In d (inter a b) <-> In d a /\ In d b.
Proof. unfold inter. rewrite filter_In, mem_in. tauto. Qed.
Lemma routesb_true a dests : routesb a dests = true <-> routes a dests.
Proof. unfold routesb, routes. rewrite existsb_exists. split; intros (d & H1 & H2); exists d; rewrite mem_in in *; auto. Qed.
Lemma inter_routes a dests : inter (sa_sources a) dests = [] <-> routesb a dests = false.
Proof.
  split.
  - intros H. destruct (routesb a dests) eqn:E; auto. apply routesb_true in E as (d & H1 & H2). assert (In d (inter (sa_sources a) dests)) by (apply inter_in; auto). rewrite H in H0. destruct H0.
  - intros H. destruct (inter (sa_sources a) dests) as [|d t] eqn:E; auto. assert (X : In d (inter (sa_sources a) dests)) by (rewrite E; now left). apply inter_in in X as [X1 X2]. assert (routesb a dests = true) by (apply routesb_true; exists d; auto). congruence.
Qed.
Lemma counted_sources a : sa_sources (counted a) = sa_sources a. Proof. reflexivity. Qed.

Lemma route_loop_spec dests : forall l final rest b acts final' rest' b', route_loop dests l final rest b = (acts, final', rest', b') ->
  acts = map (fun a => if routesb a dests then counted a else a) l /\
  (forall d, In d final' <-> In d final \/ exists a, In a l /\ routes a dests /\ In d (sa_dests a)) /\
  (incl rest dests -> forall d, In d rest' <-> In d rest /\ ~ exists a, In a l /\ In d (sa_sources a)).
Proof.
  induction l as [|a l IH]; intros final rest b acts final' rest' b' H; cbn [route_loop] in H.
  - inv H. splits; auto; [intros; split; [auto|intros [X|(a & [] & _)]; auto]|intros _ d; split; [intros X; split; [auto|intros (a & [] & _)]|tauto] ].
  - destruct (inter (sa_sources a) dests) as [|h t] eqn:EI.
    + destruct (route_loop dests l final rest b) as [ [ [r f] re] bb] eqn:ER. inv H. destruct (IH _ _ _ _ _ _ _ ER) as (I1 & I2 & I3). assert (N := proj1 (inter_routes a dests) EI). cbn [map]. rewrite N. splits.
      * congruence.
      * intros d. rewrite I2. split; intros [X|(x & X1 & X2)]; auto; [right; exists x; split; [now right|auto]|]. destruct X1 as [<-|X1]; [exfalso; destruct X2 as [X2 _]; apply routesb_true in X2; congruence|right; eauto].
      * intros Inc d. rewrite (I3 Inc). split; intros [X1 X2]; split; auto; intros (x & Y1 & Y2); apply X2; [|exists x; split; [now right|auto] ].
        destruct Y1 as [<-|Y1]; [exfalso|eauto]. assert (routesb a dests = true) by (apply routesb_true; exists d; auto). congruence.
    + assert (N : routesb a dests = true). { destruct (routesb a dests) eqn:N; auto. apply inter_routes in N. congruence. }
      set (hit := h :: t) in *. destruct (route_loop dests l _ _ true) as [ [ [r f] re] bb] eqn:ER. inv H. destruct (IH _ _ _ _ _ _ _ ER) as (I1 & I2 & I3). cbn [map]. rewrite N. splits.
      * rewrite I1. reflexivity.
      * intros d. rewrite I2, union_in. split.
        -- intros [ [X|X]|(x & X1 & X2)]; auto; right; [exists a; splits; auto; [now left|apply routesb_true; auto]|exists x; split; [now right|auto] ].
        -- intros [X|(x & [<-|X1] & X2 & X3)]; auto. right. eauto.
      * intros Inc d. rewrite I3 by (intros x Hx; apply filter_In in Hx as [Hx _]; auto). rewrite filter_In. rewrite negb_true_iff. split.
        -- intros [ [X1 X2] X3]. split; auto. intros (x & [<-|Y1] & Y2); [|eauto]. assert (mem d hit = true) by (apply mem_in; rewrite <- EI; apply inter_in; auto). congruence.
        -- intros [X1 X2]. splits; auto; [|intros (x & Y1 & Y2); apply X2; exists x; split; [now right|auto] ]. destruct (mem d hit) eqn:EM; auto. apply mem_in in EM. rewrite <- EI in EM. apply inter_in in EM as [EM _]. exfalso. apply X2. exists a. split; [now left|auto].
Qed.

Section Actions.
Variables (re_match : string -> string -> bool) (to_i32 : string -> option Z) (sha : string -> string) (f64 : string -> option Z).
Notation t_process := (t_process re_match to_i32 sha).
Notation w_process := (w_process re_match to_i32 sha).
Notation all_process := (all_process re_match to_i32 sha).
Notation process_log := (process_log re_match to_i32 sha f64).
Notation step := (step re_match to_i32 sha f64).
Notation run_ops := (run_ops re_match to_i32 sha f64).
Notation feed := (feed re_match to_i32 sha f64).

Lemma enter_fixed e l : let e1 := enter_session e l in
  e_session e1 = l_session l /\ e_streaming e1 = e_streaming e /\ e_pending e1 = e_pending e /\ e_input e1 = e_input e /\ e_triggers e1 = e_triggers e /\ e_conts e1 = e_conts e /\ e_flushes e1 = e_flushes e /\
  e_configs e1 = e_configs e /\ (e_workflows e1 = [] <-> e_workflows e = []) /\ List.length (e_workflows e1) = List.length (e_workflows e).
Proof.
  cbv zeta. unfold enter_session. destruct (String.eqb (e_session e) "") eqn:E1; [cbn; splits; auto; tauto|]. destruct (String.eqb (e_session e) (l_session l)) eqn:E2; [apply String.eqb_eq in E2; splits; auto; tauto|].
  cbn. splits; auto; [destruct (e_workflows e); cbn; split; intros X; congruence|apply map_length].
Qed.

Lemma all_process_length l : forall cs ws cur limit d ws' cur' b acts, List.length cs = List.length ws -> all_process l (combine cs ws) cur limit d = Some (ws', cur', b, acts) -> List.length ws' = List.length ws.
Proof.
  induction cs as [|c cs IH]; intros [|w ws] cur limit d ws' cur' b acts L H; cbn [List.length combine WorkflowEngine_Model.all_process] in *; try discriminate; [inv H; auto|].
  destruct (w_process _ _ _ _ _) as [ [ [? ?] ?]|]; [|discriminate]. cbv zeta in H. destruct (all_process _ _ _ _ _) as [ [ [ [? ?] ?] ?]|] eqn:E; [|discriminate]. inv H. apply IH in E; [cbn; lia|lia].
Qed.

Definition ends_now (e : engine) (session : string) (done : nat -> bool) (a : streaming) : bool :=
  flush_complete e done (sa_id a) && (negb (String.eqb (sa_session a) session) || match sa_max a with Some n => (n <=? sa_count a)%N | None => false end).
Lemma kept_fixed e session done l : map fst (filter (keep_streaming session) (map (fun a => (a, flush_complete e done (sa_id a))) l)) = filter (fun a => negb (ends_now e session done a)) l.
Proof.
  induction l as [|a l IH]; cbn [map List.filter]; auto. unfold keep_streaming at 1, ends_now at 1. cbn [fst snd]. unfold terminates. rewrite (andb_comm (_ || _)), (orb_comm _ (negb _)). destruct (negb _); cbn [map fst]; congruence.
Qed.
Lemma process_log_streaming e l dests done e' r : process_log e l dests done = Some (e', r) -> e_workflows e <> [] ->
  let kept := filter (fun a => negb (ends_now e (l_session l) done a)) (e_streaming e) in
  e_streaming e' = map (fun a => if routesb a dests then counted a else a) kept /\ e_conts e' = e_conts e /\ e_triggers e' = e_triggers e /\ e_flushes e' = e_flushes e /\ (List.length (e_configs e) = List.length (e_workflows e) -> List.length (e_configs e') = List.length (e_workflows e') /\ e_workflows e' <> []) /\
  forall d, In d (o_dests r) <-> (exists a, In a kept /\ routes a dests /\ In d (sa_dests a)) \/ (In d dests /\ known e d /\ ~ exists a, In a kept /\ In d (sa_sources a)).
Proof.
  intros H NW. cbv zeta. rewrite process_log_finish in H. cbv zeta in H. destruct (enter_fixed e l) as (E1 & E2 & E3 & E4 & E5 & E6 & E7 & E8 & E9 & E10). cbv zeta in *. set (e1 := enter_session e l) in *. clearbody e1.
  destruct (e_workflows e1) as [|w0 ws0] eqn:EW; [exfalso; apply NW; tauto|]. rewrite <- EW in H.
  destruct (all_process l _ _ _ _) as [ [ [ [ws cur] b] acts]|] eqn:EA; [|discriminate]. injection H as H. unfold finish in H. cbv zeta in H. cbn [set_workflows e_configs e_triggers e_conts e_session e_streaming e_pending e_dirty e_input] in H.
  assert (FC : forall x y z w d n, flush_complete (set_workflows e1 x y z w) d n = flush_complete e d n) by (intros; unfold flush_complete; cbn; rewrite E7; auto).
  unfold process_streaming in H. rewrite (map_ext _ (fun a => (a, flush_complete e done (sa_id a)))) in H by (intros; rewrite FC; auto). rewrite kept_fixed in H. rewrite E1, E2, E5, E6 in H.
  destruct (route_loop _ _ _ _ _) as [ [ [strm final] rest] rr] eqn:ER. destruct (process_flush_actions _ _ _ _ _ _) as [ [created ids] bufs]. injection H as <- <-. cbn [set_actions set_workflows e_streaming e_conts e_triggers e_flushes o_dests e_workflows].
  apply route_loop_spec in ER as (R1 & R2 & R3). splits; auto.
  - intros L. cbn [e_configs]. assert (L1 : List.length (e_configs e1) = List.length (e_workflows e1)) by (rewrite E8, EW, E10; auto). apply all_process_length in EA; auto. rewrite <- EA in L1. split; auto. intros ->. rewrite EW in EA. discriminate.
  - intros d. rewrite union_in, R2, R3 by (intros x Hx; apply filter_In in Hx as [Hx _]; auto). rewrite filter_In, orb_true_iff, !mem_in. unfold known. cbn [In]. intuition.
Qed.

Lemma lives_cons complete a l dests done ls : lives complete a ((l, dests, done) :: ls) =
  if complete done && (negb (String.eqb (sa_session a) (l_session l)) || match sa_max a with Some n => (n <=? sa_count a)%N | None => false end) then (None, 0%nat)
  else if routesb a dests then let (b, n) := lives complete (counted a) ls in (b, S n) else lives complete a ls.
Proof. reflexivity. Qed.
Definition completes (e : engine) (a : streaming) (done : nat -> bool) : bool := flush_complete e done (sa_id a).
Lemma lives_ext f g : (forall d, f d = g d) -> forall ls a, lives f a ls = lives g a ls.
Proof. intros E. induction ls as [|[ [l d] dn] ls IH]; intros a; cbn [lives]; auto. rewrite E, !IH. auto. Qed.
Lemma catSomes_map_filter {A B} (f : A -> option B) (g : A -> bool) (h : A -> A) (l : list A) (f' : A -> option B) :
  (forall a, f a = if g a then f' (h a) else None) -> catSomes (map f l) = catSomes (map f' (map h (filter g l))).
Proof. intros E. induction l as [|a l IH]; cbn [map List.filter]; auto. rewrite E. destruct (g a); cbn [map catSomes]; [destruct (f' (h a)); congruence|auto]. Qed.
Lemma feed_lives : forall ls e e' rs, List.length (e_configs e) = List.length (e_workflows e) -> e_workflows e <> [] -> feed e ls = Some (e', rs) ->
  e_streaming e' = catSomes (map (fun a => fst (lives (completes e a) a ls)) (e_streaming e)).
Proof.
  induction ls as [|[ [l d] dn] ls IH]; intros e e' rs L N H; cbn [WorkflowEngine_Spec.feed] in H.
  - inv H. cbn [lives fst]. induction (e_streaming e') as [|a l IH]; cbn [map catSomes]; auto. congruence.
  - destruct (process_log e l d dn) as [[e1 r]|] eqn:EP; [|discriminate]. destruct (feed e1 ls) as [[e2 rs2]|] eqn:EF; [|discriminate]. inv H.
    destruct (process_log_streaming _ _ _ _ _ _ EP N) as (P1 & P2 & P3 & P4 & P5 & P6). cbv zeta in *. destruct (P5 L) as [L1 N1]. rewrite (IH _ _ _ L1 N1 EF), P1. symmetry.
    apply catSomes_map_filter. intros a. rewrite lives_cons. unfold ends_now, completes. 
    destruct (flush_complete e dn (sa_id a) && _); cbn [negb]; auto.
    assert (C : forall x, sa_id x = sa_id a -> forall dd, flush_complete e dd (sa_id a) = flush_complete e1 dd (sa_id x)) by (intros x Hx dd; rewrite Hx; unfold flush_complete; rewrite P4; auto).
    destruct (routesb a d).
    + rewrite (lives_ext _ _ (C (counted a) eq_refl)). destruct (lives _ (counted a) ls). reflexivity.
    + rewrite (lives_ext _ _ (C a eq_refl)). reflexivity.
Qed.
(** The limit. *)
Lemma lives_limit f n : forall ls a, sa_max a = Some n -> (forall l d dn, In (l, d, dn) ls -> f dn = true) -> (N.of_nat (snd (lives f a ls)) <= n - sa_count a)%N.
Proof.
  induction ls as [|[ [l d] dn] ls IH]; intros a M C; [cbn; lia|]. rewrite lives_cons, (C l d dn (or_introl eq_refl)), M. cbn [andb]. assert (C' : forall l d dn, In (l, d, dn) ls -> f dn = true) by (intros; eapply C; right; eauto).
  destruct (negb _ || (n <=? sa_count a)%N) eqn:E; [cbn; lia|]. apply orb_false_iff in E as [_ E]. apply N.leb_gt in E. destruct (routesb a d); [|apply IH; auto].
  specialize (IH (counted a) M C'). destruct (lives f (counted a) ls) as [b m]. cbn [snd sa_count counted] in *. lia.
Qed.
(** The number of re-routed logs, and the sessions. *)
Lemma lives_count f : forall ls a, match fst (lives f a ls) with Some b => b = mkStreamingAction (sa_id a) (sa_session a) (sa_sources a) (sa_dests a) (sa_max a) (sa_count a + N.of_nat (snd (lives f a ls))) | None => True end.
Proof.
  induction ls as [|[ [l d] dn] ls IH]; intros a; [cbn; rewrite N.add_0_r; destruct a; auto|]. rewrite lives_cons. destruct (_ && _); [exact I|]. destruct (routesb a d); [|apply IH].
  specialize (IH (counted a)). destruct (lives f (counted a) ls) as [[b|] m]; cbn [fst snd] in *; auto. rewrite IH. unfold counted. cbn [sa_id sa_session sa_sources sa_dests sa_max sa_count]. f_equal. lia.
Qed.
Lemma lives_session f : forall ls a l d dn, In (l, d, dn) ls -> f dn = true -> l_session l <> sa_session a -> fst (lives f a ls) = None.
Proof.
  induction ls as [|[ [l d] dn] ls IH]; intros a l0 d0 dn0 H F S; [destruct H|]. rewrite lives_cons. destruct H as [H|H].
  - inv H. rewrite F. assert (E : String.eqb (sa_session a) (l_session l0) = false) by (apply String.eqb_neq; auto). rewrite E. reflexivity.
  - destruct (_ && _); auto. destruct (routesb a d); [|eapply IH; eauto]. assert (X := IH (counted a) l0 d0 dn0 H F S). destruct (lives f (counted a) ls). exact X.
Qed.

(** * Each streaming action has a configured destination *)
Lemma standardize_routable t c l a : In a (standardize_streaming t c l) -> exists d, In d (sa_dests a) /\ In d c.
Proof.
  unfold standardize_streaming. intros H. apply catSomes_in in H. apply in_map_iff in H as (s & E & _). destruct (inter (sa_sources s) t) as [|x xs]; [discriminate|]. destruct (inter (sa_dests s) c) as [|y ys] eqn:EI; [discriminate|]. inv E. cbn [sa_dests].
  exists y. split; [now left|]. assert (X : In y (inter (sa_dests s) c)) by (rewrite EI; now left). apply inter_in in X. tauto.
Qed.
Lemma add_workflow_actions e w c : e_streaming (add_workflow e w c) = e_streaming e /\ e_conts (add_workflow e w c) = e_conts e /\ e_triggers (add_workflow e w c) = e_triggers e /\ e_pending (add_workflow e w c) = e_pending e /\ e_input (add_workflow e w c) = e_input e.
Proof. unfold add_workflow. cbn. splits; auto. Qed.
Lemma add_workflows_actions : forall cs e ws, let e' := add_workflows e cs ws in e_streaming e' = e_streaming e /\ e_conts e' = e_conts e /\ e_triggers e' = e_triggers e /\ e_pending e' = e_pending e /\ e_input e' = e_input e.
Proof.
  induction cs as [|c cs IH]; intros e ws; cbn [add_workflows]; cbv zeta in *; [splits; auto|].
  match goal with |- context [add_workflow e ?w c] => destruct (add_workflow_actions e w c) as (A1 & A2 & A3 & A4 & A5); destruct (IH (add_workflow e w c) (without (c_id c) ws)) as (B1 & B2 & B3 & B4 & B5) end. splits; congruence.
Qed.
Lemma start_actions limit g st : let e := start (engine_new limit) g st in
  e_conts e = g_conts g /\ e_triggers e = g_triggers g /\ e_pending e = match st with Some s => standardize_pending (g_triggers g) (sv_pending s) | None => [] end /\
  e_streaming e = match st with Some s => standardize_streaming (g_triggers g) (g_conts g) (sv_streaming s) | None => [] end /\ e_input e = firstn INPUT_CAPACITY (e_pending e).
Proof.
  cbv zeta. unfold start. cbv zeta. destruct st as [s|]; cbn [set_actions e_streaming e_conts e_triggers e_pending e_input];
    match goal with |- context [add_workflows ?e0 ?cs ?ws] => destruct (add_workflows_actions cs e0 ws) as (A1 & A2 & A3 & A4 & A5); set (x := add_workflows e0 cs ws) in *; clearbody x end; cbv zeta in *; rewrite A1, A2, A3, A4, A5; splits; auto.
Qed.
Lemma update_actions e g : let e' := update e g in
  e_conts e' = g_conts g /\ e_triggers e' = g_triggers g /\ e_pending e' = standardize_pending (g_triggers g) (e_pending e) /\ e_streaming e' = standardize_streaming (g_triggers g) (g_conts g) (e_streaming e) /\ e_input e' = e_input e.
Proof.
  cbv zeta. unfold update. cbv zeta. cbn [set_actions set_resolver e_streaming e_conts e_triggers e_pending e_input].
  assert (X : forall ex cs e1, let e' := fold_left (fun e c => if mem (c_id c) ex then e else add_workflow e (mkWorkflow (c_id c) []) c) cs e1 in e_streaming e' = e_streaming e1 /\ e_pending e' = e_pending e1 /\ e_input e' = e_input e1).
  { intros ex. induction cs as [|c cs IH]; intros e1; cbv zeta in *; cbn [fold_left]; auto. destruct (mem _ _); auto. destruct (add_workflow_actions e1 (mkWorkflow (c_id c) []) c) as (A1 & _ & _ & A4 & A5). destruct (IH (add_workflow e1 (mkWorkflow (c_id c) []) c)) as (B1 & B2 & B3). splits; congruence. }
  match goal with |- context [fold_left (fun e c => if mem (c_id c) ?ex then e else add_workflow e (mkWorkflow (c_id c) []) c) ?cs ?e0] => destruct (X ex cs e0) as (X1 & X2 & X3) end. cbv zeta in *. rewrite X1, X2, X3. cbn. splits; auto.
Qed.
Lemma approved_actions e p done : let e' := on_approved e p done in
  e_conts e' = e_conts e /\ e_triggers e' = e_triggers e /\ e_pending e' = remove pending_dec p (e_pending e) /\ e_input e' = e_input e /\
  e_streaming e' = match streaming_action_new p (e_conts e) with Some s => e_streaming e ++ [s] | None => e_streaming e end.
Proof. cbv zeta. unfold on_approved. cbv zeta. match goal with |- context [if ?b then _ else e] => destruct b end; [destruct (_ <? _)%nat|]; cbn; splits; auto. Qed.

Lemma step_routable y o y' ev : routable (y_engine y) -> step y o = Some (y', ev) -> routable (y_engine y').
Proof.
  intros R H. destruct o; cbn [WorkflowEngine_Model.step] in H.
  - destruct (process_log _ _ _ _) as [[e' r]|] eqn:E; [|discriminate]. inv H. cbn [y_engine]. destruct (e_workflows (y_engine y)) as [|w0 ws0] eqn:EW.
    + rewrite process_log_finish in E. cbv zeta in E. destruct (enter_fixed (y_engine y) l) as (_ & E2 & _ & _ & _ & E6 & _ & _ & E9 & _). cbv zeta in *. rewrite (proj2 E9 EW) in E. inv E. unfold routable. rewrite E2, E6. exact R.
    + assert (NW : e_workflows (y_engine y) <> []) by (rewrite EW; discriminate). destruct (process_log_streaming _ _ _ _ _ _ E NW) as (P1 & P2 & _). cbv zeta in *. unfold routable. rewrite P1, P2. intros a Ha. apply in_map_iff in Ha as (b & <- & Hb). apply filter_In in Hb as [Hb _]. destruct (R b Hb) as (d0 & D). exists d0. destruct (routesb b dests); exact D.
  - destruct (e_input (y_engine y)) as [|p rest]; [inv H; auto|]. destruct (_ <? _)%nat; [|inv H; auto]. destruct (negotiate _ _ _). inv H. exact R.
  - destruct (y_outputs y) as [|[p|p] rest]; inv H; auto; cbn [y_engine]; try exact R. destruct (approved_actions (y_engine y) p (is_done (y_done y))) as (A1 & _ & _ & _ & A5). cbv zeta in *. unfold routable. rewrite A1, A5.
    unfold streaming_action_new. destruct (pa_streaming p) as [s|]; [|exact R]. destruct (inter (sc_dest s) (e_conts (y_engine y))) as [|d0 ds] eqn:EI; [exact R|]. intros a Ha. apply in_app_or in Ha as [Ha|[<-|[] ] ]; [apply R; auto|]. cbn [sa_dests].
    exists d0. assert (X : In d0 (inter (sc_dest s) (e_conts (y_engine y)))) by (rewrite EI; now left). apply inter_in in X. exact X.
  - inv H. exact R.
  - inv H. exact R.
  - inv H. cbn [y_engine]. destruct (update_actions (y_engine y) g) as (U1 & _ & _ & U4 & _). cbv zeta in *. unfold routable. rewrite U1, U4. apply standardize_routable.
  - destruct (e_dirty _); inv H; exact R.
  - inv H. cbn [y_engine]. destruct (start_actions limit g (y_file y)) as (S1 & _ & _ & S4 & _). cbv zeta in *. unfold routable. rewrite S1, S4. destruct (y_file y); [apply standardize_routable|intros a []].
Qed.
Lemma run_routable g limit ops y ev : run_ops (system_new g limit) ops = Some (y, ev) -> routable (y_engine y).
Proof.
  intros H. assert (X : forall ops y0 ev, routable (y_engine y0) -> run_ops y0 ops = Some (y, ev) -> routable (y_engine y)).
  { clear. induction ops as [|o ops IH]; intros y0 ev R H; cbn [WorkflowEngine_Model.run_ops] in H; [inv H; auto|]. destruct (step y0 o) as [[y1 ev1]|] eqn:ES; [|discriminate]. destruct (run_ops y1 ops) as [[y2 ev2]|] eqn:ER; [|discriminate]. injection H as -> <-. eapply IH; [|exact ER]. eapply step_routable; eauto. }
  eapply X; [|exact H]. cbn [system_new y_engine]. destruct (start_actions limit g None) as (_ & _ & _ & S4 & _). cbv zeta in *. unfold routable. rewrite S4. intros a [].
Qed.
Lemma log_keeps_destination e l dests done e' r d : routable e -> process_log e l dests done = Some (e', r) -> In d dests -> known e d -> exists d', In d' (o_dests r) /\ known e d'.
Proof.
  intros R H D K. destruct (e_workflows e) as [|w0 ws0] eqn:EW.
  - rewrite process_log_finish in H. cbv zeta in H. destruct (enter_fixed e l) as (_ & _ & _ & _ & _ & _ & _ & _ & E9 & _). cbv zeta in *. rewrite (proj2 E9 EW) in H. inv H. cbn [o_dests]. eauto.
  - assert (NW : e_workflows e <> []) by (rewrite EW; discriminate). destruct (process_log_streaming _ _ _ _ _ _ H NW) as (_ & _ & _ & _ & _ & P6). cbv zeta in *. set (kept := filter _ _) in *.
    destruct (existsb (fun a => mem d (sa_sources a)) kept) eqn:EX.
    + apply existsb_exists in EX as (a & A1 & A2). apply mem_in in A2. assert (A3 : In a (e_streaming e)) by (apply filter_In in A1; tauto). destruct (R a A3) as (d' & D1 & D2). exists d'. split; [|right; auto]. apply P6. left. exists a. splits; auto. exists d. auto.
    + exists d. split; auto. apply P6. right. splits; auto. intros (a & A1 & A2). assert (existsb (fun a => mem d (sa_sources a)) kept = true) by (apply existsb_exists; exists a; split; [auto|apply mem_in; auto]). congruence.
Qed.
End Actions.
