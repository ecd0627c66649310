(** The actions of a transition are carried out at the match the transition waits for. *)
From Verif Require Import Base Str_Base Log_Model LogMatcher_Model BufferMatcher_Model Matcher_Proofs Workflow_Model Workflow_Spec Workflow_Proofs WorkflowEngine_Model WorkflowEngine_Spec WorkflowEngine_Proofs WorkflowRestore_Proofs.
Local Open Scope string_scope. Local Open Scope list_scope. Local Open Scope Z_scope.

Section Fires.
Variables (re_match : string -> string -> bool) (to_i32 : string -> option Z) (sha : string -> string) (f64 : string -> option Z).
Notation hit := (hit re_match to_i32). Notation hits := (hits re_match to_i32). Notation due := (due re_match to_i32).
Notation t_process := (t_process re_match to_i32 sha).
Notation r_loop := (r_loop re_match to_i32 sha).
Notation r_process := (r_process re_match to_i32 sha).
Notation w_loop := (w_loop re_match to_i32 sha).
Notation w_process := (w_process re_match to_i32 sha).
Notation all_process := (all_process re_match to_i32 sha).
Notation process_log := (process_log re_match to_i32 sha f64).
Notation roomy := (roomy re_match to_i32 sha).
Notation undisturbed := (undisturbed re_match to_i32).
Notation calm := (calm re_match to_i32 sha f64).
Notation feed := (feed re_match to_i32 sha f64).

Definition no_limits (c : config) : Prop := c_matched c = None /\ c_duration c = None.

(** * Runs *)
Lemma r_loop_keeps c l : no_limits c -> forall rest done matched first acts cr ad co rm r' rr, r_loop c l rest done matched first acts cr ad co rm = Some (r', rr) ->
  rr_state rr = match r_traversals r' with [] => Completed | _ => Running end /\ incl acts (rr_actions rr) /\ incl done (r_traversals r') /\ (rm <= rr_matched rr)%N /\
  forall t, In t rest -> exists t' res, t_process c l t = Some (t', res) /\ incl (res_actions res) (rr_actions rr) /\ (res_matched res <= rr_matched rr)%N /\
    (res_followed res = 0%N -> In t' (r_traversals r')) /\ (res_followed res <> 0%N -> incl (res_out res) (r_traversals r')).
Proof.
  intros [NM ND]. induction rest as [|t rest IH]; intros done matched first acts cr ad co rm r' rr H; cbn [Workflow_Model.r_loop] in H.
  - inv H. cbn [rr_state r_traversals rr_actions rr_matched]. splits; auto; try apply incl_refl; [lia|]. intros t [].
  - destruct (t_process c l t) as [[t' res]|] eqn:ET; [|discriminate]. cbv zeta in H. unfold over_matched, over_duration in H. rewrite NM, ND in H. cbn [orb] in H.
    destruct (res_followed res =? 0)%N eqn:EF; apply IH in H; destruct H as (H1 & H2 & H3 & H4 & H5); splits; auto; try lia.
    + intros x Hx. apply H2. apply in_or_app. auto.
    + intros x Hx. apply H3. now right.
    + intros x [<-|Hx]; [|auto]. exists t', res. apply N.eqb_eq in EF. splits; [auto|intros x Hx; apply H2; apply in_or_app; auto|lia|intros _; apply H3; now left|intros X; congruence].
    + intros x Hx. apply H2. apply in_or_app. auto.
    + intros x Hx. apply H3. apply in_or_app. auto.
    + intros x [<-|Hx]; [|auto]. exists t', res. apply N.eqb_neq in EF. splits; [auto|intros x Hx; apply H2; apply in_or_app; auto|lia|intros X; congruence|intros _ x Hx; apply H3; apply in_or_app; auto].
Qed.
Lemma r_process_keeps c l r r' rr t : no_limits c -> r_process c l r = Some (r', rr) -> In t (r_traversals r) ->
  rr_state rr = match r_traversals r' with [] => Completed | _ => Running end /\
  exists t' res, t_process c l t = Some (t', res) /\ incl (res_actions res) (rr_actions rr) /\ (res_matched res <= rr_matched rr)%N /\
    (res_followed res = 0%N -> In t' (r_traversals r')) /\ (res_followed res <> 0%N -> incl (res_out res) (r_traversals r')).
Proof. intros N H T. unfold Workflow_Model.r_process in H. destruct (r_loop_keeps _ _ N _ _ _ _ _ _ _ _ _ _ _ H) as (H1 & _ & _ & _ & H5). split; auto. apply H5. now apply -> in_rev. Qed.

(** * Workflows *)
Lemma w_loop_keeps c l : c_exec c = Parallel -> forall rest done cur limit p res runs cur' res', w_loop c l rest done cur limit p res = Some (runs, cur', res') ->
  incl (wr_actions res) (wr_actions res') /\ incl done runs /\
  forall r, In r rest -> exists r' rr, r_process c l r = Some (r', rr) /\ incl (rr_actions rr) (wr_actions res') /\ (wr_stats res' LimitHits <= wr_stats res LimitHits -> rr_state rr = Running -> In r' runs).
Proof.
  intros X. induction rest as [|r rest IH]; intros done cur limit p res runs cur' res' H; [cbn in H; inv H; splits; auto; try apply incl_refl; intros r []|]. rewrite w_loop_cons in H.
  destruct (r_process c l r) as [[r' rr]|] eqn:ER; [|discriminate]. cbv zeta in H. destruct (decide_run r' rr _ limit p _) as [ [ [kept cur1] p'] st'] eqn:ED. rewrite X in H.
  pose proof (w_loop_hits _ _ _ _ _ _ _ _ _ _ _ _ _ _ H) as MH. pose proof (decide_hits _ _ _ _ _ _ _ _ _ _ ED) as DH. rewrite run_stats_hits in DH. cbn [wr_stats] in MH.
  apply IH in H. destruct H as (H1 & H2 & H3). cbn [wr_actions wr_stats] in *. splits.
  - intros x Hx. apply H1. apply in_or_app. auto.
  - intros x Hx. apply H2. apply in_or_app. auto.
  - intros x [<-|Hx].
    + exists r', rr. splits; auto; [intros x Hx; apply H1; apply in_or_app; auto|]. intros LH RN. assert (NO : limit <? sat_sub (cur + rr_created rr) (rr_completed rr) = false) by (destruct (limit <? _); auto; lia).
      unfold decide_run in ED. rewrite NO, RN in ED. injection ED as <- _ _ _. apply H2. now left.
    + destruct (H3 x Hx) as (x' & rx & A & B & C). exists x', rx. splits; auto. intros LH RN. apply C; auto. destruct (limit <? _); lia.
Qed.

(** An initial run sees no match if the log matches no transition of the first state. *)
Lemma initial_unmatched c l : well_formed c -> (forall s0 tr, nth_error (c_states c) 0 = Some s0 -> In tr (s_transitions s0) -> hit tr l = false) ->
  forall rest done matched first acts cr ad co rm r' rr, Forall (fits c) rest -> forallb t_initial rest = true -> r_loop c l rest done matched first acts cr ad co rm = Some (r', rr) -> rr_matched rr = rm.
Proof.
  intros W NH. induction rest as [|t rest IH]; intros done matched first acts cr ad co rm r' rr F I H; cbn [Workflow_Model.r_loop] in H; [inv H; auto|].
  apply Forall_cons_iff in F as [(s & F1 & F1') F2]. cbn [forallb] in I. apply andb_true_iff in I as [I1 I2]. unfold t_initial in I1. apply andb_true_iff in I1 as [I1 _]. apply Nat.eqb_eq in I1.
  rewrite (t_process_spec re_match to_i32 sha c l t s W F1 F1') in H. cbv zeta in H. cbn [res_matched res_followed res_actions res_out] in H. rewrite I1 in F1.
  assert (Z0 : nhits re_match to_i32 l (s_transitions s) = 0%N).
  { unfold nhits. assert (Y : forall trs, incl trs (s_transitions s) -> filter (fun tr => hit tr l) trs = []); [|rewrite Y; [reflexivity|apply incl_refl] ].
    induction trs as [|tr trs IT]; intros IN; cbn [List.filter]; auto. rewrite (NH s tr F1); [apply IT; intros x Hx; apply IN; now right|apply IN; now left]. }
  rewrite Z0, !N.add_0_r in H. destruct (over_matched _ _ || over_duration _ _ _); [inv H; auto|]. destruct (_ =? 0)%N; eapply IH in H; eauto.
Qed.
Definition no_start (c : config) (l : log) : Prop := forall s0 tr, nth_error (c_states c) 0 = Some s0 -> In tr (s_transitions s0) -> hit tr l = false.

Lemma w_loop_single c l r cur limit p res runs cur' res' : c_exec c = Exclusive -> w_loop c l [r] [] cur limit p res = Some (runs, cur', res') ->
  exists r' rr, r_process c l r = Some (r', rr) /\ incl (rr_actions rr) (wr_actions res') /\ (wr_stats res' LimitHits <= wr_stats res LimitHits -> rr_state rr = Running -> runs = [r']).
Proof.
  intros X H. rewrite w_loop_cons in H. destruct (r_process c l r) as [[r' rr]|] eqn:ER; [|discriminate]. exists r', rr. split; [reflexivity|]. cbv zeta in H.
  destruct (decide_run r' rr _ limit p _) as [ [ [kept cur1] p'] st'] eqn:ED. pose proof (decide_hits _ _ _ _ _ _ _ _ _ _ ED) as DH. rewrite run_stats_hits in DH. rewrite X in H.
  assert (K := decide_kept _ _ _ _ _ _ _ _ _ _ ED).
  assert (H' : runs = kept /\ res' = mkWresult (wr_actions res ++ rr_actions rr) st') by (destruct K as [-> | ->]; cbn in H; inv H; auto). destruct H' as [-> ->]. cbn [wr_actions wr_stats]. split; [intros x Hx; apply in_or_app; auto|].
  intros LH RN. assert (NO : limit <? sat_sub (cur + rr_created rr) (rr_completed rr) = false) by (destruct (limit <? _); auto; lia).
  unfold decide_run in ED. rewrite NO, RN in ED. injection ED as <- _ _ _. reflexivity.
Qed.
Lemma w_loop_pair c l i r cur limit res runs cur' res' : well_formed c -> run_fits c i -> r_initial i = true -> c_exec c = Exclusive -> w_loop c l [r; i] [] cur limit false res = Some (runs, cur', res') ->
  exists r' rr, r_process c l r = Some (r', rr) /\ incl (rr_actions rr) (wr_actions res') /\
  (wr_stats res' LimitHits <= wr_stats res LimitHits -> rr_state rr = Running -> (0 < rr_matched rr)%N \/ no_start c l -> runs = [r'] \/ runs = [i; r']).
Proof.
  intros W FI II X H. rewrite w_loop_cons in H. destruct (r_process c l r) as [[r' rr]|] eqn:ER; [|discriminate]. exists r', rr. split; [reflexivity|]. cbv zeta in H.
  destruct (decide_run r' rr _ limit false _) as [ [ [kept cur1] p'] st'] eqn:ED. pose proof (decide_hits _ _ _ _ _ _ _ _ _ _ ED) as DH. rewrite run_stats_hits in DH. rewrite X in H.
  assert (MONO : st' LimitHits <= wr_stats res' LimitHits /\ incl (wr_actions res ++ rr_actions rr) (wr_actions res')).
  { destruct ((1 <? count [i] + count (kept ++ [])) && p').
    - destruct (run_new c); [|discriminate]. destruct (r_process c l r0) as [[? ?]|]; [|discriminate]. injection H as _ _ <-. cbn [wr_actions wr_stats]. split; [|apply incl_refl]. destruct (0 <? _)%N; unfold inc; cbn; lia.
    - split; [apply w_loop_hits in H; exact H|]. rewrite w_loop_cons in H. destruct (r_process c l i) as [[i' ri]|]; [|discriminate]. cbv zeta in H. destruct (decide_run i' ri _ limit p' _) as [ [ [kept2 cur2] p2] st2]. rewrite X in H. cbn [wr_actions] in H.
      intros x Hx. destruct (_ && p2).
      + destruct (remove_second _) as [[y d']|]; [|discriminate]. inv H. cbn [wr_actions]. apply in_or_app. auto.
      + cbn in H. inv H. cbn [wr_actions]. apply in_or_app. auto. }
  destruct MONO as [MH MI]. split; [intros x Hx; apply MI; apply in_or_app; auto|]. intros LH RN UD.
  assert (NO : limit <? sat_sub (cur + rr_created rr) (rr_completed rr) = false) by (destruct (limit <? _); auto; lia).
  unfold decide_run in ED. rewrite NO, RN in ED. injection ED as <- <- <- _. cbn [app orb] in H. rewrite !count_cons, count_nil in H. change (1 <? 0 + 1 + (0 + 1)) with true in H. cbn [andb] in H.
  destruct (0 <? rr_matched rr)%N eqn:EM.
  - destruct (run_new c); [|discriminate]. destruct (r_process c l r0) as [[? ?]|]; [|discriminate]. injection H as <- _ _. auto.
  - destruct UD as [UD|UD]; [apply N.ltb_ge in EM; lia|]. rewrite w_loop_cons in H. destruct (r_process c l i) as [[i' ri]|] eqn:EI; [|discriminate]. cbv zeta in H.
    assert (M0 : rr_matched ri = 0%N).
    { unfold Workflow_Model.r_process in EI. eapply initial_unmatched; [exact W|exact UD| | |exact EI]; [apply Forall_rev; exact FI|]. unfold r_initial in II. rewrite forallb_forall in II. apply forallb_forall. intros x Hx. apply II. now apply in_rev. }
    destruct (decide_run i' ri _ limit false _) as [ [ [kept2 cur2] p2] st2] eqn:ED2. rewrite X in H. assert (K := decide_running _ _ _ _ _ _ _ _ _ _ ED2). destruct K as [-> | [-> RI] ].
    + cbn [app] in H. rewrite !count_cons, !count_nil in H. change (1 <? 0 + (0 + 1)) with false in H. cbn in H. inv H. auto.
    + assert (P2 : p2 = false) by (unfold decide_run in ED2; rewrite RI, M0 in ED2; destruct (limit <? _); inv ED2; auto). rewrite P2 in H. rewrite andb_false_r in H. cbn in H. inv H.
      destruct (r_process_no_match re_match to_i32 sha c l i i' ri W FI EI M0) as (-> & _); [congruence|]. auto.
Qed.

Lemma needs_new_some w : w_runs w <> [] -> needs_new_run w = negb (existsb r_initial (w_runs w)).
Proof. unfold needs_new_run. destruct (w_runs w); [congruence|auto]. Qed.

Lemma w_process_keeps c l w cur limit w' cur' res rn : well_formed c -> workflow_fits c w -> (leading c (w_runs w) rn \/ w_runs w = [] /\ run_new c = Some rn /\ wr_stats res LimitHits <= 0) ->
  w_process c l w cur limit = Some (w', cur', res) ->
  exists r' rr, r_process c l rn = Some (r', rr) /\ incl (rr_actions rr) (wr_actions res) /\
  (wr_stats res LimitHits <= 0 -> rr_state rr = Running -> (c_exec c = Parallel \/ (0 < rr_matched rr)%N \/ no_start c l) -> leading c (w_runs w') r').
Proof.
  intros W F L H. unfold Workflow_Model.w_process in H. destruct (run_new_ok c W) as (n & En & Fn & In0 & _). rewrite En in H.
  destruct (if needs_new_run w then _ else _) as [ [ [runs cur1] st]|] eqn:EY; [|discriminate].
  destruct (w_loop c l (rev runs) [] cur1 limit false (mkWresult [] st)) as [ [ [runs' cur2] res']|] eqn:EL; [|discriminate]. injection H as <- <- <-. cbn [w_runs].
  assert (MH := w_loop_hits _ _ _ _ _ _ _ _ _ _ _ _ _ _ EL). cbn [wr_stats] in MH.
  assert (ST : 0 <= st LimitHits).
  { destruct (needs_new_run w); [|inv EY; unfold no_stats; lia]. unfold maybe_add_run in EY. destruct (_ <=? limit); inv EY; unfold inc, no_stats; cbn; lia. }
  assert (RU : runs = w_runs w \/ needs_new_run w = true /\ runs = match c_exec c with Exclusive => n :: w_runs w | Parallel => w_runs w ++ [n] end).
  { destruct (needs_new_run w); [|inv EY; auto]. unfold maybe_add_run in EY. destruct (_ <=? limit); inv EY; auto. }
  assert (RN : w_runs w = [] -> st LimitHits <= 0 -> runs = [n]).
  { intros E0 S0. unfold needs_new_run in EY. rewrite E0 in *. unfold maybe_add_run in EY. destruct (_ <=? limit); inv EY; [destruct (c_exec c); auto|]. unfold inc, no_stats in S0. cbn in S0. lia. }
  destruct (c_exec c) eqn:X.
  - assert (C : runs = [rn] \/ exists i, runs = [i; rn] /\ r_initial i = true /\ run_fits c i).
    { destruct L as [L|(L1 & L2 & L3)]; [|left; assert (n = rn) by congruence; subst; apply RN; auto; lia]. unfold leading in L. rewrite X in L. destruct L as [L|(i & L & Li)].
      - rewrite L in *. destruct RU as [-> | [_ ->] ]; [auto|right; exists n; auto].
      - right. exists i. unfold workflow_fits in F. rewrite L in F. apply Forall_cons_iff in F as [F1 _]. splits; auto. destruct RU as [RU|[NN _] ]; [congruence|]. exfalso. unfold needs_new_run in NN. rewrite L in NN. cbn in NN. rewrite Li in NN. discriminate. }
    destruct C as [-> | (i & -> & Ii & Fi)]; cbn [rev app] in EL.
    + destruct (w_loop_single _ _ _ _ _ _ _ _ _ _ X EL) as (r' & rr & A & B & C). exists r', rr. splits; auto. intros LH R _. unfold leading. rewrite X. left. apply C; auto. cbn [wr_stats]. lia.
    + destruct (w_loop_pair _ _ _ _ _ _ _ _ _ _ W Fi Ii X EL) as (r' & rr & A & B & C). exists r', rr. splits; auto. intros LH R UD. unfold leading. rewrite X. cbn [wr_stats] in C. destruct C as [-> | ->]; eauto; [lia|]. destruct UD as [UD|UD]; [discriminate|auto].
  - assert (C : In rn runs).
    { destruct L as [L|(L1 & L2 & L3)]; [|assert (n = rn) by congruence; subst; rewrite RN; auto; [now left|lia] ]. unfold leading in L. rewrite X in L. destruct RU as [-> | [_ ->] ]; auto. apply in_or_app. auto. }
    destruct (w_loop_keeps c l X _ _ _ _ _ _ _ _ _ EL) as (_ & _ & K). destruct (K rn) as (r' & rr & A & B & D); [now apply -> in_rev|]. exists r', rr. splits; auto. intros LH R _. unfold leading. rewrite X. apply D; auto. cbn [wr_stats]. lia.
Qed.

(** * The engine *)
Lemma all_process_each l limit c w : forall cs ws, In (c, w) (combine cs ws) -> forall cur d ws' cur' d' acts, all_process l (combine cs ws) cur limit d = Some (ws', cur', d', acts) ->
  exists cur1 w' cur2 res, w_process c l w cur1 limit = Some (w', cur2, res) /\ incl (wr_actions res) acts /\ In (c, w') (combine cs ws') /\ (roomy l (combine cs ws) cur limit -> wr_stats res LimitHits <= 0).
Proof.
  induction cs as [|c0 cs IH]; intros [|w0 ws] I; try contradiction; cbn [combine In] in I; destruct I as [I|I]; intros cur d ws' cur' d' acts H; cbn [combine WorkflowEngine_Model.all_process WorkflowEngine_Spec.roomy] in *;
    (destruct (w_process c0 l w0 cur limit) as [ [ [w1 cur1] r]|] eqn:EW; [|discriminate]; cbv zeta in H; destruct (all_process l (combine cs ws) cur1 limit _) as [ [ [ [ws1 cur2] d2] acts1]|] eqn:EA; [|discriminate]; injection H as <- _ _ <-).
  - injection I as -> ->. exists cur, w1, cur1, r. splits; auto; [apply incl_appl; apply incl_refl|now left|lia].
  - destruct (IH ws I _ _ _ _ _ _ EA) as (x1 & w' & x2 & res & A & B & C & D). exists x1, w', x2, res. splits; auto; [apply incl_appr; auto|now right|]. intros [_ R]. auto.
Qed.
Lemma flush_loop_has session triggers conts pend strm : forall acts created ids bufs created' ids' bufs', flush_loop session triggers conts pend strm acts created ids bufs = (created', ids', bufs') ->
  incl ids ids' /\ forall a, In a acts -> In (af_id a) ids'.
Proof.
  induction acts as [|a acts IH]; intros created ids bufs created' ids' bufs' E; cbn [flush_loop] in E; [inv E; split; [apply incl_refl|intros a []]|]. cbv zeta in E.
  assert (X : incl (set_insert (af_id a) ids) ids' /\ forall b, In b acts -> In (af_id b) ids') by (destruct (pending_new a session triggers conts) as [p|]; [destruct (_ || _)|]; eapply IH in E; eauto).
  destruct X as [X1 X2]. split.
  - intros x Hx. apply X1. apply (Matcher_Proofs.set_insert_in (fun _ => true) (fun _ _ => true) (fun _ => None)). auto.
  - intros b [<-|Hb]; auto. apply X1. apply (Matcher_Proofs.set_insert_in (fun _ => true) (fun _ _ => true) (fun _ => None)). auto.
Qed.
(** What the workflows triggered is in the result. *)
Lemma result_shows e l dests done e' r c w : process_log e l dests done = Some (e', r) -> e_session e = "" \/ e_session e = l_session l -> In (c, w) (workflows_of e) ->
  exists cur1 w' cur2 res, w_process c l w cur1 (e_limit e) = Some (w', cur2, res) /\ In (c, w') (workflows_of e') /\ (roomy l (workflows_of e) (e_current e) (e_limit e) -> wr_stats res LimitHits <= 0) /\
  forall a x, In x (wr_actions res) -> plain a = Some x -> shown f64 l r a.
Proof.
  intros H S I. unfold WorkflowEngine_Model.process_log in H. cbv zeta in H.
  assert (EE : enter_session e l = set_session e (l_session l) \/ enter_session e l = e).
  { unfold enter_session. destruct (String.eqb_spec (e_session e) ""); auto. destruct S as [S|S]; [congruence|]. rewrite S, String.eqb_refl. auto. }
  set (e1 := enter_session e l) in *. assert (E1 : e_configs e1 = e_configs e /\ e_workflows e1 = e_workflows e /\ e_current e1 = e_current e /\ e_limit e1 = e_limit e) by (destruct EE as [-> | ->]; auto). clearbody e1. clear EE.
  destruct E1 as (E1 & E2 & E3 & E4). rewrite <- E4. unfold workflows_of in *. rewrite <- E1, <- E2, <- E3 in *.
  assert (NE : e_workflows e1 <> []) by (intros X; rewrite X in I; destruct (e_configs e1); destruct I). destruct (e_workflows e1) as [|w0 ws0] eqn:EW; [congruence|]. rewrite <- EW in *. clear w0 ws0 EW NE.
  destruct (all_process l (combine (e_configs e1) (e_workflows e1)) (e_current e1) (e_limit e1) (e_dirty e1)) as [ [ [ [ws cur] dirty] acts]|] eqn:EA; [|discriminate].
  destruct (all_process_each _ _ _ _ _ _ I _ _ _ _ _ _ EA) as (cur1 & w' & cur2 & res & A & B & C & D).
  destruct (process_streaming _ _ _ _ _) as [ [dests' strm] changed]. destruct (process_flush_actions _ _ _ _ _ _) as [ [created ids] bufs] eqn:EF. injection H as <- <-. exists cur1, w', cur2, res. splits; auto.
  intros a x Hx P. apply B in Hx. unfold process_flush_actions in EF. apply flush_loop_has in EF as [_ EF]. destruct a; cbn [plain] in P; try discriminate; injection P as <-; cbn [shown o_action_ids o_metrics o_screenshot].
  - apply EF. unfold flushes_of. apply dedup_in. all: try exact (fun _ _ => true). apply in_flat_map. exists (TFlush a). split; auto. now left.
  - intros m Hm. apply in_or_app. left. apply in_flat_map. exists a. split; auto. unfold metrics_of. apply dedup_in. all: try exact (fun _ _ => true). apply in_flat_map. exists (TMetric a). split; auto. now left.
  - destruct (screenshots_of acts) eqn:ES; auto. exfalso. assert (Y : In id (screenshots_of acts)) by (unfold screenshots_of; apply in_flat_map; exists (TScreenshot id); split; auto; now left). rewrite ES in Y. destruct Y.
Qed.

Lemma step_waits e l dests done e' r c i s cs : well_formed c -> no_limits c -> nth_error (c_states c) i = Some s -> s_transitions s <> [] -> List.length cs = List.length (s_transitions s) ->
  process_log e l dests done = Some (e', r) -> e_session e = "" \/ e_session e = l_session l -> roomy l (workflows_of e) (e_current e) (e_limit e) -> waits_in e c i cs ->
  let trs := s_transitions s in
  (forall tr a, In tr (fired re_match to_i32 l trs cs) -> In a (tr_actions tr) -> shown f64 l r a) /\
  (fired re_match to_i32 l trs cs = [] -> undisturbed c trs l -> waits_in e' c i (bumps re_match to_i32 l trs cs)) /\
  (forall tr s', In tr (fired re_match to_i32 l trs cs) -> nth_error (c_states c) (tr_target tr) = Some s' -> s_transitions s' <> [] -> waits_in e' c (tr_target tr) (repeat 0%N (List.length (s_transitions s')))).
Proof.
  intros W NL Hs NE LN H S R (w & I & F & K). cbv zeta. destruct (result_shows _ _ _ _ _ _ _ _ H S I) as (cur1 & w' & cur2 & res & P & I' & LH & SH). specialize (LH R).
  assert (F' : workflow_fits c w') by (eapply (fits_step re_match to_i32 sha); eauto).
  assert (L : exists rn t, (leading c (w_runs w) rn \/ w_runs w = [] /\ run_new c = Some rn /\ wr_stats res LimitHits <= 0) /\ In t (r_traversals rn) /\ t_state t = i /\ t_counts t = cs).
  { destruct K as [(K1 & -> & K3)|(rn & t & K1 & K2 & K3 & K4)]; [|exists rn, t; auto].
    assert (CZ : cs = repeat 0%N (List.length (s_transitions s))). { rewrite <- LN. clear - K3. induction K3 as [|x l E _ IH]; cbn; [auto|subst x; now rewrite <- IH]. }
    unfold run_new, traversal_new. rewrite Hs. destruct (s_transitions s) as [|tr0 trs0] eqn:ET; [congruence|]. do 2 eexists. split; [right; splits; [auto|reflexivity|lia]|]. splits; [now left|auto|auto]. }
  destruct L as (rn & t & L & T & T1 & T2). destruct (w_process_keeps _ _ _ _ _ _ _ _ _ W F L P) as (r' & rr & A & B & D).
  destruct (r_process_keeps _ _ _ _ _ _ NL A T) as (ST & t' & res' & TP & TA & TM & TK & TO).
  rewrite (t_process_spec re_match to_i32 sha c l t s W) in TP; [|congruence|congruence]. injection TP as <- <-. cbn [res_actions res_matched res_followed res_out] in *. rewrite T1, T2 in *.
  splits.
  - intros tr a Htr Ha. destruct (plain a) as [x|] eqn:EP; [|destruct a; try discriminate; exact Logic.I]. apply (SH a x); auto. apply B. apply TA. apply in_flat_map. exists tr. split; auto. unfold acts_of. eapply triggered_plain; eauto.
  - intros F0 U. rewrite F0 in *. specialize (TK eq_refl). exists w'. splits; auto. right. exists r', (mkTraversal i (bumps re_match to_i32 l (s_transitions s) cs) (t_sankeys t)). splits; auto. apply D; [auto|rewrite ST; destruct (r_traversals r'); [destruct TK|auto]|].
    destruct U as [U|[(tr & U1 & U2)|U] ]; [auto|right; left|right; right; exact U]. eapply N.lt_le_trans; [|exact TM]. unfold nhits. assert (Y : In tr (filter (fun tr => hit tr l) (s_transitions s))) by (apply filter_In; auto). destruct (filter _ _); [destruct Y|cbn [List.length]; lia].
  - intros tr s' Htr Hs' NE'. assert (TO' := TO). destruct (fired re_match to_i32 l (s_transitions s) cs) as [|f0 fs] eqn:EF; [destruct Htr|]. rewrite <- EF in *. assert (FN : N.of_nat (List.length (fired re_match to_i32 l (s_transitions s) cs)) <> 0%N) by (rewrite EF; cbn [List.length]; lia). specialize (TO FN).
    assert (O : exists t2, outs_of sha c (t_sankeys t) l tr = [t2] /\ t_state t2 = tr_target tr /\ t_counts t2 = repeat 0%N (List.length (s_transitions s'))).
    { unfold outs_of, traversal_new. rewrite Hs'. destruct (s_transitions s'); [congruence|]. eexists. splits; reflexivity. }
    destruct O as (t2 & O1 & O2 & O3). assert (IT : In t2 (r_traversals r')) by (apply TO; apply in_flat_map; exists tr; split; auto; rewrite O1; now left).
    exists w'. splits; auto. right. exists r', t2. splits; auto. apply D; [auto|rewrite ST; destruct (r_traversals r'); [destruct IT|auto]|]. right; left. pose proof (fired_nhits re_match to_i32 l (s_transitions s) cs). lia.
Qed.

Lemma feed_waits c i s S : well_formed c -> no_limits c -> nth_error (c_states c) i = Some s -> s_transitions s <> [] -> forall ls e e' rs pre,
  feed e ls = Some (e', rs) -> e_session e = "" \/ e_session e = S -> Forall (fun x => l_session (fst (fst x)) = S) ls -> calm c (s_transitions s) e ls ->
  quiet re_match to_i32 (s_transitions s) (pre ++ map (fun x => fst (fst x)) ls) -> waits_in e c i (map (fun tr => hits tr pre) (s_transitions s)) ->
  (e_session e' = "" \/ e_session e' = S) /\ waits_in e' c i (map (fun tr => hits tr (pre ++ map (fun x => fst (fst x)) ls)) (s_transitions s)).
Proof.
  intros W NL Hs NE. induction ls as [|[ [l dests] done] ls IH]; intros e e' rs pre H SE SL C Q WA; cbn [WorkflowEngine_Spec.feed WorkflowEngine_Spec.calm map fst] in *.
  - inv H. rewrite app_nil_r. auto.
  - apply Forall_cons_iff in SL as [SL1 SL2]. cbn [fst] in SL1. destruct (process_log e l dests done) as [[e1 r1]|] eqn:EP; [|discriminate]. destruct (feed e1 ls) as [[e2 rs2]|] eqn:EF; [|discriminate]. injection H as <- <-. destruct C as (C1 & C2 & C3).
    replace (pre ++ l :: map (fun x => fst (fst x)) ls) with ((pre ++ [l]) ++ map (fun x => fst (fst x)) ls) in * by (rewrite <- app_assoc; reflexivity).
    assert (ND : fired re_match to_i32 l (s_transitions s) (map (fun tr => hits tr pre) (s_transitions s)) = []).
    { rewrite fired_due. assert (Y : forall tr, In tr (s_transitions s) -> due tr pre l = false) by (intros tr Htr; eapply Q; [exact Htr|rewrite <- app_assoc; reflexivity]).
      revert Y. generalize (s_transitions s) as tt. induction tt as [|tr tt IHt]; intros Y; cbn; auto. rewrite Y; [|now left]. apply IHt. intros; apply Y; now right. }
    destruct (step_waits e l dests done e1 r1 c i s _ W NL Hs NE (map_length _ _) EP ltac:(rewrite SL1; auto) C1 WA) as (_ & X & _). specialize (X ND C2). rewrite bumps_hits in X.
    eapply IH; eauto. right. rewrite <- SL1. eapply (process_log_session re_match to_i32 sha f64); eauto.
Qed.

Lemma map_zero (trs : list transition) : map (fun tr => hits tr []) trs = repeat 0%N (List.length trs).
Proof. induction trs; cbn; auto. f_equal. auto. Qed.

Lemma fires_on_time c i s tr S e ls e1 rs l dests done e2 r : well_formed c -> c_matched c = None -> c_duration c = None -> nth_error (c_states c) i = Some s -> In tr (s_transitions s) ->
  let logs := map (fun x => fst (fst x)) ls in
  waits_in e c i (repeat 0%N (List.length (s_transitions s))) -> e_session e = "" \/ e_session e = S -> Forall (fun x => l_session x = S) (logs ++ [l]) ->
  feed e ls = Some (e1, rs) -> calm c (s_transitions s) e ls -> quiet re_match to_i32 (s_transitions s) logs ->
  process_log e1 l dests done = Some (e2, r) -> roomy l (workflows_of e1) (e_current e1) (e_limit e1) -> due tr logs l = true ->
  (forall a, In a (tr_actions tr) -> shown f64 l r a) /\
  (forall s', nth_error (c_states c) (tr_target tr) = Some s' -> s_transitions s' <> [] -> waits_in e2 c (tr_target tr) (repeat 0%N (List.length (s_transitions s')))).
Proof.
  intros W N1 N2 Hs Htr logs WA SE SL H C Q EP R D. apply Forall_app in SL as [SL1 SL2]. apply Forall_cons_iff in SL2 as [SL2 _].
  assert (NE : s_transitions s <> []) by (intros X; rewrite X in Htr; destruct Htr).
  rewrite <- map_zero in WA. assert (SL1' : Forall (fun x => l_session (fst (fst x)) = S) ls) by (clear - SL1; unfold logs in SL1; rewrite Forall_map in SL1; exact SL1).
  destruct (feed_waits c i s S W (conj N1 N2) Hs NE ls e e1 rs [] H SE SL1' C Q WA) as [SE1 WA1]. cbn [app] in WA1. fold logs in WA1.
  destruct (step_waits e1 l dests done e2 r c i s _ W (conj N1 N2) Hs NE (map_length _ _) EP ltac:(rewrite SL2; auto) R WA1) as (X1 & _ & X3).
  assert (FD : In tr (fired re_match to_i32 l (s_transitions s) (map (fun tr => hits tr logs) (s_transitions s)))) by (rewrite fired_due; apply filter_In; auto).
  split; [intros a Ha; eapply X1; eauto|intros s' Hs' NE'; eapply X3; eauto].
Qed.
End Fires.

(** A new engine waits in the first state of each workflow. *)
Lemma add_new : forall cs e, let e' := add_workflows e cs [] in e_configs e' = e_configs e ++ cs /\ e_workflows e' = e_workflows e ++ map (fun c => mkWorkflow (c_id c) []) cs.
Proof.
  cbv zeta. induction cs as [|c cs IH]; intros e; cbn [add_workflows last_workflow without filter map]; [rewrite !app_nil_r; auto|].
  destruct (IH (add_workflow e (mkWorkflow (c_id c) []) c)) as [I1 I2]. rewrite I1, I2. unfold add_workflow. cbn [set_workflows e_configs e_workflows w_id w_runs rev trim_runs].
  rewrite <- !app_assoc. cbn [app]. split; auto. destruct (_ <? _); auto.
Qed.
Lemma new_waits g limit c s : In c (g_workflows g) -> nth_error (c_states c) 0 = Some s -> waits_in (y_engine (system_new g limit)) c 0 (repeat 0%N (List.length (s_transitions s))).
Proof.
  intros I Hs. unfold waits_in, workflows_of, system_new, start. cbn [y_engine]. cbv zeta. cbn [set_actions e_configs e_workflows].
  destruct (add_new (g_workflows g) (set_resolver (engine_new limit) (g_triggers g) (g_conts g))) as [A1 A2]. cbv zeta in A1, A2. rewrite A1, A2. cbn [engine_new set_resolver e_configs e_workflows app].
  exists (mkWorkflow (c_id c) []). splits; [|constructor|left; splits; auto; apply Forall_forall; intros x Hx; eapply repeat_spec; eauto].
  clear A1 A2. induction (g_workflows g) as [|c0 cs IH]; [destruct I|]; destruct I as [->|I]; cbn [map combine]; [now left|right; auto].
Qed.
