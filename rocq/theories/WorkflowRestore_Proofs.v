(** Restoring a persisted state. *)
From Verif Require Import Base Str_Base Log_Model LogMatcher_Model BufferMatcher_Model Workflow_Model Workflow_Spec Workflow_Proofs WorkflowEngine_Model WorkflowEngine_Spec WorkflowEngine_Proofs.
Local Open Scope string_scope. Local Open Scope list_scope. Local Open Scope Z_scope.

Section Restore.
Variables (re_match : string -> string -> bool) (to_i32 : string -> option Z) (sha : string -> string) (f64 : string -> option Z).
Notation t_process := (t_process re_match to_i32 sha).
Notation r_loop := (r_loop re_match to_i32 sha).
Notation r_process := (r_process re_match to_i32 sha).
Notation w_loop := (w_loop re_match to_i32 sha).
Notation w_process := (w_process re_match to_i32 sha).
Notation all_process := (all_process re_match to_i32 sha).
Notation process_log := (process_log re_match to_i32 sha f64).
Notation run_ops := (run_ops re_match to_i32 sha f64).
Notation feed := (feed re_match to_i32 sha f64).
Notation roomy := (roomy re_match to_i32 sha).

(** * Initial runs *)
Definition begun (t : traversal) : Prop := t_initial t = false.
Definition run_begun (r : run) : Prop := r_traversals r <> [] /\ Forall begun (r_traversals r).
Lemma run_begun_initial r : run_begun r -> r_initial r = false.
Proof. intros [N F]. unfold r_initial. destruct (r_traversals r) as [|t ts]; [congruence|]. inv F. cbn [forallb]. rewrite H1. auto. Qed.

Lemma bumps_pos l trs : forall cs, forallb (fun n => (n =? 0)%N) cs = false -> forallb (fun n => (n =? 0)%N) (bumps re_match to_i32 l trs cs) = false.
Proof.
  induction trs as [|tr trs IH]; intros [|n cs] H; cbn [bumps]; auto. cbn [forallb] in *. apply andb_false_iff in H as [H|H].
  - destruct (hit re_match to_i32 tr l); rewrite ?H; auto. destruct (n + 1 =? 0)%N eqn:E; [apply N.eqb_eq in E; lia|auto].
  - rewrite (IH _ H). apply andb_false_r.
Qed.
Lemma bumps_hit l trs : forall cs, List.length cs = List.length trs -> nhits re_match to_i32 l trs <> 0%N -> forallb (fun n => (n =? 0)%N) (bumps re_match to_i32 l trs cs) = false.
Proof.
  induction trs as [|tr trs IH]; intros [|n cs] L H; cbn [List.length] in L; try discriminate; [unfold nhits in H; cbn in H; congruence|]. cbn [bumps forallb]. rewrite nhits_cons in H. destruct (hit re_match to_i32 tr l).
  - destruct (n + 1 =? 0)%N eqn:E; [apply N.eqb_eq in E; lia|auto].
  - rewrite IH; [apply andb_false_r|lia|lia].
Qed.
Lemma outs_begun c sk l tr : tr_target tr <> 0%nat -> Forall begun (outs_of sha c sk l tr).
Proof.
  intros N. unfold outs_of, traversal_new. destruct (nth_error (c_states c) (tr_target tr)); [|constructor]. destruct (s_transitions s); [constructor|]. constructor; [|constructor]. unfold begun, t_initial. cbn [t_state]. destruct (tr_target tr); [congruence|auto].
Qed.
Lemma t_begun c l t t' res : well_formed c -> no_return c -> fits c t -> t_process c l t = Some (t', res) ->
  Forall begun (res_out res) /\ (begun t \/ res_matched res <> 0%N -> begun t').
Proof.
  intros W NR (s & Hs & Hl) H. rewrite (t_process_spec re_match to_i32 sha c l t s W Hs Hl) in H. injection H as <- <-. cbn [res_out res_matched]. split.
  - apply Forall_forall. intros x Hx. apply in_flat_map in Hx as (tr & Ht & Hx). pose proof (outs_begun c (t_sankeys t) l tr) as F. rewrite Forall_forall in F. apply F; auto.
    unfold fired in Ht. apply in_map_iff in Ht as ((tr' & n) & <- & Ht). apply filter_In in Ht as [Ht _]. apply in_combine_l in Ht. cbn [fst]. eapply NR; eauto. eapply nth_error_In; eauto.
  - unfold begun, t_initial. cbn [t_state t_counts]. intros [H|H].
    + apply andb_false_iff in H as [H|H]; [rewrite H; auto|]. rewrite bumps_pos; [apply andb_false_r|auto].
    + rewrite bumps_hit; [apply andb_false_r|auto|auto].
Qed.
Lemma r_loop_begun c l : well_formed c -> no_return c -> forall rest done matched first acts cr ad co rm r' rr, Forall (fits c) rest -> Forall begun rest -> Forall begun done ->
  r_loop c l rest done matched first acts cr ad co rm = Some (r', rr) -> Forall begun (r_traversals r').
Proof.
  intros W NR. induction rest as [|t rest IH]; intros done matched first acts cr ad co rm r' rr Fr Br Bd H; cbn [Workflow_Model.r_loop] in H; [inv H; auto|].
  apply Forall_cons_iff in Fr as [F1 F2]. apply Forall_cons_iff in Br as [B1 B2]. destruct (t_process c l t) as [[t' res]|] eqn:ET; [|discriminate]. destruct (t_begun _ _ _ _ _ W NR F1 ET) as [O T]. cbv zeta in H.
  destruct (_ || _); [inv H; cbn [r_traversals]; apply Forall_app; split; [apply Forall_rev; auto|constructor; auto]|].
  destruct (_ =? _)%N; apply IH in H; auto. apply Forall_app; auto.
Qed.
Lemma running_nonempty c l : forall rest done matched first acts cr ad co rm r' rr, r_loop c l rest done matched first acts cr ad co rm = Some (r', rr) -> rr_state rr = Running -> r_traversals r' <> [].
Proof.
  induction rest as [|t rest IH]; intros done matched first acts cr ad co rm r' rr H S; cbn [Workflow_Model.r_loop] in H.
  - inv H. cbn [r_traversals]. destruct done; [discriminate|congruence].
  - destruct (t_process c l t) as [[t' res]|]; [|discriminate]. cbv zeta in H. destruct (_ || _); [inv H; discriminate|]. destruct (_ =? _)%N; eapply IH; eauto.
Qed.
Lemma r_process_begun c l r r' rr : well_formed c -> no_return c -> run_fits c r -> r_process c l r = Some (r', rr) -> rr_state rr = Running ->
  (run_begun r -> run_begun r') /\ (run_new c = Some r -> r' = r \/ run_begun r').
Proof.
  intros W NR F H S. pose proof (running_nonempty _ _ _ _ _ _ _ _ _ _ _ _ _ H S) as N. split.
  - intros [_ B]. split; auto. eapply r_loop_begun in H; eauto; [apply Forall_rev; exact F|apply Forall_rev; auto].
  - intros RN. destruct (N.eq_dec (rr_matched rr) 0) as [M|M].
    + left. eapply r_process_no_match in H; eauto; [tauto|congruence].
    + right. split; auto. unfold run_new in RN. unfold Workflow_Model.r_process in H. destruct (traversal_new c 0 None) as [[t|]|] eqn:ET; inv RN.
      2: { cbn in H. inv H. cbn in S. discriminate. }
      unfold run_fits in F. cbn [r_traversals] in F. apply Forall_cons_iff in F as [F1 _]. cbn [r_traversals r_matched r_first rev app Workflow_Model.r_loop] in H.
      destruct (t_process c l t) as [[t' res]|] eqn:EP; [|discriminate]. destruct (t_begun _ _ _ _ _ W NR F1 EP) as [O T]. cbv zeta in H.
      destruct (_ || _); [inv H; discriminate|]. destruct (_ =? _)%N; inv H; cbn [rr_matched r_traversals] in *; [constructor; [apply T; right; lia|constructor]|rewrite app_nil_r; auto].
Qed.

(** The runs of a workflow: those that have begun, and at most one that is as new, at the place where a new run is put. *)
Definition orderly (c : config) (runs : list run) : Prop :=
  fits_runs c runs /\ exists old fresh, Forall run_begun old /\ (fresh = [] \/ exists n, run_new c = Some n /\ fresh = [n]) /\
  match c_exec c with Exclusive => runs = fresh ++ old /\ (List.length old <= 1)%nat | Parallel => runs = old ++ fresh end.

Lemma w_loop_orderly c l : well_formed c -> no_return c -> c_exec c = Parallel -> forall rest done cur limit p res runs cur' res' fresh, Forall (run_fits c) rest -> Forall run_begun rest ->
  (fresh = [] \/ exists n, run_new c = Some n /\ fresh = [n]) -> (exists old, Forall run_begun old /\ done = old ++ fresh) ->
  w_loop c l rest done cur limit p res = Some (runs, cur', res') -> exists old, Forall run_begun old /\ runs = old ++ fresh.
Proof.
  intros W NR X. induction rest as [|r rest IH]; intros done cur limit p res runs cur' res' fresh F B FR (old & O1 & O2) H; [cbn in H; inv H; eauto|].
  rewrite w_loop_cons in H. apply Forall_cons_iff in F as [F1 F2]. apply Forall_cons_iff in B as [B1 B2]. destruct (r_process c l r) as [[r' rr]|] eqn:ER; [|discriminate]. cbv zeta in H. rewrite X in H.
  destruct (decide_run r' rr _ limit p _) as [ [ [kept cur1] p'] st'] eqn:ED. apply decide_running in ED. eapply IH in H; eauto.
  destruct ED as [->|[-> S]]; [eauto|]. destruct (r_process_begun _ _ _ _ _ W NR F1 ER S) as [G _]. exists (r' :: old). split; [constructor; auto|]. subst. reflexivity.
Qed.
Lemma w_process_orderly c l w cur limit w' cur' res : well_formed c -> no_return c -> orderly c (w_runs w) -> w_process c l w cur limit = Some (w', cur', res) -> orderly c (w_runs w').
Proof.
  intros W NR [F (old & fresh & O1 & O2 & O3)] H. split; [eapply fits_step; eauto|].
  unfold Workflow_Model.w_process in H. destruct (run_new_ok c W) as (n & En & Fn & In & _). rewrite En in H.
  assert (Y : exists runs cur1 st fresh, (if needs_new_run w then Some (maybe_add_run c (w_runs w) n cur limit no_stats) else Some (w_runs w, cur, no_stats)) = Some (runs, cur1, st) /\
     (fresh = [] \/ fresh = [n]) /\ match c_exec c with Exclusive => runs = fresh ++ old | Parallel => runs = old ++ fresh end).
  { assert (O2' : fresh = [] \/ fresh = [n]) by (destruct O2 as [O2|(n' & E & O2)]; [auto|right; congruence]).
    destruct (needs_new_run w) eqn:EN; [|do 3 eexists; exists fresh; split; [reflexivity|split; [auto|destruct (c_exec c); tauto] ] ].
    unfold maybe_add_run. destruct (_ <=? limit); do 3 eexists.
    - exists [n]. split; [reflexivity|]. split; [auto|]. assert (fresh = []). { destruct O2' as [E|E]; auto. exfalso. unfold needs_new_run in EN. destruct (c_exec c); [destruct O3 as [O3 _]|]; rewrite O3, E in EN.
        - cbn in EN. rewrite In in EN. discriminate.
        - destruct (old ++ [n]) eqn:EO; [destruct old; discriminate|]. rewrite <- EO, existsb_app in EN. cbn in EN. rewrite In, orb_true_r in EN. discriminate. }
      subst fresh. destruct (c_exec c); [destruct O3 as [-> _]; auto|rewrite O3, app_nil_r; auto].
    - exists fresh. split; [reflexivity|]. split; auto. destruct (c_exec c); tauto. }
  destruct Y as (runs & cur1 & st & fr & EY & FR & RR). rewrite EY in H. destruct (w_loop c l (rev runs) [] cur1 limit false (mkWresult [] st)) as [ [ [runs' cur2] res']|] eqn:EL; [|discriminate]. inv H. cbn [w_runs].
  assert (Fo : Forall (run_fits c) old). { unfold fits_runs in F. destruct (c_exec c); [destruct O3 as [O3 _]|]; rewrite O3 in F; apply Forall_app in F; tauto. }
  destruct (c_exec c) eqn:EX.
  - destruct O3 as [_ L]. destruct old as [|a old]; [|destruct old; [|cbn in L; lia] ].
    + destruct FR as [-> | ->]; [cbn in RR; subst runs; cbn in EL; inv EL; exists [], []; splits; auto; cbn; lia|]. cbn in RR. subst runs. cbn [rev app] in EL.
      rewrite w_loop_cons in EL. destruct (r_process c l n) as [[n' nr]|] eqn:ER; [|discriminate]. cbv zeta in EL. destruct (decide_run n' nr _ limit false _) as [ [ [kept cur3] p'] st'] eqn:ED. apply decide_running in ED. rewrite EX in EL.
      destruct ED as [-> | [-> S] ]; cbn in EL; inv EL; [exists [], []; splits; auto; cbn; lia|].
      destruct (r_process_begun _ _ _ _ _ W NR Fn ER S) as [_ G]. destruct (G En) as [-> | G']; [exists [], [n]; splits; eauto; cbn; lia|exists [n'], []; splits; auto; cbn; lia].
    + apply Forall_cons_iff in O1 as [B1 _]. apply Forall_cons_iff in Fo as [Fa _]. destruct FR as [-> | ->]; cbn in RR; subst runs; cbn [rev app] in EL.
      * rewrite w_loop_cons in EL. destruct (r_process c l a) as [[a' ar]|] eqn:ER; [|discriminate]. cbv zeta in EL. destruct (decide_run a' ar _ limit false _) as [ [ [kept cur3] p'] st'] eqn:ED. apply decide_running in ED. rewrite EX in EL.
        destruct ED as [-> | [-> S] ]; cbn in EL; inv EL; [exists [], []; splits; auto; cbn; lia|]. destruct (r_process_begun _ _ _ _ _ W NR Fa ER S) as [G _]. exists [a'], []. splits; auto; cbn; auto.
      * apply w_loop_two in EL; auto. destruct EL as (a' & ra & ER & [ (S & _ & _ & -> & _) | [ (S & _ & _ & -> & i' & ri & EI & _ & C) | (_ & i' & ri & EI & C & _) ] ]).
        -- destruct (r_process_begun _ _ _ _ _ W NR Fa ER S) as [G _]. exists [a'], [n]. splits; eauto.
        -- destruct C as [ [-> [SI _] ] | [ [-> _] | -> ] ].
           ++ destruct (r_process_begun _ _ _ _ _ W NR Fn EI SI) as [_ G]. destruct (G En) as [-> | G']; [exists [], [n]; splits; eauto; cbn; lia|exists [i'], []; splits; auto; cbn; lia].
           ++ exists [a], [n]. splits; eauto.
           ++ exists [a], []. splits; auto.
        -- destruct C as [-> | [-> SI] ]; [exists [], []; splits; auto; cbn; lia|].
           destruct (r_process_begun _ _ _ _ _ W NR Fn EI SI) as [_ G]. destruct (G En) as [-> | G']; [exists [], [n]; splits; eauto; cbn; lia|exists [i'], []; splits; auto; cbn; lia].
  - assert (Fr' : Forall (run_fits c) (rev old) /\ Forall run_begun (rev old)) by (split; apply Forall_rev; auto). destruct Fr' as [Fr1 Fr2].
    destruct FR as [-> | ->]; rewrite RR in EL.
    + rewrite app_nil_r in EL. apply (w_loop_orderly c l W NR EX _ _ _ _ _ _ _ _ _ [] Fr1 Fr2 (or_introl eq_refl) (ex_intro _ [] (conj (Forall_nil _) eq_refl))) in EL. destruct EL as (o & A & ->). exists o, []. auto.
    + rewrite rev_app_distr in EL. cbn [rev app] in EL. rewrite w_loop_cons in EL. destruct (r_process c l n) as [[n' nr]|] eqn:ER; [|discriminate]. cbv zeta in EL.
      destruct (decide_run n' nr _ limit false _) as [ [ [kept cur3] p'] st'] eqn:ED. apply decide_running in ED. rewrite EX in EL.
      assert (Z : exists fresh, (fresh = [] \/ exists x, run_new c = Some x /\ fresh = [x]) /\ exists old, Forall run_begun old /\ kept ++ [] = old ++ fresh).
      { destruct ED as [-> | [-> S] ]; [exists []; split; auto; exists []; auto|]. destruct (r_process_begun _ _ _ _ _ W NR Fn ER S) as [_ G]. destruct (G En) as [-> | G']; [exists [n]; split; eauto; exists []; auto|exists []; split; auto; exists [n']; auto]. }
      destruct Z as (fresh' & Z1 & Z2). eapply w_loop_orderly in EL; eauto. destruct EL as (o & A & ->). exists o, fresh'. auto.
Qed.

Lemma new_initial c n : run_new c = Some n -> r_initial n = true.
Proof.
  unfold run_new, traversal_new. destruct (nth_error (c_states c) 0); [|discriminate]. destruct (s_transitions s) as [|tr trs]; intros H; inv H; auto.
  unfold r_initial, t_initial. cbn [r_traversals forallb t_state t_counts Nat.eqb andb]. rewrite andb_true_r. apply forallb_forall. intros x Hx. apply repeat_spec in Hx. subst. auto.
Qed.
Lemma filter_begun old : Forall run_begun old -> filter (fun r => negb (r_initial r)) old = old.
Proof. induction 1; cbn [List.filter]; auto. rewrite (run_begun_initial _ H). cbn. congruence. Qed.
Lemma orderly_nil c : orderly c [].
Proof. split; [constructor|]. exists [], []. splits; auto. destruct (c_exec c); cbn; auto. Qed.
Lemma begun_prefix l m : Forall run_begun (l ++ m) -> Forall run_begun l.
Proof. intros H. apply Forall_app in H. tauto. Qed.
Lemma orderly_prefix c l m : orderly c (l ++ m) -> orderly c l.
Proof.
  intros [F (old & fresh & O1 & O2 & O3)]. split; [eapply fits_prefix; eauto|]. destruct (c_exec c) eqn:EX.
  - destruct O3 as [O3 L]. destruct O2 as [-> | (n & E & ->)]; cbn [app] in O3.
    + subst old. exists l, []. splits; auto; [eapply begun_prefix; eauto|]. rewrite app_length in L. lia.
    + destruct l as [|x l]; [exists [], []; rewrite ?EX; splits; auto; cbn; lia|]. cbn [app] in O3. inv O3. exists l, [n]. rewrite ?EX. splits; eauto; [eapply begun_prefix; eauto|]. rewrite app_length in L. lia.
  - destruct (app_eq_app _ _ _ _ O3) as (x & [ [E1 E2] | [E1 E2] ]); subst.
    + destruct O2 as [E | (n & E & E')].
      * apply app_eq_nil in E as [-> ->]. exists old, []. rewrite ?EX. auto.
      * destruct x as [|y x]; [exists old, []; rewrite ?EX; auto|]. cbn [app] in E'. injection E' as -> E'. apply app_eq_nil in E' as [-> ->]. exists old, [n]. rewrite ?EX. splits; eauto.
    + exists l, []. rewrite ?EX, app_nil_r. splits; auto. eapply begun_prefix; eauto.
Qed.
Lemma orderly_filter c l : orderly c l -> orderly c (filter (fun r => negb (r_initial r)) l).
Proof.
  intros [F (old & fresh & O1 & O2 & O3)]. split; [apply fits_filter; auto|]. exists old, []. splits; auto.
  assert (FF : filter (fun r => negb (r_initial r)) fresh = []) by (destruct O2 as [-> | (n & E & ->)]; cbn; rewrite ?(new_initial _ _ E); auto).
  destruct (c_exec c); [destruct O3 as [-> L]|subst l]; rewrite filter_app, FF, (filter_begun _ O1); rewrite ?app_nil_r; auto.
Qed.

(** * The budget during one log *)
Lemma decide_count c l r r' rr m current limit p st kept cur1 p' st' : well_formed c -> safe c -> run_fits c r -> r_process c l r = Some (r', rr) -> 0 <= m -> run_count r + m <= current <= limit ->
  decide_run r' rr (sat_sub (current + rr_created rr) (rr_completed rr)) limit p st = (kept, cur1, p', st') -> tot kept + m <= cur1 <= limit.
Proof.
  intros W SF F0 E M0 B ED. destruct (r_process_ok re_match to_i32 sha c l r W F0) as (r2 & rr2 & E2 & F & R & U). rewrite E in E2. injection E2 as <- <-.
  pose proof (run_count_nonneg r) as P1. pose proof (run_count_nonneg r') as P2. unfold decide_run in ED. destruct R as [ [n ->]|(RS & R1 & R2 & R3 & R4)].
  - cbn [rr_state rr_created rr_completed] in ED. inv ED. change (tot []) with 0. unfold sat_sub.
    assert (D : run_count r' <= run_count r). { destruct SF as [M|N]; [|auto]. rewrite (stop_no_drift re_match to_i32 sha c l r r' _ W M E eq_refl). lia. }
    lia.
  - assert (C1 : sat_sub (current + rr_created rr) (rr_completed rr) = current + rr_created rr - rr_completed rr) by (unfold sat_sub; lia).
    rewrite C1 in ED. unfold run_count at 1 in R4. rewrite RS in ED. destruct (limit <? current + rr_created rr - rr_completed rr) eqn:EO.
    + assert (EQ : kept = [] /\ cur1 = sat_sub (current + rr_created rr - rr_completed rr) (run_count r')) by (destruct (r_traversals r'); inv ED; auto).
      destruct EQ as [-> ->]. change (tot []) with 0. unfold sat_sub. fold (run_count r') in R4. apply Z.ltb_lt in EO. lia.
    + apply Z.ltb_ge in EO. destruct (r_traversals r') eqn:ET.
      * inv ED. change (tot []) with 0. rewrite count_nil in R4. lia.
      * injection ED as <- <- <- <-. rewrite tot_cons. change (tot []) with 0. rewrite <- ET in R4. fold (run_count r') in R4. lia.
Qed.
Lemma run_stats_hits st rr : run_stats st rr LimitHits = st LimitHits.
Proof. reflexivity. Qed.
Lemma decide_hits r rr cur limit p st kept cur' p' st' : decide_run r rr cur limit p st = (kept, cur', p', st') -> st' LimitHits = st LimitHits + if limit <? cur then 1 else 0.
Proof. unfold decide_run. destruct (rr_state rr), (limit <? cur); intros H; inv H; unfold inc; cbn; try lia; destruct (0 <? rr_advanced rr); cbn; lia. Qed.
Lemma w_loop_hits c l : forall rest done cur limit p res runs cur' res', w_loop c l rest done cur limit p res = Some (runs, cur', res') -> wr_stats res LimitHits <= wr_stats res' LimitHits.
Proof.
  induction rest as [|r rest IH]; intros done cur limit p res runs cur' res' H; [cbn in H; inv H; lia|]. rewrite w_loop_cons in H. destruct (r_process c l r) as [[r' rr]|]; [|discriminate]. cbv zeta in H.
  destruct (decide_run r' rr _ limit p _) as [ [ [kept cur1] p'] st'] eqn:ED. apply decide_hits in ED. rewrite run_stats_hits in ED.
  assert (M : wr_stats res LimitHits <= st' LimitHits) by (destruct (limit <? _) in ED; lia).
  assert (IH' : w_loop c l rest (kept ++ done) cur1 limit p' (mkWresult (wr_actions res ++ rr_actions rr) st') = Some (runs, cur', res') -> wr_stats res LimitHits <= wr_stats res' LimitHits)
    by (intros X; apply IH in X; cbn [wr_stats] in X; lia).
  destruct (c_exec c); [|auto]. destruct (_ && _); [|auto]. destruct rest.
  - destruct (remove_second _) as [ [x d]|]; [|discriminate]. injection H as <- <- <-. cbn [wr_stats]. unfold inc. cbn. lia.
  - destruct (run_new c) as [i0|]; [|discriminate]. destruct (r_process c l i0) as [[? ir]|]; [|discriminate]. injection H as <- <- <-. cbn [wr_stats]. destruct (0 <? rr_matched ir)%N; auto.
Qed.
Lemma decide_lower r rr cur cur' limit p st st2 kept cur1 p' st' : cur' <= cur -> limit <? cur = false -> decide_run r rr cur limit p st = (kept, cur1, p', st') ->
  exists cur1' st2', decide_run r rr cur' limit p st2 = (kept, cur1', p', st2') /\ cur1' <= cur1.
Proof.
  intros L N H. assert (N' : limit <? cur' = false) by (apply Z.ltb_ge in N; apply Z.ltb_ge; lia). unfold decide_run in *. rewrite N in H. rewrite N'. unfold sat_sub in *.
  destruct (rr_state rr); inv H; do 2 eexists; (split; [reflexivity|lia]).
Qed.
Lemma w_loop_lower c l : well_formed c -> safe c -> forall rest done cur cur' limit p res res' runs o res1, Forall (run_fits c) rest ->
  tot rest + tot done <= cur' -> cur' <= cur -> cur <= limit -> wr_actions res = wr_actions res' ->
  w_loop c l rest done cur limit p res = Some (runs, o, res1) -> wr_stats res1 LimitHits <= wr_stats res LimitHits ->
  exists o' res1', w_loop c l rest done cur' limit p res' = Some (runs, o', res1') /\ wr_actions res1' = wr_actions res1.
Proof.
  intros W SF. induction rest as [|r rest IH]; intros done cur cur' limit p res res' runs o res1 F B1 B2 B3 A H LH; [cbn in H |- *; inv H; eauto|].
  rewrite w_loop_cons in H |- *. apply Forall_cons_iff in F as [F1 F2]. destruct (r_process c l r) as [[r' rr]|] eqn:ER; [|discriminate]. cbv zeta in H |- *. rewrite tot_cons in B1. pose proof (tot_nonneg rest) as P1. pose proof (tot_nonneg done) as P2.
  destruct (decide_run r' rr _ limit p _) as [ [ [kept cur1] p'] st'] eqn:ED. pose proof (decide_hits _ _ _ _ _ _ _ _ _ _ ED) as HS. rewrite run_stats_hits in HS.
  assert (LE : st' LimitHits <= wr_stats res1 LimitHits).
  { assert (Y : w_loop c l rest (kept ++ done) cur1 limit p' (mkWresult (wr_actions res ++ rr_actions rr) st') = Some (runs, o, res1) -> st' LimitHits <= wr_stats res1 LimitHits) by (intros Y; apply w_loop_hits in Y; exact Y).
    destruct (c_exec c); [|auto]. destruct (_ && _); [|auto]. destruct rest.
    - destruct (remove_second _) as [ [x d]|]; [|discriminate]. injection H as <- <- <-. cbn [wr_stats]. unfold inc. cbn. lia.
    - destruct (run_new c) as [i0|]; [|discriminate]. destruct (r_process c l i0) as [[? ir]|]; [|discriminate]. injection H as <- <- <-. cbn [wr_stats]. destruct (0 <? rr_matched ir)%N; [unfold inc; cbn|]; lia. }
  destruct (limit <? sat_sub (cur + rr_created rr) (rr_completed rr)) eqn:EO; [lia|].
  assert (LS : sat_sub (cur' + rr_created rr) (rr_completed rr) <= sat_sub (cur + rr_created rr) (rr_completed rr)) by (unfold sat_sub; lia).
  destruct (decide_lower _ _ _ _ _ _ _ (run_stats (wr_stats res') rr) _ _ _ _ LS EO ED) as (cur1' & st2' & ED' & L1). rewrite ED'.
  assert (C1 := decide_count c l r r' rr (tot rest + tot done) cur limit p _ kept cur1 p' _ W SF F1 ER ltac:(lia) ltac:(lia) ED).
  assert (C2 := decide_count c l r r' rr (tot rest + tot done) cur' limit p _ kept cur1' p' _ W SF F1 ER ltac:(lia) ltac:(lia) ED').
  assert (Y : w_loop c l rest (kept ++ done) cur1 limit p' (mkWresult (wr_actions res ++ rr_actions rr) st') = Some (runs, o, res1) ->
     exists o' res1', w_loop c l rest (kept ++ done) cur1' limit p' (mkWresult (wr_actions res' ++ rr_actions rr) st2') = Some (runs, o', res1') /\ wr_actions res1' = wr_actions res1).
  { intros Y. eapply IH in Y; [exact Y|auto|rewrite tot_app; lia|lia|lia|cbn [wr_actions]; congruence|cbn [wr_stats]; lia]. }
  destruct (c_exec c); [|auto]. destruct (_ && _); [|auto]. destruct rest.
  - destruct (remove_second _) as [ [x d]|]; [|discriminate]. injection H as <- <- <-. do 2 eexists. split; [reflexivity|]. cbn [wr_actions]. congruence.
  - destruct (run_new c) as [i0|]; [|discriminate]. destruct (r_process c l i0) as [[? ir]|]; [|discriminate]. injection H as <- <- <-. do 2 eexists. split; [reflexivity|]. cbn [wr_actions]. congruence.
Qed.

Lemma tot_filter f runs : tot (filter f runs) <= tot runs.
Proof. induction runs as [|r runs IH]; [cbn; lia|]. cbn [List.filter]. pose proof (run_count_nonneg r). destruct (f r); rewrite !tot_cons; lia. Qed.
Lemma w_process_restored c l w cur cur' limit w' o res : well_formed c -> c_matched c = None -> orderly c (w_runs w) -> workflow_count w <= cur <= limit ->
  workflow_count (workflow_optimized w) <= cur' -> cur' <= cur - (workflow_count w - workflow_count (workflow_optimized w)) ->
  w_process c l w cur limit = Some (w', o, res) -> wr_stats res LimitHits = 0 ->
  exists res', w_process c l (workflow_optimized w) cur' limit = Some (w', o - (cur - (workflow_count w - workflow_count (workflow_optimized w)) - cur'), res') /\ wr_actions res' = wr_actions res.
Proof.
  intros W M OR B B1 B2 H LH.
  assert (SF : safe c) by (left; auto).
  assert (FW : workflow_fits c w) by apply OR.
  assert (FO : workflow_fits c (workflow_optimized w)) by (apply fits_filter; apply OR).
  assert (G : exists w2 o' res', w_process c l (workflow_optimized w) cur' limit = Some (w2, o', res') /\ w2 = w' /\ wr_actions res' = wr_actions res).
  { destruct OR as [F (old & fresh & O1 & O2 & O3)]. destruct (run_new_ok c W) as (n & En & Fn & In & Cn).
    assert (O2' : fresh = [] \/ fresh = [n]) by (destruct O2 as [O2|(n' & E & O2)]; [auto|right; congruence]).
    assert (RO : w_runs (workflow_optimized w) = old).
    { unfold workflow_optimized. cbn [w_runs]. assert (FF : filter (fun r => negb (r_initial r)) fresh = []) by (destruct O2' as [-> | ->]; cbn; rewrite ?In; auto).
      destruct (c_exec c); [destruct O3 as [-> L]|rewrite O3]; rewrite filter_app, FF, (filter_begun _ O1); rewrite ?app_nil_r; auto. }
    assert (TW : tot (w_runs w) = tot fresh + tot old) by (destruct (c_exec c); [destruct O3 as [-> _]|rewrite O3]; rewrite tot_app; lia).
    assert (Fo : Forall (run_fits c) old) by (unfold workflow_fits in FO; rewrite RO in FO; exact FO).
    rewrite !workflow_count_tot in *. rewrite RO in *. pose proof (tot_nonneg old) as Po. pose proof (tot_nonneg fresh) as Pf.
    unfold Workflow_Model.w_process in H |- *. rewrite En in *. rewrite RO.
    assert (NO : needs_new_run (workflow_optimized w) = true).
    { unfold needs_new_run. rewrite RO. destruct old as [|a old]; auto. assert (EE : existsb r_initial (a :: old) = false).
      { destruct (existsb r_initial (a :: old)) eqn:EE; auto. apply existsb_exists in EE as (x & X1 & X2). rewrite Forall_forall in O1. rewrite (run_begun_initial _ (O1 _ X1)) in X2. discriminate. }
      rewrite ?EE; auto. }
    rewrite NO. unfold maybe_add_run in *.
    assert (LOOP : forall runs cur0 cur1 st st1, Forall (run_fits c) runs -> tot runs <= cur1 -> cur1 <= cur0 -> cur0 <= limit -> 0 <= st LimitHits ->
       match w_loop c l (rev runs) [] cur0 limit false (mkWresult [] st) with Some (r0, c0, s0) => Some (mkWorkflow (w_id w) r0, c0, s0) | None => None end = Some (w', o, res) ->
       exists w2 o' res', match w_loop c l (rev runs) [] cur1 limit false (mkWresult [] st1) with Some (r0, c0, s0) => Some (mkWorkflow (w_id (workflow_optimized w)) r0, c0, s0) | None => None end = Some (w2, o', res') /\ w2 = w' /\ wr_actions res' = wr_actions res).
    { intros runs cur0 cur1 st st1 Fr L1 L2 L3 L4 HL. destruct (w_loop c l (rev runs) [] cur0 limit false (mkWresult [] st)) as [ [ [r0 c0] s0]|] eqn:EL; [|discriminate]. injection HL as <- <- <-.
      assert (T : tot (rev runs) + tot [] <= cur1) by (rewrite tot_rev; change (tot []) with 0; lia). assert (LH' : wr_stats s0 LimitHits <= st LimitHits) by lia.
      destruct (w_loop_lower c l W SF (rev runs) [] cur0 cur1 limit false (mkWresult [] st) (mkWresult [] st1) r0 c0 s0 (Forall_rev Fr) T L2 L3 eq_refl EL LH') as (o' & s1 & EL' & A').
      rewrite EL'. do 3 eexists. split; [reflexivity|]. split; auto. }
    destruct (needs_new_run w) eqn:NW.
    - assert (fresh = []) as ->. { destruct O2' as [E|E]; auto. exfalso. unfold needs_new_run in NW. destruct (c_exec c); [destruct O3 as [O3 _]|]; rewrite O3, E in NW.
        - cbn in NW. rewrite In in NW. discriminate.
        - destruct (old ++ [n]) eqn:EO; [destruct old; discriminate|]. rewrite <- EO, existsb_app in NW. cbn in NW. rewrite In, orb_true_r in NW. discriminate. }
      change (tot []) with 0 in *. destruct (run_count n + cur <=? limit) eqn:E1.
      + apply Z.leb_le in E1. assert (E2 : run_count n + cur' <=? limit = true) by (apply Z.leb_le; lia). rewrite E2. assert (RW : w_runs w = old) by (destruct (c_exec c); [destruct O3 as [-> _]; auto|rewrite O3, app_nil_r; auto]). rewrite RW in *.
        eapply LOOP; [| | | | |exact H]; try lia.
        * destruct (c_exec c); [constructor; auto|apply Forall_app; auto].
        * destruct (c_exec c); [rewrite tot_cons|rewrite tot_app, tot_cons; change (tot []) with 0]; lia.
        * unfold inc, no_stats. cbn. lia.
      + exfalso. destruct (w_loop _ _ _ _ _ _ _ _) as [ [ [r0 c0] s0]|] eqn:EL; [|discriminate]. apply w_loop_hits in EL. injection H as <- <- <-. cbn [wr_stats] in EL. unfold inc, no_stats in EL. cbn in EL. lia.
    - assert (fresh = [n]) as ->. { destruct O2' as [E|E]; auto. exfalso. subst fresh. assert (RW : w_runs w = old) by (destruct (c_exec c); [destruct O3 as [-> _]; auto|rewrite O3, app_nil_r; auto]).
        assert (needs_new_run w = needs_new_run (workflow_optimized w)) by (unfold needs_new_run; rewrite RO, RW; reflexivity). congruence. }
      rewrite tot_cons in *. change (tot []) with 0 in *. pose proof (run_count_nonneg n).
      assert (E2 : run_count n + cur' <=? limit = true) by (apply Z.leb_le; lia). rewrite E2.
      assert (RW : match c_exec c with Exclusive => n :: old | Parallel => old ++ [n] end = w_runs w) by (destruct (c_exec c); [destruct O3 as [-> _]|rewrite O3]; auto).
      rewrite RW. eapply LOOP; [exact F| | | | |exact H]; try lia. unfold no_stats. lia. }
  destruct G as (w2 & o' & res' & G1 & -> & G2). exists res'. split; auto. rewrite G1. do 3 f_equal.
  pose proof (w_process_count re_match to_i32 sha c l w cur limit w' o res W SF FW ltac:(lia) H) as (_ & _ & C1). pose proof (workflow_count_nonneg (workflow_optimized w)).
  pose proof (tot_nonneg (w_runs w)). 
  assert (workflow_count (workflow_optimized w) <= workflow_count w) by (apply tot_filter).
  pose proof (w_process_count re_match to_i32 sha c l _ cur' limit w' o' res' W SF FO ltac:(lia) G1) as (_ & _ & C2). specialize (C1 M). specialize (C2 M). lia.
Qed.

(** * The engine *)
Definition alike (e1 e2 : engine) : Prop :=
  e_configs e1 = e_configs e2 /\ e_workflows e1 = e_workflows e2 /\ e_session e1 = e_session e2 /\ e_current e1 = e_current e2 /\ e_limit e1 = e_limit e2 /\
  e_triggers e1 = e_triggers e2 /\ e_conts e1 = e_conts e2.

Lemma all_process_dirty l : forall ws cur limit d d' ws' cur' b acts, all_process l ws cur limit d = Some (ws', cur', b, acts) -> exists b', all_process l ws cur limit d' = Some (ws', cur', b', acts).
Proof.
  induction ws as [|[c w] ws IH]; intros cur limit d d' ws' cur' b acts H; cbn [WorkflowEngine_Model.all_process] in *; [inv H; eauto|].
  destruct (w_process c l w cur limit) as [ [ [w' cur1] r]|]; [|discriminate]. cbv zeta in *. destruct (all_process l ws cur1 limit (_ || _)) as [ [ [ [ws2 cur2] b2] acts2]|] eqn:EA in H; [|discriminate]. inv H.
  eapply IH in EA as (b' & EA). rewrite EA. eauto.
Qed.
Lemma flush_loop_fixed session triggers conts : forall acts pend pend' strm strm' cr cr' ids bufs,
  let '(_, i1, b1) := flush_loop session triggers conts pend strm acts cr ids bufs in let '(_, i2, b2) := flush_loop session triggers conts pend' strm' acts cr' ids bufs in i1 = i2 /\ b1 = b2.
Proof.
  induction acts as [|a acts IH]; intros; cbn [flush_loop]; auto. destruct (pending_new a session triggers conts) as [p|]; [|apply IH].
  destruct (_ || _), (_ || _); apply IH.
Qed.

(** The processing of a log, after the workflows processed it. *)
Definition finish (e : engine) (l : log) (dests : list string) (done : nat -> bool) ws cur dirty acts : engine * result :=
  let e := set_workflows e (e_configs e) ws cur dirty in
  let '(dests', strm, changed) := process_streaming (e_triggers e) (e_conts e) (map (fun a => (a, flush_complete e done (sa_id a))) (e_streaming e)) dests (e_session e) in
  let '(created, ids, bufs) := process_flush_actions (e_session e) (e_triggers e) (e_conts e) (flushes_of acts) (e_pending e) strm in
  let e := set_actions e (fold_left (fun s p => insert pending_dec p s) created (e_pending e)) strm
             (e_dirty e || changed || match created with [] => false | _ => true end) (try_send_all INPUT_CAPACITY (e_input e) created) in
  (e, mkResult dests' ids bufs (match screenshots_of acts with [] => false | _ => true end)
         (flat_map (fun a => emit_metric f64 a l) (metrics_of acts) ++ map (fun x => emit_sankey (fst x) (snd x) l) (sankeys_of acts))
         (map snd (sankeys_of acts))).
Lemma process_log_finish e l dests done : process_log e l dests done =
  let e := enter_session e l in
  match e_workflows e with
  | [] => Some (e, mkResult dests [] [] false [] [])
  | _ => match all_process l (combine (e_configs e) (e_workflows e)) (e_current e) (e_limit e) (e_dirty e) with
         | None => None
         | Some (ws, cur, dirty, acts) => Some (finish e l dests done ws cur dirty acts)
         end
  end.
Proof.
  unfold WorkflowEngine_Model.process_log, finish. cbv zeta. set (e1 := enter_session e l). clearbody e1. destruct (e_workflows e1) eqn:EW; auto. rewrite <- EW. destruct (all_process _ _ _ _ _) as [ [ [ [ws cur] dirty] acts]|]; auto.
  destruct (process_streaming _ _ _ _ _) as [ [dests' strm] changed]. destruct (process_flush_actions _ _ _ _ _ _) as [ [created ids] bufs]. reflexivity.
Qed.
Lemma finish_alike e e' l d d' dn dn' ws cur b b' acts : e_configs e = e_configs e' -> e_session e = e_session e' -> e_limit e = e_limit e' -> e_triggers e = e_triggers e' -> e_conts e = e_conts e' ->
  alike (fst (finish e l d dn ws cur b acts)) (fst (finish e' l d' dn' ws cur b' acts)) /\ same_actions (snd (finish e l d dn ws cur b acts)) (snd (finish e' l d' dn' ws cur b' acts)).
Proof.
  intros E1 E2 E3 E4 E5. unfold finish. cbv zeta. cbn [set_workflows e_configs e_triggers e_conts e_session e_streaming e_pending e_dirty e_input]. rewrite <- E1, <- E2, <- E4, <- E5.
  destruct (process_streaming _ _ _ d _) as [ [dests1 strm1] ch1]. destruct (process_streaming _ _ _ d' _) as [ [dests2 strm2] ch2].
  pose proof (flush_loop_fixed (e_session e) (e_triggers e) (e_conts e) (flushes_of acts) (e_pending e) (e_pending e') strm1 strm2 [] [] [] []) as FL. unfold process_flush_actions.
  destruct (flush_loop _ _ _ (e_pending e) strm1 _ _ _ _) as [ [cr1 i1] b1]. destruct (flush_loop _ _ _ (e_pending e') strm2 _ _ _ _) as [ [cr2 i2] b2]. destruct FL as [-> ->]. cbn [fst snd]. split.
  - unfold alike. cbn. splits; auto.
  - unfold same_actions. cbn [o_action_ids o_flushed o_screenshot o_metrics o_paths]. splits; auto.
Qed.
Lemma enter_alike e e' l : alike e e' -> alike (enter_session e l) (enter_session e' l).
Proof.
  intros (A1 & A2 & A3 & A4 & A5 & A6 & A7). unfold enter_session. rewrite <- A3. destruct (String.eqb (e_session e) ""); [unfold alike; cbn; splits; auto|]. destruct (String.eqb _ _); [unfold alike; splits; auto|].
  unfold alike. cbn. splits; auto. congruence.
Qed.
Lemma process_alike e e' l d d' dn dn' e1 r1 : alike (enter_session e l) (enter_session e' l) -> process_log e l d dn = Some (e1, r1) ->
  exists e1' r1', process_log e' l d' dn' = Some (e1', r1') /\ alike e1 e1' /\ same_actions r1 r1'.
Proof.
  intros A H. rewrite process_log_finish in *. cbv zeta in *. set (x := enter_session e l) in *. set (x' := enter_session e' l) in *. clearbody x x'. assert (A' := A). destruct A as (A1 & A2 & A3 & A4 & A5 & A6 & A7).
  rewrite <- A2. destruct (e_workflows x) eqn:EW.
  - inv H. do 2 eexists. split; [reflexivity|]. split; [exact A'|]. unfold same_actions. cbn. auto.
  - rewrite <- EW in *. rewrite <- A1, <- A4, <- A5. destruct (all_process _ _ _ _ _) as [ [ [ [ws cur] b] acts]|] eqn:EA; [|discriminate]. eapply all_process_dirty in EA as (b' & EA). rewrite EA. injection H as H.
    destruct (finish_alike x x' l d d' dn dn' ws cur b b' acts) as [F1 F2]; auto. rewrite H in F1, F2. cbn [fst snd] in F1, F2. destruct (finish x' l d' dn' ws cur b' acts) as [e1' r1']. do 2 eexists. split; [reflexivity|]. auto.
Qed.
Lemma feed_alike : forall ls ls' e e' e1 rs, alike e e' -> map (fun x => fst (fst x)) ls = map (fun x => fst (fst x)) ls' -> feed e ls = Some (e1, rs) ->
  exists e1' rs', feed e' ls' = Some (e1', rs') /\ alike e1 e1' /\ Forall2 same_actions rs rs'.
Proof.
  induction ls as [|[ [l d] dn] ls IH]; intros [|[ [l' d'] dn'] ls'] e e' e1 rs A E H; try discriminate; cbn [WorkflowEngine_Spec.feed] in *.
  - inv H. do 2 eexists. split; [reflexivity|]. auto.
  - cbn [map fst] in E. injection E as <- E. destruct (process_log e l d dn) as [[e2 r]|] eqn:EP; [|discriminate]. destruct (process_alike _ e' _ _ d' _ dn' _ _ (enter_alike _ _ l A) EP) as (e2' & r' & EP' & A2 & S2). rewrite EP'.
    destruct (feed e2 ls) as [[e3 rs3]|] eqn:EF; [|discriminate]. destruct (IH ls' e2 e2' e3 rs3 A2 E EF) as (e3' & rs3' & EF' & A3 & S3). rewrite EF'. inv H. do 2 eexists. split; [reflexivity|]. auto.
Qed.

(** The first log after the state is restored. *)
Definition opts (ws : list workflow) : list workflow := map workflow_optimized ws.
Lemma opts_le ws : wtot (opts ws) <= wtot ws.
Proof. induction ws as [|w ws IH]; [cbn; lia|]. cbn [opts map]. fold (opts ws). rewrite !wtot_cons. pose proof (tot_filter (fun r => negb (r_initial r)) (w_runs w)). rewrite !workflow_count_tot. cbn [workflow_optimized w_runs]. lia. Qed.
Lemma all_process_restored cs l limit : Forall well_formed cs -> exact cs -> forall l1 l2, Forall2 (matched_up cs orderly) l1 l2 -> forall cur d d' ws cur' b acts,
  wtot l2 <= cur <= limit -> roomy l (combine l1 l2) cur limit -> all_process l (combine l1 l2) cur limit d = Some (ws, cur', b, acts) ->
  exists b', all_process l (combine l1 (opts l2)) (cur - (wtot l2 - wtot (opts l2))) limit d' = Some (ws, cur', b', acts).
Proof.
  intros W X. induction 1 as [|c w l1 l2 (H1 & H2 & H3) HF IH]; intros cur d d' ws cur' b acts B R H; cbn [combine opts map WorkflowEngine_Model.all_process WorkflowEngine_Spec.roomy] in *.
  - inv H. replace (cur' - _) with cur' by (cbn; lia). eauto.
  - fold (opts l2). rewrite !wtot_cons in *. rewrite Forall_forall in W. pose proof (wtot_nonneg l2) as N2. pose proof (wtot_nonneg (opts l2)) as N3. pose proof (opts_le l2) as N4. pose proof (tot_filter (fun r => negb (r_initial r)) (w_runs w)) as N5.
    pose proof (workflow_count_nonneg (workflow_optimized w)) as N6. assert (N5' : workflow_count (workflow_optimized w) <= workflow_count w) by exact N5. clear N5.
    destruct (w_process c l w cur limit) as [ [ [w' cur1] r]|] eqn:EW; [|discriminate]. cbv zeta in *. destruct R as [R1 R2].
    destruct (w_process_restored c l w cur (cur - (workflow_count w + wtot l2 - (workflow_count (workflow_optimized w) + wtot (opts l2)))) limit w' cur1 r (W _ H1) (X _ H1) H3 ltac:(lia) ltac:(lia) ltac:(lia) EW R1) as (r' & EW' & A').
    rewrite EW'. cbv zeta. destruct (all_process l (combine l1 l2) cur1 limit _) as [ [ [ [ws2 cur2] b2] acts2]|] eqn:EA; [|discriminate]. inv H.
    assert (SF : safe c) by (left; auto). destruct H3 as [H3 _].
    pose proof (w_process_count re_match to_i32 sha c l w cur limit w' cur1 r (W _ H1) SF H3 ltac:(lia) EW) as (C0 & _ & C1). specialize (C1 (X _ H1)). pose proof (workflow_count_nonneg w').
    eapply IH in EA; [|lia|exact R2]. destruct EA as (b' & EA).
    replace (cur1 - (cur - (workflow_count w - workflow_count (workflow_optimized w)) - (cur - (workflow_count w + wtot l2 - (workflow_count (workflow_optimized w) + wtot (opts l2)))))) with (cur1 - (wtot l2 - wtot (opts l2))) by lia.
    rewrite EA, A'. eauto.
Qed.

Lemma last_workflow_none id l : (forall w, In w l -> w_id w <> id) -> last_workflow id l = None.
Proof. induction l as [|w l IH]; intros H; cbn [last_workflow]; auto. rewrite IH by (intros; apply H; now right). destruct (String.eqb (w_id w) id) eqn:E; auto. apply String.eqb_eq in E. exfalso. eapply H; [now left|auto]. Qed.
Lemma without_none id l : (forall w, In w l -> w_id w <> id) -> without id l = l.
Proof. unfold without. induction l as [|w l IH]; intros H; cbn [List.filter]; auto. rewrite IH by (intros; apply H; now right). destruct (String.eqb (w_id w) id) eqn:E; auto. apply String.eqb_eq in E. exfalso. eapply H; [now left|auto]. Qed.
Definition has_runs (w : workflow) : bool := match w_runs w with [] => false | _ => true end.
Lemma add_restored : forall cs ws e, map c_id cs = map w_id ws -> NoDup (map c_id cs) -> e_current e + wtot (opts ws) <= e_limit e ->
  let e' := add_workflows e cs (filter has_runs (opts ws)) in
  e_configs e' = e_configs e ++ cs /\ e_workflows e' = e_workflows e ++ opts ws /\ e_current e' = e_current e + wtot (opts ws) /\ e_limit e' = e_limit e /\ e_session e' = e_session e /\ e_triggers e' = e_triggers e /\ e_conts e' = e_conts e.
Proof.
  induction cs as [|c cs IH]; intros [|w ws] e E N B; cbn [map] in E; try discriminate; cbv zeta.
  - cbn [add_workflows opts map]. rewrite !app_nil_r. change (wtot []) with 0. splits; auto. lia.
  - injection E as E1 E2. cbn [map] in N. apply NoDup_cons_iff in N as [N1 N2]. change (opts (w :: ws)) with (workflow_optimized w :: opts ws) in *. rewrite wtot_cons in B.
    assert (OI : forall x, In x (filter has_runs (opts ws)) -> w_id x <> c_id c).
    { intros x Hx. apply filter_In in Hx as [Hx _]. unfold opts in Hx. apply in_map_iff in Hx as (y & <- & Hy). cbn [workflow_optimized w_id]. intros EQ. apply N1. rewrite E2. rewrite <- EQ. apply in_map. auto. }
    assert (S1 : match last_workflow (c_id c) (filter has_runs (workflow_optimized w :: opts ws)) with Some w => w | None => mkWorkflow (c_id c) [] end = workflow_optimized w /\
                 without (c_id c) (filter has_runs (workflow_optimized w :: opts ws)) = filter has_runs (opts ws)).
    { cbn [List.filter]. destruct (has_runs (workflow_optimized w)) eqn:ER.
      - cbn [last_workflow]. rewrite (last_workflow_none _ _ OI). unfold without. cbn [List.filter workflow_optimized w_id]. rewrite <- E1, String.eqb_refl. cbn [negb]. split; [auto|]. apply (without_none _ _ OI).
      - rewrite (last_workflow_none _ _ OI), (without_none _ _ OI). split; auto. unfold has_runs in ER. unfold workflow_optimized in *. cbn [w_runs] in ER. rewrite E1. destruct (filter _ (w_runs w)); [auto|discriminate]. }
    destruct S1 as [S1 S2]. cbn [add_workflows]. rewrite S1, S2. clear S1 S2.
    assert (T : add_workflow e (workflow_optimized w) c = set_workflows e (e_configs e ++ [c]) (e_workflows e ++ [workflow_optimized w]) (e_current e + workflow_count (workflow_optimized w)) (e_dirty e)).
    { unfold add_workflow. pose proof (wtot_nonneg (opts ws)). assert (LF : e_limit e <? workflow_count (workflow_optimized w) + e_current e = false) by (apply Z.ltb_ge; lia). rewrite LF. reflexivity. }
    rewrite T. destruct (IH ws (set_workflows e (e_configs e ++ [c]) (e_workflows e ++ [workflow_optimized w]) (e_current e + workflow_count (workflow_optimized w)) (e_dirty e))) as (I1 & I2 & I3 & I4 & I5 & I6 & I7); auto.
    { cbn [set_workflows e_current e_limit]. lia. }
    cbv zeta in *. rewrite I1, I2, I3, I4, I5, I6, I7. cbn [set_workflows e_configs e_workflows e_current e_limit e_session e_triggers e_conts]. rewrite <- !app_assoc. splits; auto. rewrite wtot_cons. lia.
Qed.

Lemma restore_start e g : map c_id (e_configs e) = map w_id (e_workflows e) -> NoDup (map c_id (e_configs e)) -> wtot (e_workflows e) <= e_limit e -> g_workflows g = e_configs e ->
  let e' := start (engine_new (e_limit e)) g (Some (state_optimized e)) in
  e_configs e' = e_configs e /\ e_workflows e' = opts (e_workflows e) /\ e_current e' = wtot (opts (e_workflows e)) /\ e_limit e' = e_limit e /\ e_session e' = e_session e /\ e_triggers e' = g_triggers g /\ e_conts e' = g_conts g.
Proof.
  intros M N B G. cbv zeta. unfold start. cbv zeta. cbn [set_actions e_configs e_workflows e_current e_limit e_session e_triggers e_conts].
  rewrite G. pose proof (opts_le (e_workflows e)).
  match goal with |- context [add_workflows ?x _ _] => destruct (add_restored (e_configs e) (e_workflows e) x) as (I1 & I2 & I3 & I4 & I5 & I6 & I7); auto; [cbn; lia|] end.
  cbv zeta in *. splits; [etransitivity; [exact I1|]|etransitivity; [exact I2|]|etransitivity; [exact I3|]|etransitivity; [exact I4|]|etransitivity; [exact I5|]|etransitivity; [exact I6|]|etransitivity; [exact I7|]]; reflexivity.
Qed.

Theorem restored e g l d dn ls d' dn' ls' e1 rs cs :
  Forall2 (matched_up cs orderly) (e_configs e) (e_workflows e) -> Forall well_formed cs -> exact cs -> NoDup (map c_id (e_configs e)) -> budget cs e ->
  g_workflows g = e_configs e -> g_triggers g = e_triggers e -> g_conts g = e_conts e ->
  (e_session e = "" \/ e_session e = l_session l -> roomy l (workflows_of e) (e_current e) (e_limit e)) ->
  map (fun x => fst (fst x)) ls = map (fun x => fst (fst x)) ls' -> feed e ((l, d, dn) :: ls) = Some (e1, rs) ->
  exists e1' rs', feed (start (engine_new (e_limit e)) g (Some (state_optimized e))) ((l, d', dn') :: ls') = Some (e1', rs') /\ Forall2 same_actions rs rs'.
Proof.
  intros M W X N [B BX] G1 G2 G3 R E H. specialize (BX X).
  assert (MI : map c_id (e_configs e) = map w_id (e_workflows e)). { clear -M. induction M as [|c w l1 l2 (_ & H & _) _ IH]; cbn [map]; congruence. }
  destruct (restore_start e g MI N ltac:(lia) G1) as (S1 & S2 & S3 & S4 & S5 & S6 & S7). set (e' := start _ _ _) in *. clearbody e'. rewrite G2 in S6. rewrite G3 in S7.
  cbn [WorkflowEngine_Spec.feed] in *. destruct (process_log e l d dn) as [[e2 r]|] eqn:EP; [|discriminate].
  assert (P : exists e2' r', process_log e' l d' dn' = Some (e2', r') /\ alike e2 e2' /\ same_actions r r').
  { destruct (String.eqb (e_session e) "" || String.eqb (e_session e) (l_session l)) eqn:ES.
    - assert (RR : roomy l (workflows_of e) (e_current e) (e_limit e)) by (apply R; apply orb_true_iff in ES as [ES|ES]; apply String.eqb_eq in ES; auto). clear R. unfold workflows_of in RR.
      assert (EN : forall x, e_session x = e_session e -> exists s, enter_session x l = set_session x s /\ s = if String.eqb (e_session e) "" then l_session l else e_session e).
      { intros x Hx. eexists. split; [|reflexivity]. unfold enter_session. rewrite Hx. destruct (String.eqb (e_session e) ""); auto. cbn [orb] in ES. rewrite ES. rewrite <- Hx. destruct x; reflexivity. }
      destruct (EN e eq_refl) as (s & E1 & Es). destruct (EN e' S5) as (s' & E2 & Es'). rewrite process_log_finish in *. rewrite E1 in EP. rewrite E2. replace s' with s by congruence. clear EN ES Es Es' E1 E2 s'.
      cbv zeta in *. cbn [set_session e_workflows e_configs e_current e_limit e_dirty] in *. rewrite S1, S2, S3, S4. destruct (e_workflows e) eqn:EW.
      + inv EP. cbn [opts map]. do 2 eexists. split; [reflexivity|]. split; [|unfold same_actions; cbn; auto]. unfold alike. cbn. rewrite S2, S3, EW. splits; auto.
      + rewrite <- EW in *. assert (exists x y, opts (e_workflows e) = x :: y) as (x & y & OX) by (rewrite EW; cbn; eauto). rewrite OX. rewrite <- OX. clear x y OX EW.
        destruct (all_process l _ _ _ _) as [ [ [ [ws cur] b] acts]|] eqn:EA; [|discriminate]. injection EP as EP.
        pose proof (all_process_restored cs l (e_limit e) W X _ _ M (e_current e) _ (e_dirty e') ws cur b acts ltac:(lia) RR EA) as (b' & EA').
        replace (e_current e - (wtot (e_workflows e) - wtot (opts (e_workflows e)))) with (wtot (opts (e_workflows e))) in EA' by lia. rewrite EA'.
        destruct (finish_alike (set_session e s) (set_session e' s) l d d' dn dn' ws cur b b' acts) as [F1 F2]; cbn; auto. rewrite EP in F1, F2. cbn [fst snd] in F1, F2.
        destruct (finish (set_session e' s) l d' dn' ws cur b' acts) as [e2' r']. do 2 eexists. split; [reflexivity|]. auto.
    - apply orb_false_iff in ES as [ES1 ES2]. eapply process_alike; [|exact EP]. unfold enter_session. rewrite S5, ES1, ES2. unfold alike. cbn. rewrite S1, S2, S4. splits; auto. unfold opts. rewrite map_map. reflexivity. }
  destruct P as (e2' & r' & EP' & A & SA). rewrite EP'. destruct (feed e2 ls) as [[e3 rs3]|] eqn:EF; [|discriminate]. destruct (feed_alike ls ls' e2 e2' e3 rs3 A E EF) as (e3' & rs3' & EF' & _ & S3'). rewrite EF'. inv H.
  do 2 eexists. split; [reflexivity|]. auto.
Qed.

Lemma reach_orderly g limit ops y ev : Forall well_formed (all_given g ops) -> Forall no_return (all_given g ops) -> stable g ops -> run_ops (system_new g limit) ops = Some (y, ev) ->
  good (all_given g ops) orderly (y_engine y).
Proof.
  intros W NR S H. destruct (system_inv re_match to_i32 sha f64 g limit ops y ev orderly (fun _ _ _ => True) S) as [G _]; auto.
  - intros. apply orderly_nil.
  - apply orderly_prefix.
  - apply orderly_filter.
  - intros c l w cur lim w' cur' res Hc F Hw. rewrite Forall_forall in W, NR. split; [|apply Forall_forall; auto]. eapply w_process_orderly; eauto.
Qed.
End Restore.
