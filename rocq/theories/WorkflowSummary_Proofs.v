(** The lemmas about the engine, put together for reachable states of the system. *)
From Verif Require Import Base Str_Base Version_Model Log_Model LogMatcher_Model BufferMatcher_Model Matcher_Proofs Workflow_Model Workflow_Spec Workflow_Proofs WorkflowEngine_Model WorkflowEngine_Spec WorkflowEngine_Proofs WorkflowEqual_Proofs WorkflowActions_Proofs WorkflowNegotiation_Proofs WorkflowHistory_Proofs WorkflowFinal_Proofs WorkflowRefuted_Proofs.
Local Open Scope string_scope. Local Open Scope list_scope. Local Open Scope Z_scope.

(** * A definition equals itself *)
Lemma leaf_eqb_refl b : leaf_eqb b b = true.
Proof.
  assert (O : forall o, operator_eqb o o = true) by (destruct o; auto). assert (I : forall i, input_eqb i i = true) by (destruct i; cbn [input_eqb]; auto using String.eqb_refl).
  destruct b; cbn [leaf_eqb]; unfold int_match_eqb, string_match_eqb; rewrite ?I, ?O, ?Z.eqb_refl, ?String.eqb_refl, ?N.eqb_refl; auto.
  match goal with |- true && version_match_eqb ?v ?v = true => destruct v as [r|c w]; cbn [version_match_eqb] end; rewrite ?String.eqb_refl; auto. destruct c; auto.
Qed.
Lemma tree_eqb_refl t : tree_eqb t t = true.
Proof.
  induction t as [b|l H|l H|t IH] using tree_ind'; cbn [tree_eqb]; auto using leaf_eqb_refl; induction H as [|x l Hx _ IH]; auto; rewrite Hx; cbn [andb]; exact IH.
Qed.
Lemma list_eqb_refl {A} (f : A -> A -> bool) : (forall x, f x x = true) -> forall l, list_eqb f l l = true.
Proof. intros R. induction l; cbn [list_eqb]; auto. rewrite R. auto. Qed.
Lemma sumb_refl {A} (dec : forall x y : A, {x = y} + {x <> y}) x : sumb (dec x x) = true.
Proof. destruct (dec x x); cbn; congruence. Qed.
Lemma config_eqb_refl c : config_eqb c c = true.
Proof.
  assert (P : forall p, predicate_eqb p p = true) by (destruct p; cbn [predicate_eqb]; rewrite ?tree_eqb_refl, ?N.eqb_refl, ?Z.eqb_refl; auto).
  assert (T : forall t, transition_eqb t t = true) by (intros t; unfold transition_eqb; rewrite Nat.eqb_refl, P, !sumb_refl; auto).
  assert (S : forall s, state_eqb s s = true) by (intros s; unfold state_eqb; rewrite String.eqb_refl, list_eqb_refl; auto).
  unfold config_eqb. rewrite String.eqb_refl, list_eqb_refl by auto. destruct (c_exec c), (c_duration c), (c_matched c); cbn [execution_eqb option_eqb]; rewrite ?Z.eqb_refl, ?N.eqb_refl; auto.
Qed.

Section Summary.
Variables (re_match : string -> string -> bool) (to_i32 : string -> option Z) (sha : string -> string) (f64 : string -> option Z).
Notation process_log := (process_log re_match to_i32 sha f64). Notation run_ops := (run_ops re_match to_i32 sha f64). Notation step := (step re_match to_i32 sha f64).

Lemma step_log y l dests y' ev : step y (Log l dests) = Some (y', ev) -> exists r, ev = [Processed l r] /\ process_log (y_engine y) l dests (is_done (y_done y)) = Some (y_engine y', r).
Proof. cbn [WorkflowEngine_Model.step]. destruct (process_log _ _ _ _) as [[e r]|]; [|discriminate]. intros H. inv H. cbn [y_engine]. eauto. Qed.
Lemma kept_destination g limit ops y ev l dests y' r d : run_ops (system_new g limit) ops = Some (y, ev) -> step y (Log l dests) = Some (y', [Processed l r]) ->
  In d dests -> known (y_engine y) d -> exists d', In d' (o_dests r) /\ known (y_engine y) d'.
Proof. intros H S D K. apply step_log in S as (r0 & E & S). injection E as <-. eapply log_keeps_destination; eauto. eapply run_routable; eauto. Qed.
Lemma log_routing e l dests done e' r : process_log e l dests done = Some (e', r) -> e_workflows e <> [] ->
  let kept := filter (fun a => negb (ends_now e (l_session l) done a)) (e_streaming e) in
  e_streaming e' = map (fun a => if routesb a dests then counted a else a) kept /\
  forall d, In d (o_dests r) <-> (exists a, In a kept /\ routes a dests /\ In d (sa_dests a)) \/ (In d dests /\ known e d /\ ~ exists a, In a kept /\ In d (sa_sources a)).
Proof. intros H N. destruct (process_log_streaming re_match to_i32 sha f64 _ _ _ _ _ _ H N) as (A & _ & _ & _ & _ & B). auto. Qed.
(** While the flush a streaming action belongs to is complete. *)
Lemma streaming_life e ls e' rs : List.length (e_configs e) = List.length (e_workflows e) -> e_workflows e <> [] -> feed re_match to_i32 sha f64 e ls = Some (e', rs) ->
  e_streaming e' = catSomes (map (fun a => fst (lives (fun done => flush_complete e done (sa_id a)) a ls)) (e_streaming e)) /\
  forall a, In a (e_streaming e) -> (forall l d done, In (l, d, done) ls -> flush_complete e done (sa_id a) = true) ->
    (forall n, sa_max a = Some n -> (N.of_nat (snd (lives (fun done => flush_complete e done (sa_id a)) a ls)) <= n - sa_count a)%N) /\
    (forall l d done, In (l, d, done) ls -> l_session l <> sa_session a -> fst (lives (fun done => flush_complete e done (sa_id a)) a ls) = None).
Proof.
  intros L N H. split; [exact (feed_lives re_match to_i32 sha f64 ls e e' rs L N H)|]. intros a _ C. split; [intros n M; apply lives_limit; auto|]. intros l d done I S. eapply (lives_session _ ls a l d done); eauto.
Qed.

Lemma fresh_intent g limit ops y ev d y' p : Forall well_formed (all_given g ops) -> unique_flushes (all_given g ops) -> stable g ops -> same_triggers (g_triggers g) ops ->
  run_ops (system_new g limit) ops = Some (y, ev) -> step y (Negotiate d) = Some (y', [Intent p]) ->
  In p (e_pending (y_engine y)) /\ (forall q, In q (e_pending (y_engine y)) -> pa_id q = pa_id p -> q = p) /\ (forall o, In o (y_outputs y) -> pa_id (pending_of o) <> pa_id p) /\
  (forall s, In s (e_streaming (y_engine y)) -> sa_id s <> pa_id p).
Proof. intros W U S T H I. eapply intent_fresh; eauto. exact (run_orders re_match to_i32 sha f64 g limit ops y ev W U S T H). Qed.
Lemma resolved_dropped g limit ops y ev p rest y' ev' : Forall well_formed (all_given g ops) -> unique_flushes (all_given g ops) -> stable g ops -> same_triggers (g_triggers g) ops ->
  run_ops (system_new g limit) ops = Some (y, ev) -> y_outputs y = Rejected p :: rest -> step y RunOnce = Some (y', ev') ->
  (forall q, In q (e_pending (y_engine y')) -> pa_id q <> pa_id p) /\ (forall q, In q (negotiated y') -> pa_id q <> pa_id p) /\ (forall s, In s (e_streaming (y_engine y')) -> sa_id s <> pa_id p).
Proof. intros W U S T H E R. eapply rejected_dropped; eauto. exact (run_orders re_match to_i32 sha f64 g limit ops y ev W U S T H). Qed.
(** The server's answers: approval, refusal, failure. *)
Lemma answered y d y' p : step y (Negotiate d) = Some (y', [Intent p]) ->
  (d = Upload -> In (Approved p) (y_outputs y')) /\ (d <> Upload -> In (Rejected p) (y_outputs y')) /\
  (d = Drop -> forall ops y'' ev, existsb is_restart ops = false -> run_ops y' ops = Some (y'', ev) -> forall q, In (Intent q) ev -> pa_id q <> pa_id p).
Proof.
  intros H. destruct (intent_step re_match to_i32 sha f64 _ _ _ _ H) as (rest & out & _ & _ & E & _ & _ & _ & U & R & D). splits.
  - intros X. rewrite E, (U X). apply in_or_app. right. now left.
  - intros X. rewrite E, (R X). apply in_or_app. right. now left.
  - intros X ops y'' ev NR HR. eapply rejected_run; eauto.
Qed.

(** * Sessions *)
Lemma same_refl y : same_but_runs_system y y. Proof. unfold same_but_runs_system, same_but_runs. splits; auto. Qed.

(** * Updates *)
Lemma updated g limit ops y ev g' y' ev' : distinct g ops -> NoDup (map c_id (g_workflows g')) -> run_ops (system_new g limit) ops = Some (y, ev) -> step y (Update g') = Some (y', ev') ->
  Permutation (map (fun x => c_id (fst x)) (workflows_of (y_engine y'))) (map c_id (g_workflows g')) /\
  (forall c w, In (c, w) (workflows_of (y_engine y)) -> In c (g_workflows g') -> In (c, w) (workflows_of (y_engine y'))) /\
  (forall c, In c (g_workflows g') -> (forall c0 w0, In (c0, w0) (workflows_of (y_engine y)) -> config_eqb c c0 = false) -> In (c, mkWorkflow (c_id c) []) (workflows_of (y_engine y'))) /\
  (forall c w, In (c, w) (workflows_of (y_engine y')) -> In c (g_workflows g') /\ w_runs w = [] \/
     In (c, w) (workflows_of (y_engine y)) /\ exists c', In c' (g_workflows g') /\ config_eqb c' c = true).
Proof.
  intros D N H S. assert (C := run_consistent re_match to_i32 sha f64 _ _ _ _ _ D H). cbn [WorkflowEngine_Model.step] in S. inv S. cbn [y_engine]. set (e := y_engine y) in *. splits.
  - apply update_ids; auto.
  - intros c w I IG. destruct (update_keeps re_match to_i32 sha f64 e g' c C N IG) as [(c0 & w0 & I0 & EQ & K)|[X _] ].
    + assert (EI : c_id c = c_id c0) by (unfold config_eqb in EQ; repeat (apply andb_true_iff in EQ as [EQ _]); now apply String.eqb_eq in EQ).
      destruct C as [F NC]. assert (X : (c, w) = (c0, w0)); [|inv X; auto]. unfold workflows_of in I, I0. clear - F NC I I0 EI.
      revert NC I I0. induction F as [|c1 w1 cs ws E F IH]; intros NC I I0; [destruct I|]. cbn [map] in NC. apply NoDup_cons_iff in NC as [NI NC]. cbn [combine In] in I, I0.
      destruct I as [I|I], I0 as [I0|I0]; [congruence| | |auto].
      * inv I. apply in_combine_l in I0. destruct NI. rewrite EI. now apply in_map.
      * inv I0. apply in_combine_l in I. destruct NI. rewrite <- EI. now apply in_map.
    + specialize (X _ _ I). rewrite config_eqb_refl in X. discriminate.
  - intros c IG X. destruct (update_keeps re_match to_i32 sha f64 e g' c C N IG) as [(c0 & w0 & I0 & EQ & K)|[_ K] ]; auto. rewrite (X _ _ I0) in EQ. discriminate.
  - intros c w I.
    assert (UC := update_consistent re_match to_i32 sha f64 e g' C N). assert (P := update_ids re_match to_i32 sha f64 e g' C N).
    assert (IDS : In (c_id c) (map c_id (g_workflows g'))) by (eapply Permutation_in; [exact P|]; apply (in_map (fun x => c_id (fst x))) in I; exact I).
    apply in_map_iff in IDS as (c' & E' & I').
    assert (UNIQ : forall c1 w1, In (c1, w1) (workflows_of (update e g')) -> c_id c1 = c_id c -> (c1, w1) = (c, w)).
    { intros c1 w1 I1 E1. destruct UC as [F NC]. unfold workflows_of in I, I1. clear - F NC I I1 E1. revert NC I I1. induction F as [|c2 w2 cs ws E F IH]; intros NC I I1; [destruct I|]. cbn [map] in NC. apply NoDup_cons_iff in NC as [NI NC]. cbn [combine In] in I, I1.
      destruct I as [I|I], I1 as [I1|I1]; [congruence| | |auto].
      - inv I. apply in_combine_l in I1. destruct NI. rewrite <- E1. now apply in_map.
      - inv I1. apply in_combine_l in I. destruct NI. rewrite E1. now apply in_map. }
    destruct (update_keeps re_match to_i32 sha f64 e g' c' C N I') as [(c0 & w0 & I0 & EQ & K)|[_ K] ].
    + assert (EI : c_id c' = c_id c0) by (unfold config_eqb in EQ; repeat (apply andb_true_iff in EQ as [EQ _]); now apply String.eqb_eq in EQ).
      assert (X : (c0, w0) = (c, w)) by (apply UNIQ; auto; congruence). inv X. right. split; auto. exists c'. auto.
    + assert (X : (c', mkWorkflow (c_id c') []) = (c, w)) by (apply UNIQ; auto). inv X. left. auto.
Qed.
(** A kept workflow behaves as the configured one. *)
Lemma equal_behaves re_ok p1 p2 c1 c2 : config_new re_ok p1 = Some c1 -> config_new re_ok p2 = Some c2 -> config_eqb c1 c2 = true ->
  forall l w cur limit, w_process re_match to_i32 sha c1 l w cur limit = w_process re_match to_i32 sha c2 l w cur limit.
Proof. intros H1 H2 E l w cur limit. apply same_w_process. eapply eqb_same; eauto. Qed.
End Summary.
