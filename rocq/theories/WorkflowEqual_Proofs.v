(** Configurations that compare as equal behave the same; the node limits of a parsed configuration. *)
From Verif Require Import Base Str_Base Log_Model LogMatcher_Model BufferMatcher_Model Matcher_Proofs Workflow_Model Workflow_Spec Workflow_Proofs WorkflowEngine_Model.
Local Open Scope string_scope. Local Open Scope list_scope. Local Open Scope Z_scope.

Lemma catSomes_in {A} (l : list (option A)) x : In x (catSomes l) <-> In (Some x) l.
Proof. induction l as [|[y|] l IH]; cbn [catSomes In]; [tauto| |]; rewrite IH; split; [intros [->|H]; auto|intros [H|H]; [inv H|]; auto|auto|intros [H|H]; [discriminate|auto]]. Qed.

(** What [Config::new] guarantees about each transition. *)
Lemma config_new_transitions re_ok p c : config_new re_ok p = Some c -> exists lim, forall s tr, In s (c_states c) -> In tr (s_transitions s) ->
  (forall m n, tr_rule tr = LogMatch m n -> exists q, tree_new re_ok q = Some m) /\ (forall x, In x (tr_sankeys tr) -> lim (x_id x) = Some (N.of_nat (x_limit x))).
Proof.
  unfold config_new. intros H. destruct (pw_states p) as [|sp0 sps] eqn:E; [discriminate|]. rewrite <- E in H. cbv zeta in H.
  exists (limit_by_id (flat_map pt_actions (flat_map ps_transitions (pw_states p)))).
  destruct (all_some (map _ (pw_states p))) as [states|] eqn:E1; [|discriminate]. destruct (pw_exec p); [|discriminate].
  destruct (duration_new _) eqn:ED; [|discriminate]. destruct (matched_new _); [|discriminate]. inv H. cbn [c_states].
  apply all_some_forall in E1. intros s tr Hs Htr. destruct (Forall2_in_r _ _ _ _ E1 Hs) as (sp & _ & Hsp). unfold state_new in Hsp.
  destruct (all_some (map _ (ps_transitions sp))) as [trs|] eqn:E2; [|discriminate]. inv Hsp. cbn [s_transitions] in Htr.
  apply all_some_forall in E2. destruct (Forall2_in_r _ _ _ _ E2 Htr) as (tp & _ & Htp). unfold transition_new in Htp.
  destruct (last_index _ _ _) eqn:E3; [|discriminate]. destruct (pt_rule tp) as [rule|]; [|discriminate].
  destruct (match rule with PLogMatch _ _ => _ | PTimeout _ => _ end) as [rule'|] eqn:ER; [|discriminate].
  destruct (all_some (map action_new _)); [|discriminate]. destruct (all_some (map (extension_new _) _)) as [exts|] eqn:EE; [|discriminate]. inv Htp. cbn [tr_rule tr_sankeys]. split.
  - intros m n0 ->. destruct rule as [q k|]; [|discriminate]. destruct (tree_new re_ok q) as [t|] eqn:EQ; [|discriminate]. inv ER. eauto.
  - intros x Hx. rewrite catSomes_in in Hx. apply all_some_forall in EE. destruct (Forall2_in_r _ _ _ _ EE Hx) as (ep & _ & Hep). unfold extension_new in Hep.
    destruct ep as [ep|]; [|discriminate]. destruct (limit_by_id _ (pe_id ep)) as [k|] eqn:EL; [|discriminate]. destruct (pe_value ep); [|discriminate]. inv Hep. cbn [x_id x_limit]. rewrite N2Nat.id. auto.
Qed.
Lemma config_new_limits re_ok p c : config_new re_ok p = Some c -> exists lim : string -> nat, forall x, In x (extractions c) -> x_limit x = lim (x_id x).
Proof.
  intros H. destruct (config_new_transitions _ _ _ H) as (lim & L). exists (fun id => match lim id with Some n => N.to_nat n | None => 0%nat end).
  intros x Hx. unfold extractions in Hx. apply in_flat_map in Hx as (tr & Ht & Hx). apply in_flat_map in Ht as (s & Hs & Ht). destruct (L s tr Hs Ht) as [_ L2]. rewrite (L2 x Hx). lia.
Qed.

Section Equal.
Variables (re_match : string -> string -> bool) (to_i32 : string -> option Z) (sha : string -> string).

Definition same_transition (a b : transition) : Prop :=
  tr_target a = tr_target b /\ tr_actions a = tr_actions b /\ tr_sankeys a = tr_sankeys b /\
  match tr_rule a, tr_rule b with
  | LogMatch s m, LogMatch t n => m = n /\ forall l, matches re_match to_i32 s l = matches re_match to_i32 t l
  | TimeoutMatch m, TimeoutMatch n => m = n
  | _, _ => False
  end.
Definition same_config (a b : config) : Prop :=
  Forall2 (fun s t => Forall2 same_transition (s_transitions s) (s_transitions t)) (c_states a) (c_states b) /\ c_exec a = c_exec b /\ c_duration a = c_duration b /\ c_matched a = c_matched b.

Lemma list_eqb_forall {A} (f : A -> A -> bool) : forall l m, list_eqb f l m = true -> Forall2 (fun x y => f x y = true) l m.
Proof. induction l; destruct m; cbn [list_eqb]; intros H; try discriminate; constructor; apply andb_true_iff in H; try tauto. apply IHl. tauto. Qed.
Lemma sumb_true {P Q : Prop} (x : {P} + {Q}) : sumb x = true -> P. Proof. destruct x; cbn; [auto|discriminate]. Qed.

Lemma eqb_same re_ok p1 p2 c1 c2 : config_new re_ok p1 = Some c1 -> config_new re_ok p2 = Some c2 -> config_eqb c1 c2 = true -> same_config c1 c2.
Proof.
  intros H1 H2 E. destruct (config_new_transitions _ _ _ H1) as (lm1 & T1). destruct (config_new_transitions _ _ _ H2) as (lm2 & T2).
  unfold config_eqb in E. apply andb_true_iff in E as [E E5]. apply andb_true_iff in E as [E E4]. apply andb_true_iff in E as [E E3]. apply andb_true_iff in E as [_ E2]. unfold same_config. splits.
  - apply list_eqb_forall in E2. clear H1 H2.
    assert (X : forall l1 l2, Forall2 (fun x y => state_eqb x y = true) l1 l2 -> (forall s, In s l1 -> In s (c_states c1)) -> (forall s, In s l2 -> In s (c_states c2)) -> Forall2 (fun s t => Forall2 same_transition (s_transitions s) (s_transitions t)) l1 l2).
    { induction 1 as [|s t l1 l2 HE _ IH]; intros I1 I2; constructor; [|apply IH; intros; [apply I1|apply I2]; now right].
      unfold state_eqb in HE. apply andb_true_iff in HE as [_ HE]. apply list_eqb_forall in HE.
      assert (Y : forall m1 m2, Forall2 (fun x y => transition_eqb x y = true) m1 m2 -> (forall x, In x m1 -> In x (s_transitions s)) -> (forall x, In x m2 -> In x (s_transitions t)) -> Forall2 same_transition m1 m2).
      { induction 1 as [|a b m1 m2 HT _ IHm]; intros J1 J2; constructor; [|apply IHm; intros; [apply J1|apply J2]; now right].
        unfold transition_eqb in HT. apply andb_true_iff in HT as [HT HS]. apply andb_true_iff in HT as [HT HA]. apply andb_true_iff in HT as [HT HR]. apply Nat.eqb_eq in HT. apply sumb_true in HA, HS.
        split; auto. split; auto. split; auto. destruct (T1 s a) as [P1 _]; [apply I1; now left|apply J1; now left|]. destruct (T2 t b) as [P2 _]; [apply I2; now left|apply J2; now left|].
        unfold predicate_eqb in HR. destruct (tr_rule a) as [ma na|na] eqn:Ra, (tr_rule b) as [mb nb|nb] eqn:Rb; try discriminate; [|apply N.eqb_eq; auto].
        apply andb_true_iff in HR as [HR1 HR2]. apply N.eqb_eq in HR2. split; auto. intros l. destruct (P1 _ _ eq_refl) as (q1 & Q1). destruct (P2 _ _ eq_refl) as (q2 & Q2). unfold matches. eapply equal_trees; eauto. }
      apply Y; auto. }
    apply X; auto.
  - unfold execution_eqb in E3. destruct (c_exec c1), (c_exec c2); congruence.
  - destruct (c_duration c1), (c_duration c2); cbn in E4; try discriminate; auto. apply Z.eqb_eq in E4. congruence.
  - destruct (c_matched c1), (c_matched c2); cbn in E5; try discriminate; auto. apply N.eqb_eq in E5. congruence.
Qed.

Lemma same_nth c1 c2 i : same_config c1 c2 -> match nth_error (c_states c1) i, nth_error (c_states c2) i with Some s, Some t => Forall2 same_transition (s_transitions s) (s_transitions t) | None, None => True | _, _ => False end.
Proof. intros [H _]. revert i. induction H; intros [|i]; cbn [nth_error]; auto. apply IHForall2. Qed.
Lemma same_traversal_new c1 c2 i m : same_config c1 c2 -> traversal_new c1 i m = traversal_new c2 i m.
Proof.
  intros H. pose proof (same_nth c1 c2 i H) as N. unfold traversal_new. destruct (nth_error (c_states c1) i), (nth_error (c_states c2) i); try contradiction; auto. pose proof (Forall2_len _ _ _ N) as L. destruct (s_transitions s), (s_transitions s0); try discriminate; auto. rewrite L. auto.
Qed.
Lemma same_t_process c1 c2 l t : same_config c1 c2 -> t_process re_match to_i32 sha c1 l t = t_process re_match to_i32 sha c2 l t.
Proof.
  intros H. unfold t_process. pose proof (same_nth c1 c2 (t_state t) H) as N. destruct (nth_error (c_states c1) _) as [s1|], (nth_error (c_states c2) _) as [s2|]; try contradiction; auto.
  generalize 0%nat as i. generalize (mkTresult [] [] 0 0) as r. revert t. induction N as [|a b l1 l2 (E1 & E2 & E3 & E4) _ IH]; intros t r i; cbn [t_loop]; auto.
  destruct (tr_rule a) as [ma na|na], (tr_rule b) as [mb nb|nb]; try contradiction; auto. destruct E4 as [-> E4]. rewrite E4. destruct (matches re_match to_i32 mb l); auto. destruct (bump i (t_counts t)) as [[k counts]|]; auto. cbv zeta. destruct (k =? nb)%N; auto.
  rewrite E1, E2, E3. destruct (triggered_actions _ _ _) as [acts sk]. rewrite (same_traversal_new _ _ _ _ H). destruct (traversal_new c2 _ _); auto.
Qed.
Lemma same_r_process c1 c2 l r : same_config c1 c2 -> r_process re_match to_i32 sha c1 l r = r_process re_match to_i32 sha c2 l r.
Proof.
  intros H. pose proof H as (_ & HX & HD & HM). unfold r_process.
  assert (X : forall rest done matched first acts a b d rm, r_loop re_match to_i32 sha c1 l rest done matched first acts a b d rm = r_loop re_match to_i32 sha c2 l rest done matched first acts a b d rm); [|apply X].
  induction rest as [|t rest IH]; intros; cbn [r_loop]; auto. rewrite (same_t_process _ _ _ _ H). destruct (t_process _ _ _ c2 l t) as [[t' res]|]; auto. cbv zeta.
  unfold over_matched, over_duration. rewrite HD, HM. destruct (_ || _); auto. destruct (_ =? _)%N; apply IH.
Qed.
Lemma same_w_process c1 c2 l w cur limit : same_config c1 c2 -> w_process re_match to_i32 sha c1 l w cur limit = w_process re_match to_i32 sha c2 l w cur limit.
Proof.
  intros H. pose proof H as (_ & HX & HD & HM). assert (RN : run_new c1 = run_new c2) by (unfold run_new; rewrite (same_traversal_new _ _ _ _ H); auto).
  assert (WL : forall rest done cur p res, w_loop re_match to_i32 sha c1 l rest done cur limit p res = w_loop re_match to_i32 sha c2 l rest done cur limit p res).
  { induction rest as [|r rest IH]; intros; cbn [w_loop]; auto. rewrite (same_r_process _ _ _ _ H), HX, RN. destruct (r_process _ _ _ c2 l r) as [[r' rr]|]; auto. cbv zeta.
    assert (PN : forall i, r_process re_match to_i32 sha c1 l i = r_process re_match to_i32 sha c2 l i) by (intros; apply same_r_process; auto).
    destruct (rr_state rr), (limit <? _), (c_exec c2); auto; (destruct (_ && _); auto; destruct rest; auto; destruct (run_new c2); auto; rewrite PN; auto). }
  unfold w_process. rewrite RN. unfold maybe_add_run. rewrite HX. destruct (needs_new_run w); [|rewrite WL; auto]. destruct (run_new c2); auto. destruct (_ <=? limit); rewrite WL; auto.
Qed.
End Equal.
