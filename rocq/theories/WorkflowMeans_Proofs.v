From Verif Require Import Base Str_Base Log_Model LogMatcher_Model BufferMatcher_Model Matcher_Spec Matcher_Proofs Workflow_Model Workflow_Spec Workflow_Proofs WorkflowMeans_Spec.
Local Open Scope string_scope. Local Open Scope list_scope.

Lemma all_some_none {A B} (f : A -> option B) l : all_some (map f l) = None <-> exists x, In x l /\ f x = None.
Proof.
  induction l as [|a l IH]; cbn; [split; [discriminate|intros (x & [] & _)]|]. destruct (f a) as [b|] eqn:E.
  - destruct (all_some (map f l)).
    + split; [discriminate|]. intros (x & [->|H] & Hx); [congruence|]. assert (N : Some l0 = None) by (apply IH; eauto). discriminate.
    + split; [|auto]. intros _. destruct (proj1 IH eq_refl) as (x & H & Hx). eauto.
  - split; [|auto]. intros _. exists a. auto.
Qed.
Lemma to_set_in_sorted : forall l acc, (forall x, In x (fold_left (fun s x => set_insert x s) l acc) <-> In x l \/ In x acc) /\ (sorted acc -> sorted (fold_left (fun s x => set_insert x s) l acc)).
Proof.
  induction l as [|a l IH]; intros acc; cbn [fold_left]; [split; [intros x; cbn; tauto|auto]|].
  destruct (IH (set_insert a acc)) as [I1 I2]. split.
  - intros x. rewrite I1, (set_insert_in (fun _ => true) (fun _ _ => true) (fun _ => None)). cbn. split; intuition congruence.
  - intros S. apply I2. apply (set_insert_sorted (fun _ => true) (fun _ _ => true) (fun _ => None)). exact S.
Qed.
Lemma sorted_nodup l : sorted l -> NoDup l.
Proof.
  induction 1 as [|a l S IH F]; [constructor|]. constructor; [|exact IH]. intros H. rewrite Forall_forall in F. specialize (F _ H). rewrite str_cmp_refl in F. discriminate.
Qed.
Lemma to_set_names l : names l (to_set l).
Proof.
  unfold names, to_set. destruct (to_set_in_sorted l []) as [I1 I2]. split.
  - intros x. rewrite I1. cbn. tauto.
  - apply sorted_nodup, I2. constructor.
Qed.
Lemma min_smallest l : smallest l (min_list (catSomes l)).
Proof.
  unfold smallest. induction l as [|[x|] l IH]; cbn; [auto| |].
  - destruct (min_list (catSomes l)) as [m|].
    + destruct IH as [I1 I2]. split.
      * destruct (N.min_spec x m) as [[_ ->]|[_ ->]]; auto.
      * intros y [H|H]; [inv H; lia|]. specialize (I2 _ H). lia.
    + split; [auto|]. intros y [H|H]; [inv H; lia|]. destruct (IH _ H).
  - destruct (min_list (catSomes l)) as [m|].
    + destruct IH as [I1 I2]. split; [auto|]. intros y [H|H]; [discriminate|auto].
    + intros x [H|H]; [discriminate|]. exact (IH _ H).
Qed.
Lemma tags_means l m : tags_new l = Some m -> means_tags l m.
Proof.
  unfold tags_new, means_tags. intros H. apply all_some_forall in H. induction H as [|a b l m H F IH]; constructor; auto.
  destruct (snd a) eqn:E; inv H. auto.
Qed.
Lemma tags_complete l : tags_new l = None <-> exists k, In (k, None) l.
Proof.
  unfold tags_new. rewrite all_some_none. split.
  - intros ([k v] & H & E). cbn in E. destruct v; [discriminate|]. eauto.
  - intros (k & H). exists (k, None). auto.
Qed.
Lemma action_means a b : action_new a = Some b -> means_action a b.
Proof.
  destruct a as [[id bs s|id tags inc ty|id n tags|id]|]; cbn; intros H; [| | | |discriminate].
  - destruct s as [[dest crit]|]; [|inv H; constructor; apply to_set_names].
    destruct (streaming_new dest crit) as [st|] eqn:E; [|discriminate]. inv H. unfold streaming_new in E. pose proof (min_smallest crit) as M.
    destruct (min_list (catSomes crit)) as [[|m]|] eqn:EM; inv E; constructor; auto using to_set_names; discriminate.
  - destruct (tags_new tags) eqn:E; [|discriminate]. destruct ty; [|discriminate]. destruct inc; [|discriminate]. inv H. constructor. apply tags_means; auto.
  - destruct (tags_new tags) eqn:E; [|discriminate]. inv H. constructor. apply tags_means; auto.
  - inv H. constructor.
Qed.
Lemma action_complete a : action_new a = None <-> ~ complete a.
Proof.
  destruct a as [[id bs s|id tags inc ty|id n tags|id]|]; cbn.
  - destruct s as [[dest crit]|]; [|split; [discriminate|tauto]].
    unfold streaming_new. pose proof (min_smallest crit) as M. destruct (min_list (catSomes crit)) as [[|m]|]; cbn in M.
    + split; [intros _ H; tauto|auto].
    + split; [discriminate|]. intros H. exfalso. apply H. intros H0. destruct M as [_ M]. specialize (M _ H0). lia.
    + split; [discriminate|]. intros H. exfalso. apply H. exact (M 0%N).
  - destruct (tags_new tags) eqn:E.
    + assert (T : forall k, ~ In (k, None) tags) by (intros k H; assert (X : tags_new tags = None) by (apply tags_complete; eauto); congruence).
      destruct ty, inc; cbn; split; try discriminate; try reflexivity; try (intros _ (_ & H1 & H2); congruence). intros H. exfalso. apply H. splits; auto; discriminate.
    + split; [|auto]. intros _ [H _]. apply tags_complete in E as (k & E). exact (H _ E).
  - destruct (tags_new tags) eqn:E.
    + split; [discriminate|]. intros H. exfalso. apply H. intros k Hk. assert (X : tags_new tags = None) by (apply tags_complete; eauto). congruence.
    + split; [|auto]. intros _ H. apply tags_complete in E as (k & E). exact (H _ E).
  - split; [discriminate|]. intros H. exfalso. apply H. exact Logic.I.
  - split; [intros _ []|auto].
Qed.
Lemma last_index_spec id : forall ids i, match last_index id ids i with
  | None => ~ In id ids
  | Some j => (i <= j)%nat /\ nth_error ids (j - i) = Some id /\ forall k, nth_error ids k = Some id -> (k <= j - i)%nat end.
Proof.
  induction ids as [|x ids IH]; intros i; cbn; [auto|]. specialize (IH (S i)). destruct (last_index id ids (S i)) as [j|].
  - destruct IH as (I1 & I2 & I3). split; [lia|]. replace (j - i)%nat with (S (j - S i)) by lia. split; [exact I2|].
    intros [|k] Hk; [lia|]. cbn in Hk. specialize (I3 _ Hk). lia.
  - destruct (String.eqb x id) eqn:E.
    + apply String.eqb_eq in E. subst. replace (i - i)%nat with 0%nat by lia. split; [lia|]. split; [reflexivity|]. intros [|k] Hk; [lia|]. cbn in Hk. apply nth_error_In in Hk. contradiction.
    + apply String.eqb_neq in E. intros [H|H]; [congruence|contradiction].
Qed.
Lemma nth_ids p i id : nth_error (map ps_id (pw_states p)) i = Some id <-> exists s, nth_error (pw_states p) i = Some s /\ ps_id s = id.
Proof.
  rewrite nth_error_map. destruct (nth_error (pw_states p) i) as [s|]; cbn; split; [intros H; inv H; eauto|intros (s' & H & <-); inv H; reflexivity|discriminate|intros (s' & H & _); discriminate].
Qed.
Lemma last_index_position p id i : last_index id (map ps_id (pw_states p)) 0 = Some i -> position id p i.
Proof.
  intros H. pose proof (last_index_spec id (map ps_id (pw_states p)) 0) as L. rewrite H in L. destruct L as (_ & L1 & L2). rewrite Nat.sub_0_r in *. split; [apply nth_ids; exact L1|].
  intros j s Hj Hs. apply L2. apply nth_ids. eauto.
Qed.
Lemma last_index_none p id : last_index id (map ps_id (pw_states p)) 0 = None <-> ~ exists s, In s (pw_states p) /\ ps_id s = id.
Proof.
  pose proof (last_index_spec id (map ps_id (pw_states p)) 0) as L. destruct (last_index id (map ps_id (pw_states p)) 0) as [j|].
  - split; [discriminate|]. intros H. exfalso. apply H. destruct L as (_ & L & _). apply nth_ids in L as (s & L & Hs). exists s. split; [exact (nth_error_In _ _ L)|auto].
  - split; [|auto]. intros _ (s & H & <-). apply L. apply in_map. auto.
Qed.
Lemma limit_spec id : forall l, match limit_by_id l id with
  | None => forall n t, ~ In (Some (PSankey id n t)) l
  | Some n => exists l1 t l2, l = l1 ++ Some (PSankey id n t) :: l2 /\ forall m t, ~ In (Some (PSankey id m t)) l2 end.
Proof.
  induction l as [|a l IH]; cbn; [auto|]. destruct (limit_by_id l id) as [n|].
  - destruct IH as (l1 & t & l2 & -> & H). exists (a :: l1), t, l2. split; [reflexivity|exact H].
  - assert (N : match a with Some (PSankey i n _) => i <> id | _ => True end -> forall n t, ~ In (Some (PSankey id n t)) (a :: l)).
    { intros Ha n t [->|H]; [apply Ha; reflexivity|exact (IH _ _ H)]. }
    destruct a as [[i bs s|i tags inc ty|i n tags|i]|]; try (apply N; exact Logic.I).
    destruct (String.eqb i id) eqn:E.
    + apply String.eqb_eq in E. subst. exists [], tags, l. split; [reflexivity|exact IH].
    + apply String.eqb_neq in E. apply N. exact E.
Qed.
Lemma flat_actions p : flat_map pt_actions (flat_map ps_transitions (pw_states p)) = all_actions p.
Proof.
  unfold all_actions. induction (pw_states p) as [|s l IH]; [reflexivity|]. cbn. rewrite flat_map_app, IH, flat_map_concat_map. reflexivity.
Qed.

Section Means.
Variable re_ok : string -> bool.
Notation limits p := (limit_by_id (all_actions p)).
Lemma extension_means p e : match e with
  | None => extension_new (limits p) e = Some None
  | Some x => (forall y, extension_new (limits p) e = Some y -> exists z, y = Some z /\ means_extension p x z) /\
      (extension_new (limits p) e = None <-> ~ (pe_value x <> None /\ exists n tags, In (Some (PSankey (pe_id x) n tags)) (all_actions p))) end.
Proof.
  destruct e as [e|]; [|reflexivity]. unfold extension_new. pose proof (limit_spec (pe_id e) (all_actions p)) as L. destruct (limits p (pe_id e)) as [n|].
  - destruct (pe_value e) as [v|] eqn:Ev.
    + split.
      * intros y H. inv H. eexists. split; [reflexivity|]. destruct L as (l1 & t & l2 & L1 & L2). unfold means_extension. splits; auto. exists l1, t, l2. cbn. rewrite N2Nat.id. auto.
      * split; [discriminate|]. intros H. exfalso. apply H. split; [discriminate|]. destruct L as (l1 & t & l2 & L1 & L2). exists n, t. rewrite L1. apply in_or_app. right. left. reflexivity.
    + split; [discriminate|]. split; [intros _ [H _]; congruence|auto].
  - split; [discriminate|]. split; [intros _ [_ (n & t & H)]; exact (L _ _ H)|auto].
Qed.
Lemma extensions_means p : forall l r, all_some (map (extension_new (limits p)) l) = Some r -> those (means_extension p) l (catSomes r).
Proof.
  intros l r H. apply all_some_forall in H. induction H as [|e y l r H F IH]; [constructor|]. pose proof (extension_means p e) as X. destruct e as [e|].
  - destruct X as [X _]. destruct (X _ H) as (z & -> & Z). cbn. constructor; auto.
  - rewrite X in H. inv H. cbn. constructor. auto.
Qed.
Lemma transition_means p t u : transition_new re_ok (map ps_id (pw_states p)) (limits p) t = Some u -> means_transition re_ok p t u.
Proof.
  unfold transition_new. intros H. destruct (last_index _ _ _) as [i|] eqn:E1; [|discriminate]. destruct (pt_rule t) as [r|] eqn:E2; [|discriminate].
  destruct (match r with PLogMatch _ _ => _ | PTimeout _ => _ end) as [r'|] eqn:E3; [|discriminate].
  destruct (all_some (map action_new (pt_actions t))) as [acts|] eqn:E4; [|discriminate]. destruct (all_some (map (extension_new _) _)) as [exts|] eqn:E5; [|discriminate]. inv H.
  unfold means_transition. cbn. splits.
  - apply last_index_position. exact E1.
  - exists r. split; [auto|]. destruct r as [m n|ms]; [|inv E3; constructor]. destruct (tree_new re_ok m) eqn:Em; inv E3. constructor. auto.
  - apply all_some_forall in E4. clear - E4. induction E4; constructor; auto using action_means.
  - apply extensions_means. exact E5.
Qed.
Lemma transition_complete p t : transition_new re_ok (map ps_id (pw_states p)) (limits p) t <> None <-> complete_transition re_ok p t.
Proof.
  unfold transition_new, complete_transition. pose proof (last_index_none p (pt_target t)) as L. destruct (last_index _ _ _) as [i|].
  2:{ split; [congruence|]. intros (H & _). exfalso. exact (proj1 L eq_refl H). }
  assert (L' : exists s, In s (pw_states p) /\ ps_id s = pt_target t).
  { clear - L. induction (pw_states p) as [|s l IH]; [exfalso; assert (X : Some i = None) by (apply L; intros (s & [] & _)); discriminate|].
    destruct (String.eqb (ps_id s) (pt_target t)) eqn:E; [apply String.eqb_eq in E; exists s; split; [left|]; auto|]. apply String.eqb_neq in E.
    destruct IH as (s' & H & Hs); [|exists s'; split; [right|]; auto]. split; [discriminate|]. intros H. apply L. intros (s' & [<-|H'] & Hs); [congruence|]. apply H. eauto. }
  destruct (pt_rule t) as [r|]; [|split; [congruence|tauto]].
  destruct (match r with PLogMatch m n => option_map (fun t => LogMatch t n) (tree_new re_ok m) | PTimeout ms => Some (TimeoutMatch ms) end) as [r'|] eqn:E3.
  2:{ destruct r as [m n|ms]; [|discriminate]. destruct (tree_new re_ok m); [discriminate|]. split; [congruence|]. intros (_ & H & _). congruence. }
  assert (R : match r with PLogMatch m _ => tree_new re_ok m <> None | PTimeout _ => True end) by (destruct r as [m n|]; [destruct (tree_new re_ok m); discriminate|exact Logic.I]).
  destruct (all_some (map action_new (pt_actions t))) as [acts|] eqn:E4.
  2:{ apply all_some_none in E4 as (a & Ha & E4). apply action_complete in E4. split; [congruence|]. intros (_ & _ & H & _). exfalso. exact (E4 (H _ Ha)). }
  assert (A : forall a, In a (pt_actions t) -> complete a).
  { intros a Ha. apply all_some_forall in E4. clear - E4 Ha. induction E4 as [|x y l m H F IH]; [destruct Ha|]. destruct Ha as [->|Ha]; [|auto].
    pose proof (action_complete a) as X. rewrite H in X.
    destruct a as [[id bs [[dest crit]|]|id tags inc ty|id n tags|id]|]; cbn in *; auto; try discriminate.
    - intros H0. assert (Z : Some y = None) by (apply X; tauto). discriminate.
    - destruct (tags_new tags) eqn:Et; [|discriminate]. destruct ty; [|discriminate]. destruct inc; [|discriminate]. splits; try discriminate. intros k Hk. assert (Z : tags_new tags = None) by (apply tags_complete; eauto). congruence.
    - destruct (tags_new tags) eqn:Et; [|discriminate]. intros k Hk. assert (Z : tags_new tags = None) by (apply tags_complete; eauto). congruence. }
  destruct (all_some (map (extension_new (limits p)) (pt_extensions t))) as [exts|] eqn:E5.
  - split; [intros _|discriminate]. splits; auto. intros e He. apply all_some_forall in E5. pose proof (extension_means p (Some e)) as [X Y].
    assert (Z : exists y, extension_new (limits p) (Some e) = Some y) by (clear - E5 He; induction E5 as [|x y l m H F IH]; [destruct He|]; destruct He as [->|He]; eauto). destruct Z as (y & Z).
    destruct (X _ Z) as (z & _ & _ & V & _ & l1 & tg & l2 & W & _). split; [congruence|]. exists (N.of_nat (x_limit z)), tg. rewrite W. apply in_or_app. right. left. reflexivity.
  - split; [congruence|]. intros (_ & _ & _ & H). exfalso. apply all_some_none in E5 as (e & He & E5). pose proof (extension_means p e) as X. destruct e as [e|]; [|congruence]. destruct X as [_ X]. apply X in E5. exact (E5 (H _ He)).
Qed.
Lemma config_means p c : config_new re_ok p = Some c -> means re_ok p c.
Proof.
  unfold config_new. intros H. destruct (pw_states p) as [|s0 ss] eqn:E; [discriminate|]. rewrite <- E in H. cbv zeta in H. rewrite flat_actions in H.
  destruct (all_some (map _ (pw_states p))) as [states|] eqn:E1; [|discriminate]. destruct (pw_exec p) as [ex|] eqn:E2; [|discriminate].
  destruct (duration_new _) as [d|] eqn:ED; [|discriminate]. destruct (matched_new _) as [m|] eqn:EM; [|discriminate]. inv H. unfold means. cbn [c_id c_states c_exec c_duration c_matched].
  splits; auto.
  - congruence.
  - apply all_some_forall in E1. clear - E1. induction E1 as [|s t l m H F IH]; constructor; auto. unfold state_new in H.
    destruct (all_some (map _ (ps_transitions s))) as [trs|] eqn:Et; [|discriminate]. inv H. cbn. split; [reflexivity|]. apply all_some_forall in Et. clear - Et. induction Et; constructor; auto using transition_means.
  - unfold duration_new in ED. destruct (pw_duration p) as [n|]; [|congruence]. destruct (n =? 0)%N eqn:En; [discriminate|]. apply N.eqb_neq in En. split; [exact En|]. injection ED as <-. f_equal. lia.
  - unfold matched_new in EM. destruct (pw_matched p) as [n|]; [|congruence]. destruct (n =? 0)%N; congruence.
  - unfold matched_new in EM. destruct (pw_matched p) as [n|]; [|congruence]. destruct (n =? 0)%N eqn:En; [discriminate|]. apply N.eqb_neq in En. congruence.
Qed.
Lemma config_complete p : config_new re_ok p <> None <-> complete_definition re_ok p.
Proof.
  unfold config_new, complete_definition. destruct (pw_states p) as [|s0 ss] eqn:E; [split; [congruence|tauto]|]. rewrite <- E. cbv zeta. rewrite flat_actions.
  destruct (all_some (map (state_new re_ok (map ps_id (pw_states p)) (limits p)) (pw_states p))) as [states|] eqn:E1.
  2:{ apply all_some_none in E1 as (s & Hs & E1). unfold state_new in E1. destruct (all_some (map _ (ps_transitions s))) eqn:Et; [discriminate|]. apply all_some_none in Et as (t & Ht & Et).
      split; [congruence|]. intros (_ & _ & _ & _ & H). specialize (H _ _ Hs Ht). apply transition_complete in H. congruence. }
  assert (A : forall s t, In s (pw_states p) -> In t (ps_transitions s) -> complete_transition re_ok p t).
  { intros s t Hs Ht. apply transition_complete. intros N. assert (X : all_some (map (state_new re_ok (map ps_id (pw_states p)) (limits p)) (pw_states p)) = None); [|congruence].
    apply all_some_none. exists s. split; [auto|]. unfold state_new. assert (Y : all_some (map (transition_new re_ok (map ps_id (pw_states p)) (limits p)) (ps_transitions s)) = None) by (apply all_some_none; eauto). rewrite Y. reflexivity. }
  destruct (pw_exec p); [|split; [congruence|tauto]]. unfold duration_new, matched_new.
  destruct (pw_duration p) as [[|d]|]; cbn [N.eqb]; [split; [congruence|tauto]| |]; (destruct (pw_matched p) as [[|m]|]; cbn [N.eqb]; [split; [congruence|tauto]| |]);
    (split; [intros _|discriminate]; splits; auto; try discriminate; rewrite E; discriminate).
Qed.
Lemma configs_accepted l : accepted re_ok l (configs_new re_ok l).
Proof.
  unfold configs_new. induction l as [|p l IH]; cbn; [constructor|]. pose proof (config_complete p) as X. destruct (config_new re_ok p) as [c|] eqn:E.
  - apply accepted_take; auto; [apply X; discriminate|apply config_means; auto].
  - apply accepted_skip; auto. intros H. apply X in H. congruence.
Qed.
End Means.
