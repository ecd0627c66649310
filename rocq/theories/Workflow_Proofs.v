(** Proofs about workflows, runs and traversals. *)
From Verif Require Import Base Str_Base Log_Model LogMatcher_Model BufferMatcher_Model Workflow_Model Workflow_Spec.
Local Open Scope string_scope. Local Open Scope list_scope. Local Open Scope Z_scope.

(** * Configurations *)
Lemma all_some_forall {A B} (f : A -> option B) (l : list A) r : all_some (map f l) = Some r -> Forall2 (fun a b => f a = Some b) l r.
Proof.
  revert r; induction l as [|a l IH]; intros r H; cbn in H; [inv H; constructor|].
  destruct (f a) eqn:E; [|discriminate]. destruct (all_some (map f l)) eqn:E2; [|discriminate]. inv H. constructor; auto.
Qed.
Lemma Forall2_in_r {A B} (P : A -> B -> Prop) l m y : Forall2 P l m -> In y m -> exists x, In x l /\ P x y.
Proof. induction 1; intros H'; [destruct H'|]. destruct H' as [->|H']; [exists x; split; [now left|auto]|]. destruct (IHForall2 H') as (z & ? & ?). exists z. split; [now right|auto]. Qed.
Lemma Forall2_len {A B} (P : A -> B -> Prop) l m : Forall2 P l m -> List.length l = List.length m.
Proof. induction 1; cbn; auto. Qed.
Lemma last_index_bound id ids i j : last_index id ids i = Some j -> (j < i + List.length ids)%nat.
Proof.
  revert i; induction ids as [|x ids IH]; intros i H; cbn in H; [discriminate|].
  destruct (last_index id ids (S i)) eqn:E; [inv H; apply IH in E; cbn; lia|]. destruct (String.eqb x id); inv H. cbn; lia.
Qed.
Lemma config_new_wf re_ok p c : config_new re_ok p = Some c -> well_formed c.
Proof.
  unfold config_new. intros H. destruct (pw_states p) as [|sp0 sps] eqn:E; [discriminate|]. rewrite <- E in H.
  cbv zeta in H.
  destruct (all_some (map _ (pw_states p))) as [states|] eqn:E1; [|discriminate]. destruct (pw_exec p); [|discriminate].
  destruct (duration_new _) eqn:ED; [|discriminate]. destruct (matched_new _); [|discriminate]. inv H. unfold well_formed; cbn [c_states c_duration].
  apply all_some_forall in E1. pose proof (Forall2_len _ _ _ E1) as L. splits.
  - destruct states; [rewrite E in L; discriminate|discriminate].
  - intros s tr Hs Htr. destruct (Forall2_in_r _ _ _ _ E1 Hs) as (sp & _ & Hsp). unfold state_new in Hsp.
    destruct (all_some (map _ (ps_transitions sp))) as [trs|] eqn:E2; [|discriminate]. inv Hsp. cbn [s_transitions] in Htr.
    apply all_some_forall in E2. destruct (Forall2_in_r _ _ _ _ E2 Htr) as (tp & _ & Htp). unfold transition_new in Htp.
    destruct (last_index _ _ _) eqn:E3; [|discriminate]. destruct (pt_rule tp) as [rule|]; [|discriminate].
    destruct (match rule with PLogMatch _ _ => _ | PTimeout _ => _ end); [|discriminate].
    destruct (all_some (map action_new _)); [|discriminate]. destruct (all_some (map (extension_new _) _)); [|discriminate]. inv Htp. cbn.
    apply last_index_bound in E3. rewrite map_length in E3. lia.
  - intros d ->. unfold duration_new in ED. destruct (pw_duration p) as [n|]; [|discriminate]. destruct (n =? 0)%N eqn:EN; [discriminate|].
    apply N.eqb_neq in EN. injection ED as <-. lia.
Qed.

Section Proofs.
Variables (re_match : string -> string -> bool) (to_i32 : string -> option Z) (sha : string -> string).
Notation matches := (matches re_match to_i32).
Notation triggered_actions := (triggered_actions sha).
Notation t_loop := (t_loop re_match to_i32 sha).
Notation t_process := (t_process re_match to_i32 sha).
Notation r_loop := (r_loop re_match to_i32 sha).
Notation r_process := (r_process re_match to_i32 sha).
Notation w_loop := (w_loop re_match to_i32 sha).
Notation w_process := (w_process re_match to_i32 sha).
Notation hit := (hit re_match to_i32).
Notation hits := (hits re_match to_i32).
Notation due := (due re_match to_i32).
Notation quiet := (quiet re_match to_i32).

(** * Traversals *)
(** The transition fires when its counter is [n] before the log. *)
Definition fires (l : log) (p : transition * N) : bool :=
  hit (fst p) l && match needed (fst p) with Some k => (snd p + 1 =? k)%N | None => false end.
Definition acts_of (sk : option sankeys) (l : log) (tr : transition) := fst (triggered_actions (tr_actions tr) (sankey_states sk (tr_sankeys tr) l)).
Definition outs_of (c : config) (sk : option sankeys) (l : log) (tr : transition) : list traversal :=
  match traversal_new c (tr_target tr) (snd (triggered_actions (tr_actions tr) (sankey_states sk (tr_sankeys tr) l))) with Some (Some t) => [t] | _ => [] end.
Definition fired (l : log) (trs : list transition) (cs : list N) : list transition := map fst (filter (fires l) (combine trs cs)).
Definition nhits (l : log) (trs : list transition) : N := N.of_nat (List.length (filter (fun tr => hit tr l) trs)).
Fixpoint bumps (l : log) (trs : list transition) (cs : list N) : list N :=
  match trs, cs with tr :: trs', n :: cs' => (if hit tr l then n + 1 else n)%N :: bumps l trs' cs' | _, _ => cs end.

Lemma bump_at pre n post : bump (List.length pre) (pre ++ n :: post) = Some ((n + 1)%N, pre ++ (n + 1)%N :: post).
Proof. induction pre as [|x pre IH]; cbn; auto. rewrite IH; auto. Qed.

Lemma bumps_length l trs cs : List.length (bumps l trs cs) = List.length cs.
Proof. revert cs; induction trs; intros [|n cs]; cbn; auto. Qed.

Lemma fired_cons l tr trs n cs : fired l (tr :: trs) (n :: cs) = (if fires l (tr, n) then [tr] else []) ++ fired l trs cs.
Proof. unfold fired. cbn [combine List.filter]. destruct (fires l (tr, n)); reflexivity. Qed.
Lemma nhits_cons l tr trs : nhits l (tr :: trs) = ((if hit tr l then 1 else 0) + nhits l trs)%N.
Proof. unfold nhits. cbn [List.filter]. destruct (hit tr l); cbn [List.length]; lia. Qed.
Lemma tresult_eq a b c d a' b' c' d' : a = a' -> b = b' -> c = c' -> d = d' -> mkTresult a b c d = mkTresult a' b' c' d'.
Proof. congruence. Qed.

Lemma t_loop_spec c l : forall trs i pre cs st sk r,
  List.length pre = i -> List.length cs = List.length trs -> (forall tr, In tr trs -> (tr_target tr < List.length (c_states c))%nat) ->
  t_loop c l i trs (mkTraversal st (pre ++ cs) sk) r =
  Some (mkTraversal st (pre ++ bumps l trs cs) sk,
        mkTresult (res_out r ++ flat_map (outs_of c sk l) (fired l trs cs)) (res_actions r ++ flat_map (acts_of sk l) (fired l trs cs))
          (res_matched r + nhits l trs) (res_followed r + N.of_nat (List.length (fired l trs cs)))).
Proof.
  induction trs as [|tr trs IH]; intros i pre cs st sk r Hi Hl Ht.
  - destruct cs; [|discriminate]. cbn. unfold nhits. cbn. rewrite !app_nil_r, !N.add_0_r. destruct r; reflexivity.
  - destruct cs as [|n cs]; [discriminate|]. cbn [Workflow_Model.t_loop bumps]. rewrite fired_cons, nhits_cons.
    assert (T : forall x, traversal_new c (tr_target tr) x <> None).
    { intros x. unfold traversal_new. specialize (Ht tr (or_introl eq_refl)). destruct (nth_error (c_states c) (tr_target tr)) eqn:E; [|apply nth_error_None in E; lia]. destruct (s_transitions s); discriminate. }
    assert (IH' : forall x st sk r, t_loop c l (S i) trs (mkTraversal st (pre ++ x :: cs) sk) r =
      Some (mkTraversal st (pre ++ x :: bumps l trs cs) sk,
        mkTresult (res_out r ++ flat_map (outs_of c sk l) (fired l trs cs)) (res_actions r ++ flat_map (acts_of sk l) (fired l trs cs))
          (res_matched r + nhits l trs) (res_followed r + N.of_nat (List.length (fired l trs cs))))).
    { intros x st' sk' r'. replace (pre ++ x :: cs) with ((pre ++ [x]) ++ cs) by (rewrite <- app_assoc; auto).
      replace (pre ++ x :: bumps l trs cs) with ((pre ++ [x]) ++ bumps l trs cs) by (rewrite <- app_assoc; auto).
      apply (IH (S i) (pre ++ [x]) cs st' sk' r'); [rewrite app_length; cbn; lia | cbn in Hl; lia | intros; apply Ht; now right]. }
    unfold fires. cbn [fst snd]. unfold Workflow_Spec.hit, needed.
    destruct (tr_rule tr) as [m k|ms] eqn:ER.
    + destruct (matches m l) eqn:EM; cbn [andb].
      * cbn [t_counts]. rewrite <- Hi, bump_at. cbn [t_state t_sankeys]. rewrite Hi. destruct (n + 1 =? k)%N eqn:EK.
        -- destruct (triggered_actions (tr_actions tr) (sankey_states sk (tr_sankeys tr) l)) as [acts sk'] eqn:EA.
           destruct (traversal_new c (tr_target tr) sk') as [next|] eqn:EN; [|destruct (T _ EN)].
           rewrite IH'. cbn [res_out res_actions res_matched res_followed]. f_equal. f_equal.
           cbn [app flat_map List.length]. apply tresult_eq; [| |lia|lia].
           ++ rewrite <- app_assoc. unfold outs_of at 2. rewrite EA. cbn [fst snd]. rewrite EN. destruct next; reflexivity.
           ++ rewrite <- app_assoc. unfold acts_of at 2. rewrite EA. reflexivity.
        -- rewrite IH'. cbn [res_out res_actions res_matched res_followed app]. f_equal. f_equal. apply tresult_eq; auto; lia.
      * rewrite IH'. cbn [app]. reflexivity.
    + cbn [andb]. rewrite IH'. cbn [app]. reflexivity.
Qed.

(** One step of a traversal. *)
Lemma t_process_spec c l t s : well_formed c -> nth_error (c_states c) (t_state t) = Some s -> List.length (t_counts t) = List.length (s_transitions s) ->
  t_process c l t =
  Some (mkTraversal (t_state t) (bumps l (s_transitions s) (t_counts t)) (t_sankeys t),
        mkTresult (flat_map (outs_of c (t_sankeys t) l) (fired l (s_transitions s) (t_counts t)))
                  (flat_map (acts_of (t_sankeys t) l) (fired l (s_transitions s) (t_counts t)))
                  (nhits l (s_transitions s)) (N.of_nat (List.length (fired l (s_transitions s) (t_counts t))))).
Proof.
  intros W Hs Hl. unfold Workflow_Model.t_process. rewrite Hs. destruct t as [st cs sk]. cbn [t_state t_counts t_sankeys] in *.
  rewrite (t_loop_spec c l (s_transitions s) 0 [] cs st sk); cbn [res_out res_actions res_matched res_followed app]; auto.
  intros tr Htr. eapply (proj1 (proj2 W)); eauto. eapply nth_error_In; eauto.
Qed.

Lemma outs_fit c sk l tr : Forall (fits c) (outs_of c sk l tr).
Proof.
  unfold outs_of, traversal_new. destruct (nth_error (c_states c) (tr_target tr)) as [s|] eqn:E; [|constructor].
  destruct (s_transitions s) as [|x trs] eqn:ET; [constructor|]. constructor; [|constructor]. exists s. cbn [t_state t_counts]. rewrite repeat_length, ET. auto.
Qed.
Lemma outs_le1 c sk l tr : (List.length (outs_of c sk l tr) <= 1)%nat.
Proof. unfold outs_of. destruct (traversal_new _ _ _) as [[|]|]; cbn; lia. Qed.

Lemma fired_nhits l trs : forall cs, (N.of_nat (List.length (fired l trs cs)) <= nhits l trs)%N.
Proof.
  unfold fired, nhits. intros cs. apply N.le_trans with (N.of_nat (List.length (filter (fun tr => hit tr l) trs))); [|lia].
  rewrite map_length. revert cs; induction trs as [|tr trs IH]; intros cs; [cbn; lia|]. destruct cs as [|n cs]; [cbn [combine List.filter List.length]; lia|].
  cbn [combine List.filter]. specialize (IH cs). unfold fires at 1. cbn [fst snd]. destruct (hit tr l); cbn [andb]; [destruct (match needed tr with Some _ => _ | None => _ end)|]; cbn [List.length]; lia.
Qed.
Lemma nhits_zero l trs cs : nhits l trs = 0%N -> bumps l trs cs = cs /\ fired l trs cs = [].
Proof.
  intros H. split.
  - revert cs H; unfold nhits; induction trs as [|tr trs IH]; intros [|n cs] H; auto. cbn [bumps]. cbn [List.filter] in H. destruct (hit tr l); [cbn [List.length] in H; lia|]. rewrite IH; auto.
  - pose proof (fired_nhits l trs cs). rewrite H in H0. destruct (fired l trs cs); auto. cbn [List.length] in H0. lia.
Qed.

(** * Runs *)
Definition unbranched (c : config) : Prop := forall s, In s (c_states c) -> (List.length (s_transitions s) <= 1)%nat.

(** One step of a traversal that fits. *)
Lemma t_step c l t : well_formed c -> fits c t -> exists t' res, t_process c l t = Some (t', res) /\ fits c t' /\ Forall (fits c) (res_out res) /\
  (res_matched res = 0%N -> t' = t /\ res_actions res = [] /\ res_followed res = 0%N) /\
  (unbranched c -> (List.length (res_out res) <= 1)%nat).
Proof.
  intros W (s & Hs & Hl). rewrite (t_process_spec c l t s W Hs Hl). do 2 eexists. split; [reflexivity|]. cbn [res_out res_matched res_actions res_followed]. splits.
  - exists s. cbn [t_state t_counts]. rewrite bumps_length. auto.
  - apply Forall_flat_map. apply Forall_forall. intros. apply outs_fit.
  - intros H. apply (nhits_zero l (s_transitions s) (t_counts t)) in H as [H1 H2]. rewrite H1, H2. destruct t; cbn. auto.
  - intros U. specialize (U s (nth_error_In _ _ Hs)). destruct (s_transitions s) as [|tr [|]]; [cbn; lia| |cbn in U; lia].
    unfold fired. destruct (t_counts t) as [|n cs]; [cbn; lia|]. destruct cs; cbn [combine List.filter]; destruct (fires l (tr, n)); cbn [map flat_map List.length fst]; try lia;
      rewrite app_nil_r; apply outs_le1.
Qed.

Lemma count_app {A} (l m : list A) : count (l ++ m) = count l + count m.
Proof. unfold count. rewrite app_length. lia. Qed.
Lemma count_rev {A} (l : list A) : count (rev l) = count l.
Proof. unfold count. rewrite rev_length. auto. Qed.
Lemma count_cons {A} (x : A) l : count (x :: l) = count l + 1.
Proof. unfold count. cbn [List.length]. lia. Qed.
Lemma count_nil {A} : count (@nil A) = 0.
Proof. reflexivity. Qed.
Lemma count_nonneg {A} (l : list A) : 0 <= count l.
Proof. unfold count. lia. Qed.

Definition stopped_result (rr : rresult) : Prop := exists n, rr = mkRresult Stopped [] 0 0 0 n.

Lemma r_loop_ok c l : well_formed c -> forall rest done matched first acts cr ad co rm, Forall (fits c) rest -> Forall (fits c) done ->
  exists r' rr, r_loop c l rest done matched first acts cr ad co rm = Some (r', rr) /\ run_fits c r' /\ (rm <= rr_matched rr)%N /\
  (stopped_result rr \/
   (rr_state rr = match r_traversals r' with [] => Completed | _ => Running end) /\ cr <= rr_created rr /\ co <= rr_completed rr /\ ad <= rr_advanced rr /\
   run_count r' - rr_created rr + rr_completed rr = count rest + count done - cr + co) /\
  (unbranched c -> run_count r' <= count rest + count done).
Proof.
  intros W. induction rest as [|t rest IH]; intros done matched first acts cr ad co rm Hr Hd.
  - cbn [Workflow_Model.r_loop]. do 2 eexists. split; [reflexivity|]. unfold run_fits, run_count. cbn [r_traversals rr_matched rr_state rr_created rr_completed rr_advanced].
    splits; auto; try lia; [right; splits; auto; rewrite ?count_nil; lia | intros _; rewrite count_nil; lia].
  - inv Hr. cbn [Workflow_Model.r_loop]. destruct (t_step c l t W H1) as (t' & res & E & F & FO & _ & FU). rewrite E. cbv zeta.
    destruct (over_matched _ _ || over_duration _ _ _).
    + do 2 eexists. split; [reflexivity|]. unfold run_fits, run_count. cbn [r_traversals rr_matched]. rewrite count_app, count_rev, !count_cons. splits; try lia.
      * apply Forall_app. split; [apply Forall_rev; auto|constructor; auto].
      * left. eexists. reflexivity.
    + destruct (res_followed res =? 0)%N.
      * destruct (IH (t' :: done) (matched + res_matched res)%N (match first with None => if (0 <? res_matched res)%N then Some (l_time l) else None | _ => first end)
                    (acts ++ res_actions res) cr ad co (rm + res_matched res)%N H2) as (r' & rr & E' & A & B & C & D); [constructor; auto|].
        exists r', rr. splits; auto; [lia| |rewrite !count_cons in *; intros U; specialize (D U); lia].
        destruct C as [C|C]; [left; exact C|right]. rewrite !count_cons in *. intuition lia.
      * destruct (IH (res_out res ++ done) (matched + res_matched res)%N (match first with None => if (0 <? res_matched res)%N then Some (l_time l) else None | _ => first end)
                    (acts ++ res_actions res) (cr + match res_out res with [] => 0 | o => count o - 1 end) (ad + 1) (co + match res_out res with [] => 1 | _ => 0 end)
                    (rm + res_matched res)%N H2) as (r' & rr & E' & A & B & C & D); [apply Forall_app; auto|].
        assert (X : count (res_out res) = match res_out res with [] => 0 | o => count o - 1 end - match res_out res with [] => 1 | _ => 0 end + 1 /\
                    0 <= match res_out res with [] => 0 | o => count o - 1 end /\ 0 <= match res_out res with [] => 1 | _ => 0 end).
        { destruct (res_out res); rewrite ?count_cons, ?count_nil; pose proof (@count_nonneg traversal); splits; try lia; specialize (H l0); lia. }
        exists r', rr. splits; auto; [lia| |].
        -- destruct C as [C|C]; [left; exact C|right]. rewrite count_app, !count_cons in *. intuition lia.
        -- intros U. specialize (D U). rewrite count_app, !count_cons in *. specialize (FU U). unfold count in D |- *. lia.
Qed.

Lemma r_process_ok c l r : well_formed c -> run_fits c r -> exists r' rr, r_process c l r = Some (r', rr) /\ run_fits c r' /\
  (stopped_result rr \/
   (rr_state rr = match r_traversals r' with [] => Completed | _ => Running end) /\ 0 <= rr_created rr /\ 0 <= rr_completed rr /\ 0 <= rr_advanced rr /\
   run_count r' = run_count r + rr_created rr - rr_completed rr) /\
  (unbranched c -> run_count r' <= run_count r).
Proof.
  intros W F. unfold Workflow_Model.r_process.
  destruct (r_loop_ok c l W (rev (r_traversals r)) [] (r_matched r) (r_first r) [] 0 0 0 0%N) as (r' & rr & E & A & _ & B & C); [apply Forall_rev; exact F|constructor|].
  exists r', rr. rewrite count_rev, count_nil in *. unfold run_count in *. splits; auto; [|intros U; specialize (C U); lia]. destruct B as [B|B]; [left; exact B|right]. intuition lia.
Qed.

(** Without a limit of matched logs a run is stopped before any of its traversals advances. *)
Lemma not_over_stays c now first m : well_formed c -> over_duration c first now = false ->
  over_duration c (match first with None => if (0 <? m)%N then Some now else None | _ => first end) now = false.
Proof.
  intros (_ & _ & D) H. destruct first; [exact H|]. destruct (0 <? m)%N; [|exact H]. unfold over_duration. destruct (c_duration c) as [d|] eqn:E; auto.
  specialize (D d eq_refl). apply Z.ltb_ge. lia.
Qed.
Lemma r_loop_never_stops c l : well_formed c -> c_matched c = None -> forall rest done matched first acts cr ad co rm r' rr, over_duration c first (l_time l) = false ->
  r_loop c l rest done matched first acts cr ad co rm = Some (r', rr) -> rr_state rr <> Stopped.
Proof.
  intros W M. induction rest as [|t rest IH]; intros done matched first acts cr ad co rm r' rr O H; cbn [Workflow_Model.r_loop] in H.
  - inv H. cbn. destruct done; discriminate.
  - destruct (t_process c l t) as [[t' res]|]; [|discriminate]. cbv zeta in H. unfold over_matched in H. rewrite M, O in H. cbn [orb] in H.
    destruct (res_followed res =? 0)%N; eapply IH in H; eauto; apply not_over_stays; auto.
Qed.
Lemma stop_no_drift c l r r' rr : well_formed c -> c_matched c = None -> r_process c l r = Some (r', rr) -> rr_state rr = Stopped -> run_count r' = run_count r.
Proof.
  intros W M H S. unfold Workflow_Model.r_process in H. destruct (over_duration c (r_first r) (l_time l)) eqn:O; [|destruct (r_loop_never_stops _ _ W M _ _ _ _ _ _ _ _ _ _ _ O H S)].
  destruct (rev (r_traversals r)) as [|t rest] eqn:E; cbn [Workflow_Model.r_loop] in H; [inv H; discriminate|].
  destruct (t_process c l t) as [[t' res]|]; [|discriminate]. cbv zeta in H. unfold over_matched in H. rewrite M, O in H. cbn [orb] in H. inv H.
  unfold run_count. cbn [r_traversals]. rewrite count_app, count_rev, count_cons, count_nil. rewrite <- (count_rev (r_traversals r)), E, count_cons. lia.
Qed.

(** A run that matched nothing is left as it was. *)
Lemma r_loop_matched c l : forall rest done matched first acts cr ad co rm r' rr,
  r_loop c l rest done matched first acts cr ad co rm = Some (r', rr) -> (rm <= rr_matched rr)%N.
Proof.
  induction rest as [|t rest IH]; intros done matched first acts cr ad co rm r' rr H; cbn [Workflow_Model.r_loop] in H; [inv H; cbn; lia|].
  destruct (t_process c l t) as [[t' res]|]; [|discriminate]. cbv zeta in H. destruct (over_matched _ _ || over_duration _ _ _); [inv H; cbn; lia|].
  destruct (res_followed res =? 0)%N; apply IH in H; lia.
Qed.
Lemma r_loop_no_match c l : well_formed c -> forall rest done matched first acts cr ad co rm r' rr, Forall (fits c) rest ->
  r_loop c l rest done matched first acts cr ad co rm = Some (r', rr) -> rr_matched rr = rm -> rr_state rr <> Stopped ->
  r' = mkRun (rev rest ++ done) matched first /\ rr_actions rr = acts /\ rr_created rr = cr /\ rr_completed rr = co /\ rr_advanced rr = ad.
Proof.
  intros W. induction rest as [|t rest IH]; intros done matched first acts cr ad co rm r' rr F H M S; cbn [Workflow_Model.r_loop] in H.
  - inv H. cbn. auto.
  - apply Forall_cons_iff in F as [H2 H3]. destruct (t_step c l t W H2) as (t' & res & E & _ & _ & Z0 & _). rewrite E in H. cbv zeta in H.
    destruct (over_matched _ _ || over_duration _ _ _); [injection H as <- <-; destruct S; reflexivity|].
    assert (L : (rm + res_matched res <= rr_matched rr)%N).
    { destruct (res_followed res =? 0)%N; eapply r_loop_matched; exact H. }
    assert (R : res_matched res = 0%N) by lia. destruct (Z0 R) as (-> & A0 & F0). rewrite F0 in H. cbn [N.eqb] in H. rewrite R, A0, app_nil_r, !N.add_0_r in H.
    change ((0 <? 0)%N) with false in H. cbn iota in H.
    replace (match first with Some _ => first | None => None end) with first in H by (destruct first; auto).
    apply IH in H; auto. destruct H as (-> & ?). split; auto. cbn [rev]. rewrite <- app_assoc. auto.
Qed.
Lemma r_process_no_match c l r r' rr : well_formed c -> run_fits c r -> r_process c l r = Some (r', rr) -> rr_matched rr = 0%N -> rr_state rr <> Stopped ->
  r' = r /\ rr_actions rr = [] /\ rr_created rr = 0 /\ rr_completed rr = 0 /\ rr_advanced rr = 0.
Proof.
  intros W F H M S. unfold Workflow_Model.r_process in H. apply r_loop_no_match in H; auto; [|apply Forall_rev; exact F]. rewrite app_nil_r, rev_involutive in H. destruct r; cbn in *. exact H.
Qed.

(** * Workflows *)
Lemma run_new_ok c : well_formed c -> exists r, run_new c = Some r /\ run_fits c r /\ r_initial r = true /\ 0 <= run_count r <= 1.
Proof.
  intros (N0 & T & _). unfold run_new, traversal_new. destruct (c_states c) as [|s ss] eqn:E; [congruence|]. cbn [nth_error].
  destruct (s_transitions s) as [|tr trs] eqn:ET.
  - eexists. split; [reflexivity|]. unfold run_fits, r_initial, run_count. cbn [r_traversals forallb]. unfold count. cbn [List.length]. splits; auto; try lia; constructor.
  - eexists. split; [reflexivity|]. unfold run_fits, r_initial, run_count. cbn [r_traversals]. unfold count. cbn [List.length]. splits; try lia.
    + constructor; [|constructor]. exists s. cbn [t_state t_counts]. rewrite E, ET, repeat_length. auto.
    + cbn [forallb]. unfold t_initial. cbn [t_state t_counts]. rewrite andb_true_r. change ((0 =? 0)%nat) with true. rewrite andb_true_l. apply forallb_forall. intros n Hn. apply repeat_spec in Hn. subst. auto.
Qed.

Definition tot (l : list run) : Z := fold_right Z.add 0 (map run_count l).
Lemma tot_app l m : tot (l ++ m) = tot l + tot m.
Proof. unfold tot. induction l; cbn [map app fold_right]; lia. Qed.
Lemma tot_cons r l : tot (r :: l) = run_count r + tot l.
Proof. reflexivity. Qed.
Lemma tot_rev l : tot (rev l) = tot l.
Proof. induction l; cbn [rev]; auto. rewrite tot_app, IHl, !tot_cons. change (tot []) with 0. lia. Qed.
Lemma run_count_nonneg r : 0 <= run_count r.
Proof. apply count_nonneg. Qed.
Lemma tot_nonneg l : 0 <= tot l.
Proof. induction l; [unfold tot; cbn; lia|]. rewrite tot_cons. pose proof (run_count_nonneg a). lia. Qed.

(** The part of the loop that decides about the processed run. *)
Definition decide_run (r : run) (rr : rresult) (current limit : Z) (progress : bool) (st : stats) : list run * Z * bool * stats :=
  let over := limit <? current in
  match rr_state rr, over with
  | Stopped, _ | _, true =>
      ([], sat_sub current (run_count r), progress,
       inc (inc (if over then inc st LimitHits 1 else st) StoppedRuns 1) StoppedTraversals (run_count r))
  | Completed, _ => ([], current, true, inc (inc st AdvancedRuns 1) CompletedRuns 1)
  | Running, _ => ([r], current, progress || (0 <? rr_matched rr)%N, if 0 <? rr_advanced rr then inc st AdvancedRuns 1 else st)
  end.
Definition run_stats (st : stats) (rr : rresult) : stats :=
  inc (inc (inc (inc st CreatedTraversals (rr_created rr)) AdvancedTraversals (rr_advanced rr)) CompletedTraversals (rr_completed rr)) MatchedLogs (Z.of_N (rr_matched rr)).
Lemma w_loop_cons c l r rest done current limit progress res :
  w_loop c l (r :: rest) done current limit progress res =
  match r_process c l r with
  | None => None
  | Some (r, rr) =>
    let acts := wr_actions res ++ rr_actions rr in
    let '(kept, current, progress, st) := decide_run r rr (sat_sub (current + rr_created rr) (rr_completed rr)) limit progress (run_stats (wr_stats res) rr) in
    match c_exec c with
    | Parallel => w_loop c l rest (kept ++ done) current limit progress (mkWresult acts st)
    | Exclusive =>
        if (1 <? count rest + count (kept ++ done)) && progress then
          match rest with
          | [] =>
              match remove_second (kept ++ done) with
              | None => None
              | Some (x, done') =>
                  Some (done', sat_sub current (run_count x),
                        mkWresult acts (inc (inc (inc st StoppedRuns 1) StoppedTraversals (run_count x)) Resets 1))
              end
          | _ =>
              match run_new c with
              | None => None
              | Some i => match r_process c l i with
                          | None => None
                          | Some (_, ir) => Some (rev rest ++ kept ++ done, current,
                                                  mkWresult acts (if (0 <? rr_matched ir)%N then inc st PotentialForks 1 else st))
                          end
              end
          end
        else w_loop c l rest (kept ++ done) current limit progress (mkWresult acts st)
    end
  end.
Proof. reflexivity. Qed.

Lemma decide_kept r rr cur limit p st kept cur' p' st' : decide_run r rr cur limit p st = (kept, cur', p', st') -> kept = [] \/ kept = [r].
Proof. unfold decide_run. destruct (rr_state rr), (limit <? cur); intros H; inv H; auto. Qed.

(** No panic. *)
Lemma w_loop_total c l : well_formed c -> forall rest done current limit progress res, Forall (run_fits c) rest -> Forall (run_fits c) done ->
  exists runs cur res', w_loop c l rest done current limit progress res = Some (runs, cur, res') /\ Forall (run_fits c) runs.
Proof.
  intros W. induction rest as [|r rest IH]; intros done current limit progress res Hr Hd.
  - cbn. do 3 eexists. split; [reflexivity|auto].
  - apply Forall_cons_iff in Hr as [H1 H2]. rewrite w_loop_cons. destruct (r_process_ok c l r W H1) as (r' & rr & E & F & _). rewrite E. cbv zeta.
    destruct (decide_run r' rr _ limit progress _) as [ [ [kept cur] p'] st'] eqn:ED. pose proof (decide_kept _ _ _ _ _ _ _ _ _ _ ED) as K.
    assert (FK : Forall (run_fits c) (kept ++ done)) by (apply Forall_app; split; auto; destruct K as [-> | ->]; auto).
    destruct (c_exec c); [|apply IH; auto]. destruct ((1 <? count rest + count (kept ++ done)) && p') eqn:EB; [|apply IH; auto].
    apply andb_true_iff in EB as [EB _]. apply Z.ltb_lt in EB. destruct rest as [|r2 rest2].
    + rewrite count_nil in EB. destruct (kept ++ done) as [|x [|y d]]; [cbn in EB; lia|cbn in EB; lia|]. cbn [remove_second]. do 3 eexists. split; [reflexivity|].
      inv FK. inv H4. constructor; auto.
    + destruct (run_new_ok c W) as (i & Ei & Fi & _). rewrite Ei. destruct (r_process_ok c l i W Fi) as (i' & ir & Eir & _). rewrite Eir. do 3 eexists. split; [reflexivity|].
      apply Forall_app. split; auto. apply Forall_rev. auto.
Qed.

(** Accounting of the traversals: [current] minus the traversals that are held. *)
Definition safe (c : config) : Prop := c_matched c = None \/ unbranched c.
Lemma w_loop_count c l : well_formed c -> safe c -> forall rest done current limit progress res runs cur res', Forall (run_fits c) rest -> Forall (run_fits c) done ->
  tot rest + tot done <= current <= limit -> w_loop c l rest done current limit progress res = Some (runs, cur, res') ->
  cur <= limit /\ current - (tot rest + tot done) <= cur - tot runs /\ (c_matched c = None -> current - (tot rest + tot done) = cur - tot runs).
Proof.
  intros W SF. induction rest as [|r rest IH]; intros done current limit progress res runs cur res' Hr Hd B H.
  - cbn in H. inv H. change (tot []) with 0 in *. pose proof (tot_nonneg runs). splits; intros; lia.
  - apply Forall_cons_iff in Hr as [H1 H2]. rewrite w_loop_cons in H. destruct (r_process_ok c l r W H1) as (r' & rr & E & F & R & U). rewrite E in H. cbv zeta in H.
    destruct (decide_run r' rr _ limit progress _) as [ [ [kept cur1] p'] st'] eqn:ED. pose proof (decide_kept _ _ _ _ _ _ _ _ _ _ ED) as K.
    assert (FK : Forall (run_fits c) (kept ++ done)) by (apply Forall_app; split; auto; destruct K as [-> | ->]; auto).
    rewrite tot_cons in B |- *. pose proof (run_count_nonneg r) as P1. pose proof (run_count_nonneg r') as P2. pose proof (tot_nonneg rest) as P3. pose proof (tot_nonneg done) as P4.
    assert (X : tot rest + tot (kept ++ done) <= cur1 <= limit /\ current - (run_count r + tot rest + tot done) <= cur1 - (tot rest + tot (kept ++ done)) /\
                (c_matched c = None -> current - (run_count r + tot rest + tot done) = cur1 - (tot rest + tot (kept ++ done)))).
    { unfold decide_run in ED. rewrite tot_app. destruct R as [ [n ->]|(RS & R1 & R2 & R3 & R4)].
      - cbn [rr_state rr_created rr_completed] in ED. inv ED. change (tot []) with 0. unfold sat_sub.
        assert (D : run_count r' <= run_count r). { destruct SF as [M|N]; [|auto]. rewrite (stop_no_drift c l r r' _ W M E eq_refl). lia. }
        splits; try lia. intros M. rewrite (stop_no_drift c l r r' _ W M E eq_refl). lia.
      - assert (C1 : sat_sub (current + rr_created rr) (rr_completed rr) = current + rr_created rr - rr_completed rr) by (unfold sat_sub; lia).
        rewrite C1 in ED. unfold run_count at 1 in R4. rewrite RS in ED. destruct (limit <? current + rr_created rr - rr_completed rr) eqn:EO.
        + assert (EQ : kept = [] /\ cur1 = sat_sub (current + rr_created rr - rr_completed rr) (run_count r')) by (destruct (r_traversals r'); inv ED; auto).
          destruct EQ as [-> ->]. change (tot []) with 0. unfold sat_sub. fold (run_count r') in R4. lia.
        + apply Z.ltb_ge in EO. destruct (r_traversals r') eqn:ET.
          * inv ED. change (tot []) with 0. rewrite count_nil in R4. lia.
          * injection ED as <- <- <- <-. rewrite tot_cons. change (tot []) with 0. rewrite <- ET in R4. fold (run_count r') in R4. lia. }
    destruct X as (X1 & X2 & X3).
    assert (Y : w_loop c l rest (kept ++ done) cur1 limit p' (mkWresult (wr_actions res ++ rr_actions rr) st') = Some (runs, cur, res') ->
      cur <= limit /\ current - (run_count r + tot rest + tot done) <= cur - tot runs /\ (c_matched c = None -> current - (run_count r + tot rest + tot done) = cur - tot runs)).
    { intros Y. eapply IH in Y; eauto. destruct Y as (Y1 & Y2 & Y3). splits; intros; lia. }
    destruct (c_exec c); [|auto]. destruct ((1 <? count rest + count (kept ++ done)) && p') eqn:EB; [|auto].
    destruct rest as [|r2 rest2].
    + destruct (kept ++ done) as [|x [|y d]] eqn:EKD; [discriminate|discriminate|]. cbn [remove_second] in H. inv H. rewrite !tot_cons in *. unfold sat_sub.
      pose proof (run_count_nonneg y). pose proof (run_count_nonneg x). pose proof (tot_nonneg d). change (tot []) with 0 in *. splits; intros; lia.
    + destruct (run_new c) as [i|]; [|discriminate]. destruct (r_process c l i) as [[i' ir]|]; [|discriminate]. injection H as <- <- <-.
      rewrite !tot_app, tot_rev in *. rewrite !tot_cons in *. change (tot []) with 0 in *. splits; intros; lia.
Qed.

Lemma workflow_count_tot w : workflow_count w = tot (w_runs w).
Proof. reflexivity. Qed.

(** One log and one workflow. *)
Lemma w_process_total c l w current limit : well_formed c -> workflow_fits c w ->
  exists w' cur res, w_process c l w current limit = Some (w', cur, res) /\ workflow_fits c w' /\ w_id w' = w_id w.
Proof.
  intros W F. unfold Workflow_Model.w_process. destruct (run_new_ok c W) as (i & Ei & Fi & _). rewrite Ei.
  assert (X : exists runs cur st, (if needs_new_run w then Some (maybe_add_run c (w_runs w) i current limit no_stats) else Some (w_runs w, current, no_stats)) = Some (runs, cur, st) /\ Forall (run_fits c) runs).
  { destruct (needs_new_run w); [|do 3 eexists; split; [reflexivity|exact F]]. unfold maybe_add_run. destruct (run_count i + current <=? limit); do 3 eexists; (split; [reflexivity|]); auto.
    destruct (c_exec c); [constructor; auto|apply Forall_app; split; auto]. }
  destruct X as (runs & cur & st & -> & Fr). destruct (w_loop_total c l W (rev runs) [] cur limit false (mkWresult [] st)) as (runs' & cur' & res' & -> & F'); [apply Forall_rev; auto|constructor|].
  do 3 eexists. split; [reflexivity|]. split; auto.
Qed.
Lemma w_process_count c l w current limit w' cur res : well_formed c -> safe c -> workflow_fits c w -> workflow_count w <= current <= limit ->
  w_process c l w current limit = Some (w', cur, res) ->
  cur <= limit /\ current - workflow_count w <= cur - workflow_count w' /\ (c_matched c = None -> current - workflow_count w = cur - workflow_count w').
Proof.
  intros W SF F B H. unfold Workflow_Model.w_process in H. destruct (run_new_ok c W) as (i & Ei & Fi & _ & Ci). rewrite Ei in H.
  assert (X : exists runs cur st, (if needs_new_run w then Some (maybe_add_run c (w_runs w) i current limit no_stats) else Some (w_runs w, current, no_stats)) = Some (runs, cur, st) /\ Forall (run_fits c) runs
    /\ cur - tot runs = current - workflow_count w /\ cur <= limit).
  { destruct (needs_new_run w); [|do 3 eexists; split; [reflexivity|split; [exact F|rewrite workflow_count_tot; lia] ] ]. unfold maybe_add_run. destruct (run_count i + current <=? limit) eqn:EL; do 3 eexists; (split; [reflexivity|]); rewrite ?workflow_count_tot.
    - apply Z.leb_le in EL. destruct (c_exec c); [rewrite tot_cons|rewrite tot_app, tot_cons; change (tot []) with 0]; (split; [|lia]); [constructor; auto|apply Forall_app; split; auto].
    - split; auto. lia. }
  destruct X as (runs & cur0 & st & X & Fr & X1 & X2). rewrite X in H.
  destruct (w_loop c l (rev runs) [] cur0 limit false (mkWresult [] st)) as [[[runs' cur'] res']|] eqn:EW; [|discriminate]. inv H.
  pose proof (tot_nonneg (w_runs w)). apply w_loop_count in EW; auto; try (apply Forall_rev; auto); rewrite ?tot_rev in *; change (tot []) with 0 in *; rewrite ?workflow_count_tot in *; cbn [w_runs]; [|lia].
  destruct EW as (E1 & E2 & E3). splits; intros; lia.
Qed.

(** * Exclusive workflows *)
Definition two (runs : list run) : Prop := runs = [] \/ (exists x, runs = [x]) \/ (exists i a, runs = [i; a] /\ r_initial i = true).

Lemma decide_running r rr cur limit p st kept cur' p' st' : decide_run r rr cur limit p st = (kept, cur', p', st') -> kept = [] \/ (kept = [r] /\ rr_state rr = Running).
Proof. unfold decide_run. destruct (rr_state rr), (limit <? cur); intros H; inv H; auto. Qed.
Lemma w_loop_one c l r cur limit p res runs cur' res' : c_exec c = Exclusive -> w_loop c l [r] [] cur limit p res = Some (runs, cur', res') ->
  exists r' rr, r_process c l r = Some (r', rr) /\ (runs = [] \/ runs = [r'] /\ rr_state rr = Running) /\ wr_actions res' = wr_actions res ++ rr_actions rr.
Proof.
  intros X H. rewrite w_loop_cons in H. destruct (r_process c l r) as [[r' rr]|]; [|discriminate]. exists r', rr. split; [reflexivity|]. cbv zeta in H. rewrite X in H.
  destruct (decide_run r' rr _ limit p _) as [ [ [kept cur1] p'] st'] eqn:ED. apply decide_running in ED. destruct ED as [-> | [-> S] ]; cbn in H; inv H; auto.
Qed.

(** The cases of an exclusive workflow with an initial and an active run. *)
Lemma w_loop_two c l i a cur limit res runs cur' res' : well_formed c -> run_fits c i -> run_fits c a -> c_exec c = Exclusive ->
  w_loop c l [a; i] [] cur limit false res = Some (runs, cur', res') ->
  exists a' ra, r_process c l a = Some (a', ra) /\
  ((rr_state ra = Running /\ sat_sub (cur + rr_created ra) (rr_completed ra) <= limit /\ (0 < rr_matched ra)%N /\ runs = [i; a'] /\ wr_actions res' = wr_actions res ++ rr_actions ra) \/
   (rr_state ra = Running /\ sat_sub (cur + rr_created ra) (rr_completed ra) <= limit /\ rr_matched ra = 0%N /\ a' = a /\
    exists i' ri, r_process c l i = Some (i', ri) /\ wr_actions res' = wr_actions res ++ rr_actions ri /\
      (runs = [i'] /\ rr_state ri = Running /\ (0 < rr_matched ri)%N \/ runs = [i; a] /\ i' = i \/ runs = [a])) \/
   ((rr_state ra <> Running \/ limit < sat_sub (cur + rr_created ra) (rr_completed ra)) /\
    exists i' ri, r_process c l i = Some (i', ri) /\ (runs = [] \/ runs = [i'] /\ rr_state ri = Running) /\ wr_actions res' = wr_actions res ++ rr_actions ra ++ rr_actions ri)).
Proof.
  intros W Fi Fa X H. rewrite w_loop_cons in H. destruct (r_process c l a) as [[a' ra]|] eqn:EA; [|discriminate]. exists a', ra. split; [reflexivity|]. cbv zeta in H. rewrite X in H.
  set (cur1 := sat_sub (cur + rr_created ra) (rr_completed ra)) in *.
  unfold decide_run at 1 in H. destruct (limit <? cur1) eqn:EO.
  - right. right. apply Z.ltb_lt in EO. split; [auto|].
    assert (H' : exists p st cur2, w_loop c l [i] [] cur2 limit p (mkWresult (wr_actions res ++ rr_actions ra) st) = Some (runs, cur', res')).
    { destruct (rr_state ra); cbn -[Workflow_Model.w_loop] in H; do 3 eexists; exact H. }
    destruct H' as (p & st & cur2 & H'). apply w_loop_one in H'; auto. destruct H' as (i' & ri & E1 & E2 & E3). exists i', ri. cbn [wr_actions] in E3. rewrite <- app_assoc in E3. auto.
  - apply Z.ltb_ge in EO. destruct (rr_state ra) eqn:ES.
    + cbn [app orb] in H. rewrite !count_cons, count_nil in H. cbn [app] in H.
      change (1 <? 0 + 1 + (0 + 1)) with true in H. cbn [andb] in H. destruct (0 <? rr_matched ra)%N eqn:EM.
      * left. apply N.ltb_lt in EM. destruct (run_new c) as [n|]; [|discriminate]. destruct (r_process c l n) as [[n' nr]|]; [|discriminate]. injection H as <- <- <-. cbn [wr_actions]. splits; auto.
      * right. left. apply N.ltb_ge in EM. assert (M0 : rr_matched ra = 0%N) by lia.
        destruct (r_process_no_match c l a a' ra W Fa EA M0) as (-> & A0 & _); [congruence|]. rewrite A0, app_nil_r in H. splits; auto.
        rewrite w_loop_cons in H. destruct (r_process c l i) as [[i' ri]|] eqn:EI; [|discriminate]. cbv zeta in H. cbn [wr_actions wr_stats] in H. exists i', ri. split; [reflexivity|].
        rewrite X in H. destruct (decide_run i' ri _ limit false _) as [ [ [kept cur2] p'] st'] eqn:ED. pose proof (decide_kept _ _ _ _ _ _ _ _ _ _ ED) as [-> | ->].
        -- cbn [app] in H. rewrite !count_cons, !count_nil in H. change (1 <? 0 + (0 + 1)) with false in H. cbn in H. inv H. auto.
        -- cbn [app] in H. rewrite !count_cons, !count_nil in H. change (1 <? 0 + (0 + 1 + 1)) with true in H. cbn [andb] in H.
           assert (P : rr_state ri = Running /\ p' = (0 <? rr_matched ri)%N). { unfold decide_run in ED. destruct (rr_state ri), (limit <? _); inv ED; auto. }
           destruct P as [PS ->]. destruct (0 <? rr_matched ri)%N eqn:EM2.
           ++ apply N.ltb_lt in EM2. cbn [remove_second] in H. injection H as <- <- <-. cbn [wr_actions]. auto.
           ++ apply N.ltb_ge in EM2. assert (M2 : rr_matched ri = 0%N) by lia. destruct (r_process_no_match c l i i' ri W Fi EI M2) as (-> & A2 & _); [congruence|].
              cbn in H. inv H. cbn [wr_actions]. auto.
    + right. right. split; [left; congruence|]. cbn -[Workflow_Model.w_loop] in H. apply w_loop_one in H; auto. destruct H as (i' & ri & E1 & E2 & E3). exists i', ri. cbn [wr_actions] in E3. rewrite <- app_assoc in E3. auto.
    + right. right. split; [left; congruence|]. cbn -[Workflow_Model.w_loop] in H. apply w_loop_one in H; auto. destruct H as (i' & ri & E1 & E2 & E3). exists i', ri. cbn [wr_actions] in E3. rewrite <- app_assoc in E3. auto.
Qed.

Lemma w_process_two c l w cur limit w' cur' res : well_formed c -> c_exec c = Exclusive -> workflow_fits c w -> two (w_runs w) ->
  w_process c l w cur limit = Some (w', cur', res) -> two (w_runs w').
Proof.
  intros W X F T H. unfold Workflow_Model.w_process in H. destruct (run_new_ok c W) as (n & En & Fn & In & _). rewrite En in H.
  assert (Y : exists runs cur1 st, (if needs_new_run w then Some (maybe_add_run c (w_runs w) n cur limit no_stats) else Some (w_runs w, cur, no_stats)) = Some (runs, cur1, st) /\
    two runs /\ Forall (run_fits c) runs).
  { destruct (needs_new_run w) eqn:EN; [|do 3 eexists; split; [reflexivity|split; auto] ]. unfold maybe_add_run. rewrite X. destruct (run_count n + cur <=? limit); do 3 eexists; (split; [reflexivity|split; auto]).
    - unfold needs_new_run in EN. destruct T as [-> | [ (x & ->) | (i & a & E & I0) ] ]; [right; left; eauto | right; right; eauto|].
      rewrite E in EN. cbn in EN. rewrite I0 in EN. discriminate. }
  destruct Y as (runs & cur1 & st & EY & T' & F'). rewrite EY in H. destruct (w_loop c l (rev runs) [] cur1 limit false (mkWresult [] st)) as [ [ [runs' cur2] res']|] eqn:EL; [|discriminate]. inv H. cbn [w_runs].
  destruct T' as [-> | [ (x & ->) | (i & a & -> & I0) ] ].
  - cbn in EL. inv EL. left; auto.
  - cbn [rev app] in EL. apply w_loop_one in EL; auto. destruct EL as (r' & rr & _ & [-> | [-> _] ] & _); [left; auto|right; left; eauto].
  - cbn [rev app] in EL. inv F'. inv H2. apply w_loop_two in EL; auto. destruct EL as (a' & ra & _ & [ (_ & _ & _ & -> & _) | [ (_ & _ & _ & _ & i' & ri & _ & _ & [ [-> _] | [ [-> _] | -> ] ]) | (_ & i' & ri & _ & [-> | [-> _] ] & _) ] ]).
    + right; right; eauto.
    + right; left; eauto.
    + right; right; eauto.
    + right; left; eauto.
    + left; auto.
    + right; left; eauto.
Qed.

Lemma w_process_one_run c l w cur limit w' cur' res i a a' ra : well_formed c -> c_exec c = Exclusive -> workflow_fits c w -> w_runs w = [i; a] -> r_initial i = true ->
  w_process c l w cur limit = Some (w', cur', res) -> r_process c l a = Some (a', ra) -> rr_state ra = Running -> cur + rr_created ra - rr_completed ra <= limit -> 0 <= limit ->
  (w_runs w' = [i; a'] /\ wr_actions res = rr_actions ra) \/
  (a' = a /\ exists i' ri, r_process c l i = Some (i', ri) /\ wr_actions res = rr_actions ri /\ (w_runs w' = [i'] \/ w_runs w' = [a] \/ w_runs w' = [i'; a] /\ i' = i)).
Proof.
  intros W X F R I0 H EA SR L1 L0. unfold Workflow_Model.w_process in H. assert (N0 : needs_new_run w = false) by (unfold needs_new_run; rewrite R; cbn; rewrite I0; auto). rewrite N0, R in H. cbn [rev app] in H.
  destruct (w_loop c l [a; i] [] cur limit false (mkWresult [] no_stats)) as [ [ [runs' cur2] res']|] eqn:EL; [|discriminate]. inv H. cbn [w_runs].
  unfold workflow_fits in F. rewrite R in F. inv F. inv H2. apply w_loop_two in EL; auto. destruct EL as (a2 & ra2 & EA2 & C). rewrite EA in EA2. injection EA2 as <- <-. cbn [wr_actions app] in C.
  destruct C as [ (_ & _ & _ & -> & ->) | [ (_ & _ & _ & -> & i' & ri & E1 & -> & C) | (C & _) ] ].
  - left. auto.
  - right. split; auto. exists i', ri. splits; auto. destruct C as [ [-> _] | [ [-> ->] | -> ] ]; auto.
  - exfalso. destruct C as [C|C]; [congruence|]. unfold sat_sub in C. lia.
Qed.

(** * The n-th match *)
Notation stays := (stays re_match to_i32 sha).

Lemma hits_app tr ls ms : hits tr (ls ++ ms) = (hits tr ls + hits tr ms)%N.
Proof. induction ls; cbn [app Workflow_Spec.hits]; lia. Qed.
Lemma hits_snoc tr ls l : hits tr (ls ++ [l]) = (hits tr ls + if hit tr l then 1 else 0)%N.
Proof. rewrite hits_app. cbn [Workflow_Spec.hits]. lia. Qed.
Lemma bumps_hits trs ls l : bumps l trs (map (fun tr => hits tr ls) trs) = map (fun tr => hits tr (ls ++ [l])) trs.
Proof. induction trs as [|tr trs IH]; cbn [bumps map]; auto. rewrite IH, hits_snoc. destruct (hit tr l); f_equal; lia. Qed.
Lemma fired_due trs ls l : fired l trs (map (fun tr => hits tr ls) trs) = filter (fun tr => due tr ls l) trs.
Proof.
  unfold fired. induction trs as [|tr trs IH]; auto. cbn [map combine List.filter]. unfold fires at 1, Workflow_Spec.due at 1. cbn [fst snd].
  rewrite hits_snoc. destruct (hit tr l) eqn:EH; cbn [andb]; [|exact IH]. destruct (needed tr); [|exact IH]. destruct (_ =? _)%N; [cbn [map]; f_equal|]; exact IH.
Qed.

Lemma quiet_snoc trs ls l : quiet trs (ls ++ [l]) <-> quiet trs ls /\ forall tr, In tr trs -> due tr ls l = false.
Proof.
  unfold Workflow_Spec.quiet. split.
  - intros H. split; [intros tr pre x post Ht ->; apply (H tr pre x (post ++ [l])); auto; rewrite <- app_assoc; auto|]. intros tr Ht. apply (H tr ls l []); auto.
  - intros [H1 H2] tr pre x post Ht E. destruct (rev post) as [|y post'] eqn:ER.
    + apply (f_equal (@rev _)) in ER. rewrite rev_involutive in ER. cbn in ER. subst post. apply app_inj_tail in E as [-> ->]. auto.
    + apply (f_equal (@rev _)) in ER. rewrite rev_involutive in ER. cbn in ER. subst post.
      rewrite app_comm_cons, app_assoc in E. apply app_inj_tail in E as [-> ->]. eapply H1; eauto.
Qed.

Lemma stays_snoc c : forall ls t l, stays c t (ls ++ [l]) =
  match stays c t ls with Some t' => match t_process c l t' with Some (t'', r) => if (res_followed r =? 0)%N then Some t'' else None | None => None end | None => None end.
Proof.
  induction ls as [|x ls IH]; intros t l; cbn [app Workflow_Spec.stays].
  - destruct (t_process c l t) as [[t' r]|]; auto.
  - destruct (t_process c x t) as [[t' r]|]; auto. destruct (res_followed r =? 0)%N; auto.
Qed.

Lemma stays_spec c i s sk : well_formed c -> nth_error (c_states c) i = Some s -> forall ls,
  let t := mkTraversal i (repeat 0%N (List.length (s_transitions s))) sk in
  (quiet (s_transitions s) ls -> stays c t ls = Some (mkTraversal i (map (fun tr => hits tr ls) (s_transitions s)) sk)) /\
  (stays c t ls <> None -> quiet (s_transitions s) ls).
Proof.
  intros W Hs. cbv zeta. induction ls as [|l ls IH] using rev_ind.
  - split; [intros _|intros _ tr pre x post _ E; destruct pre; discriminate]. cbn. f_equal. f_equal. induction (s_transitions s); cbn; f_equal; auto.
  - destruct IH as [IH1 IH2]. rewrite stays_snoc. rewrite quiet_snoc. split.
    + intros [Q1 Q2]. rewrite IH1; auto. rewrite (t_process_spec c l _ s); auto; [|cbn [t_counts]; rewrite map_length; auto]. cbn [res_followed t_counts t_state t_sankeys].
      rewrite fired_due, bumps_hits. assert (E : filter (fun tr => due tr ls l) (s_transitions s) = []).
      { clear - Q2. induction (s_transitions s) as [|tr trs IH]; auto. cbn [List.filter]. rewrite Q2 by (now left). apply IH. intros; apply Q2; now right. }
      rewrite E. reflexivity.
    + intros H. destruct (stays c _ ls) as [t'|] eqn:ES in H; [|congruence]. assert (Q : quiet (s_transitions s) ls) by (apply IH2; congruence). split; auto.
      rewrite IH1 in ES; auto. injection ES as <-. rewrite (t_process_spec c l _ s) in H; auto; [|cbn [t_counts]; rewrite map_length; auto]. cbn [res_followed t_counts] in H. rewrite fired_due in H.
      destruct (filter (fun tr => due tr ls l) (s_transitions s)) eqn:EF; [|cbn in H; congruence].
      intros tr Ht. destruct (due tr ls l) eqn:ED; auto. assert (In tr (filter (fun tr => due tr ls l) (s_transitions s))) by (apply filter_In; auto). rewrite EF in H0. destruct H0.
Qed.

Lemma triggered_plain acts m x y : plain x = Some y -> In y (fst (triggered_actions acts m)) <-> In x acts.
Proof.
  intros P. revert m. induction acts as [|a acts IH]; intros m; [cbn; tauto|].
  assert (A : forall b, plain a = Some b -> (In y (b :: fst (triggered_actions acts m)) <-> In x (a :: acts))).
  { intros b Hb. cbn [In]. rewrite IH. split; (intros [E|E]; [left|right; auto]).
    - subst b. destruct a, x; cbn in P, Hb; congruence.
    - subst a. congruence. }
  assert (B : forall m', plain a = None -> (In y (fst (triggered_actions acts m')) <-> In x (a :: acts))).
  { intros m' Hb. cbn [In]. rewrite IH. split; [tauto|]. intros [E|E]; auto. congruence. }
  destruct a; cbn [Workflow_Model.triggered_actions].
  - specialize (A _ eq_refl). destruct (triggered_actions acts m); exact A.
  - specialize (A _ eq_refl). destruct (triggered_actions acts m); exact A.
  - destruct m as [mm|]; [|apply B; auto]. destruct (sankeys_take mm (as_id a)) as [[s mm']|]; [|apply B; auto].
    specialize (B (Some mm') eq_refl). destruct (triggered_actions acts (Some mm')). cbn [fst In] in *. rewrite <- B. split; [|tauto]. intros [E|E]; auto. destruct x; cbn in P; congruence.
  - specialize (A _ eq_refl). destruct (triggered_actions acts m); exact A.
Qed.

(** What the next log does. *)
Lemma nth_match c i s sk ls l t : well_formed c -> nth_error (c_states c) i = Some s ->
  stays c (mkTraversal i (repeat 0%N (List.length (s_transitions s))) sk) ls = Some t ->
  exists t' r, t_process c l t = Some (t', r) /\ res_followed r = N.of_nat (List.length (filter (fun tr => due tr ls l) (s_transitions s))) /\
  forall x y, plain x = Some y -> (In y (res_actions r) <-> exists tr, In tr (s_transitions s) /\ due tr ls l = true /\ In x (tr_actions tr)).
Proof.
  intros W Hs H. destruct (stays_spec c i s sk W Hs ls) as [S1 S2]. cbv zeta in S1, S2. assert (Q : quiet (s_transitions s) ls) by (apply S2; congruence).
  rewrite S1 in H; auto. injection H as <-. rewrite (t_process_spec c l _ s); auto; [|cbn [t_counts]; rewrite map_length; auto]. do 2 eexists. split; [reflexivity|].
  cbn [res_followed res_actions t_counts t_sankeys]. rewrite fired_due. split; auto. intros x y P. rewrite in_flat_map. unfold acts_of. split.
  - intros (tr & H1 & H2). apply filter_In in H1 as [H1 H3]. exists tr. rewrite triggered_plain in H2; eauto.
  - intros (tr & H1 & H2 & H3). exists tr. rewrite filter_In, triggered_plain; eauto.
Qed.

(** * Sankey paths *)
Lemma counting_app xs ys : counting (xs ++ ys) = (counting xs + counting ys)%nat.
Proof. unfold counting. rewrite filter_app, app_length. auto. Qed.
Lemma counting_recent limit xs : counting (recent limit xs) = Nat.min limit (counting xs).
Proof.
  induction xs as [|x xs IH]; [cbn; lia|]. cbn [recent]. unfold counting at 3. cbn [List.filter]. destruct (n_counts x) eqn:E; cbn [andb].
  - destruct (limit <=? counting xs)%nat eqn:EL; [apply Nat.leb_le in EL | apply Nat.leb_gt in EL]; cbn [List.length]; fold (counting xs).
    + lia.
    + unfold counting at 1. cbn [List.filter]. rewrite E. cbn [List.length]. fold (counting (recent limit xs)). lia.
  - fold (counting xs). unfold counting at 1. cbn [List.filter]. rewrite E. exact IH.
Qed.
Lemma recent_snoc_free limit xs y : n_counts y = false -> recent limit (xs ++ [y]) = recent limit xs ++ [y].
Proof.
  intros H. induction xs as [|x xs IH]; cbn [app recent]; [rewrite H; auto|]. rewrite counting_app. unfold counting at 2. cbn [List.filter]. rewrite H. cbn [List.length]. rewrite Nat.add_0_r, IH.
  destruct (n_counts x && _); auto.
Qed.
Lemma recent_all limit xs : (counting xs <= limit)%nat -> recent limit xs = xs.
Proof.
  induction xs as [|x xs IH]; auto. intros H. unfold counting in H. cbn [List.filter] in H. cbn [recent]. destruct (n_counts x) eqn:E; cbn [andb].
  - cbn [List.length] in H. fold (counting xs) in H. destruct (limit <=? counting xs)%nat eqn:EL; [apply Nat.leb_le in EL; lia|]. rewrite IH; auto. lia.
  - rewrite IH; auto.
Qed.
Lemma recent_snoc_full limit xs y : n_counts y = true -> (limit <= counting xs)%nat -> recent limit (xs ++ [y]) = remove_first n_counts (recent limit xs ++ [y]).
Proof.
  intros Hy. induction xs as [|x xs IH]; intros H.
  - cbn in H. assert (limit = 0%nat) by lia. subst. cbn. rewrite Hy. auto.
  - cbn [app recent]. rewrite counting_app. assert (CY : counting [y] = 1%nat) by (unfold counting; cbn [List.filter]; rewrite Hy; auto). rewrite CY.
    unfold counting in H. cbn [List.filter] in H. destruct (n_counts x) eqn:E; cbn [andb].
    + cbn [List.length] in H. fold (counting xs) in H. destruct (limit <=? counting xs)%nat eqn:EL; [apply Nat.leb_le in EL | apply Nat.leb_gt in EL].
      * replace (limit <=? counting xs + 1)%nat with true by (symmetry; apply Nat.leb_le; lia). auto.
      * replace (limit <=? counting xs + 1)%nat with true by (symmetry; apply Nat.leb_le; lia). cbn [app remove_first]. rewrite E.
        assert (limit = S (counting xs)) by lia. rewrite recent_all; [|rewrite counting_app, CY; lia]. rewrite recent_all; [auto|lia].
    + fold (counting xs) in H. cbn [app remove_first]. rewrite E. f_equal. auto.
Qed.
Lemma recent_snoc_room limit xs y : (counting (xs ++ [y]) <= limit)%nat -> recent limit (xs ++ [y]) = recent limit xs ++ [y].
Proof. intros H. rewrite recent_all by auto. rewrite recent_all; auto. rewrite counting_app in H. lia. Qed.

Lemma path_of_spec limit xs : path_of limit xs = mkSankey (recent limit xs) (limit <? counting xs)%nat.
Proof.
  induction xs as [|y xs IH] using rev_ind; [reflexivity|]. unfold path_of in *. rewrite fold_left_app. cbn [fold_left]. rewrite IH. unfold sankey_push. cbn [sk_nodes sk_trimmed].
  replace (mkNode (n_value y) (n_counts y)) with y by (destruct y; auto). fold (counting (recent limit xs ++ [y])). rewrite counting_app, counting_recent, counting_app.
  destruct (n_counts y) eqn:E; cbn [andb].
  - assert (CY : counting [y] = 1%nat) by (unfold counting; cbn [List.filter]; rewrite E; auto). rewrite CY. destruct (limit <? Nat.min limit (counting xs) + 1)%nat eqn:EL; [apply Nat.ltb_lt in EL | apply Nat.ltb_ge in EL].
    + rewrite recent_snoc_full; auto; [|lia]. f_equal. symmetry. apply Nat.ltb_lt. lia.
    + rewrite recent_snoc_room; [|rewrite counting_app; lia]. f_equal. transitivity false; [apply Nat.ltb_ge; lia|symmetry; apply Nat.ltb_ge; lia].
  - assert (CY : counting [y] = 0%nat) by (unfold counting; cbn [List.filter]; rewrite E; auto). rewrite CY, Nat.add_0_r. rewrite recent_snoc_free; auto.
Qed.

(** * Invariants of the traversals of a workflow, and of the actions it triggers *)
Section TravInv.
Variables (c : config) (l : log) (P : traversal -> Prop) (Q : triggered -> Prop).
Hypothesis step : forall t t' res, P t -> t_process c l t = Some (t', res) -> P t' /\ Forall P (res_out res) /\ Forall Q (res_actions res).
Hypothesis new : forall t, traversal_new c 0 None = Some (Some t) -> P t.

Lemma r_loop_inv : forall rest done matched first acts cr ad co rm r' rr, Forall P rest -> Forall P done -> Forall Q acts ->
  r_loop c l rest done matched first acts cr ad co rm = Some (r', rr) -> Forall P (r_traversals r') /\ Forall Q (rr_actions rr).
Proof.
  induction rest as [|t rest IH]; intros done matched first acts cr ad co rm r' rr Hr Hd Ha H; cbn [Workflow_Model.r_loop] in H; [inv H; auto|].
  apply Forall_cons_iff in Hr as [H1 H2]. destruct (t_process c l t) as [[t' res]|] eqn:ET; [|discriminate]. destruct (step _ _ _ H1 ET) as (S1 & S2 & S3).
  cbv zeta in H. destruct (over_matched c _ || over_duration c first (l_time l)).
  - inv H. cbn [r_traversals rr_actions]. split; auto. apply Forall_app. split; [apply Forall_rev; auto|auto].
  - destruct (res_followed res =? 0)%N; apply IH in H; auto; try (apply Forall_app; auto).
Qed.
Lemma r_process_inv r r' rr : Forall P (r_traversals r) -> r_process c l r = Some (r', rr) -> Forall P (r_traversals r') /\ Forall Q (rr_actions rr).
Proof. intros H E. unfold Workflow_Model.r_process in E. eapply r_loop_inv in E; eauto. apply Forall_rev; auto. Qed.
Let PR (r : run) := Forall P (r_traversals r).
Lemma w_loop_inv : forall rest done cur limit p res runs cur' res', Forall PR rest -> Forall PR done -> Forall Q (wr_actions res) ->
  w_loop c l rest done cur limit p res = Some (runs, cur', res') -> Forall PR runs /\ Forall Q (wr_actions res').
Proof.
  induction rest as [|r rest IH]; intros done cur limit p res runs cur' res' Hr Hd Ha H; [cbn in H; inv H; auto|]. rewrite w_loop_cons in H.
  apply Forall_cons_iff in Hr as [H1 H2]. destruct (r_process c l r) as [[r' rr]|] eqn:ER; [|discriminate]. destruct (r_process_inv _ _ _ H1 ER) as [S1 S2]. cbv zeta in H.
  destruct (decide_run r' rr _ limit p _) as [ [ [kept cur1] p'] st'] eqn:ED. pose proof (decide_kept _ _ _ _ _ _ _ _ _ _ ED) as K.
  assert (FK : Forall PR (kept ++ done)) by (apply Forall_app; split; auto; destruct K as [-> | ->]; auto).
  assert (FA : Forall Q (wr_actions res ++ rr_actions rr)) by (apply Forall_app; auto).
  destruct (c_exec c); [|apply IH in H; auto]. destruct ((1 <? count rest + count (kept ++ done)) && p'); [|apply IH in H; auto].
  destruct rest as [|y rest].
  - destruct (remove_second (kept ++ done)) as [[x d']|] eqn:E2; [|discriminate]. inv H. cbn [wr_actions]. split; auto.
    destruct (kept ++ done) as [|z0 [|z1 zs]]; try discriminate. cbn in E2. inv E2. inv FK. inv H4. constructor; auto.
  - destruct (run_new c); [|discriminate]. destruct (r_process c l r0) as [[? ?]|]; [|discriminate]. injection H as <- _ <-. cbn [wr_actions]. split; auto. apply Forall_app. split; auto.
    change (rev rest ++ [y]) with (rev (y :: rest)). apply Forall_rev. auto.
Qed.
Lemma w_process_inv w cur limit w' cur' res : Forall PR (w_runs w) -> w_process c l w cur limit = Some (w', cur', res) -> Forall PR (w_runs w') /\ Forall Q (wr_actions res).
Proof.
  intros F H. unfold Workflow_Model.w_process in H.
  assert (X : forall runs cur1 st, (if needs_new_run w then match run_new c with None => None | Some r => Some (maybe_add_run c (w_runs w) r cur limit no_stats) end else Some (w_runs w, cur, no_stats)) = Some (runs, cur1, st) ->
    Forall PR runs).
  { intros runs cur1 st E. destruct (needs_new_run w); [|inv E; auto]. destruct (run_new c) as [n|] eqn:EN; [|discriminate].
    assert (PN : PR n). { unfold run_new in EN. destruct (traversal_new c 0 None) as [[t|]|] eqn:ET; inv EN; unfold PR; cbn; auto. }
    unfold maybe_add_run in E. destruct (_ <=? limit); inv E; auto. destruct (c_exec c); auto. apply Forall_app; auto. }
  destruct (if needs_new_run w then _ else _) as [ [ [runs cur1] st]|]; [|discriminate]. specialize (X _ _ _ eq_refl).
  destruct (w_loop c l (rev runs) [] cur1 limit false (mkWresult [] st)) as [ [ [runs' cur2] res']|] eqn:EL; [|discriminate]. inv H. cbn [w_runs].
  eapply w_loop_inv; [ | | |exact EL]; [apply Forall_rev; exact X|constructor|constructor].
Qed.
End TravInv.

(** * The paths of a traversal *)
Fixpoint sk_find (m : sankeys) (id : string) : option sankey :=
  match m with [] => None | (i, s) :: m' => if String.eqb i id then Some s else sk_find m' id end.
Definition sk_get (m : option sankeys) (id : string) : option sankey := match m with Some m => sk_find m id | None => None end.
Definition sk_ids (m : option sankeys) : list string := match m with Some m => map fst m | None => [] end.

Lemma sk_find_push m id v lim b i : sk_find (sankeys_push m id v lim b) i =
  if String.eqb id i then Some (sankey_push (match sk_find m id with Some s => s | None => sankey_empty end) v lim b) else sk_find m i.
Proof.
  induction m as [|[j s] m IH]; cbn [sankeys_push sk_find].
  - destruct (String.eqb_spec id i); auto.
  - destruct (String.eqb_spec j id); cbn [sk_find].
    + subst j. destruct (String.eqb_spec id i); auto.
    + rewrite IH. destruct (String.eqb_spec j i); auto. destruct (String.eqb_spec id i); auto. congruence.
Qed.
Lemma push_ids m id v lim b : NoDup (map fst m) -> NoDup (map fst (sankeys_push m id v lim b)) /\ forall i, In i (map fst (sankeys_push m id v lim b)) -> i = id \/ In i (map fst m).
Proof.
  induction m as [|[j s] m IH]; intros N; cbn [sankeys_push map fst].
  - split; [repeat constructor; auto|]. intros i [H|[] ]; auto.
  - cbn [map fst] in N. apply NoDup_cons_iff in N as [N1 N2]. destruct (String.eqb_spec j id); cbn [map fst].
    + split; [constructor; auto|]. intros i [H|H]; auto. right. now left. right. now right.
    + destruct (IH N2) as [I1 I2]. split; [constructor; auto; intros H; apply I2 in H as [H|H]; congruence|]. intros i [H|H]; [right; now left|]. apply I2 in H as [H|H]; auto. right. now right.
Qed.
Lemma take_spec m id : NoDup (map fst m) -> match sankeys_take m id with
  | Some (s, m') => sk_find m id = Some s /\ (forall i, sk_find m' i = if String.eqb id i then None else sk_find m i) /\ NoDup (map fst m') /\ incl (map fst m') (map fst m)
  | None => sk_find m id = None end.
Proof.
  induction m as [|[j s] m IH]; intros N; cbn [sankeys_take sk_find]; auto. cbn [map fst] in N. apply NoDup_cons_iff in N as [N1 N2]. destruct (String.eqb_spec j id).
  - subst j. splits; auto.
    + intros i. destruct (String.eqb_spec id i); auto. subst i. clear - N1. induction m as [|[j s'] m IH]; auto. cbn. destruct (String.eqb_spec j id); [subst; cbn in N1; tauto|]. apply IH. intros H; apply N1; now right.
    + intros x Hx. now right.
  - specialize (IH N2). destruct (sankeys_take m id) as [[r m']|]; auto. destruct IH as (I1 & I2 & I3 & I4). splits; auto.
    + intros i. cbn [sk_find]. rewrite I2. destruct (String.eqb_spec j i), (String.eqb_spec id i); auto; congruence.
    + cbn [map fst]. constructor; auto.
    + cbn [map fst]. intros x [H|H]; [now left|right; auto].
Qed.

Section Paths.
Variables (c : config) (lim : string -> nat).
Hypothesis lims : forall x, In x (extractions c) -> x_limit x = lim (x_id x).

(** [m] holds the paths of the values [f]. *)
Definition holds_paths (m : option sankeys) (f : string -> list node) : Prop :=
  NoDup (sk_ids m) /\ forall id, sk_get m id = match f id with [] => None | xs => Some (path_of (lim id) xs) end.

Lemma path_of_snoc n xs x : path_of n (xs ++ [x]) = sankey_push (path_of n xs) (n_value x) n (n_counts x).
Proof. unfold path_of. rewrite fold_left_app. reflexivity. Qed.

Lemma sankey_states_holds l : forall xs m f, (forall x, In x xs -> x_limit x = lim (x_id x)) -> holds_paths m f ->
  holds_paths (sankey_states m xs l) (fun id => f id ++ flat_map (fun x => if String.eqb (x_id x) id then match extract_value (x_value x) l with Some v => [mkNode v (x_counts x)] | None => [] end else []) xs).
Proof.
  unfold sankey_states. induction xs as [|x xs IH]; intros m f L H; cbn [fold_left flat_map].
  - destruct H as [H1 H2]. split; auto. intros id. rewrite app_nil_r. auto.
  - destruct (extract_value (x_value x) l) as [v|] eqn:EV.
    + specialize (IH (Some (sankeys_push (match m with Some m => m | None => [] end) (x_id x) v (x_limit x) (x_counts x)))
        (fun id => f id ++ (if String.eqb (x_id x) id then [mkNode v (x_counts x)] else []))).
      destruct IH as [I1 I2].
      * intros; apply L; now right.
      * destruct H as [H1 H2]. split.
        -- unfold sk_ids in *. apply push_ids. destruct m; auto.
        -- intros id. cbn [sk_get]. rewrite sk_find_push, (L x) by (now left).
           assert (G : forall i, sk_find (match m with Some m => m | None => [] end) i = sk_get m i) by (intros; destruct m; auto). rewrite !G, !H2.
           destruct (String.eqb_spec (x_id x) id) as [->|NE].
           ++ destruct (f id) as [|y ys] eqn:EF; [reflexivity|]. cbn [app]. rewrite app_comm_cons, path_of_snoc. auto.
           ++ rewrite app_nil_r. auto.
      * split; auto. intros id. rewrite I2. rewrite <- app_assoc. reflexivity.
    + destruct (IH m f) as [I1 I2]; auto; [intros; apply L; now right|]. split; auto. intros id. rewrite I2. destruct (String.eqb (x_id x) id); auto.
Qed.

Definition takes (f : string -> list node) (acts : list action) (out : list triggered * option sankeys) : Prop :=
  holds_paths (snd out) (fun id => if existsb (fun a => match a with ASankey s => String.eqb (as_id s) id | _ => false end) acts then [] else f id) /\
  (forall a p, In (TSankey a p) (fst out) -> In (ASankey a) acts /\ f (as_id a) <> [] /\ p = path_new sha (as_id a) (path_of (lim (as_id a)) (f (as_id a)))) /\
  (forall a, In (ASankey a) acts -> f (as_id a) <> [] -> exists b, as_id b = as_id a /\ In (TSankey b (path_new sha (as_id a) (path_of (lim (as_id a)) (f (as_id a))))) (fst out)).

Lemma takes_other f acts out x b : (forall a p, b <> TSankey a p) -> (forall a, x <> ASankey a) -> takes f acts out -> takes f (x :: acts) (b :: fst out, snd out).
Proof.
  intros Nb Nx (I1 & I2 & I3). unfold takes. cbn [fst snd]. splits.
  - destruct I1 as [J1 J2]. split; auto. intros id. rewrite J2. cbn [existsb]. destruct x; auto. exfalso; eapply Nx; eauto.
  - intros a p [G|G]; [exfalso; eapply Nb; eauto|]. apply I2 in G as (G1 & G2 & G3). splits; auto. now right.
  - intros a [G|G] NE; [exfalso; eapply Nx; eauto|]. destruct (I3 _ G NE) as (b' & B1 & B2). exists b'. split; auto. now right.
Qed.
Lemma takes_none f acts out a : f (as_id a) = [] -> takes f acts out -> takes f (ASankey a :: acts) out.
Proof.
  intros F0 (I1 & I2 & I3). unfold takes. splits.
  - destruct I1 as [J1 J2]. split; auto. intros id. rewrite J2. cbn [existsb]. destruct (String.eqb_spec (as_id a) id); cbn [orb]; auto. subst id. rewrite F0. destruct (existsb _ acts); auto.
  - intros a' p G. apply I2 in G as (G1 & G2 & G3). splits; auto. now right.
  - intros a' [G|G] NE; [congruence|]. auto.
Qed.

Lemma triggered_holds : forall acts m f, holds_paths m f -> takes f acts (triggered_actions acts m).
Proof.
  induction acts as [|x acts IH]; intros m f H.
  - unfold takes. cbn. splits; auto; intros; contradiction.
  - destruct x; cbn [Workflow_Model.triggered_actions].
    1, 2, 4: specialize (IH m f H); eapply takes_other in IH; [destruct (triggered_actions acts m); exact IH | discriminate | discriminate].
    destruct H as [N H].
    destruct m as [mm|]; [|apply takes_none; [specialize (H (as_id a)); cbn in H; destruct (f (as_id a)); congruence|apply IH; split; auto] ].
    cbn [sk_ids] in N. pose proof (take_spec mm (as_id a) N) as T. destruct (sankeys_take mm (as_id a)) as [[s mm']|].
    2: { apply takes_none; [|apply IH; split; auto]. specialize (H (as_id a)). cbn [sk_get] in H. rewrite T in H. destruct (f (as_id a)); congruence. }
    destruct T as (T1 & T2 & T3 & T4).
    assert (S0 : f (as_id a) <> [] /\ s = path_of (lim (as_id a)) (f (as_id a))). { specialize (H (as_id a)). cbn [sk_get] in H. rewrite T1 in H. destruct (f (as_id a)); [discriminate|]. inv H. split; [congruence|auto]. }
    destruct S0 as [S0 ->]. destruct (IH (Some mm') (fun id => if String.eqb (as_id a) id then [] else f id)) as (I1 & I2 & I3).
    { split; [exact T3|]. intros id. cbn [sk_get]. rewrite T2. destruct (String.eqb (as_id a) id); auto. apply H. }
    destruct (triggered_actions acts (Some mm')) as [r m']. unfold takes. cbn [fst snd] in *. splits.
    + destruct I1 as [J1 J2]. split; auto. intros id. rewrite J2. cbn [existsb]. destruct (String.eqb (as_id a) id), (existsb _ acts); auto.
    + intros a' p [G|G]; [inv G; splits; auto; now left|]. apply I2 in G as (G1 & G2 & G3). destruct (String.eqb_spec (as_id a) (as_id a')); [congruence|]. splits; auto. now right.
    + intros a' G NE. destruct (String.eqb_spec (as_id a) (as_id a')) as [E|E].
      * exists a. split; auto. left. rewrite E. auto.
      * destruct G as [G|G]; [congruence|]. destruct (I3 a' G) as (b & B1 & B2). { destruct (String.eqb_spec (as_id a) (as_id a')); congruence. }
        exists b. split; auto. right. destruct (String.eqb_spec (as_id a) (as_id a')); [congruence|]. auto.
Qed.

(** Every traversal holds the paths of the values extracted on its way. *)
Definition on_trail (t : traversal) : Prop := fits c t /\ exists f, holds_paths (t_sankeys t) f /\ forall id, trail re_match to_i32 c id (t_state t) (f id).

Lemma trail_process l t t' res : well_formed c -> on_trail t -> t_process c l t = Some (t', res) ->
  on_trail t' /\ Forall on_trail (res_out res) /\ Forall (fun x => match x with TSankey a p => path_follows re_match to_i32 c lim l a p | _ => True end) (res_actions res).
Proof.
  intros W ((s & Hs & Hl) & f & HP & TR) H. rewrite (t_process_spec c l t s W Hs Hl) in H. injection H as <- <-. cbn [res_out res_actions].
  assert (Y : forall tr, In tr (fired l (s_transitions s) (t_counts t)) -> In tr (s_transitions s) /\ hit tr l = true).
  { intros tr Ht. unfold fired in Ht. apply in_map_iff in Ht as ((tr' & n) & <- & Ht). apply filter_In in Ht as [H1 H2]. unfold fires in H2. apply andb_true_iff in H2 as [H2 _]. split; auto. eapply in_combine_l; eauto. }
  assert (Z0 : forall tr, In tr (s_transitions s) -> holds_paths (sankey_states (t_sankeys t) (tr_sankeys tr) l) (fun id => f id ++ extracted id tr l)).
  { intros tr Ht. apply sankey_states_holds; auto. intros x Hx. apply lims. unfold extractions. apply in_flat_map. exists tr. split; auto. apply in_flat_map. exists s. split; auto. eapply nth_error_In; eauto. }
  splits.
  - split; [exists s; cbn [t_state t_counts]; rewrite bumps_length; auto|]. exists f. auto.
  - apply Forall_forall. intros t' Ht. apply in_flat_map in Ht as (tr & Ht & Ho). destruct (Y tr Ht) as [Y1 Y2]. 
    assert (F : fits c t'). { pose proof (outs_fit c (t_sankeys t) l tr) as F. rewrite Forall_forall in F. auto. }
    split; auto. pose proof (triggered_holds (tr_actions tr) _ _ (Z0 tr Y1)) as (T1 & _ & _).
    unfold outs_of, traversal_new in Ho. destruct (nth_error (c_states c) (tr_target tr)) as [s'|]; [|destruct Ho]. destruct (s_transitions s') as [|? ?]; [destruct Ho|]. destruct Ho as [<-|[] ].
    eexists. cbn [t_sankeys t_state]. split; [exact T1|]. intros id. cbv beta. fold (emits id tr). eapply trail_step; eauto.
  - apply Forall_forall. intros x Hx. apply in_flat_map in Hx as (tr & Ht & Hx). destruct (Y tr Ht) as [Y1 Y2]. destruct x; auto.
    pose proof (triggered_holds (tr_actions tr) _ _ (Z0 tr Y1)) as (_ & T2 & _). unfold acts_of in Hx. destruct (T2 _ _ Hx) as (T3 & T4 & ->).
    exists (t_state t), (f (as_id a)), s, tr. splits; auto. cbv zeta. unfold path_new. rewrite path_of_spec. cbn [p_sankey p_nodes p_trimmed sk_nodes sk_trimmed]. splits; auto. apply Nat.ltb_lt.
Qed.
Lemma trail_new t : traversal_new c 0 None = Some (Some t) -> on_trail t.
Proof.
  unfold traversal_new. destruct (nth_error (c_states c) 0) as [s|] eqn:E; [|discriminate]. destruct (s_transitions s) as [|tr trs] eqn:ET; [discriminate|]. intros H. inv H.
  split; [exists s; cbn [t_state t_counts]; split; [auto|rewrite ET; exact (repeat_length _ (List.length (tr :: trs)))]|]. exists (fun _ => []). split; [split; [constructor|auto]|]. intros. constructor.
Qed.
End Paths.
End Proofs.
