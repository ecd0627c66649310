From Verif Require Import Base Str_Base ErrorReport_Model ErrorReport_Spec.

Lemma exec_app : forall ls1 ls2 s, exec s (ls1 ++ ls2) = match exec s ls1 with Some s' => exec s' ls2 | None => None end.
Proof. induction ls1 as [|l ls1 IH]; intros; simpl; auto. destruct (step s l); auto. Qed.
Lemma exec_snoc : forall ls l s s', exec s (ls ++ [l]) = Some s' -> exists s0, exec s ls = Some s0 /\ step s0 l = Some s'.
Proof. intros ls l s s' H. rewrite exec_app in H. destruct (exec s ls) as [s0|]; [|discriminate]. simpl in H. exists s0. split; auto. destruct (step s0 l); congruence. Qed.

Definition is_disable (l : label) : bool := match l with LDisable => true | _ => false end.
Definition disabled (ls : list label) : bool := existsb is_disable ls.
Lemma disabled_snoc : forall ls l, disabled (ls ++ [l]) = disabled ls || is_disable l.
Proof. intros. unfold disabled. rewrite existsb_app. simpl. rewrite orb_false_r. reflexivity. Qed.
Lemma bd_snoc : forall ls l, before_disable (ls ++ [l]) = if disabled ls then before_disable ls else before_disable ls ++ (if is_disable l then [] else [l]).
Proof. induction ls as [|a ls IH]; intros l; [destruct l; reflexivity|]. destruct a; simpl; rewrite ?IH; try reflexivity; destruct (disabled ls) eqn:E; unfold disabled in E; simpl; rewrite ?E; reflexivity. Qed.
Lemma bd_none : forall ls, disabled ls = false -> before_disable ls = ls.
Proof. induction ls as [|a ls IH]; auto. intros H. destruct a; simpl in *; try discriminate; f_equal; apply IH; exact H. Qed.
Lemma attributed_app : forall l1 l2 b, attributed b (l1 ++ l2) = attributed b l1 ++ attributed (b ++ l1) l2.
Proof.
  induction l1 as [|a l1 IH]; intros; simpl; [rewrite app_nil_r; reflexivity|]. rewrite IH, <- app_assoc, <- app_assoc. simpl. reflexivity.
Qed.
Lemma last_set_app : forall l1 l2 r, last_set r (l1 ++ l2) = last_set (last_set r l1) l2.
Proof. induction l1 as [|a l1 IH]; intros; simpl; auto. destruct a; apply IH. Qed.
Lemma scopes_app : forall t l1 l2 st, scopes t st (l1 ++ l2) = scopes t (scopes t st l1) l2.
Proof. induction l1 as [|a l1 IH]; intros; simpl; auto. destruct a; apply IH. Qed.
Definition A (ls : list label) : list (reporter * string) := attributed [] (before_disable ls).
Definition adds (ls : list label) (l : label) : list (reporter * string) :=
  match l with LError t m d => if disabled ls then [] else [(should t ls, (d ++ ": " ++ m)%string)] | _ => [] end.
Lemma A_snoc : forall ls l, A (ls ++ [l]) = A ls ++ adds ls l.
Proof.
  intros. unfold A. rewrite bd_snoc. unfold adds. destruct (disabled ls) eqn:E.
  - destruct l; rewrite app_nil_r; reflexivity.
  - rewrite (bd_none _ E). rewrite attributed_app. f_equal. destruct l; reflexivity.
Qed.

Definition done (s : st) : list (reporter * string) := map (fun i => (it_to i, it_text i)) (given s).
Definition pending (s : st) : list (reporter * string) :=
  match h_lock s with Free => [] | Making t x => [(chosen s t, x)] | Calling t x _ => [(chosen s t, x)] | Stuck _ => [] end.
Definition stuck (s : st) : bool := match h_lock s with Stuck _ => true | _ => false end.

Record inv (ls : list label) (s : st) : Prop := mkInv {
  i_rep : h_reporter s = last_set RDefault ls;
  i_over : forall t, overrides s t = hd_error (scopes t [] ls);
  i_left : h_left s = if disabled ls then 0 else 5 - length (A ls);
  i_done : if stuck s then exists x, firstn 5 (A ls) = done s ++ [x] else firstn 5 (A ls) = done s ++ pending s }.

Lemma flat_prefix : forall t ls l, flat t (ls ++ [l]) -> flat t ls.
Proof.
  intros t ls l [H1 H2]. split.
  - intros n. destruct (le_lt_dec n (length ls)).
    + specialize (H1 n). rewrite firstn_app in H1. replace (n - length ls) with 0 in H1 by lia. simpl in H1. rewrite app_nil_r in H1. exact H1.
    + specialize (H1 (length ls)). rewrite firstn_app, Nat.sub_diag, firstn_all in H1. simpl in H1. rewrite app_nil_r in H1. rewrite firstn_all2 by lia. exact H1.
  - intros H. apply H2. apply in_or_app. auto.
Qed.
Lemma flat_len : forall t ls, flat t ls -> length (scopes t [] ls) <= 1.
Proof. intros t ls [H _]. specialize (H (length ls)). rewrite firstn_all in H. exact H. Qed.

Lemma over_step : forall ls s l s', (forall t, flat t (ls ++ [l])) -> (forall t, overrides s t = hd_error (scopes t [] ls)) -> step s l = Some s' ->
  forall t, overrides s' t = hd_error (scopes t [] (ls ++ [l])).
Proof.
  intros ls s l s' Hf Ho Hs t. rewrite scopes_app. pose proof (flat_len t ls (flat_prefix _ _ _ (Hf t))) as Hl.
  assert (Hsame : overrides s' = overrides s -> (forall st, scopes t st [l] = st) -> overrides s' t = hd_error (scopes t (scopes t [] ls) [l])).
  { intros E1 E2. rewrite E1, E2. apply Ho. }
  destruct l; simpl in Hs; repeat dmatch_in Hs; inv Hs; try (apply Hsame; [reflexivity|intros; reflexivity]).
  - simpl. unfold upd. rewrite (Nat.eqb_sym t0 t). destruct (Nat.eqb t t0) eqn:Ez; [|apply Ho]. reflexivity.
  - simpl. unfold upd. rewrite (Nat.eqb_sym t0 t). destruct (Nat.eqb t t0) eqn:Ez; [|apply Ho]. destruct (scopes t [] ls) as [|r [|r2 q]]; simpl in *; auto; lia.
  - simpl. destruct (Nat.eqb t0 t) eqn:Ez; [|apply Ho]. apply Nat.eqb_eq in Ez. subst. exfalso. destruct (Hf t) as [_ H]. apply H. apply in_or_app. right. left. reflexivity.
Qed.

Lemma chosen_should : forall ls s t, h_reporter s = last_set RDefault ls -> overrides s t = hd_error (scopes t [] ls) -> chosen s t = should t ls.
Proof. intros ls s t H1 H2. unfold chosen, should. rewrite H1, H2. destruct (scopes t [] ls); reflexivity. Qed.

Lemma inv_step : forall ls s l s', (forall t, flat t (ls ++ [l])) -> inv ls s -> step s l = Some s' -> inv (ls ++ [l]) s'.
Proof.
  intros ls s l s' Hf [Hr Ho Hl Hd] Hs. pose proof (over_step _ _ _ _ Hf Ho Hs) as Ho'.
  assert (Hr' : h_reporter s' = last_set RDefault (ls ++ [l])).
  { rewrite last_set_app, <- Hr. destruct l; simpl in Hs; repeat dmatch_in Hs; inv Hs; reflexivity. }
  assert (Hl' : h_left s' = if disabled (ls ++ [l]) then 0 else 5 - length (A (ls ++ [l]))).
  { rewrite disabled_snoc, A_snoc, app_length. unfold adds.
    destruct l; simpl in Hs; repeat dmatch_in Hs; inv Hs; simpl is_disable; rewrite ?orb_false_r, ?orb_true_r; cbn [h_left]; simpl length; rewrite ?Nat.add_0_r; auto;
      destruct (disabled ls); simpl length; try lia. }
  split; auto.
  assert (Hsame : done s' = done s -> pending s' = pending s -> stuck s' = stuck s -> adds ls l = [] ->
    if stuck s' then exists x, firstn 5 (A (ls ++ [l])) = done s' ++ [x] else firstn 5 (A (ls ++ [l])) = done s' ++ pending s').
  { intros E1 E2 E3 E4. rewrite A_snoc, E4, app_nil_r, E1, E2, E3. exact Hd. }
  destruct l; simpl in Hs.
  - destruct (h_lock s) eqn:E; inv Hs. apply Hsame; unfold pending, stuck; simpl; rewrite ?E; reflexivity.
  - destruct (h_lock s) eqn:E; inv Hs. apply Hsame; unfold pending, stuck; simpl; rewrite ?E; reflexivity.
  - destruct (h_lock s) eqn:E; inv Hs. apply Hsame; unfold pending, stuck; simpl; rewrite ?E; reflexivity.
  - destruct (h_lock s) eqn:E; inv Hs. apply Hsame; unfold pending, stuck; simpl; rewrite ?E; reflexivity.
  - destruct (h_lock s) eqn:E; try discriminate. unfold stuck in Hd. rewrite E in Hd. unfold pending in Hd. rewrite E, app_nil_r in Hd.
    destruct (h_left s) as [|n] eqn:El; inv Hs.
    + unfold stuck, pending, done; cbn [h_lock given]. rewrite app_nil_r. rewrite A_snoc. unfold adds. destruct (disabled ls) eqn:Ed; [rewrite app_nil_r; exact Hd|].
      rewrite firstn_app. assert (5 <= length (A ls)) by lia. replace (5 - length (A ls)) with 0 by lia. simpl (firstn 0 _). rewrite app_nil_r. exact Hd.
    + unfold stuck, pending; cbn [h_lock]. unfold chosen; cbn [overrides h_reporter]. rewrite A_snoc. unfold adds. destruct (disabled ls) eqn:Ed; [discriminate|].
      rewrite firstn_app. assert (length (A ls) < 5) by lia. replace (5 - length (A ls)) with (S n) by lia. simpl (firstn (S n) _). rewrite firstn_nil. rewrite Hd.
      unfold done; cbn [given]. f_equal. f_equal. unfold format. f_equal. rewrite <- (chosen_should ls s t Hr (Ho t)). reflexivity.
  - destruct (h_lock s) eqn:E; try discriminate. destruct (Nat.eqb t0 t) eqn:Et; inv Hs. apply Nat.eqb_eq in Et; subst. apply Hsame; unfold pending, stuck; simpl; rewrite ?E; reflexivity.
  - destruct (h_lock s) eqn:E; try discriminate. destruct (Nat.eqb t0 t) eqn:Et; inv Hs. apply Nat.eqb_eq in Et; subst.
    unfold stuck, pending, done in *; cbn [h_lock given]. rewrite E in Hd. rewrite map_app, app_nil_r, A_snoc. cbn [adds]. rewrite app_nil_r. exact Hd.
  - unfold outside in Hs. destruct (h_lock s) eqn:E; simpl in Hs; repeat dmatch_in Hs; inv Hs; apply Hsame; unfold pending, stuck, chosen, upd; simpl; rewrite ?E; try reflexivity;
      (destruct (Nat.eqb t0 t) eqn:Et; [simpl in *; discriminate|reflexivity]).
  - unfold outside in Hs. destruct (h_lock s) eqn:E; simpl in Hs; repeat dmatch_in Hs; inv Hs; apply Hsame; unfold pending, stuck, chosen, upd; simpl; rewrite ?E; try reflexivity;
      (destruct (Nat.eqb t0 t) eqn:Et; [simpl in *; discriminate|reflexivity]).
  - destruct (outside s t); inv Hs. apply Hsame; reflexivity.
  - rewrite A_snoc. simpl adds. rewrite app_nil_r.
    destruct (h_lock s) eqn:E; try discriminate; (destruct (Nat.eqb t0 t) eqn:Et; inv Hs); unfold stuck, pending, done in *; cbn [h_lock given]; rewrite E in Hd; eexists; exact Hd.
Qed.

Theorem inv_exec : forall ls s, (forall t, flat t ls) -> exec init ls = Some s -> inv ls s.
Proof.
  induction ls as [|l ls IH] using rev_ind; intros s Hf H.
  - simpl in H. inv H. split; try reflexivity.
  - apply exec_snoc in H as (s0 & H0 & Hs). eapply inv_step; eauto. apply IH; auto. intros t. eapply flat_prefix; eauto.
Qed.

Theorem attribution : forall ls s, (forall t, flat t ls) -> exec init ls = Some s ->
  exists rest, firstn 5 (attributed [] (before_disable ls)) = map (fun i => (it_to i, it_text i)) (given s) ++ rest
    /\ length rest <= 1 /\ (h_lock s = Free -> rest = []).
Proof.
  intros ls s Hf H. destruct (inv_exec _ _ Hf H) as [_ _ _ Hd]. unfold stuck, pending in Hd. fold (A ls). destruct (h_lock s).
  - exists []. splits; auto.
  - eexists. splits; [exact Hd|simpl; lia|discriminate].
  - eexists. splits; [exact Hd|simpl; lia|discriminate].
  - destruct Hd as [x Hd]. exists [x]. splits; [exact Hd|simpl; lia|discriminate].
Qed.

(** * Without regard to who is told: no condition on scopes *)
Definition E (ls : list label) : list string := map snd (errors (before_disable ls)).
Definition eadds (ls : list label) (l : label) : list string :=
  match l with LError t m d => if disabled ls then [] else [(d ++ ": " ++ m)%string] | _ => [] end.
Lemma E_snoc : forall ls l, E (ls ++ [l]) = E ls ++ eadds ls l.
Proof.
  intros. unfold E. rewrite bd_snoc. unfold eadds. destruct (disabled ls) eqn:Ed.
  - destruct l; rewrite app_nil_r; reflexivity.
  - unfold errors. rewrite flat_map_app, map_app. f_equal. destruct l; reflexivity.
Qed.
Definition tdone (s : st) : list string := map it_text (given s).
Definition tpending (s : st) : list string := match h_lock s with Making _ x | Calling _ x _ => [x] | _ => [] end.
Record tinv (ls : list label) (s : st) : Prop := mkTinv {
  t_left : h_left s = if disabled ls then 0 else 5 - length (E ls);
  t_done : if stuck s then exists x, firstn 5 (E ls) = tdone s ++ [x] else firstn 5 (E ls) = tdone s ++ tpending s }.
Lemma tinv_step : forall ls s l s', tinv ls s -> step s l = Some s' -> tinv (ls ++ [l]) s'.
Proof.
  intros ls s l s' [Hl Hd] Hs. split.
  { rewrite disabled_snoc, E_snoc, app_length. unfold eadds.
    destruct l; simpl in Hs; repeat dmatch_in Hs; inv Hs; simpl is_disable; rewrite ?orb_false_r, ?orb_true_r; cbn [h_left]; simpl length; rewrite ?Nat.add_0_r; auto;
      destruct (disabled ls); simpl length; try lia. }
  assert (Hsame : tdone s' = tdone s -> tpending s' = tpending s -> stuck s' = stuck s -> eadds ls l = [] ->
    if stuck s' then exists x, firstn 5 (E (ls ++ [l])) = tdone s' ++ [x] else firstn 5 (E (ls ++ [l])) = tdone s' ++ tpending s').
  { intros E1 E2 E3 E4. rewrite E_snoc, E4, app_nil_r, E1, E2, E3. exact Hd. }
  destruct l; simpl in Hs.
  - destruct (h_lock s) eqn:EL; inv Hs. apply Hsame; unfold tpending, stuck; simpl; rewrite ?EL; reflexivity.
  - destruct (h_lock s) eqn:EL; inv Hs. apply Hsame; unfold tpending, stuck; simpl; rewrite ?EL; reflexivity.
  - destruct (h_lock s) eqn:EL; inv Hs. apply Hsame; unfold tpending, stuck; simpl; rewrite ?EL; reflexivity.
  - destruct (h_lock s) eqn:EL; inv Hs. apply Hsame; unfold tpending, stuck; simpl; rewrite ?EL; reflexivity.
  - destruct (h_lock s) eqn:EL; try discriminate. unfold stuck in Hd. rewrite EL in Hd. unfold tpending in Hd. rewrite EL, app_nil_r in Hd.
    destruct (h_left s) as [|n] eqn:El; inv Hs.
    + unfold stuck, tpending, tdone; cbn [h_lock given]. rewrite app_nil_r. rewrite E_snoc. unfold eadds. destruct (disabled ls) eqn:Ed; [rewrite app_nil_r; exact Hd|].
      rewrite firstn_app. assert (5 <= length (E ls)) by lia. replace (5 - length (E ls)) with 0 by lia. simpl (firstn 0 _). rewrite app_nil_r. exact Hd.
    + unfold stuck, tpending; cbn [h_lock]. rewrite E_snoc. unfold eadds. destruct (disabled ls) eqn:Ed; [discriminate|].
      rewrite firstn_app. assert (length (E ls) < 5) by lia. replace (5 - length (E ls)) with (S n) by lia. simpl (firstn (S n) _). rewrite firstn_nil. rewrite Hd. reflexivity.
  - destruct (h_lock s) eqn:EL; try discriminate. destruct (Nat.eqb t0 t) eqn:Et; inv Hs. apply Hsame; unfold tpending, stuck; simpl; rewrite ?EL; reflexivity.
  - destruct (h_lock s) eqn:EL; try discriminate. destruct (Nat.eqb t0 t) eqn:Et; inv Hs.
    unfold stuck, tpending, tdone in *; cbn [h_lock given]. rewrite EL in Hd. rewrite map_app, app_nil_r, E_snoc. cbn [eadds]. rewrite app_nil_r. exact Hd.
  - destruct (outside s t); inv Hs. apply Hsame; reflexivity.
  - destruct (outside s t); inv Hs. apply Hsame; reflexivity.
  - destruct (outside s t); inv Hs. apply Hsame; reflexivity.
  - rewrite E_snoc. simpl eadds. rewrite app_nil_r.
    destruct (h_lock s) eqn:EL; try discriminate; (destruct (Nat.eqb t0 t) eqn:Et; inv Hs); unfold stuck, tpending, tdone in *; cbn [h_lock given]; rewrite EL in Hd; eexists; exact Hd.
Qed.
Theorem tinv_exec : forall ls s, exec init ls = Some s -> tinv ls s.
Proof.
  induction ls as [|l ls IH] using rev_ind; intros s H.
  - simpl in H. inv H. split; reflexivity.
  - apply exec_snoc in H as (s0 & H0 & Hs). eapply tinv_step; eauto.
Qed.
Theorem first_five : forall ls s, exec init ls = Some s ->
  length (given s) <= 5
  /\ exists rest, firstn 5 (map snd (errors (before_disable ls))) = map it_text (given s) ++ rest /\ length rest <= 1 /\ (h_lock s = Free -> rest = []).
Proof.
  intros ls s H. destruct (tinv_exec _ _ H) as [_ Hd]. unfold stuck, tpending in Hd. fold (E ls). unfold tdone in Hd.
  assert (L : forall rest, firstn 5 (E ls) = map it_text (given s) ++ rest -> length (given s) <= 5).
  { intros rest Hr. apply (f_equal (@length string)) in Hr. rewrite app_length, map_length in Hr. pose proof (firstn_le_length 5 (E ls)). lia. }
  destruct (h_lock s).
  - split; [eapply L; eauto|]. exists []. splits; auto.
  - split; [eapply L; eauto|]. eexists. splits; [exact Hd|simpl; lia|discriminate].
  - split; [eapply L; eauto|]. eexists. splits; [exact Hd|simpl; lia|discriminate].
  - destruct Hd as [x Hd]. split; [eapply L; eauto|]. exists [x]. splits; [exact Hd|simpl; lia|discriminate].
Qed.

(** * The counter *)
Lemma counter_same : forall ls c s s', h_dropped s <> Some c -> never_registered c ls -> exec s ls = Some s' -> counters s' c = counters s c /\ h_dropped s' <> Some c.
Proof.
  induction ls as [|l ls IH]; intros c s s' Hd Hn H; simpl in H; [inv H; auto|].
  destruct (step s l) as [s1|] eqn:Es; [|discriminate].
  assert (H1 : counters s1 c = counters s c /\ h_dropped s1 <> Some c).
  { destruct l; simpl in Es; repeat dmatch_in Es; inv Es; cbn [counters h_dropped]; split; auto; try congruence.
    - intros [= ->]. apply Hn. left. reflexivity.
    - unfold upd. destruct (Nat.eqb c n) eqn:En; auto. apply Nat.eqb_eq in En. congruence. }
  destruct H1 as [H1 H2]. rewrite <- H1. eapply IH; eauto. intros Hi. apply Hn. right. exact Hi.
Qed.
Definition begun (ls : list label) : nat := length (firstn 5 (E ls)).
Lemma step_other : forall s l s' c, step s l = Some s' -> h_dropped s = Some c -> (forall c, l <> LRegister c) -> (forall t m d, l <> LError t m d) ->
  h_dropped s' = Some c /\ counters s' = counters s.
Proof. intros s l s' c Hs Hd Hn He. destruct l; simpl in Hs; repeat dmatch_in Hs; inv Hs; auto; exfalso; [eapply Hn|eapply He]; reflexivity. Qed.
Lemma begun_other : forall ls l, (forall t m d, l <> LError t m d) -> begun (ls ++ [l]) = begun ls /\ errors [l] = [].
Proof. intros ls l He. unfold begun. rewrite E_snoc. destruct l; cbn [eadds]; rewrite ?app_nil_r; auto. exfalso. eapply He; reflexivity. Qed.
Lemma step_counter : forall ls s l s' c, tinv ls s -> h_dropped s = Some c -> (forall c, l <> LRegister c) -> step s l = Some s' ->
  h_dropped s' = Some c /\ counters s' c + (begun (ls ++ [l]) - begun ls) = counters s c + length (errors [l]) /\ begun ls <= begun (ls ++ [l]).
Proof.
  intros ls s l s' c [Hl _] Hd Hn Hs.
  assert (Hc : (exists t m d, l = LError t m d) \/ (forall t m d, l <> LError t m d)) by (destruct l; [right|right|right|right|left|right|right|right|right|right|right]; try (intros; discriminate); eauto).
  destruct Hc as [(t & m & d & ->)|He].
  - unfold begun. rewrite E_snoc, !firstn_length, app_length. cbn [eadds errors flat_map app length].
    unfold step in Hs. destruct (h_lock s); try discriminate. destruct (h_left s) as [|n] eqn:El; injection Hs as <-; cbn [h_dropped counters].
    + rewrite Hd. unfold upd. rewrite Nat.eqb_refl. destruct (disabled ls); cbn [length]; splits; auto; lia.
    + destruct (disabled ls); [discriminate|]. cbn [length]. splits; auto; lia.
  - destruct (step_other _ _ _ _ Hs Hd Hn He) as [H1 H2]. destruct (begun_other ls l He) as [H3 H4]. rewrite H2, H3, H4. simpl. splits; auto; lia.
Qed.
Lemma errors_app : forall l1 l2, errors (l1 ++ l2) = errors l1 ++ errors l2.
Proof. intros. unfold errors. apply flat_map_app. Qed.
Theorem counted : forall l1 c l2 s, never_registered c l1 -> no_register l2 -> exec init (l1 ++ LRegister c :: l2) = Some s ->
  counters s c + (length (firstn 5 (errors (before_disable (l1 ++ LRegister c :: l2)))) - length (firstn 5 (errors (before_disable l1)))) = length (errors l2).
Proof.
  intros l1 c l2 s Hn1 Hn2 H.
  assert (Hb : forall ls, length (firstn 5 (errors (before_disable ls))) = begun ls) by (intros; unfold begun, E; rewrite !firstn_length, map_length; reflexivity).
  rewrite !Hb.
  enough (h_dropped s = Some c /\ counters s c + (begun (l1 ++ LRegister c :: l2) - begun l1) = length (errors l2) /\ begun l1 <= begun (l1 ++ LRegister c :: l2)) by tauto.
  revert s H. induction l2 as [|l l2 IH] using rev_ind; intros s H.
  - apply exec_snoc in H as (s0 & H0 & Hs). pose proof (counter_same l1 c init s0) as Hc. destruct Hc as [Hc _]; auto; [discriminate|]. 
    destruct (begun_other l1 (LRegister c)) as [Hg _]; [discriminate|]. rewrite Hg. simpl in Hs. destruct (h_lock s0); try discriminate. injection Hs as <-. cbn [h_dropped counters]. rewrite Hc. cbn [counters init errors flat_map length].
    splits; auto; lia.
  - change (LRegister c :: l2 ++ [l]) with ((LRegister c :: l2) ++ [l]) in *. rewrite app_assoc in *. apply exec_snoc in H as (s0 & H0 & Hs).
    destruct (IH (fun c' Hi => Hn2 c' (in_or_app _ _ _ (or_introl Hi))) s0 H0) as (I1 & I2 & I3).
    assert (Hl : forall c', l <> LRegister c').
    { intros c' ->. apply (Hn2 c'). apply in_or_app. right. left. reflexivity. }
    destruct (step_counter _ _ l s c (tinv_exec _ _ H0) I1 Hl Hs) as (J1 & J2 & J3).
    rewrite errors_app, app_length. splits; auto; lia.
Qed.

(** * Every report ends, unless the handler is called from inside it *)
Lemma stuck_forever : forall ls s s' t, h_lock s = Stuck t -> exec s ls = Some s' -> h_lock s' = Stuck t.
Proof.
  induction ls as [|l ls IH]; intros s s' t Hl H; simpl in H; [congruence|]. destruct (step s l) as [s1|] eqn:Es; [|discriminate].
  eapply IH; [|exact H]. destruct l; simpl in Es; rewrite ?Hl in Es; try discriminate; destruct (outside s t0); inv Es; auto.
Qed.
Lemma stuck_blocks : forall s t l, h_lock s = Stuck t -> needs_lock l -> step s l = None.
Proof. intros s t l Hl Hn. destruct l; simpl in *; try tauto; rewrite Hl; reflexivity. Qed.
Lemma not_stuck : forall ls s s', no_reentry ls -> stuck s = false -> exec s ls = Some s' -> stuck s' = false.
Proof.
  induction ls as [|l ls IH]; intros s s' Hn Hs H; simpl in H; [congruence|]. destruct (step s l) as [s1|] eqn:Es; [|discriminate].
  eapply IH; [intros t Hi; apply (Hn t); right; exact Hi| |exact H]. unfold stuck in *.
  destruct l; simpl in Es; repeat dmatch_in Es; inv Es; cbn [h_lock]; auto; exfalso; eapply Hn; left; reflexivity.
Qed.
Theorem report_ends : forall ls s, no_reentry ls -> exec init ls = Some s ->
  exists t rest s', exec s rest = Some s' /\ h_lock s' = Free /\ (rest = [] \/ rest = [LCall t] \/ rest = [LDetails t None; LCall t]).
Proof.
  intros ls s Hn H. pose proof (not_stuck _ init _ Hn eq_refl H) as Hs. unfold stuck in Hs. destruct (h_lock s) as [|t x|t x d|t] eqn:El; [| | |discriminate].
  - exists 0, [], s. splits; auto.
  - exists t, [LDetails t None; LCall t]. simpl. rewrite El, Nat.eqb_refl. simpl. rewrite Nat.eqb_refl. eexists. split; [reflexivity|]. split; [reflexivity|]. auto.
  - exists t, [LCall t]. simpl. rewrite El, Nat.eqb_refl. eexists. split; [reflexivity|]. split; [reflexivity|]. auto.
Qed.
Theorem reentry_blocks : forall l1 t l2 s, exec init (l1 ++ LReenter t :: l2) = Some s -> forall l, needs_lock l -> step s l = None.
Proof.
  intros l1 t l2 s H l Hl. rewrite exec_app in H. destruct (exec init l1) as [s0|]; [|discriminate]. change (match step s0 (LReenter t) with Some s' => exec s' l2 | None => None end = Some s) in H. destruct (step s0 (LReenter t)) as [s1|] eqn:Es; [|discriminate].
  assert (H1 : h_lock s1 = Stuck t) by (simpl in Es; destruct (h_lock s0); try discriminate; destruct (Nat.eqb t0 t); inv Es; reflexivity).
  eapply stuck_blocks; eauto. eapply stuck_forever; eauto.
Qed.

(** * Metadata *)
Lemma get_insert : forall fs k v k', get (insert fs k v) k' = if String.eqb k k' then Some v else get fs k'.
Proof.
  intros. unfold insert, get. simpl. destruct (String.eqb k k') eqn:E0; auto. f_equal. apply String.eqb_neq in E0.
  induction fs as [|[a b] fs IH]; simpl; auto. destruct (String.eqb a k) eqn:E1; simpl.
  - apply String.eqb_eq in E1. subst. destruct (String.eqb k k') eqn:E2; [apply String.eqb_eq in E2; congruence|]. exact IH.
  - destruct (String.eqb a k'); auto.
Qed.
Lemma get_fold : forall md fs k, get (fold_left (fun fs p => insert fs (key p) (snd p)) md fs) k
  = match find (fun p => String.eqb (key p) k) (rev md) with Some p => Some (snd p) | None => get fs k end.
Proof.
  induction md as [|p md IH] using rev_ind; intros; auto. rewrite fold_left_app, rev_app_distr. cbn [rev app find fold_left]. rewrite get_insert.
  destruct (String.eqb (key p) k); [reflexivity|]. apply IH.
Qed.
Lemma get_fields : forall fs s md k, get (metadata_fields fs s md) k
  = match find (fun p => String.eqb (key p) k) (rev md) with Some p => Some (snd p) | None => if String.eqb "x-session-id" k then Some s else get fs k end.
Proof. intros. pose proof (get_fold md (insert fs "x-session-id" s) k) as H. rewrite get_insert in H. exact H. Qed.
Lemma find_nokey : forall md k, (forall p, In p md -> key p <> k) -> find (fun p => String.eqb (key p) k) (rev md) = None.
Proof.
  intros md k H. destruct (find _ _) as [p|] eqn:E0; auto. apply find_some in E0 as [Hi He]. apply String.eqb_eq in He. apply in_rev in Hi. exfalso. eapply H; eauto.
Qed.
Theorem metadata_told : forall fs s md p, In p md -> NoDup (map key md) -> get (metadata_fields fs s md) (key p) = Some (snd p).
Proof.
  intros fs s md p Hi Hd. rewrite get_fields. destruct (find _ _) as [q|] eqn:E0.
  - apply find_some in E0 as [Hq He]. apply String.eqb_eq in He. apply in_rev in Hq. f_equal.
    assert (q = p); [|congruence]. clear -Hi Hd Hq He. induction md as [|a md IH]; [destruct Hi|]. simpl in Hd. inversion Hd as [|x xs Hx Hxs]; subst.
    destruct Hi as [->|Hi], Hq as [->|Hq]; auto; exfalso; apply Hx; [rewrite <- He|rewrite He]; apply in_map; auto.
  - exfalso. apply find_none with (x := p) in E0; [|apply in_rev; rewrite rev_involutive; exact Hi]. rewrite String.eqb_refl in E0. discriminate.
Qed.
Theorem session_told : forall fs s md, (forall p, In p md -> key p <> "x-session-id"%string) -> get (metadata_fields fs s md) "x-session-id" = Some s.
Proof. intros. rewrite get_fields, find_nokey; auto. Qed.
Theorem fields_kept : forall fs s md k, (forall p, In p md -> key p <> k) -> k <> "x-session-id"%string -> get (metadata_fields fs s md) k = get fs k.
Proof. intros fs s md k H Hk. rewrite get_fields, find_nokey; auto. destruct (String.eqb "x-session-id" k) eqn:E0; auto. apply String.eqb_eq in E0. congruence. Qed.

(** The details. *)
Lemma details_app : forall l1 l2, details_made (l1 ++ l2) = details_made l1 ++ details_made l2.
Proof. intros. apply flat_map_app. Qed.
Definition dinv (ls : list label) (s : st) : Prop :=
  match h_lock s with
  | Free | Making _ _ => details_made ls = map it_details (given s)
  | Calling _ _ d => details_made ls = map it_details (given s) ++ [d]
  | Stuck _ => exists rest, details_made ls = map it_details (given s) ++ rest /\ length rest <= 1
  end.
Lemma dinv_step : forall ls s l s', dinv ls s -> step s l = Some s' -> dinv (ls ++ [l]) s'.
Proof.
  intros ls [r n dr c o k g] l s' H E. unfold dinv in *. rewrite details_app. unfold step, outside, holder in E. cbn [h_lock given] in *.
  destruct l; cbn [details_made flat_map]; rewrite ?app_nil_r;
    repeat (match type of E with context [match ?x with _ => _ end] => destruct x eqn:?; try discriminate end);
    inv E; cbn [h_lock given]; rewrite ?map_app, ?app_nil_r; cbn; auto.
  all: try congruence.
  all: try (eexists; split; [rewrite H; reflexivity|cbn; lia]).
  all: try (exists []; split; [rewrite H, app_nil_r; reflexivity|cbn; lia]).
Qed.
Theorem details_told : forall ls s, exec init ls = Some s ->
  exists rest, details_made ls = map it_details (given s) ++ rest /\ length rest <= 1 /\ (h_lock s = Free -> rest = []).
Proof.
  intros ls s E. assert (H : dinv ls s).
  { revert s E. induction ls as [|l ls IH] using rev_ind; intros s E; [inv E; reflexivity|].
    apply exec_snoc in E. destruct E as [s0 [E1 E2]]. eapply dinv_step; eauto. }
  unfold dinv in H. destruct (h_lock s); try (exists []; rewrite app_nil_r; repeat split; auto; fail).
  - exists [details]. repeat split; auto. discriminate.
  - destruct H as [rest [H1 H2]]. exists rest. repeat split; auto. discriminate.
Qed.
