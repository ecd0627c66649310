From Verif Require Import Base Str_Base StatsStore_Model StatsStore_Spec.
Local Open Scope Z_scope.

Definition cells (l : list metric) := map m_cell l.
Definition ids (l : list metric) := map m_id l.

Record sinv (s : store) : Prop := {
  v_ids : NoDup (ids (s_metrics s));
  v_cells : NoDup (cells (s_metrics s));
  v_fresh : forall m, In m (s_metrics s) -> (m_cell m < s_next s)%nat;
  v_handles : forall h m, In (h, m) (s_handles s) -> In m (s_metrics s) /\ (h < s_next s)%nat;
  v_hnodup : NoDup (map fst (s_handles s));
  v_todo : forall todo cur, s_snap s = Some (todo, cur) ->
    NoDup (cells todo) /\ (forall m, In m todo -> In m (s_metrics s)) /\
    (forall m, cur = Some m -> In m (s_metrics s) /\ ~ In (m_cell m) (cells todo)) }.

Lemma find_metric_in : forall l i m, find_metric i l = Some m -> In m l /\ m_id m = i.
Proof.
  induction l as [|x l IH]; intros i m H; [discriminate|]. cbn in H.
  destruct (String.eqb_spec i (m_id x)) as [->|N]; [injection H as <-; auto with datatypes|].
  destruct (IH _ _ H). auto with datatypes.
Qed.
Lemma find_metric_none : forall l i, find_metric i l = None -> ~ In i (ids l).
Proof.
  induction l as [|x l IH]; intros i H X; [exact X|]. cbn [find_metric ids map In] in H, X.
  destruct (String.eqb_spec i (m_id x)) as [E|N]; [discriminate|]. destruct X as [X|X]; [congruence|].
  eapply IH; eauto.
Qed.
Lemma find_metric_unique : forall l m, NoDup (ids l) -> In m l -> find_metric (m_id m) l = Some m.
Proof.
  induction l as [|x l IH]; intros m N H; [destruct H|]. cbn in *. inversion N; subst.
  destruct H as [->|H]; [rewrite String.eqb_refl; reflexivity|].
  destruct (String.eqb_spec (m_id m) (m_id x)) as [E|E]; [|apply IH; assumption].
  exfalso. apply H2. rewrite <- E. apply in_map. exact H.
Qed.
Lemma find_metric_iff : forall l i, find_metric i l = None <-> ~ In i (ids l).
Proof.
  intros l i. split; [apply find_metric_none|]. intros N. destruct (find_metric i l) as [m|] eqn:E; [|reflexivity].
  apply find_metric_in in E. destruct E as [A B]. exfalso. apply N. rewrite <- B. apply in_map. exact A.
Qed.

Lemma find_handle_in : forall l h m, find_handle h l = Some m -> In (h, m) l.
Proof.
  induction l as [|[x y] l IH]; intros h m H; [discriminate|]. cbn in H.
  destruct (Nat.eqb_spec h x) as [->|N]; [injection H as <-; left; reflexivity|right; apply IH; exact H].
Qed.

Lemma nodup_filter_map : forall (A B : Type) (f : A -> B) p l, NoDup (map f l) -> NoDup (map f (filter p l)).
Proof.
  induction l as [|x l IH]; intros H; [constructor|]. cbn in *. inversion H; subst.
  destruct (p x); [|apply IH; assumption]. cbn. constructor; [|apply IH; assumption].
  intros X. apply H2. apply in_map_iff in X. destruct X as [y [E Y] ]. apply filter_In in Y. 
  apply in_map_iff. exists y. tauto.
Qed.

Lemma refs_false : forall s c, multiple_references s c = false ->
  forall h m, In (h, m) (s_handles s) -> m_cell m <> c.
Proof.
  intros s c H h m I E. unfold multiple_references in H.
  assert (X : existsb (fun x => Nat.eqb (m_cell (snd x)) c) (s_handles s) = true).
  { apply existsb_exists. exists (h, m). split; [exact I|]. cbn. subst c. apply Nat.eqb_refl. }
  congruence.
Qed.

Lemma sinv_step : forall s o, sinv s -> sinv (fst (step s o)).
Proof.
  intros s o I. assert (I' := I). destruct I' as [I1 I2 I3 I4 I5 I6]. destruct o as [k i|h n|h|h|l| | | |]; cbn [step].
  - destruct (s_snap s) eqn:Sn; [exact I|].
    unfold lookup. destruct (find_metric i (s_metrics s)) as [m|] eqn:F.
    + destruct (kind_eqb (m_kind m) k); [|exact I].
      apply find_metric_in in F. destruct F as [F1 F2]. constructor; cbn; auto.
      * intros m' H. specialize (I3 _ H). lia.
      * intros h m' [H|H]; [injection H as <- <-; split; [exact F1|lia]|].
        destruct (I4 _ _ H). split; [assumption|lia].
      * constructor; [|exact I5]. intros X. apply in_map_iff in X. destruct X as [ [h' m'] [E X] ]. cbn in E. subst h'.
        destruct (I4 _ _ X). lia.
      * rewrite Sn. discriminate.
    + destruct (can_insert s); [|constructor; cbn; auto; rewrite Sn; discriminate].
      constructor; cbn.
      * constructor; [apply find_metric_none; exact F|exact I1].
      * constructor; [|exact I2]. intros X. apply in_map_iff in X. destruct X as [m' [E X] ].
        specialize (I3 _ X). lia.
      * intros m' [<-|H]; [cbn; lia|]. specialize (I3 _ H). lia.
      * intros h m' [H|H]; [injection H as <- <-; split; [left; reflexivity|lia]|].
        destruct (I4 _ _ H). split; [right; assumption|lia].
      * constructor; [|exact I5]. intros X. apply in_map_iff in X. destruct X as [ [h' m'] [E X] ]. cbn in E. subst h'.
        destruct (I4 _ _ X). lia.
      * rewrite Sn. discriminate.
  - unfold inc_by. destruct (find_handle h (s_handles s)); constructor; cbn; auto.
  - unfold clone. destruct (find_handle h (s_handles s)) as [m|] eqn:F; [|exact I].
    apply find_handle_in in F. destruct (I4 _ _ F) as [F1 F2]. constructor; cbn; auto.
    + intros m' H. specialize (I3 _ H). lia.
    + intros h' m' [H|H]; [injection H as <- <-; split; [exact F1|lia]|].
      destruct (I4 _ _ H). split; [assumption|lia].
    + constructor; [|exact I5]. intros X. apply in_map_iff in X. destruct X as [ [h' m'] [E X] ]. cbn in E. subst h'.
      destruct (I4 _ _ X). lia.
  - constructor; cbn; auto.
    + intros h' m' H. apply filter_In in H. destruct H. eauto.
    + apply nodup_filter_map. exact I5.
  - constructor; cbn; auto.
  - destruct (s_snap s) eqn:Sn; [exact I|]. constructor; cbn; auto.
    intros todo cur H. injection H as <- <-. splits; auto. discriminate.
  - unfold snap_swap. destruct (s_snap s) as [ [ [|m todo] [cur|] ]|] eqn:Sn;
      try exact I.
    destruct (I6 _ _ eq_refl) as [J1 [J2 J3] ]. cbn in J1. inversion J1; subst. constructor; cbn; auto.
    intros todo' cur H. injection H as <- <-. splits; auto.
    + intros m' H. apply J2. right. exact H.
    + intros m' H. destruct (s_vals s (m_cell m) =? 0); [|discriminate]. injection H as <-.
      split; [apply J2; left; reflexivity|assumption].
  - unfold snap_check. destruct (s_snap s) as [ [todo [m|] ]|] eqn:Sn; try exact I.
    destruct (I6 _ _ eq_refl) as [J1 [J2 J3] ]. destruct (J3 _ eq_refl) as [K1 K2].
    cbn [fst]. destruct (multiple_references s (m_cell m)) eqn:M; constructor; cbn; auto.
    + intros todo' cur H. injection H as <- <-. splits; auto. discriminate.
    + apply nodup_filter_map. exact I1.
    + apply nodup_filter_map. exact I2.
    + intros m' H. apply filter_In in H. apply I3, H.
    + intros h m' H. destruct (I4 _ _ H) as [A B]. split; [|exact B]. apply filter_In. split; [exact A|].
      apply negb_true_iff, Nat.eqb_neq. eapply refs_false; eauto.
    + intros todo' cur H. injection H as <- <-. splits; auto; [|discriminate].
      intros m' H. apply filter_In. split; [apply J2; exact H|]. apply negb_true_iff, Nat.eqb_neq.
      intros E. apply K2. rewrite <- E. apply in_map. exact H.
  - destruct (s_snap s) as [ [ [|m todo] [cur|] ]|] eqn:Sn; cbn [fst];
      try exact I. constructor; cbn; auto. discriminate.
Qed.

Lemma sinv_new : forall l, sinv (store_new l).
Proof.
  intros l. constructor; cbn; try constructor; try contradiction; try discriminate.
Qed.

Lemma run_app : forall a b s, run s (a ++ b) =
  (fst (run (fst (run s a)) b), snd (run s a) ++ snd (run (fst (run s a)) b)).
Proof.
  induction a as [|x a IH]; intros b s; cbn [app run].
  - cbn [fst snd app]. destruct (run s b); reflexivity.
  - destruct (step s x) as [s1 t1]. rewrite IH. destruct (run s1 a) as [s2 t2]. cbn.
    destruct (run s2 b) as [s3 t3]. cbn. rewrite app_assoc. reflexivity.
Qed.

Lemma sinv_run : forall os s, sinv s -> sinv (fst (run s os)).
Proof.
  induction os as [|o os IH]; intros s I; [exact I|]. cbn [run].
  pose proof (sinv_step s o I) as I1. destruct (step s o) as [s1 e1]. cbn [fst] in I1.
  specialize (IH s1 I1). destruct (run s1 os) as [s2 e2]. exact IH.
Qed.

Lemma incremented_app : forall i a b, incremented i (a ++ b) = incremented i a + incremented i b.
Proof. induction a as [|[] a IH]; intros b; cbn [app incremented]; rewrite ?IH; try lia; reflexivity. Qed.
Lemma reported_app : forall i a b, reported i (a ++ b) = reported i a + reported i b.
Proof. induction a as [|[] a IH]; intros b; cbn [app reported]; rewrite ?IH; try lia; reflexivity. Qed.

(** ** One step keeps the balance of an Id unless its metric is removed with an
    amount. *)
Definition doomed (s : store) (o : op) (i : string) : Prop :=
  exists todo m, o = SnapCheck /\ s_snap s = Some (todo, Some m) /\ m_id m = i /\
    multiple_references s (m_cell m) = false.

Lemma set_val_same : forall f c v, set_val f c v c = v.
Proof. intros. unfold set_val. rewrite Nat.eqb_refl. reflexivity. Qed.
Lemma set_val_other : forall f c v x, x <> c -> set_val f c v x = f x.
Proof. intros f c v x N. unfold set_val. apply Nat.eqb_neq in N. rewrite N. reflexivity. Qed.

Lemma cell_of_id : forall s a b, sinv s -> In a (s_metrics s) -> In b (s_metrics s) ->
  (m_cell a = m_cell b <-> m_id a = m_id b).
Proof.
  intros s a b I A B. split; intros E.
  - assert (X : forall l, NoDup (cells l) -> In a l -> In b l -> a = b).
    { induction l as [|x l IH]; intros N Ha Hb; [destruct Ha|]. cbn in *. inversion N; subst.
      destruct Ha as [->|Ha], Hb as [->|Hb]; auto.
      - exfalso. apply H1. rewrite E. apply in_map. exact Hb.
      - exfalso. apply H1. rewrite <- E. apply in_map. exact Ha. }
    rewrite (X _ (v_cells _ I) A B). reflexivity.
  - pose proof (find_metric_unique _ _ (v_ids _ I) A) as F1.
    pose proof (find_metric_unique _ _ (v_ids _ I) B) as F2. rewrite E in F1. congruence.
Qed.

Lemma find_filter : forall l m i,
  (forall a, In a l -> m_cell a = m_cell m -> m_id a = m_id m) -> m_id m <> i ->
  find_metric i (filter (fun x => negb (Nat.eqb (m_cell x) (m_cell m))) l) = find_metric i l.
Proof.
  induction l as [|x l IH]; intros m i Q Ne; [reflexivity|]. cbn.
  assert (Q' : forall a, In a l -> m_cell a = m_cell m -> m_id a = m_id m) by (intros a Ha; apply Q; right; exact Ha).
  destruct (Nat.eqb_spec (m_cell x) (m_cell m)) as [E|E]; cbn.
  - rewrite (Q x) by (auto; left; reflexivity). destruct (String.eqb_spec i (m_id m)); [congruence|].
    apply IH; assumption.
  - destruct (String.eqb i (m_id x)); [reflexivity|]. apply IH; assumption.
Qed.

Lemma balance_step : forall s o i, sinv s -> ~ doomed s o i ->
  (reported i (snd (step s o)) + live (fst (step s o)) i) mod U64
  = (incremented i (snd (step s o)) + live s i) mod U64.
Proof.
  intros s o i I D. destruct o as [k j|h n|h|h|l| | | |]; cbn [step].
  - destruct (s_snap s); [reflexivity|]. unfold lookup.
    destruct (find_metric j (s_metrics s)) as [m|] eqn:F.
    + destruct (kind_eqb (m_kind m) k); reflexivity.
    + destruct (can_insert s); [|reflexivity]. unfold live. cbn [fst snd s_metrics s_vals find_metric m_id m_cell reported incremented].
      destruct (String.eqb_spec i j) as [->|N].
      * rewrite F. cbn [m_cell]. rewrite set_val_same. reflexivity.
      * destruct (find_metric i (s_metrics s)) as [m'|] eqn:F'; [|reflexivity].
        apply find_metric_in in F'. destruct F' as [F1 F2]. apply (v_fresh _ I) in F1.
        rewrite set_val_other by lia. reflexivity.
  - unfold inc_by. destruct (find_handle h (s_handles s)) as [m|] eqn:F; [|reflexivity].
    apply find_handle_in in F. apply (v_handles _ I) in F. destruct F as [F _].
    unfold live. cbn [fst snd s_metrics s_vals reported incremented].
    destruct (find_metric i (s_metrics s)) as [m'|] eqn:F'.
    + apply find_metric_in in F'. destruct F' as [F1 F2]. subst i.
      pose proof (cell_of_id s m' m I F1 F) as C.
      destruct (String.eqb_spec (m_id m') (m_id m)) as [E|E].
      * apply C in E. rewrite E, set_val_same. cbn [Z.add].
        rewrite Z.mod_mod by (unfold U64; lia). f_equal. lia.
      * rewrite set_val_other by tauto. f_equal. 
    + destruct (String.eqb_spec i (m_id m)) as [->|E]; [|reflexivity].
      rewrite (find_metric_unique _ _ (v_ids _ I) F) in F'. discriminate.
  - unfold clone. destruct (find_handle h (s_handles s)); reflexivity.
  - reflexivity.
  - reflexivity.
  - destruct (s_snap s); reflexivity.
  - unfold snap_swap. destruct (s_snap s) as [ [ [|m todo] [cur|] ]|] eqn:Sn; try reflexivity.
    destruct (v_todo _ I _ _ Sn) as [J1 [J2 J3] ]. assert (M : In m (s_metrics s)) by (apply J2; left; reflexivity).
    unfold live. cbn [fst snd s_metrics s_vals].
    destruct (find_metric i (s_metrics s)) as [m'|] eqn:F'.
    + apply find_metric_in in F'. destruct F' as [F1 F2]. subst i. pose proof (cell_of_id s m' m I F1 M) as C.
      destruct (s_vals s (m_cell m) =? 0) eqn:V; cbn [reported incremented].
      * apply Z.eqb_eq in V. destruct (Nat.eq_dec (m_cell m') (m_cell m)) as [E|E].
        -- rewrite E, set_val_same, V. reflexivity.
        -- rewrite set_val_other by exact E. reflexivity.
      * destruct (String.eqb_spec (m_id m') (m_id m)) as [E|E].
        -- apply C in E. rewrite E, set_val_same. f_equal. lia.
        -- rewrite set_val_other by tauto. reflexivity.
    + destruct (s_vals s (m_cell m) =? 0); cbn [reported incremented]; [reflexivity|].
      destruct (String.eqb_spec i (m_id m)) as [->|E]; [|reflexivity].
      rewrite (find_metric_unique _ _ (v_ids _ I) M) in F'. discriminate.
  - unfold snap_check. destruct (s_snap s) as [ [todo [m|] ]|] eqn:Sn; try reflexivity.
    destruct (v_todo _ I _ _ Sn) as [J1 [J2 J3] ]. destruct (J3 _ eq_refl) as [M _].
    unfold live. cbn [fst snd s_metrics s_vals reported incremented].
    destruct (multiple_references s (m_cell m)) eqn:R; [reflexivity|].
    assert (Ne : m_id m <> i). { intros E. apply D. exists todo, m. auto. }
    rewrite (find_filter (s_metrics s) m i); [reflexivity| |exact Ne].
    intros a Ha E. apply (cell_of_id s a m I Ha M). exact E.
  - destruct (s_snap s) as [ [ [|m todo] [cur|] ]|]; reflexivity.
Qed.

(** ** Conservation *)

(** The metric being checked has no amount, or a handle. *)
Definition safe (s : store) : Prop :=
  forall todo m, s_snap s = Some (todo, Some m) ->
    s_vals s (m_cell m) = 0 \/ multiple_references s (m_cell m) = true.

Lemma refs_true : forall s h m, In (h, m) (s_handles s) -> multiple_references s (m_cell m) = true.
Proof.
  intros s h m H. apply existsb_exists. exists (h, m). split; [exact H|]. apply Nat.eqb_refl.
Qed.
Lemma refs_cons : forall c x hs, existsb (fun x => Nat.eqb (m_cell (snd x)) c) hs = true ->
  existsb (fun x : nat * metric => Nat.eqb (m_cell (snd x)) c) (x :: hs) = true.
Proof. intros c x hs H. cbn. rewrite H. apply orb_true_r. Qed.

Lemma safe_step : forall s o, sinv s -> safe s ->
  (forall h m todo, o = Drop h -> s_snap s <> Some (todo, Some m)) -> safe (fst (step s o)).
Proof.
  intros s o I Sf Nd. destruct o as [k j|h n|h|h|l| | | |]; cbn [step].
  - destruct (s_snap s) eqn:Sn; [exact Sf|]. unfold lookup.
    destruct (find_metric j (s_metrics s)) as [m|]; [destruct (kind_eqb (m_kind m) k)|destruct (can_insert s)];
      intros todo m' H; cbn in H; rewrite Sn in H; discriminate.
  - unfold inc_by. destruct (find_handle h (s_handles s)) as [m|] eqn:F; [|exact Sf].
    apply find_handle_in in F. intros todo m' H. cbn [fst s_snap s_vals] in *.
    unfold multiple_references. cbn [s_handles]. fold (multiple_references s (m_cell m')).
    destruct (Nat.eq_dec (m_cell m') (m_cell m)) as [E|E].
    + right. rewrite E. eapply refs_true; eauto.
    + rewrite set_val_other by exact E. apply (Sf todo m' H).
  - unfold clone. destruct (find_handle h (s_handles s)) as [m|]; [|exact Sf]. intros todo m' H. cbn [fst s_snap s_vals] in *.
    destruct (Sf todo m' H) as [V|R]; [left; exact V|right]. apply refs_cons. exact R.
  - intros todo m' H. cbn in H. exfalso. eapply Nd; eauto.
  - exact Sf.
  - destruct (s_snap s) eqn:Sn; [exact Sf|]. intros todo m' H. cbn in H. discriminate.
  - unfold snap_swap. destruct (s_snap s) as [ [ [|m todo] [cur|] ]|] eqn:Sn; try exact Sf.
    intros todo' m' H. cbn [fst s_snap s_vals] in *. destruct (s_vals s (m_cell m) =? 0); [|discriminate].
    injection H as <- <-. left. apply set_val_same.
  - unfold snap_check. destruct (s_snap s) as [ [todo [m|] ]|] eqn:Sn; try exact Sf.
    intros todo' m' H. cbn in H. discriminate.
  - destruct (s_snap s) as [ [ [|m todo] [cur|] ]|] eqn:Sn; try exact Sf. intros todo' m' H. discriminate.
Qed.

(** Removing a metric without an amount changes nothing either. *)
Lemma balance_safe : forall s o i, sinv s -> safe s ->
  (reported i (snd (step s o)) + live (fst (step s o)) i) mod U64
  = (incremented i (snd (step s o)) + live s i) mod U64.
Proof.
  intros s o i I Sf.
  destruct o as [k j|h n|h|h|l| | | |];
    try (apply balance_step; [exact I|]; intros [todo [m [E _] ] ]; discriminate).
  destruct (s_snap s) as [ [todo [m|] ]|] eqn:Sn;
    try (apply balance_step; [exact I|]; intros [todo' [m' [_ [E _] ] ] ]; congruence).
  destruct (multiple_references s (m_cell m)) eqn:R.
  { apply balance_step; [exact I|]. intros [todo' [m' [_ [E [_ E2] ] ] ] ]. rewrite Sn in E. injection E as <- <-. congruence. }
  destruct (String.eqb_spec (m_id m) i) as [E|E].
  2:{ apply balance_step; [exact I|]. intros [todo' [m' [_ [E1 [E2 _] ] ] ] ]. rewrite Sn in E1. injection E1 as <- <-. congruence. }
  destruct (Sf _ _ Sn) as [V|V]; [|congruence].
  destruct (v_todo _ I _ _ Sn) as [J1 [J2 J3] ]. destruct (J3 _ eq_refl) as [M _].
  cbn [step fst snd reported incremented]. f_equal. unfold snap_check. rewrite Sn, R. unfold live at 2.
  pose proof (find_metric_unique _ _ (v_ids _ I) M) as F. rewrite E in F. rewrite F, V.
  unfold live. cbn [s_metrics s_vals].
  destruct (find_metric i (filter _ (s_metrics s))) as [m'|] eqn:F'; [|reflexivity].
  apply find_metric_in in F'. destruct F' as [F1 F2]. apply filter_In in F1. destruct F1 as [F1 F3].
  apply negb_true_iff, Nat.eqb_neq in F3. exfalso. apply F3. apply (cell_of_id s m' m I F1 M). congruence.
Qed.

Lemma conserved_from : forall os s i, sinv s -> safe s -> no_drop_in_check s os ->
  (reported i (snd (run s os)) + live (fst (run s os)) i) mod U64
  = (incremented i (snd (run s os)) + live s i) mod U64.
Proof.
  induction os as [|o os IH]; intros s i I Sf Nd; [reflexivity|]. destruct Nd as [Nd1 Nd2]. cbn [run].
  pose proof (balance_safe s o i I Sf) as B. pose proof (sinv_step s o I) as I1. pose proof (safe_step s o I Sf Nd1) as S1.
  destruct (step s o) as [s1 e1]. cbn [fst snd] in *. specialize (IH s1 i I1 S1 Nd2).
  destruct (run s1 os) as [s2 e2]. cbn [fst snd] in *. rewrite reported_app, incremented_app.
  unfold U64 in *. clear -B IH. lia.
Qed.

Lemma conserved : forall l os i, no_drop_in_check (store_new l) os ->
  (reported i (snd (run (store_new l) os)) + live (fst (run (store_new l) os)) i) mod U64
  = incremented i (snd (run (store_new l) os)) mod U64.
Proof.
  intros l os i Nd. rewrite conserved_from; [|apply sinv_new|intros todo m H; discriminate|exact Nd].
  unfold live at 1. cbn. f_equal. lia.
Qed.

(** A metric with a handle that is kept is never removed. *)
Lemma handle_step : forall s o h m, sinv s -> In (h, m) (s_handles s) -> o <> Drop h ->
  In (h, m) (s_handles (fst (step s o))).
Proof.
  intros s o h m I H N. destruct o as [k j|h' n|h'|h'|l| | | |]; cbn [step].
  - destruct (s_snap s); [exact H|]. unfold lookup.
    destruct (find_metric j (s_metrics s)) as [m'|]; [destruct (kind_eqb (m_kind m') k)|destruct (can_insert s)]; cbn; auto.
  - unfold inc_by. destruct (find_handle h' (s_handles s)); exact H.
  - unfold clone. destruct (find_handle h' (s_handles s)); cbn; auto.
  - cbn. apply filter_In. split; [exact H|]. cbn. apply negb_true_iff, Nat.eqb_neq. congruence.
  - exact H.
  - destruct (s_snap s); exact H.
  - unfold snap_swap. destruct (s_snap s) as [ [ [|m' todo] [cur|] ]|]; exact H.
  - unfold snap_check. destruct (s_snap s) as [ [todo [m'|] ]|]; exact H.
  - destruct (s_snap s) as [ [ [|m' todo] [cur|] ]|]; exact H.
Qed.

Lemma kept_from : forall os s h m, sinv s -> In (h, m) (s_handles s) -> ~ In (Drop h) os ->
  (reported (m_id m) (snd (run s os)) + live (fst (run s os)) (m_id m)) mod U64
  = (incremented (m_id m) (snd (run s os)) + live s (m_id m)) mod U64.
Proof.
  induction os as [|o os IH]; intros s h m I H Nd; [reflexivity|]. cbn [run].
  assert (No : o <> Drop h) by (intros ->; apply Nd; left; reflexivity).
  pose proof (sinv_step s o I) as I1. pose proof (handle_step s o h m I H No) as H1.
  assert (B : (reported (m_id m) (snd (step s o)) + live (fst (step s o)) (m_id m)) mod U64
    = (incremented (m_id m) (snd (step s o)) + live s (m_id m)) mod U64).
  { apply balance_step; [exact I|]. intros [todo [m' [_ [E1 [E2 E3] ] ] ] ].
    destruct (v_todo _ I _ _ E1) as [_ [_ J] ]. destruct (J _ eq_refl) as [M _].
    destruct (v_handles _ I _ _ H) as [M2 _]. apply (refs_false _ _ E3 _ _ H).
    apply (cell_of_id s m m' I M2 M). congruence. }
  destruct (step s o) as [s1 e1]. cbn [fst snd] in *.
  specialize (IH s1 h m I1 H1 (fun X => Nd (or_intror X))).
  destruct (run s1 os) as [s2 e2]. cbn [fst snd] in *. rewrite reported_app, incremented_app.
  unfold U64 in *. clear -B IH. lia.
Qed.

(** An emitted handle is in the store. *)
Lemma emitted_handle : forall s o i h, In (EHandle i h) (snd (step s o)) -> sinv s ->
  exists m, In (h, m) (s_handles (fst (step s o))) /\ m_id m = i.
Proof.
  intros s o i h H I. destruct o as [k j|h' n|h'|h'|l| | | |]; cbn [step] in *.
  - destruct (s_snap s); [destruct H|]. unfold lookup in *.
    destruct (find_metric j (s_metrics s)) as [m'|] eqn:F; [destruct (kind_eqb (m_kind m') k)|destruct (can_insert s)];
      cbn in *; destruct H as [H|[] ]; try discriminate; injection H as <- <-.
    + exists m'. apply find_metric_in in F. destruct F. split; [left; reflexivity|assumption].
    + eexists. split; [left; reflexivity|]. reflexivity.
  - unfold inc_by in *. destruct (find_handle h' (s_handles s)); cbn in H; [destruct H as [H|[] ]; discriminate|destruct H].
  - unfold clone in *. destruct (find_handle h' (s_handles s)) as [m'|]; cbn in *; [|destruct H].
    destruct H as [H|[] ]. injection H as <- <-. exists m'. split; [left; reflexivity|reflexivity].
  - destruct H.
  - destruct H.
  - destruct (s_snap s); destruct H.
  - unfold snap_swap in *. destruct (s_snap s) as [ [ [|m' todo] [cur|] ]|]; cbn in H; try destruct H.
    destruct (s_vals s (m_cell m') =? 0); [destruct H|destruct H as [H|[] ]; discriminate].
  - destruct H.
  - destruct (s_snap s) as [ [ [|m' todo] [cur|] ]|]; destruct H.
Qed.

Lemma handle_kept : forall l a o b i h,
  let s0 := fst (run (store_new l) a) in
  In (EHandle i h) (snd (step s0 o)) -> ~ In (Drop h) b ->
  let s1 := fst (step s0 o) in
  (reported i (snd (run s1 b)) + live (fst (run s1 b)) i) mod U64
  = (incremented i (snd (run s1 b)) + live s1 i) mod U64.
Proof.
  intros l a o b i h s0 H N s1.
  assert (I : sinv s0) by (apply sinv_run, sinv_new).
  destruct (emitted_handle _ _ _ _ H I) as [m [H1 <-] ].
  apply kept_from with (h := h); [apply sinv_step; exact I|exact H1|exact N].
Qed.

(** ** The limit *)

Lemma size_step : forall s o L, s_limit s = Some L -> ~ is_set_limit o ->
  s_limit (fst (step s o)) = Some L /\
  Z.of_nat (List.length (s_metrics (fst (step s o)))) <= Z.max L (Z.of_nat (List.length (s_metrics s))).
Proof.
  intros s o L E N. destruct o as [k j|h n|h|h|l| | | |]; cbn [step].
  - destruct (s_snap s); [split; [exact E|cbn; lia]|]. unfold lookup.
    destruct (find_metric j (s_metrics s)) as [m|]; [destruct (kind_eqb (m_kind m) k); split; [exact E|cbn; lia|exact E|cbn; lia]|].
    unfold can_insert. rewrite E. destruct (Z.ltb_spec (Z.of_nat (List.length (s_metrics s))) L); split; cbn -[Z.of_nat]; try reflexivity; try exact E; lia.
  - unfold inc_by. destruct (find_handle h (s_handles s)); (split; [exact E|cbn; lia]).
  - unfold clone. destruct (find_handle h (s_handles s)); (split; [exact E|cbn; lia]).
  - split; [exact E|cbn; lia].
  - exfalso. apply N. exists l. reflexivity.
  - destruct (s_snap s); (split; [exact E|cbn; lia]).
  - unfold snap_swap. destruct (s_snap s) as [ [ [|m' todo] [cur|] ]|]; (split; [exact E|cbn; lia]).
  - unfold snap_check. destruct (s_snap s) as [ [todo [m'|] ]|]; try (split; [exact E|cbn; lia]).
    split; [exact E|]. cbn [fst s_metrics]. destruct (multiple_references s (m_cell m')); [lia|].
    assert (F : forall p (l : list metric), (List.length (filter p l) <= List.length l)%nat).
    { induction l as [|x l IH]; cbn; [lia|]. destruct (p x); cbn; lia. }
    specialize (F (fun x => negb (Nat.eqb (m_cell x) (m_cell m'))) (s_metrics s)). lia.
  - destruct (s_snap s) as [ [ [|m' todo] [cur|] ]|]; (split; [exact E|cbn; lia]).
Qed.

Lemma bounded_from : forall os s L, s_limit s = Some L -> Forall (fun o => ~ is_set_limit o) os ->
  Z.of_nat (List.length (s_metrics (fst (run s os)))) <= Z.max L (Z.of_nat (List.length (s_metrics s))).
Proof.
  induction os as [|o os IH]; intros s L E F; [cbn; lia|]. apply Forall_cons_iff in F. destruct F as [F1 F2].
  destruct (size_step s o L E F1) as [E1 S1]. cbn [run]. destruct (step s o) as [s1 e1]. cbn [fst] in *.
  specialize (IH s1 L E1 F2). destruct (run s1 os) as [s2 e2]. cbn [fst] in *. lia.
Qed.

Lemma bounded : forall os L, 0 <= L -> Forall (fun o => ~ is_set_limit o) os ->
  Z.of_nat (List.length (s_metrics (fst (run (store_new (Some L)) os)))) <= L.
Proof.
  intros os L P F. pose proof (bounded_from os (store_new (Some L)) L eq_refl F) as H. cbn [store_new s_metrics List.length] in H. lia.
Qed.

(** A handle of the same metric can be had as long as there is one, full or not. *)
Lemma existing_usable : forall l a h m,
  let s := fst (run (store_new l) a) in
  find_handle h (s_handles s) = Some m -> s_snap s = None ->
  exists h', snd (step s (Lookup (m_kind m) (m_id m))) = [EHandle (m_id m) h'] /\
    find_handle h' (s_handles (fst (step s (Lookup (m_kind m) (m_id m))))) = Some m.
Proof.
  intros l a h m s F Sn. assert (I : sinv s) by (apply sinv_run, sinv_new).
  apply find_handle_in in F. destruct (v_handles _ I _ _ F) as [M _].
  cbn [step]. rewrite Sn. unfold lookup. rewrite (find_metric_unique _ _ (v_ids _ I) M).
  replace (kind_eqb (m_kind m) (m_kind m)) with true by (destruct (m_kind m); reflexivity).
  exists (s_next s). cbn. rewrite Nat.eqb_refl. auto.
Qed.

Lemma new_refused : forall l a k i L,
  let s := fst (run (store_new l) a) in
  s_snap s = None -> (forall m, In m (s_metrics s) -> m_id m <> i) -> s_limit s = Some L ->
  L <= Z.of_nat (List.length (s_metrics s)) ->
  let (s', t) := step s (Lookup k i) in
  t = [EOverflow i] /\ s_overflow s' = s_overflow s + 1 /\ s_metrics s' = s_metrics s /\
  s_handles s' = s_handles s /\ forall j, live s' j = live s j.
Proof.
  intros l a k i L s Sn N E F. cbn [step]. rewrite Sn. unfold lookup.
  destruct (find_metric i (s_metrics s)) as [m|] eqn:M.
  { apply find_metric_in in M. destruct M as [M1 M2]. exfalso. apply (N _ M1 M2). }
  unfold can_insert. rewrite E. destruct (Z.ltb_spec (Z.of_nat (List.length (s_metrics s))) L); [lia|].
  cbn. repeat split; reflexivity.
Qed.

Lemma snapshot_loop : forall todo s, s_snap s = Some (todo, None) ->
  let s' := fst (run s (List.concat (repeat [SnapSwap; SnapCheck] (List.length todo)))) in
  s_snap s' = Some ([], None) /\ incl (s_metrics s') (s_metrics s) /\
  (forall c, s_vals s c = 0 -> s_vals s' c = 0) /\ (forall m, In m todo -> s_vals s' (m_cell m) = 0).
Proof.
  induction todo as [|m todo IH]; intros s E; cbn zeta.
  { cbn. rewrite E. splits; auto with datatypes. intros m []. }
  cbn [List.length repeat List.concat app].
  change (SnapSwap :: SnapCheck :: List.concat (repeat [SnapSwap; SnapCheck] (List.length todo)))
    with ([SnapSwap; SnapCheck] ++ List.concat (repeat [SnapSwap; SnapCheck] (List.length todo))).
  rewrite run_app. set (s1 := fst (run s [SnapSwap; SnapCheck])).
  assert (Q : s_snap s1 = Some (todo, None) /\ incl (s_metrics s1) (s_metrics s) /\
              s_vals s1 (m_cell m) = 0 /\ (forall c, s_vals s c = 0 -> s_vals s1 c = 0)).
  { unfold s1. cbn [run step]. unfold snap_swap. rewrite E. unfold snap_check. cbn [s_snap fst].
    destruct (s_vals s (m_cell m) =? 0) eqn:V; cbn [s_snap s_metrics s_vals fst].
    - splits; try reflexivity.
      + destruct (multiple_references _ _); [apply incl_refl|]. intros x X. apply filter_In in X. tauto.
      + unfold set_val. rewrite Nat.eqb_refl. reflexivity.
      + intros c C. unfold set_val. destruct (c =? m_cell m)%nat; auto.
    - splits; try reflexivity; try apply incl_refl.
      + unfold set_val. rewrite Nat.eqb_refl. reflexivity.
      + intros c C. unfold set_val. destruct (c =? m_cell m)%nat; auto. }
  destruct Q as (Q1 & Q2 & Q3 & Q4). specialize (IH s1 Q1). cbn zeta in IH.
  destruct IH as (I1 & I2 & I3 & I4). splits.
  - exact I1.
  - eapply incl_tran; eassumption.
  - auto.
  - intros x [X|X]; [subst x; auto|auto].
Qed.

Lemma snapshot_takes_all : forall l a i,
  let s := fst (run (store_new l) a) in
  s_snap s = None ->
  let s' := fst (run s (snapshot (List.length (s_metrics s)))) in
  s_snap s' = None /\ live s' i = 0.
Proof.
  intros l a i s E. cbv zeta. unfold snapshot.
  change (SnapBegin :: ?x) with ([SnapBegin] ++ x). rewrite !run_app.
  set (s0 := fst (run s [SnapBegin])).
  assert (E0 : s_snap s0 = Some (s_metrics s, None) /\ s_metrics s0 = s_metrics s).
  { unfold s0. cbn [run step]. rewrite E. cbn. auto. }
  destruct E0 as [E0 E1]. pose proof (snapshot_loop _ s0 E0) as L. cbv zeta in L.
  destruct L as (L1 & L2 & L3 & L4).
  set (s2 := fst (run s0 _)) in *. cbn [run step]. rewrite L1. cbn [fst set_snap s_snap]. split; [reflexivity|].
  unfold live. cbn [set_snap s_metrics s_vals].
  destruct (find_metric i (s_metrics s2)) as [m|] eqn:M; [|reflexivity].
  apply find_metric_in in M. destruct M as [M _]. apply L4. rewrite <- E1. apply L2. exact M.
Qed.
