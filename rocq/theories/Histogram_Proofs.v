From Verif Require Import Base Histogram_Model Histogram_Spec.
Local Open Scope Z_scope.

Section P.
  Variable value sketch bytes : Type.
  Variable make_sketch : sketch.
  Variable s_accept : sketch -> value -> sketch.
  Variable s_merge : sketch -> sketch -> sketch.
  Variable s_is_empty : sketch -> bool.
  Variable s_encode : sketch -> bytes.
  Variable s_decode : bytes -> option sketch.
  Variable weigh : value -> Z.
  Variable s_weight : sketch -> Z.

  Notation hist := (hist value sketch).
  Notation accept := (accept value sketch make_sketch s_accept).
  Notation merge_from := (merge_from value sketch make_sketch s_accept s_merge).
  Notation step := (step value sketch bytes make_sketch s_accept s_merge s_encode s_decode).
  Notation run := (run value sketch bytes make_sketch s_accept s_merge s_encode s_decode).
  Notation snap := (snap value sketch make_sketch s_is_empty).

  Notation sum := (total weigh).
  Notation weight := (observed weigh s_weight).

  Hypothesis W0 : s_weight make_sketch = 0.
  Hypothesis Wa : forall s v, s_weight (s_accept s v) = s_weight s + weigh v.
  Hypothesis Wm : forall a b, s_weight (s_merge a b) = s_weight a + s_weight b.
  Hypothesis We : forall s, s_is_empty s = true -> s_weight s = 0.
  Hypothesis Wd : forall s, exists s', s_decode (s_encode s) = Some s' /\ s_weight s' = s_weight s.

  Lemma sum_app : forall a b, sum (a ++ b) = sum a + sum b.
  Proof. induction a as [|x a IH]; intros b; cbn; [reflexivity|]. fold (sum (a ++ b)) (sum a). rewrite IH. lia. Qed.

  Lemma fold_accept : forall l s, s_weight (fold_left s_accept l s) = s_weight s + sum l.
  Proof. induction l as [|x l IH]; intros s; cbn; [lia|]. fold (sum l). rewrite IH, Wa. lia. Qed.

  Lemma accept_weight : forall h v, weight (accept h v) = weight h + weigh v.
  Proof.
    intros [l|s] v; unfold Histogram_Model.accept.
    - destruct (MAX_INLINE <=? List.length l)%nat; cbn [observed switch_to_sketch]; [rewrite Wa, fold_accept, W0; reflexivity|].
      rewrite sum_app. cbn. lia.
    - apply Wa.
  Qed.
  Lemma fold_accept_hist : forall l h, weight (fold_left accept l h) = weight h + sum l.
  Proof. induction l as [|x l IH]; intros s; cbn -[Histogram_Model.accept]; [lia|]. fold (sum l). rewrite IH, accept_weight. lia. Qed.

  Lemma merge_weight : forall h o, weight (merge_from h o) = weight h + weight o.
  Proof.
    intros h [l|s]; [apply fold_accept_hist|]. destruct h as [l|s']; cbn; rewrite Wm; [|reflexivity].
    rewrite fold_accept, W0. reflexivity.
  Qed.

  Lemma snap_weight : forall h,
    weight (snd (snap h)) = 0 /\
    (match fst (snap h) with Some t => weight t | None => 0 end) = weight h.
  Proof.
    clear Wa Wm Wd s_accept s_merge s_encode s_decode bytes.
    intros [l|s]; cbn.
    - destruct l as [|v l]; cbn; split; reflexivity.
    - destruct (s_is_empty s) eqn:E; cbn; [rewrite (We _ E); auto|rewrite W0; auto].
  Qed.

  (** Induction over the operations, which are nested. *)
  Lemma op_ind' : forall (P : op value -> Prop),
    (forall v, P (Observe _ v)) -> (forall os, Forall P os -> P (Merge _ os)) -> P (Reload _) ->
    forall o, P o.
  Proof.
    intros P H1 H2 H3. fix IH 1. intros [v|os|]; [apply H1| |apply H3].
    apply H2. induction os as [|o os IHo]; constructor; [apply IH|exact IHo].
  Qed.

  Lemma fold_steps : forall os,
    Forall (fun o => forall h, exists h', step (Some h) o = Some h' /\ weight h' = weight h + sum (recorded_op _ o)) os ->
    forall h, exists h', fold_left step os (Some h) = Some h' /\ weight h' = weight h + sum (flat_map (recorded_op _) os).
  Proof.
    induction os as [|o os IH]; intros F h; cbn [fold_left flat_map]; [exists h; cbn; split; [reflexivity|lia]|].
    apply Forall_cons_iff in F. destruct F as [F1 F2]. destruct (F1 h) as [h1 [E1 W1] ]. rewrite E1.
    destruct (IH F2 h1) as [h2 [E2 W2] ]. exists h2. split; [exact E2|]. rewrite sum_app. lia.
  Qed.

  Lemma step_weight : forall o h, exists h', step (Some h) o = Some h' /\ weight h' = weight h + sum (recorded_op _ o).
  Proof.
    induction o as [v|os IH|] using op_ind'; intros h.
    - exists (accept h v). split; [reflexivity|]. rewrite accept_weight. cbn. lia.
    - destruct (fold_steps os IH (hist_new value sketch)) as [h' [E W] ]. cbn [Histogram_Model.step].
      change ((fix step (h0 : option hist) (o : op value) {struct o} : option hist := _)) with step.
      rewrite E. cbn. exists (merge_from h h'). split; [reflexivity|]. rewrite merge_weight, W. cbn. reflexivity.
    - destruct h as [l|s]; cbn.
      + exists (Inline _ _ l). split; [reflexivity|cbn; lia].
      + destruct (Wd s) as [s' [E W] ]. rewrite E. exists (Sketch _ _ s'). split; [reflexivity|cbn; lia].
  Qed.

  Lemma run_weight : forall os, exists h, run os = Some h /\ weight h = sum (recorded _ os).
  Proof.
    intros os. destruct (fold_steps os) with (h := hist_new value sketch) as [h [E W] ].
    - apply Forall_forall. intros o _. apply step_weight.
    - exists h. split; [exact E|]. rewrite W. reflexivity.
  Qed.

  (** At most five values recorded one by one stay as they are. *)
  Lemma inline_exact : forall l, (List.length l <= 5)%nat ->
    fold_left step (map (Observe _) l) (Some (hist_new value sketch)) = Some (Inline _ _ l).
  Proof.
    clear W0 Wa Wm We Wd s_is_empty s_weight weigh.
    assert (G : forall l a, (List.length a + List.length l <= 5)%nat ->
      fold_left step (map (Observe _) l) (Some (Inline _ _ a)) = Some (Inline _ _ (a ++ l))).
    { induction l as [|v l IH]; intros a H; [rewrite app_nil_r; reflexivity|].
      cbn [map fold_left Histogram_Model.step Histogram_Model.accept]. cbn [List.length] in H.
      replace (MAX_INLINE <=? List.length a)%nat with false by (symmetry; apply Nat.leb_gt; unfold MAX_INLINE; lia).
      rewrite IH by (rewrite app_length; cbn; lia). rewrite <- app_assoc. reflexivity. }
    intros l H. apply (G l []). exact H.
  Qed.
End P.

Lemma preserved :
  forall (value sketch bytes : Type) make_sketch s_accept s_merge s_encode s_decode
    (weigh : value -> Z) (s_weight : sketch -> Z),
  s_weight make_sketch = 0 ->
  (forall s v, s_weight (s_accept s v) = s_weight s + weigh v) ->
  (forall a b, s_weight (s_merge a b) = s_weight a + s_weight b) ->
  (forall s, exists s', s_decode (s_encode s : bytes) = Some s' /\ s_weight s' = s_weight s) ->
  forall os, exists h,
    run value sketch bytes make_sketch s_accept s_merge s_encode s_decode os = Some h /\
    observed weigh s_weight h = total weigh (recorded value os).
Proof.
  intros. eapply (run_weight value sketch bytes) with (s_is_empty := fun _ => false); eauto.
  discriminate.
Qed.
