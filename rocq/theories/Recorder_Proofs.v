(** Proofs about the pacer: C84. *)
From Verif Require Import Base Recorder_Model Recorder_Spec.
Local Open Scope Z_scope.

Lemma prun_app : forall l1 l2 p, prun p (l1 ++ l2) =
  match prun p l1 with Done p' e => match prun p' l2 with Done p'' e' => Done p'' (e ++ e') | r => r end | r => r end.
Proof.
  induction l1 as [|o l IH]; intros l2 p; simpl.
  - destruct (prun p l2); reflexivity.
  - destruct (pstep p o) as [| |p1 e1]; auto. rewrite IH. destruct (prun p1 l) as [| |p2 e2]; auto.
    destruct (prun p2 l2); auto. rewrite app_assoc. reflexivity.
Qed.

Lemma prun_snoc_inv : forall l o p p' e, prun p (l ++ [o]) = Done p' e ->
  exists p1 e1 e2, prun p l = Done p1 e1 /\ pstep p1 o = Done p' e2 /\ e = e1 ++ e2.
Proof.
  intros l o p p' e H. rewrite prun_app in H. destruct (prun p l) as [| |p1 e1] eqn:E1; try discriminate.
  simpl in H. destruct (pstep p1 o) as [| |p2 e2] eqn:E2; try discriminate. inv H.
  exists p1, e1, e2. rewrite app_nil_r. auto.
Qed.

(** What the state says about the history. *)
Record pinv (b0 : bool) (d0 : Z) (l : list pop) (p : pacer) (e : list Z) : Prop := mkPinv {
  pi_en : fl_value (p_enabled_flag p) = enabled_now b0 l;
  pi_rate : fl_value (p_rate_flag p) = rate_now d0 l;
  pi_first : p_rate p = d0;
  pi_run : p_interval p <> None <-> exists t, In (PRun t) l;
  pi_en_seen : changed (p_enabled_flag p) = false -> p_enabled p = fl_value (p_enabled_flag p);
  pi_le1 : (fl_seen (p_enabled_flag p) <= fl_version (p_enabled_flag p))%nat;
  pi_le2 : (fl_seen (p_rate_flag p) <= fl_version (p_rate_flag p))%nat;
  pi_period : forall v, p_interval p = Some v -> in_force d0 (iv_period v) l;
  pi_none : p_interval p = None -> forall t, ~ In (PRate t) l;
  pi_ev : forall t, In t e <-> In (PTick t) l
}.

Lemma enabled_snoc : forall l b o, enabled_now b (l ++ [o]) = match o with PSetEnabled b' => b' | _ => enabled_now b l end.
Proof. induction l as [|x l IH]; intros b o; simpl. - destruct o; reflexivity. - destruct x; apply IH. Qed.
Lemma rate_snoc : forall l b o, rate_now b (l ++ [o]) = match o with PSetRate b' => b' | _ => rate_now b l end.
Proof. induction l as [|x l IH]; intros b o; simpl. - destruct o; reflexivity. - destruct x; apply IH. Qed.

Lemma in_force_other : forall d p l o, (forall t, o <> PRate t) -> in_force d p l -> in_force d p (l ++ [o]).
Proof.
  intros d p l o Ho [[Hn Hp]|(a & t & b & -> & Hb & Hp)].
  - left. split; auto. intros t Hi. apply in_app_iff in Hi. destruct Hi as [Hi|[Hi|[]]]; [exact (Hn t Hi)|exact (Ho t Hi)].
  - right. exists a, t, (b ++ [o]). splits; auto.
    + rewrite <- app_assoc. reflexivity.
    + intros t' Hi. apply in_app_iff in Hi. destruct Hi as [Hi|[Hi|[]]]; [exact (Hb t' Hi)|exact (Ho t' Hi)].
Qed.

Lemma set_flag_value : forall b (f : flag bool), fl_value (set_flag Bool.eqb f b) = b.
Proof. intros b f. unfold set_flag. destruct (Bool.eqb (fl_value f) b) eqn:E; auto. apply eqb_prop in E. auto. Qed.
Lemma set_flag_valueZ : forall b (f : flag Z), fl_value (set_flag Z.eqb f b) = b.
Proof. intros b f. unfold set_flag. destruct (Z.eqb (fl_value f) b) eqn:E; auto. apply Z.eqb_eq in E. auto. Qed.
Lemma set_flag_le : forall T eqb b (f : flag T), (fl_seen f <= fl_version f)%nat -> (fl_seen (set_flag eqb f b) <= fl_version (set_flag eqb f b))%nat.
Proof. intros T eqb b f H. unfold set_flag. destruct (eqb (fl_value f) b); simpl; lia. Qed.
Lemma set_flag_same : forall T eqb b (f : flag T), (fl_seen f <= fl_version f)%nat -> changed (set_flag eqb f b) = false -> set_flag eqb f b = f.
Proof.
  intros T eqb b f H Hc. unfold set_flag in *. destruct (eqb (fl_value f) b); auto. unfold changed in Hc. cbn [fl_version fl_seen] in Hc.
  apply negb_false_iff in Hc. apply Nat.eqb_eq in Hc. lia.
Qed.
Lemma changed_seen : forall T (f : flag T), changed (seen f) = false.
Proof. intros T f. unfold changed, seen. cbn [fl_version fl_seen]. rewrite Nat.eqb_refl. reflexivity. Qed.

Lemma in_snoc : forall (A : Type) (x : A) l o, In x (l ++ [o]) <-> In x l \/ x = o.
Proof. intros A x l o. rewrite in_app_iff. simpl. intuition. Qed.

Lemma pinv_step : forall b0 d0 l p e o p' e', pinv b0 d0 l p e -> pstep p o = Done p' e' -> pinv b0 d0 (l ++ [o]) p' (e ++ e').
Proof.
  intros b0 d0 l p e o p' e' [H1 H2 H3 H4 H5 H6 H7 H8 H9 H10] Hs.
  assert (Hev : forall t, (forall t', o <> PTick t') -> (In t (e ++ []) <-> In (PTick t) (l ++ [o]))).
  { intros t Ho. rewrite app_nil_r, in_snoc, H10. specialize (Ho t). intuition congruence. }
  destruct o as [b|d|now|now|now|]; simpl in Hs.
  - inv Hs. constructor; cbn [p_enabled p_rate p_interval p_enabled_flag p_rate_flag]; rewrite ?enabled_snoc, ?rate_snoc; auto.
    + apply set_flag_value.
    + rewrite H4. split; intros [t Ht]; exists t; [apply in_snoc; auto|]. apply in_snoc in Ht. destruct Ht; [auto|discriminate].
    + intros Hc. pose proof (set_flag_same _ _ _ _ H6 Hc) as Hx. rewrite Hx in Hc |- *. auto.
    + apply set_flag_le; auto.
    + intros v Hv. apply in_force_other; [discriminate|auto].
    + intros Hn t Ht. apply in_snoc in Ht. destruct Ht; [apply (H9 Hn t); auto|discriminate].
    + intros t. apply Hev. discriminate.
  - inv Hs. constructor; cbn [p_enabled p_rate p_interval p_enabled_flag p_rate_flag]; rewrite ?enabled_snoc, ?rate_snoc; auto.
    + apply set_flag_valueZ.
    + rewrite H4. split; intros [t Ht]; exists t; [apply in_snoc; auto|]. apply in_snoc in Ht. destruct Ht; [auto|discriminate].
    + apply set_flag_le; auto.
    + intros v Hv. apply in_force_other; [discriminate|auto].
    + intros Hn t Ht. apply in_snoc in Ht. destruct Ht; [apply (H9 Hn t); auto|discriminate].
    + intros t. apply Hev. discriminate.
  - assert (Hgen : forall iv, p_interval p = Some iv \/ (p_interval p = None /\ iv_period iv = d0) ->
      pinv b0 d0 (l ++ [PRun now]) (mkPacer (p_enabled p) (p_rate p) (Some iv) (p_enabled_flag p) (p_rate_flag p)) (e ++ [])).
    { intros iv Hiv. constructor; cbn [p_enabled p_rate p_interval p_enabled_flag p_rate_flag]; rewrite ?enabled_snoc, ?rate_snoc; auto.
      - split; [|discriminate]. intros _. exists now. apply in_snoc. auto.
      - intros v Hv. inv Hv. apply in_force_other; [discriminate|]. destruct Hiv as [Hiv|[Hiv Hp]]; [auto|]. left. split; auto.
      - discriminate.
      - intros t. apply Hev. discriminate. }
    destruct (p_interval p) as [iv|] eqn:Ei.
    + inv Hs. specialize (Hgen iv (or_introl eq_refl)). destruct p' as [a b c f g]. simpl in Ei. subst c. exact Hgen.
    + unfold create_interval in Hs. destruct (p_rate p =? 0); [discriminate|]. inv Hs. apply Hgen. right. auto.
  - destruct (p_interval p) as [iv|] eqn:Ei; [|discriminate]. destruct (p_enabled p && (iv_next iv <=? now)) eqn:Et; [|discriminate]. inv Hs.
    apply andb_true_iff in Et. destruct Et as [Et _].
    constructor; cbn [p_enabled p_rate p_interval p_enabled_flag p_rate_flag]; rewrite ?enabled_snoc, ?rate_snoc; auto.
    + split; [|discriminate]. intros _. destruct (proj1 H4) as [t Ht]; [discriminate|]. exists t. apply in_snoc. auto.
    + intros Hc. rewrite <- Et. auto.
    + intros v Hv. inv Hv. apply in_force_other; [discriminate|]. cbn [next_tick iv_period]. auto.
    + discriminate.
    + intros t. rewrite !in_snoc, H10. intuition congruence.
  - destruct (p_interval p) as [iv|] eqn:Ei; [|discriminate]. destruct (changed (p_rate_flag p)) eqn:Ec; [|discriminate].
    unfold create_interval in Hs. destruct (fl_value (p_rate_flag p) =? 0); [discriminate|]. inv Hs.
    constructor; cbn [p_enabled p_rate p_interval p_enabled_flag p_rate_flag]; rewrite ?enabled_snoc, ?rate_snoc; auto.
    + split; [|discriminate]. intros _. destruct (proj1 H4) as [t Ht]; [discriminate|]. exists t. apply in_snoc. auto.
    + intros v Hv. inv Hv. right. exists l, now, []. splits; auto.
    + discriminate.
    + intros t. apply Hev. discriminate.
  - destruct (p_interval p) as [iv|] eqn:Ei; [|discriminate]. destruct (changed (p_enabled_flag p)) eqn:Ec; [|discriminate]. inv Hs.
    constructor; cbn [p_enabled p_rate p_interval p_enabled_flag p_rate_flag]; rewrite ?enabled_snoc, ?rate_snoc; auto.
    + split; [|discriminate]. intros _. destruct (proj1 H4) as [t Ht]; [discriminate|]. exists t. apply in_snoc. auto.
    + intros v Hv. inv Hv. apply in_force_other; [discriminate|]. auto.
    + discriminate.
    + intros t. apply Hev. discriminate.
Qed.

Lemma pinv_run : forall b0 d0 l p e, prun (pacer_new b0 d0) l = Done p e -> pinv b0 d0 l p e.
Proof.
  intros b0 d0 l. induction l as [|o l IH] using rev_ind; intros p e H.
  - simpl in H. inv H. constructor; cbn; auto; try discriminate; try tauto.
    split; [congruence|]. intros [t []].
  - apply prun_snoc_inv in H. destruct H as (p1 & e1 & e2 & Hp & Hs & ->). exact (pinv_step _ _ _ _ _ _ _ _ (IH _ _ Hp) Hs).
Qed.

Lemma in_force_fun : forall d p q l, in_force d p l -> in_force d q l -> p = q.
Proof.
  intros d p q l [[Hn Hp]|(a & t & b & -> & Hb & Hp)] [[Hn' Hq]|(a' & t' & b' & He & Hb' & Hq)].
  - congruence.
  - subst l. exfalso. apply (Hn t'). apply in_app_iff. simpl. auto.
  - exfalso. apply (Hn' t). apply in_app_iff. simpl. auto.
  - assert (Ha : a = a'); [|congruence].
    clear Hp Hq. revert a' He. induction a as [|x a IH]; intros [|y a'] He; simpl in He; auto.
    + inv He. exfalso. apply (Hb t'). apply in_app_iff. simpl. auto.
    + inv He. exfalso. apply (Hb' t). apply in_app_iff. simpl. auto.
    + inv He. f_equal. auto.
Qed.

(** ** Switching *)
Theorem switch : forall b0 d0 l p e t0, prun (pacer_new b0 d0) l = Done p e -> In (PRun t0) l ->
  ready (prun (pacer_new b0 d0) (l ++ [PEnabled])) \/
  (if enabled_now b0 l then exists due, forall t, ready (prun (pacer_new b0 d0) (l ++ [PTick t])) <-> due <= t
   else forall t, ~ ready (prun (pacer_new b0 d0) (l ++ [PTick t]))).
Proof.
  intros b0 d0 l p e t0 H Hr. pose proof (pinv_run _ _ _ _ _ H) as I0.
  assert (Hi : p_interval p <> None) by (apply (pi_run _ _ _ _ _ I0); eauto).
  destruct (p_interval p) as [iv|] eqn:Ei; [|congruence]. unfold ready.
  destruct (changed (p_enabled_flag p)) eqn:Ec.
  - left. rewrite prun_app, H. simpl. rewrite Ei, Ec. eauto.
  - right. pose proof (pi_en_seen _ _ _ _ _ I0 Ec) as He. rewrite (pi_en _ _ _ _ _ I0) in He.
    destruct (enabled_now b0 l).
    + exists (iv_next iv). intros t. rewrite prun_app, H. simpl. rewrite Ei, He. simpl. destruct (iv_next iv <=? t) eqn:El.
      * split; [intros _; apply Z.leb_le; exact El|eauto].
      * split; [intros (? & ? & ?); discriminate|]. apply Z.leb_gt in El. lia.
    + intros t. rewrite prun_app, H. simpl. rewrite Ei, He. simpl. intros (? & ? & ?). discriminate.
Qed.

(** Once noticed, it stays. *)
Lemma off_stays : forall l b0 d0 l0 p e p' e', pinv b0 d0 l0 p e -> p_enabled p = false -> fl_value (p_enabled_flag p) = false ->
  ~ In (PSetEnabled true) l -> prun p l = Done p' e' -> e' = [].
Proof.
  induction l as [|o l IH]; intros b0 d0 l0 p e p' e' I0 H1 H2 Hn H; simpl in H.
  - inv H. reflexivity.
  - destruct (pstep p o) as [| |p1 e1] eqn:Es; try discriminate. destruct (prun p1 l) as [| |p2 e2] eqn:Er; try discriminate. inv H.
    pose proof (pinv_step _ _ _ _ _ _ _ _ I0 Es) as I1.
    assert (Hl : ~ In (PSetEnabled true) l) by (intros X; apply Hn; right; exact X).
    assert (Hx : e1 = [] /\ p_enabled p1 = false /\ fl_value (p_enabled_flag p1) = false).
    { destruct o as [b|d|now|now|now|]; simpl in Es.
      - inv Es. cbn. splits; auto. destruct b; [exfalso; apply Hn; left; reflexivity|]. apply set_flag_value.
      - inv Es. cbn. auto.
      - destruct (p_interval p); [inv Es; auto|]. destruct (create_interval (p_rate p) now true); inv Es. auto.
      - destruct (p_interval p); [|discriminate]. rewrite H1 in Es. discriminate.
      - destruct (p_interval p); [|discriminate]. destruct (changed (p_rate_flag p)); [|discriminate].
        destruct (create_interval _ now false); inv Es. auto.
      - destruct (p_interval p); [|discriminate]. destruct (changed (p_enabled_flag p)); inv Es. cbn. auto. }
    destruct Hx as (-> & Hx1 & Hx2). simpl. exact (IH _ _ _ _ _ _ _ I1 Hx1 Hx2 Hl Er).
Qed.

Theorem off : forall b0 d0 l1 l2 p1 e1 p2 e2, prun (pacer_new b0 d0) (l1 ++ [PEnabled]) = Done p1 e1 -> enabled_now b0 l1 = false ->
  prun p1 l2 = Done p2 e2 -> ~ In (PSetEnabled true) l2 -> e2 = [].
Proof.
  intros b0 d0 l1 l2 p1 e1 p2 e2 H He H2 Hn. pose proof (pinv_run _ _ _ _ _ H) as I0.
  pose proof (pi_en _ _ _ _ _ I0) as Hv. rewrite enabled_snoc, He in Hv.
  assert (Hc : changed (p_enabled_flag p1) = false).
  { apply prun_snoc_inv in H. destruct H as (p & e & e' & Hp & Hs & _). simpl in Hs. destruct (p_interval p); [|discriminate].
    destruct (changed (p_enabled_flag p)); inv Hs. apply changed_seen. }
  pose proof (pi_en_seen _ _ _ _ _ I0 Hc) as Hx. rewrite Hv in Hx. exact (off_stays _ _ _ _ _ _ _ _ I0 Hx Hv Hn H2).
Qed.

(** ** Pacing *)
(** The k-th of the ticks from [p] on is not before the deadline plus k periods. *)
Lemma pace : forall l p v p' e, p_interval p = Some v -> prun p l = Done p' e -> (forall t, ~ In (PRate t) l) ->
  forall k t, nth_error e k = Some t -> iv_next v + Z.of_nat k * iv_period v <= t.
Proof.
  induction l as [|o l IH]; intros p v p' e Hv H Hn k t Hk; simpl in H.
  - inv H. destruct k; discriminate.
  - destruct (pstep p o) as [| |p1 e1] eqn:Es; try discriminate. destruct (prun p1 l) as [| |p2 e2] eqn:Er; try discriminate. inv H.
    assert (Hl : forall t, ~ In (PRate t) l) by (intros x X; apply (Hn x); right; exact X).
    destruct o as [b|d|now|now|now|]; simpl in Es; try rewrite Hv in Es.
    + inv Es. refine (IH _ v _ _ _ Er Hl k t Hk); first [reflexivity|exact Hv].
    + inv Es. refine (IH _ v _ _ _ Er Hl k t Hk); first [reflexivity|exact Hv].
    + inv Es. apply (IH _ v _ _ Hv Er Hl k t Hk).
    + destruct (p_enabled p && (iv_next v <=? now)) eqn:Et; [|discriminate]. inv Es. apply andb_true_iff in Et. destruct Et as [_ Et]. apply Z.leb_le in Et.
      destruct k as [|k]; simpl in Hk; [inv Hk; lia|].
      pose proof (fun X => IH _ (next_tick v now) _ _ X Er Hl k t Hk) as IH'. specialize (IH' eq_refl). clear IH. rename IH' into IH. cbn [next_tick iv_next iv_period] in IH.
      unfold slack in IH. rewrite Nat2Z.inj_succ. destruct (iv_next v + 5000000 <? now) eqn:E1; [apply Z.ltb_lt in E1|]; lia.
    + exfalso. apply (Hn now). left. reflexivity.
    + destruct (changed (p_enabled_flag p)); inv Es. refine (IH _ v _ _ _ Er Hl k t Hk); first [reflexivity|exact Hv].
Qed.

Theorem pacing : forall b0 d0 l1 t0 l2 p1 e1 p2 e2 d, prun (pacer_new b0 d0) (l1 ++ [PTick t0]) = Done p1 e1 -> in_force d0 d l1 ->
  prun p1 l2 = Done p2 e2 -> (forall t, ~ In (PRate t) l2) ->
  forall k t, nth_error e2 k = Some t -> t0 + Z.of_nat (S k) * d - 5000000 <= t.
Proof.
  intros b0 d0 l1 t0 l2 p1 e1 p2 e2 d H Hd H2 Hn k t Hk.
  apply prun_snoc_inv in H. destruct H as (p & e & e' & Hp & Hs & _). pose proof (pinv_run _ _ _ _ _ Hp) as I0.
  simpl in Hs. destruct (p_interval p) as [v|] eqn:Ei; [|discriminate]. destruct (p_enabled p && (iv_next v <=? t0)); [|discriminate]. inv Hs.
  pose proof (in_force_fun _ _ _ _ (pi_period _ _ _ _ _ I0 v Ei) Hd) as <-.
  pose proof (fun X => pace _ _ (next_tick v t0) _ _ X H2 Hn k t Hk) as Hx. specialize (Hx eq_refl). cbn [next_tick iv_next iv_period] in Hx. unfold slack in Hx.
  rewrite Nat2Z.inj_succ. destruct (iv_next v + 5000000 <? t0) eqn:E1; [|apply Z.ltb_ge in E1]; lia.
Qed.

Theorem pacing_new : forall b0 d0 l1 t0 l2 p1 e1 p2 e2, prun (pacer_new b0 d0) (l1 ++ [PRate t0]) = Done p1 e1 ->
  prun p1 l2 = Done p2 e2 -> (forall t, ~ In (PRate t) l2) ->
  forall k t, nth_error e2 k = Some t -> t0 + Z.of_nat (S k) * rate_now d0 l1 <= t.
Proof.
  intros b0 d0 l1 t0 l2 p1 e1 p2 e2 H H2 Hn k t Hk.
  apply prun_snoc_inv in H. destruct H as (p & e & e' & Hp & Hs & _). pose proof (pinv_run _ _ _ _ _ Hp) as I0.
  simpl in Hs. destruct (p_interval p) as [v|] eqn:Ei; [|discriminate]. destruct (changed (p_rate_flag p)); [|discriminate].
  unfold create_interval in Hs. destruct (fl_value (p_rate_flag p) =? 0); [discriminate|]. inv Hs.
  pose proof (fun v' X => pace _ _ v' _ _ X H2 Hn k t Hk) as Hx. specialize (Hx _ eq_refl). cbn [iv_next iv_period] in Hx. rewrite (pi_rate _ _ _ _ _ I0) in Hx.
  rewrite Nat2Z.inj_succ. lia.
Qed.

(** ** Not late *)
Lemma next_kept : forall l p v p' e, p_interval p = Some v -> prun p l = Done p' e -> (forall t, ~ In (PRate t) l) -> (forall t, ~ In (PTick t) l) -> p_interval p' = Some v.
Proof.
  induction l as [|o l IH]; intros p v p' e Hv H Hn Hm; simpl in H.
  - inv H. exact Hv.
  - destruct (pstep p o) as [| |p1 e1] eqn:Es; try discriminate. destruct (prun p1 l) as [| |p2 e2] eqn:Er; try discriminate. inv H.
    assert (Hl : forall t, ~ In (PRate t) l) by (intros x X; apply (Hn x); right; exact X).
    assert (Hl' : forall t, ~ In (PTick t) l) by (intros x X; apply (Hm x); right; exact X).
    refine (IH p1 v _ _ _ Er Hl Hl').
    destruct o as [b|d|now|now|now|]; simpl in Es; try rewrite Hv in Es.
    + inv Es. first [reflexivity|exact Hv].
    + inv Es. first [reflexivity|exact Hv].
    + inv Es. exact Hv.
    + exfalso. apply (Hm now). left. reflexivity.
    + exfalso. apply (Hn now). left. reflexivity.
    + destruct (changed (p_enabled_flag p)); inv Es. first [reflexivity|exact Hv].
Qed.

Lemma noticed_on : forall b0 d0 l p e v, prun (pacer_new b0 d0) l = Done p e -> p_interval p = Some v ->
  enabled_now b0 l = true -> ~ ready (prun (pacer_new b0 d0) (l ++ [PEnabled])) ->
  forall t, iv_next v <= t -> ready (prun (pacer_new b0 d0) (l ++ [PTick t])).
Proof.
  intros b0 d0 l p e v H Hv Hb Hr t Ht. pose proof (pinv_run _ _ _ _ _ H) as I0. unfold ready in *. rewrite prun_app, H in *. simpl in *. rewrite Hv in *.
  destruct (changed (p_enabled_flag p)) eqn:Ec; [exfalso; apply Hr; eauto|].
  rewrite (pi_en_seen _ _ _ _ _ I0 Ec), (pi_en _ _ _ _ _ I0), Hb. simpl. rewrite (proj2 (Z.leb_le _ _) Ht). eauto.
Qed.

(** The next tick is due one period after the last tick, after the last look at the rate, or at once when it starts. *)
Theorem due : forall b0 d0 l1 o l2 p e d t0, prun (pacer_new b0 d0) (l1 ++ o :: l2) = Done p e ->
  (forall t, ~ In (PRate t) l2) -> (forall t, ~ In (PTick t) l2) -> in_force d0 d (l1 ++ o :: l2) -> 0 <= d ->
  o = PTick t0 \/ o = PRate t0 \/ (o = PRun t0 /\ forall t, ~ In (PRun t) l1) ->
  enabled_now b0 (l1 ++ o :: l2) = true -> ~ ready (prun (pacer_new b0 d0) ((l1 ++ o :: l2) ++ [PEnabled])) ->
  forall t, (if match o with PRun _ => true | _ => false end then t0 else t0 + d) <= t -> ready (prun (pacer_new b0 d0) ((l1 ++ o :: l2) ++ [PTick t])).
Proof.
  intros b0 d0 l1 o l2 p e d t0 H Hn Hm Hd Hpos Ho Hb Hr t Ht.
  pose proof (pinv_run _ _ _ _ _ H) as I0.
  assert (Hv : exists v, p_interval p = Some v /\ iv_next v <= (if match o with PRun _ => true | _ => false end then t0 else t0 + iv_period v)).
  { pose proof H as H'. change (l1 ++ o :: l2) with (l1 ++ [o] ++ l2) in H'. rewrite app_assoc, prun_app in H'.
    destruct (prun (pacer_new b0 d0) (l1 ++ [o])) as [| |p1 e1] eqn:E1; try discriminate.
    destruct (prun p1 l2) as [| |p2 e2] eqn:E2; try discriminate. inv H'.
    apply prun_snoc_inv in E1. destruct E1 as (p0 & x & y & Hp0 & Hs & _). pose proof (pinv_run _ _ _ _ _ Hp0) as I1.
    assert (Hv : exists v, p_interval p1 = Some v /\ iv_next v <= (if match o with PRun _ => true | _ => false end then t0 else t0 + iv_period v)).
    { destruct Ho as [->|[->|[-> Hf]]]; simpl in Hs.
      - destruct (p_interval p0) as [v|]; [|discriminate]. destruct (p_enabled p0 && (iv_next v <=? t0)) eqn:Et; [|discriminate]. inv Hs.
        exists (next_tick v t0). split; auto. apply andb_true_iff in Et. destruct Et as [_ Et]. apply Z.leb_le in Et. cbn [next_tick iv_next iv_period].
        unfold slack. destruct (iv_next v + 5000000 <? t0); lia.
      - destruct (p_interval p0) as [v|]; [|discriminate]. destruct (changed (p_rate_flag p0)); [|discriminate].
        unfold create_interval in Hs. destruct (fl_value (p_rate_flag p0) =? 0); [discriminate|]. inv Hs. eexists. split; [reflexivity|]. cbn. lia.
      - destruct (p_interval p0) as [v|] eqn:Ei.
        + exfalso. destruct (proj1 (pi_run _ _ _ _ _ I1)) as [tt Htt]; [congruence|]. exact (Hf tt Htt).
        + unfold create_interval in Hs. destruct (p_rate p0 =? 0); [discriminate|]. inv Hs. eexists. split; [reflexivity|]. cbn. lia. }
    destruct Hv as (v & Hv & Hle). exists v. split; auto. exact (next_kept _ _ _ _ _ Hv E2 Hn Hm). }
  destruct Hv as (v & Hv & Hle). pose proof (in_force_fun _ _ _ _ (pi_period _ _ _ _ _ I0 v Hv) Hd) as Hx. rewrite Hx in Hle.
  refine (noticed_on _ _ _ _ _ v H Hv Hb Hr t _). lia.
Qed.

(** ** No panic *)
Lemma rate_in : forall l d, rate_now d l = d \/ In (PSetRate (rate_now d l)) l.
Proof.
  induction l as [|o l IH]; intros d; simpl; auto. destruct o; try (destruct (IH d) as [H|H]; [left; exact H|right; right; exact H]).
  destruct (IH d0) as [H|H]; [right; left; rewrite H; reflexivity|right; right; exact H].
Qed.

Theorem no_panic : forall b0 d0 l, d0 <> 0 -> ~ In (PSetRate 0) l -> prun (pacer_new b0 d0) l <> Panic.
Proof.
  intros b0 d0 l Hd. induction l as [|o l IH] using rev_ind; intros Hn; [discriminate|].
  assert (Hl : ~ In (PSetRate 0) l) by (intros X; apply Hn; apply in_snoc; auto). specialize (IH Hl).
  rewrite prun_app. destruct (prun (pacer_new b0 d0) l) as [| |p e] eqn:E; [discriminate|congruence|].
  pose proof (pinv_run _ _ _ _ _ E) as I0. simpl.
  destruct (pstep p o) as [| |p' e'] eqn:Es; try discriminate.
  exfalso. destruct o as [b|d|now|now|now|]; simpl in Es; try discriminate.
  - destruct (p_interval p); [discriminate|]. unfold create_interval in Es. rewrite (pi_first _ _ _ _ _ I0) in Es.
    destruct (d0 =? 0) eqn:Ez; [apply Z.eqb_eq in Ez; auto|discriminate].
  - destruct (p_interval p); [|discriminate]. dmatch_in Es; discriminate.
  - destruct (p_interval p); [|discriminate]. destruct (changed (p_rate_flag p)); [|discriminate].
    unfold create_interval in Es. rewrite (pi_rate _ _ _ _ _ I0) in Es.
    destruct (rate_now d0 l =? 0) eqn:Ez; [|discriminate]. apply Z.eqb_eq in Ez. destruct (rate_in l d0) as [Hx|Hx]; [congruence|].
    rewrite Ez in Hx. auto.
  - destruct (p_interval p); [|discriminate]. destruct (changed (p_enabled_flag p)); discriminate.
Qed.

(** A rate of zero ends the run loop as soon as it is looked at, and it will be looked at. *)
Theorem zero_panics : forall b0 d0 l p e t0 t, prun (pacer_new b0 d0) l = Done p e -> In (PRun t0) l -> rate_now d0 l <> 0 ->
  prun (pacer_new b0 d0) (l ++ [PSetRate 0; PRate t]) = Panic.
Proof.
  intros b0 d0 l p e t0 t H Hr Hz. pose proof (pinv_run _ _ _ _ _ H) as I0. rewrite prun_app, H. simpl.
  assert (Hi : p_interval p <> None) by (apply (pi_run _ _ _ _ _ I0); eauto). destruct (p_interval p); [|congruence].
  unfold set_flag. rewrite (pi_rate _ _ _ _ _ I0). destruct (rate_now d0 l =? 0) eqn:Ez; [apply Z.eqb_eq in Ez; congruence|].
  unfold changed. cbn [fl_version fl_seen fl_value]. pose proof (pi_le2 _ _ _ _ _ I0).
  destruct (Nat.eqb (S (fl_version (p_rate_flag p))) (fl_seen (p_rate_flag p))) eqn:En; [apply Nat.eqb_eq in En; lia|]. simpl. reflexivity.
Qed.
Theorem zero_panics_first : forall b0 l p e t0, prun (pacer_new b0 0) l = Done p e -> prun (pacer_new b0 0) (l ++ [PRun t0]) = Panic.
Proof.
  intros b0 l p e t0 H. assert (Hp : p_rate p = 0) by exact (pi_first _ _ _ _ _ (pinv_run _ _ _ _ _ H)).
  assert (Hi : p_interval p = None).
  { clear Hp. revert p e H. induction l as [|o l IH] using rev_ind; intros p e H.
    - simpl in H. inv H. reflexivity.
    - apply prun_snoc_inv in H. destruct H as (p1 & e1 & e2 & Hp & Hs & _). specialize (IH _ _ Hp).
      pose proof (pi_first _ _ _ _ _ (pinv_run _ _ _ _ _ Hp)) as Hf.
      destruct o; simpl in Hs; try rewrite IH in Hs; try discriminate; try (inv Hs; reflexivity).
      all: try (unfold create_interval in Hs; rewrite Hf in Hs; discriminate Hs). }
  rewrite prun_app, H. simpl. rewrite Hi, Hp. reflexivity.
Qed.
