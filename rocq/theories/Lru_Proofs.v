From Verif Require Import Base Lru_Model Lru_Spec.

Section LruProofs.
Variable key : Type.
Variable key_eqb : key -> key -> bool.
Hypothesis key_eqb_spec : forall x y, key_eqb x y = true <-> x = y.
Let K := CACHE_SIZE.

Notation recent := (recent key key_eqb).
Notation without x := (filter (fun y => negb (key_eqb y x))).

Lemma eqb_refl : forall x, key_eqb x x = true.
Proof. intros. apply key_eqb_spec. reflexivity. Qed.

Lemma in_without : forall x y l, In y (without x l) <-> In y l /\ y <> x.
Proof.
  intros x y l. rewrite filter_In. destruct (key_eqb y x) eqn:E; cbn.
  - apply key_eqb_spec in E. intuition congruence.
  - assert (y <> x) by (intros ->; rewrite eqb_refl in E; discriminate). intuition.
Qed.

Lemma without_absent : forall x l, ~ In x l -> without x l = l.
Proof.
  intros x l. induction l as [|y l IH]; intros H; [reflexivity|]. cbn.
  destruct (key_eqb y x) eqn:E; cbn.
  - apply key_eqb_spec in E. subst. exfalso. apply H. left. reflexivity.
  - f_equal. apply IH. intro. apply H. right. assumption.
Qed.

Lemma recent_nodup : forall l, NoDup (recent l).
Proof.
  induction l as [|x l IH]; cbn; constructor.
  - intros H. apply in_without in H. destruct H. congruence.
  - apply NoDup_filter. assumption.
Qed.

Lemma recent_in : forall l x, In x (recent l) <-> In x l.
Proof.
  induction l as [|y l IH]; intros x; cbn; [tauto|].
  rewrite in_without, IH. split; [tauto|].
  intros [->|H]; [tauto|]. destruct (key_eqb x y) eqn:E.
  - apply key_eqb_spec in E. subst. tauto.
  - right. split; [assumption|]. intros ->. rewrite eqb_refl in E. discriminate.
Qed.

Lemma remove_first_without : forall x l, NoDup l -> remove_first key key_eqb x l = without x l.
Proof.
  intros x l H. induction H as [|y l Hy Hl IH]; [reflexivity|]. cbn.
  destruct (key_eqb y x) eqn:E; cbn.
  - apply key_eqb_spec in E. subst. symmetry. apply without_absent. assumption.
  - f_equal. assumption.
Qed.

Lemma filter_rev' : forall (f : key -> bool) l, filter f (rev l) = rev (filter f l).
Proof.
  intros f l. induction l as [|x l IH]; [reflexivity|]. cbn. rewrite filter_app, IH. cbn.
  destruct (f x); cbn; [reflexivity|]. rewrite app_nil_r. reflexivity.
Qed.

Lemma firstn_without_in : forall x l n, NoDup l -> In x (firstn n l) -> without x (firstn n l) = firstn (n - 1) (without x l).
Proof.
  intros x l n H. revert n. induction H as [|y l Hy Hl IH]; intros n Hin.
  - rewrite firstn_nil in Hin. contradiction.
  - destruct n as [|n]; [contradiction|]. cbn [firstn] in *. cbn [filter].
    destruct (key_eqb y x) eqn:E; cbn [negb].
    + apply key_eqb_spec in E. subst y.
      rewrite !without_absent; auto.
      * replace (S n - 1) with n by lia. reflexivity.
      * intros Hc. apply Hy. revert Hc. clear. revert l. induction n; destruct l; cbn; intuition.
    + destruct Hin as [->|Hin]; [rewrite eqb_refl in E; discriminate|].
      destruct n as [|n]; [contradiction|].
      replace (S (S n) - 1) with (S n) by lia.
      rewrite IH by assumption. cbn [firstn]. do 2 f_equal. lia.
Qed.

Lemma firstn_incl : forall n (l : list key) x, In x (firstn n l) -> In x l.
Proof. induction n; destruct l; cbn; intuition. Qed.

Lemma NoDup_firstn : forall n (l : list key), NoDup l -> NoDup (firstn n l).
Proof.
  intros n l H. revert n. induction H; intros [|n]; cbn; constructor; auto.
  intro Hc. apply firstn_incl in Hc. contradiction.
Qed.

Lemma NoDup_rev' : forall l : list key, NoDup l -> NoDup (rev l).
Proof. intros. apply NoDup_rev. assumption. Qed.

Lemma firstn_without_notin : forall x l n, NoDup l -> ~ In x (firstn n l) ->
  firstn (n - 1) (without x l) = firstn (n - 1) l.
Proof.
  intros x l n H. revert n. induction H as [|y l Hy Hl IH]; intros n Hin; [reflexivity|].
  destruct n as [|n]; [reflexivity|]. cbn [firstn] in Hin.
  replace (S n - 1) with n by lia. cbn [filter].
  destruct (key_eqb y x) eqn:E; cbn [negb].
  - apply key_eqb_spec in E. subst. exfalso. apply Hin. left. reflexivity.
  - destruct n as [|n]; [reflexivity|]. cbn [firstn]. f_equal.
    specialize (IH (S n)). replace (S n - 1) with n in IH by lia. apply IH. intro. apply Hin. right. assumption.
Qed.

(** The cache (stored oldest first) is the K most recently used distinct keys. *)
Definition lru_inv (c : list key) (us : list key) : Prop := rev c = firstn K (recent us).

Lemma touch_present : forall c us x, lru_inv c us -> In x c -> lru_inv (remove_first key key_eqb x c ++ [x]) (x :: us).
Proof.
  unfold lru_inv. intros c us x H Hin.
  assert (Hnd: NoDup c).
  { rewrite <- (rev_involutive c). apply NoDup_rev'. rewrite H. apply NoDup_firstn, recent_nodup. }
  rewrite remove_first_without by assumption.
  rewrite rev_app_distr. cbn [rev app]. rewrite <- filter_rev', H.
  rewrite firstn_without_in; [|apply recent_nodup|rewrite <- H; apply in_rev in Hin; assumption].
  cbn [Lru_Spec.recent]. unfold K, CACHE_SIZE. cbn [firstn]. reflexivity.
Qed.

Lemma touch_absent : forall c us x, lru_inv c us -> ~ In x c ->
  lru_inv (if Nat.ltb CACHE_SIZE (length (c ++ [x])) then tl (c ++ [x]) else c ++ [x]) (x :: us).
Proof.
  unfold lru_inv. intros c us x H Hin.
  assert (Hni: ~ In x (firstn K (recent us))) by (rewrite <- H; rewrite <- in_rev; assumption).
  assert (Hgoal: firstn K (recent (x :: us)) = x :: firstn (K - 1) (recent us)).
  { cbn [Lru_Spec.recent]. replace (firstn K (x :: without x (recent us))) with (x :: firstn (K - 1) (without x (recent us))) by reflexivity.
    f_equal. apply firstn_without_notin; [apply recent_nodup|assumption]. }
  rewrite Hgoal. rewrite app_length. cbn [length].
  assert (Hlen: length c = Nat.min K (length (recent us))) by (rewrite <- rev_length, H; apply firstn_length).
  destruct (Nat.ltb CACHE_SIZE (length c + 1)) eqn:E.
  - apply Nat.ltb_lt in E.
    destruct c as [|a c]; [cbn in E; unfold CACHE_SIZE in E; lia|]. cbn [app tl].
    rewrite rev_app_distr. cbn [rev app]. f_equal.
    cbn [rev] in H.
    assert (Hl2: length (rev c) = K - 1) by (rewrite rev_length; cbn [length] in *; unfold K in *; lia).
    replace (firstn (K - 1) (recent us)) with (firstn (K - 1) (firstn K (recent us))).
    + rewrite <- H. rewrite firstn_app, Hl2, Nat.sub_diag, <- Hl2, firstn_all. cbn. rewrite app_nil_r. reflexivity.
    + rewrite firstn_firstn. reflexivity.
  - apply Nat.ltb_ge in E. rewrite rev_app_distr. cbn [rev app]. f_equal. rewrite H.
    assert (length (recent us) <= K - 1) by (unfold K in *; lia).
    rewrite !firstn_all2; unfold K in *; lia || reflexivity.
Qed.

Lemma existsb_in : forall c x, existsb (fun y => key_eqb y x) c = true <-> In x c.
Proof.
  intros c x. rewrite existsb_exists. split.
  - intros [y [Hy E]]. apply key_eqb_spec in E. subst. assumption.
  - intros H. exists x. split; [assumption|apply eqb_refl].
Qed.

Lemma lru_inv_len : forall c us, lru_inv c us -> length c <= K.
Proof. intros c us H. rewrite <- rev_length, H. rewrite firstn_length. lia. Qed.

Lemma lru_insert_inv : forall c us x, lru_inv c us -> lru_inv (lru_insert key key_eqb c x) (x :: us).
Proof.
  intros c us x H. unfold lru_insert.
  destruct (existsb _ c) eqn:E.
  - apply existsb_in in E.
    pose proof (touch_present c us x H E) as H2. pose proof (lru_inv_len _ _ H2) as Hl.
    destruct (Nat.ltb CACHE_SIZE _) eqn:E2; [apply Nat.ltb_lt in E2; unfold K in *; lia|assumption].
  - apply touch_absent; [assumption|]. intros Hin. apply existsb_in in Hin. congruence.
Qed.

Lemma lru_run_inv : forall l c us, lru_inv c us ->
  lru_inv (fst (lru_run key key_eqb c l)) (uses key us l (snd (lru_run key key_eqb c l))) .
Proof.
  induction l as [|o l IH]; intros c us H; [exact H|].
  cbn [lru_run]. destruct o as [x|x]; cbn [lru_step].
  - unfold lru_contains. destruct (existsb _ c) eqn:E.
    + apply existsb_in in E. pose proof (touch_present c us x H E) as H2.
      destruct (lru_run key key_eqb (remove_first key key_eqb x c ++ [x]) l) as [c2 rs] eqn:Er. cbn.
      specialize (IH _ _ H2). rewrite Er in IH. exact IH.
    + destruct (lru_run key key_eqb c l) as [c2 rs] eqn:Er. cbn.
      specialize (IH _ _ H). rewrite Er in IH. exact IH.
  - pose proof (lru_insert_inv c us x H) as H2.
    destruct (lru_run key key_eqb (lru_insert key key_eqb c x) l) as [c2 rs] eqn:Er. cbn.
    specialize (IH _ _ H2). rewrite Er in IH. exact IH.
Qed.

Lemma lru_is_lru : forall l c rs, lru_run key key_eqb [] l = (c, rs) ->
  rev c = firstn 100 (recent (uses key [] l rs)) /\ NoDup c /\ length c <= 100.
Proof.
  intros l c rs H. pose proof (lru_run_inv l [] [] eq_refl) as Hi. rewrite H in Hi. cbn [fst snd] in Hi.
  splits; [exact Hi| |apply (lru_inv_len _ _ Hi)].
  rewrite <- (rev_involutive c). apply NoDup_rev'. rewrite Hi. apply NoDup_firstn, recent_nodup.
Qed.

(** A lookup answers "yes" exactly for the keys that are among the 100 most recently used. *)
Lemma lru_lookup_spec : forall l c rs x, lru_run key key_eqb [] l = (c, rs) ->
  (snd (lru_contains key key_eqb c x) = true <-> In x (firstn 100 (recent (uses key [] l rs)))).
Proof.
  intros l c rs x H. destruct (lru_is_lru l c rs H) as [E _]. rewrite <- E, <- in_rev.
  unfold lru_contains. rewrite <- existsb_in. destruct (existsb _ c); cbn; intuition.
Qed.
End LruProofs.
