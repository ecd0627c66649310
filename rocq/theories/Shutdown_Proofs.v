(** Proofs about the shutdown channel. *)
From Verif Require Import Base Shutdown_Model Shutdown_Spec.

Lemma run_snoc : forall l w o, run w (l ++ [o]) =
  match run w l with
  | Some (w', e) => match step w' o with Some (w'', a) => Some (w'', e ++ match a with Some b => [(o, b)] | None => [] end) | None => None end
  | None => None
  end.
Proof.
  induction l as [|x l IH]; intros w o; simpl.
  - destruct (step w o) as [[w' [b|]]|]; reflexivity.
  - destruct (step w x) as [[w1 a]|]; [|reflexivity]. rewrite IH.
    destruct (run w1 l) as [[w2 e]|]; [|reflexivity].
    destruct (step w2 o) as [[w3 b]|]; [|reflexivity].
    destruct a; reflexivity.
Qed.

Definition made_h (l : list op) := count (fun o => match o with MakeHandle | CloneHandle => true | _ => false end) l.
Definition dropped_h (l : list op) := count (fun o => match o with DropHandle => true | _ => false end) l.

Arguments known : simpl never.
Record Inv (l : list op) (w : watch) : Prop := {
  i_pending : w_pending w = true <-> In Request l;
  i_trigger : w_trigger w = true <-> ~ In DropTrigger l /\ ~ In Request l;
  i_closing : w_closing w = true <-> In Request l /\ ~ In Return l;
  i_handles : w_handles w + dropped_h l = made_h l;
  i_version : w_version w = if w_pending w then 1 else 0;
  i_known : forall i, known i (w_rx w) = true <-> receiver_alive i l;
  i_wait : forall r, In r (w_rx w) -> r_waiting r = true -> r_seen r = 0;
  i_ret : In Return l -> In Request l;
  i_dt : In DropTrigger l -> ~ In Request l }.

Lemma count_snoc f l o : count f (l ++ [o]) = count f l + if f o then 1 else 0.
Proof. unfold count. rewrite filter_app, app_length. simpl. destruct (f o); reflexivity. Qed.

Lemma known_iff i l : known i l = true <-> exists r, In r l /\ r_id r = i.
Proof.
  unfold known. rewrite existsb_exists. split; intros (r & A & B); exists r; split; auto.
  - apply Nat.eqb_eq; auto.
  - apply Nat.eqb_eq; auto.
Qed.

Lemma alive_snoc_other i l o : ~ makes i o -> o <> DropRx i -> (receiver_alive i (l ++ [o]) <-> receiver_alive i l).
Proof.
  intros M D. split; intros (b & x & a & E & X & N).
  - destruct a as [|y a] using rev_ind.
    + apply app_inj_tail in E. destruct E as [_ ->]. contradiction.
    + clear IHa. replace (b ++ x :: a ++ [y]) with ((b ++ x :: a) ++ [y]) in E by (rewrite <- app_assoc; reflexivity).
      apply app_inj_tail in E. destruct E as [-> ->].
      exists b, x, a. splits; auto. intros F. apply N. apply in_or_app. auto.
  - exists b, x, (a ++ [o]). splits; auto.
    + rewrite E, <- app_assoc. reflexivity.
    + intros F. apply in_app_or in F. destruct F as [F|[F|[]]]; auto.
Qed.
Lemma alive_snoc_made i l o : makes i o -> receiver_alive i (l ++ [o]).
Proof. intros M. exists l, o, []. splits; auto. Qed.
Lemma makes_not_drop i j o : makes i o -> o <> DropRx j.
Proof. intros [->|[->|(k & ->)]]; discriminate. Qed.
Lemma alive_snoc_drop i l : ~ receiver_alive i (l ++ [DropRx i]).
Proof.
  intros (b & x & a & E & X & N).
  destruct a as [|y a] using rev_ind.
  - apply app_inj_tail in E. destruct E as [_ <-]. apply makes_not_drop with (j := i) in X. congruence.
  - clear IHa. replace (b ++ x :: a ++ [y]) with ((b ++ x :: a) ++ [y]) in E by (rewrite <- app_assoc; reflexivity).
    apply app_inj_tail in E. destruct E as [_ <-]. apply N, in_or_app. right. left. reflexivity.
Qed.

Lemma known_set r i l : known i (set_rx r l) = known i l.
Proof.
  unfold known, set_rx. induction l as [|q l IH]; simpl; [reflexivity|]. rewrite IH. f_equal.
  destruct (Nat.eqb (r_id q) (r_id r)) eqn:E; auto. apply Nat.eqb_eq in E. rewrite E. reflexivity.
Qed.
Lemma known_drop i j l : known j (drop_rx i l) = true <-> known j l = true /\ i <> j.
Proof.
  rewrite !known_iff. unfold drop_rx. split.
  - intros (r & A & B). apply filter_In in A. destruct A as [A C]. split; [eauto|].
    intros ->. rewrite B, Nat.eqb_refl in C. discriminate.
  - intros ((r & A & B) & C). exists r. split; auto. apply filter_In. split; auto.
    destruct (Nat.eqb (r_id r) i) eqn:E; auto. apply Nat.eqb_eq in E. congruence.
Qed.
Lemma get_in i l r : get i l = Some r -> In r l /\ r_id r = i.
Proof. unfold get. intros E. apply find_some in E. destruct E as [A B]. apply Nat.eqb_eq in B. auto. Qed.
Lemma get_known i l r : get i l = Some r -> known i l = true.
Proof. intros E. apply get_in in E. apply known_iff. exists r. tauto. Qed.
Lemma get_none i l : get i l = None -> known i l = false.
Proof.
  intros E. destruct (known i l) eqn:K; auto. apply known_iff in K. destruct K as (r & A & B).
  unfold get in E. apply find_none with (x := r) in E; auto. apply Nat.eqb_neq in E. congruence.
Qed.
Lemma in_set r q l : In q (set_rx r l) -> q = r \/ In q l.
Proof. unfold set_rx. intros H. apply in_map_iff in H. destruct H as (x & E & I). destruct (Nat.eqb (r_id x) (r_id r)); subst; auto. Qed.

Lemma in_snoc (l : list op) o x : In x (l ++ [o]) <-> In x l \/ o = x.
Proof. rewrite in_app_iff. simpl. tauto. Qed.

Lemma known_cons r l j : known j (r :: l) = true <-> r_id r = j \/ known j l = true.
Proof. unfold known; simpl. rewrite orb_true_iff, Nat.eqb_eq. tauto. Qed.

Ltac hist := match goal with
  | |- context [In _ (_ ++ [_])] => rewrite ?in_snoc
  end.

Lemma inv_step l w o w' a : Inv l w -> step w o = Some (w', a) -> Inv (l ++ [o]) w'.
Proof.
  intros HI HS. destruct HI as [IP IT IC IH IV IK IW IR ID].
  assert (OT : forall i, ~ makes i o -> o <> DropRx i -> (receiver_alive i (l ++ [o]) <-> receiver_alive i l)) by (intros; apply alive_snoc_other; auto).
  assert (NM : (forall i, ~ makes i o) -> (forall i, o <> DropRx i) -> w_rx w' = w_rx w -> forall i, known i (w_rx w') = true <-> receiver_alive i (l ++ [o])).
  { intros A B C i. rewrite C, IK. symmetry. apply OT; auto. }
  destruct o; simpl in HS.
  - (* MakeHandle *) destruct (w_trigger w) eqn:T; inv HS.
    constructor; simpl; rewrite ?in_snoc; auto; try solve [intuition congruence].
    + unfold dropped_h, made_h in *. rewrite !count_snoc. simpl. lia.
    + apply NM; simpl; auto. intros i [X|[X|(j & X)]]; discriminate. discriminate.
  - destruct (w_handles w) eqn:T; inv HS.
    constructor; simpl; rewrite ?in_snoc; auto; try solve [intuition congruence].
    + unfold dropped_h, made_h in *. rewrite !count_snoc. simpl. lia.
    + apply NM; simpl; auto. intros i [X|[X|(j & X)]]; discriminate. discriminate.
  - destruct (w_handles w) eqn:T; inv HS.
    constructor; simpl; rewrite ?in_snoc; auto; try solve [intuition congruence].
    + unfold dropped_h, made_h in *. rewrite !count_snoc. simpl. lia.
    + apply NM; simpl; auto. intros i [X|[X|(j & X)]]; discriminate. discriminate.
  - (* Make *) destruct (w_trigger w && negb (known i (w_rx w))) eqn:T; inv HS.
    constructor; simpl; rewrite ?in_snoc; auto; try solve [intuition congruence].
    + unfold dropped_h, made_h in *. rewrite !count_snoc. simpl. lia.
    + intros j. rewrite known_cons. simpl. destruct (Nat.eq_dec i j) as [->|NE].
      * split; auto. intros _. apply alive_snoc_made. left. reflexivity.
      * rewrite OT. { rewrite <- IK. intuition congruence. } intros [X|[X|(k & X)]]; congruence. discriminate.
    + intros r [<-|HR]; simpl; [discriminate|auto].
  - destruct (negb (w_handles w =? 0) && negb (known i (w_rx w))) eqn:T; inv HS.
    constructor; simpl; rewrite ?in_snoc; auto; try solve [intuition congruence].
    + unfold dropped_h, made_h in *. rewrite !count_snoc. simpl. lia.
    + intros j. rewrite known_cons. simpl. destruct (Nat.eq_dec i j) as [->|NE].
      * split; auto. intros _. apply alive_snoc_made. right. left. reflexivity.
      * rewrite OT. { rewrite <- IK. intuition congruence. } intros [X|[X|(k & X)]]; congruence. discriminate.
    + intros r [<-|HR]; simpl; [discriminate|auto].
  - destruct (get i (w_rx w)) as [r|] eqn:G; [|discriminate]. destruct (known j (w_rx w)) eqn:K; inv HS.
    constructor; simpl; rewrite ?in_snoc; auto; try solve [intuition congruence].
    + unfold dropped_h, made_h in *. rewrite !count_snoc. simpl. lia.
    + intros k. rewrite known_cons. simpl. destruct (Nat.eq_dec j k) as [->|NE].
      * split; auto. intros _. apply alive_snoc_made. right. right. exists i. reflexivity.
      * rewrite OT. { rewrite <- IK. intuition congruence. } intros [X|[X|(m & X)]]; congruence. discriminate.
    + intros q [<-|HR]; simpl; [discriminate|auto].
  - (* DropRx *) destruct (known i (w_rx w)) eqn:K; inv HS.
    constructor; simpl; rewrite ?in_snoc; auto; try solve [intuition congruence].
    + unfold dropped_h, made_h in *. rewrite !count_snoc. simpl. lia.
    + intros j. rewrite known_drop. destruct (Nat.eq_dec i j) as [->|NE].
      * split; [tauto|]. intros X. apply alive_snoc_drop in X. contradiction.
      * rewrite OT. { rewrite <- IK. intuition congruence. } intros [X|[X|(m & X)]]; congruence. congruence.
    + intros q HQ. unfold drop_rx in HQ. apply filter_In in HQ. apply IW. tauto.
  - (* Poll *)
    destruct (get i (w_rx w)) as [r|] eqn:G; [|discriminate].
    pose proof (get_in _ _ _ G) as [GI GE].
    assert (KK : forall s b, (forall q, (b = true -> s = 0) -> In q (set_rx (mkRx i s b) (w_rx w)) -> r_waiting q = true -> r_seen q = 0)).
    { intros s b q B HQ W. apply in_set in HQ. destruct HQ as [->|HQ]; simpl in *; auto. }
    assert (OK : forall s b, (b = true -> s = 0) -> Inv (l ++ [Poll i]) (with_rx w (set_rx (mkRx i s b) (w_rx w)))).
    { intros s b B. constructor; simpl; rewrite ?in_snoc; auto; try solve [intuition congruence].
      - unfold dropped_h, made_h in *. rewrite !count_snoc. simpl. lia.
      - intros j. rewrite known_set, IK. symmetry. apply OT. intros [X|[X|(m & X)]]; congruence. congruence.
      - intros q HQ. eapply KK; eauto. }
    dmatch_in HS; [inv HS; apply OK; discriminate|].
    dmatch_in HS; [inv HS; apply OK; discriminate|].
    dmatch_in HS; [inv HS; apply OK; discriminate|].
    inv HS. apply OK. intros _. destruct (r_waiting r) eqn:W; auto.
    simpl in *. rewrite IV. destruct (w_pending w); [discriminate|reflexivity].
  - destruct (get i (w_rx w)) as [r|] eqn:G; inv HS.
    constructor; simpl; rewrite ?in_snoc; auto; try solve [intuition congruence].
    + unfold dropped_h, made_h in *. rewrite !count_snoc. simpl. lia.
    + intros j. rewrite known_set, IK. symmetry. apply OT. intros [X|[X|(m & X)]]; congruence. congruence.
    + intros q HQ W. apply in_set in HQ. destruct HQ as [->|HQ]; simpl in *; [discriminate|auto].
  - destruct (known i (w_rx w)) eqn:K; inv HS.
    constructor; simpl; rewrite ?in_snoc; auto; try solve [intuition congruence].
    + unfold dropped_h, made_h in *. rewrite !count_snoc. simpl. lia.
    + apply NM; simpl; auto. intros j [X|[X|(k & X)]]; discriminate. discriminate.
  - (* Request *) destruct (w_trigger w) eqn:T; inv HS.
    assert (T' : ~ In DropTrigger l /\ ~ In Request l) by (apply IT; auto).
    constructor; simpl; rewrite ?in_snoc; auto; try solve [intuition congruence].
    + unfold dropped_h, made_h in *. rewrite !count_snoc. simpl. lia.
    + rewrite IV. destruct (w_pending w) eqn:P; auto. exfalso. apply T', IP; reflexivity.
    + apply NM; simpl; auto. intros j [X|[X|(k & X)]]; discriminate. discriminate.
  - (* Return *) destruct (w_rx w) eqn:X; [|discriminate]. destruct (w_closing w) eqn:C; inv HS.
    assert (C' : In Request l /\ ~ In Return l) by (apply IC; auto).
    constructor; simpl; rewrite ?in_snoc; auto; try solve [intuition congruence].
    + unfold dropped_h, made_h in *. rewrite !count_snoc. simpl. lia.
    + apply NM; simpl; auto. intros j [Y|[Y|(k & Y)]]; discriminate. discriminate.
  - (* DropTrigger *) destruct (w_trigger w) eqn:T; inv HS.
    assert (T' : ~ In DropTrigger l /\ ~ In Request l) by (apply IT; auto).
    constructor; simpl; rewrite ?in_snoc; auto; try solve [intuition congruence].
    + unfold dropped_h, made_h in *. rewrite !count_snoc. simpl. lia.
    + apply NM; simpl; auto. intros j [X|[X|(k & X)]]; discriminate. discriminate.
Qed.

Lemma inv_init : Inv [] watch_new.
Proof.
  constructor; simpl; auto; try solve [intuition congruence].
  intros i. split; [discriminate|]. intros (b & o & a & E & _). destruct b; discriminate.
Qed.

Lemma inv_run l : forall w e, run watch_new l = Some (w, e) -> Inv l w.
Proof.
  induction l as [|o l IH] using rev_ind; intros w e H.
  - inv H. apply inv_init.
  - rewrite run_snoc in H. destruct (run watch_new l) as [[w1 e1]|] eqn:R; [|discriminate].
    destruct (step w1 o) as [[w2 a]|] eqn:S1; [|discriminate]. inv H. eapply inv_step; eauto.
Qed.

Lemma sender_iff l w : Inv l w -> (no_sender w = true <-> ~ sender_alive l).
Proof.
  intros [IP IT IC IH IV IK IW IR ID]. unfold no_sender, sender_alive.
  change (count (fun o => match o with DropHandle => true | _ => false end) l) with (dropped_h l).
  change (count (fun o => match o with MakeHandle | CloneHandle => true | _ => false end) l) with (made_h l).
  assert (D : forall o : op, In o l \/ ~ In o l) by (intros o; destruct (in_dec (fun a b : op => ltac:(repeat decide equality)) o l); auto).
  rewrite !andb_true_iff, !negb_true_iff, Nat.eqb_eq.
  destruct (D Request) as [R|R], (D Return) as [T|T], (D DropTrigger) as [X|X];
  destruct (w_trigger w), (w_closing w); intuition (try congruence; try lia).
Qed.

(** [cancelled] returns exactly when it should. *)
Lemma poll_iff l w e i : run watch_new l = Some (w, e) -> receiver_alive i l ->
  exists w' b, step w (Poll i) = Some (w', Some b) /\ (b = true <-> In Request l \/ ~ sender_alive l).
Proof.
  intros R A. pose proof (inv_run _ _ _ R) as HI. pose proof (sender_iff _ _ HI) as SI.
  destruct HI as [IP IT IC IH IV IK IW IR ID].
  apply IK in A. simpl. destruct (get i (w_rx w)) as [r|] eqn:G; [|apply get_none in G; congruence].
  apply get_in in G. destruct G as [GI GE].
  destruct (r_waiting r) eqn:W; simpl.
  - rewrite (IW r GI W). rewrite IV. destruct (w_pending w) eqn:P; simpl.
    + eexists _, true. split; [reflexivity|]. tauto.
    + destruct (no_sender w) eqn:N; eexists _, _; (split; [reflexivity|]); intuition congruence.
  - destruct (w_pending w) eqn:P; simpl.
    + eexists _, true. split; [reflexivity|]. tauto.
    + rewrite Nat.eqb_refl. simpl. destruct (no_sender w) eqn:N; eexists _, _; (split; [reflexivity|]); intuition congruence.
Qed.

Lemma told l w e i : run watch_new l = Some (w, e) -> receiver_alive i l ->
  (In Request l \/ ~ sender_alive l -> exists w', run watch_new (l ++ [Poll i]) = Some (w', e ++ [(Poll i, true)])) /\
  (~ In Request l -> sender_alive l -> exists w', run watch_new (l ++ [Poll i]) = Some (w', e ++ [(Poll i, false)])).
Proof.
  intros R A. destruct (poll_iff l w e i R A) as (w' & b & E & B).
  split; [intros C|intros C D]; exists w'; rewrite run_snoc, R, E; destruct b; auto; exfalso.
  - apply B in C. discriminate.
  - assert (T : true = true) by auto. apply B in T. tauto.
Qed.

Lemma status l w e i : run watch_new l = Some (w, e) -> receiver_alive i l ->
  (In Request l -> run watch_new (l ++ [Status i]) = Some (w, e ++ [(Status i, true)])) /\
  (~ In Request l -> run watch_new (l ++ [Status i]) = Some (w, e ++ [(Status i, false)])).
Proof.
  intros R A. destruct (inv_run _ _ _ R) as [IP IT IC IH IV IK IW IR ID].
  apply IK in A. rewrite run_snoc, R. simpl. rewrite A.
  split; intros C; destruct (w_pending w); auto; exfalso; intuition congruence.
Qed.

(** [shutdown] returns exactly when nobody holds a receiver. *)
Lemma returns l w e : run watch_new l = Some (w, e) -> In Request l -> ~ In Return l ->
  ((exists w', run watch_new (l ++ [Return]) = Some (w', e)) <-> forall i, ~ receiver_alive i l).
Proof.
  intros R A B. destruct (inv_run _ _ _ R) as [IP IT IC IH IV IK IW IR ID].
  assert (C : w_closing w = true) by (apply IC; auto).
  rewrite run_snoc, R. simpl. rewrite C. split.
  - intros (w' & E) i X. apply IK in X. destruct (w_rx w); [discriminate X|discriminate E].
  - intros N. destruct (w_rx w) as [|r t] eqn:X; [rewrite app_nil_r; eauto|].
    exfalso. apply (N (r_id r)). apply IK. unfold known. simpl. rewrite Nat.eqb_refl. reflexivity.
Qed.
Lemma only_after l w e : run watch_new (l ++ [Return]) = Some (w, e) -> In Request l.
Proof.
  rewrite run_snoc. destruct (run watch_new l) as [[w1 e1]|] eqn:R; [|discriminate].
  destruct (inv_run _ _ _ R) as [IP IT IC IH IV IK IW IR ID].
  simpl. destruct (w_rx w1); [|discriminate]. destruct (w_closing w1) eqn:C; [|discriminate]. intros _. apply IC; reflexivity.
Qed.
