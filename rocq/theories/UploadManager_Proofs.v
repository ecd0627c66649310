From Verif Require Import Base BufferManager_Model BufferManager_Spec BufferManager_Proofs
  UploadManager_Model.
Local Open Scope Z_scope.

(* --- small facts --- *)
Lemma aget_del i j m : aget i (adel j m) = if j =? i then None else aget i m.
Proof.
  induction m as [|[k v] m IH]; [cbn; beq|].
  assert (E : adel j ((k, v) :: m) = if k =? j then adel j m else (k, v) :: adel j m).
  { unfold adel. cbn. destruct (k =? j); reflexivity. }
  rewrite E. cbn [aget]. destruct (Z.eqb_spec k j); cbn [aget]; rewrite IH; beq.
Qed.

Lemma aget_put i j v m : aget i (aput j v m) = if j =? i then Some v else aget i m.
Proof. unfold aput. cbn [aget]. rewrite aget_del. beq. Qed.

Arguments adel : simpl never.
Arguments aput : simpl never.

Lemma mem_in i l : mem i l = true <-> In i l.
Proof.
  unfold mem. rewrite existsb_exists. split.
  - intros (x & A & B). apply Z.eqb_eq in B. subst; auto.
  - intros A. exists i. split; [auto|apply Z.eqb_refl].
Qed.

Lemma mem_notin i l : mem i l = false <-> ~ In i l.
Proof. rewrite <- mem_in. destruct (mem i l); intuition congruence. Qed.

Lemma get_task_in n l t : get_task n l = Some t -> In t l /\ tk_id t = n.
Proof. intros H. apply find_some in H as [A B]. apply Nat.eqb_eq in B. auto. Qed.

Lemma get_task_some l t : NoDup (map tk_id l) -> In t l -> get_task (tk_id t) l = Some t.
Proof.
  intros N H. destruct (get_task (tk_id t) l) as [t'|] eqn:E.
  - apply get_task_in in E as [A B]. f_equal.
    clear -N H A B. induction l as [|x l IH]; [destruct H|]. cbn in N. inv N.
    destruct H as [->|H], A as [->|A]; auto.
    + exfalso. apply H2. rewrite <- B. apply in_map; auto.
    + exfalso. apply H2. rewrite B. apply in_map; auto.
  - exfalso. pose proof (find_none _ _ E t H) as X. cbn in X. rewrite Nat.eqb_refl in X. discriminate.
Qed.

Lemma set_ids n st l : map tk_id (set_st n st l) = map tk_id l.
Proof. unfold set_st. rewrite map_map. apply map_ext. intros t. destruct (Nat.eqb _ _); auto. Qed.

Lemma stop_ids n l : map tk_id (stop_task n l) = map tk_id l.
Proof. unfold stop_task. rewrite map_map. apply map_ext. intros t. destruct (Nat.eqb _ _); auto. Qed.

(* the tasks after a change of state: same task, changed state only for n *)
Definition same_task (t t' : task) : Prop :=
  tk_id t' = tk_id t /\ tk_buf t' = tk_buf t /\ tk_h t' = tk_h t /\ tk_kind t' = tk_kind t.

Lemma set_in n st l t' : In t' (set_st n st l) ->
  exists t, In t l /\ same_task t t' /\ tk_stop t' = tk_stop t /\
    (tk_id t = n -> tk_st t' = st) /\ (tk_id t <> n -> t' = t).
Proof.
  intros H. unfold set_st in H. apply in_map_iff in H as (t & E & H). exists t. split; [auto|].
  destruct (Nat.eqb_spec (tk_id t) n); subst t'; cbn; unfold same_task; cbn; splits; auto; tauto.
Qed.

Lemma set_in_fwd n st l t : In t l -> exists t', In t' (set_st n st l) /\ same_task t t' /\
  tk_stop t' = tk_stop t /\ (tk_id t = n -> tk_st t' = st) /\ (tk_id t <> n -> t' = t).
Proof.
  intros H. eexists. split; [unfold set_st; apply in_map_iff; exists t; split; [reflexivity|exact H]|].
  destruct (Nat.eqb_spec (tk_id t) n); cbn; unfold same_task; cbn; splits; auto; tauto.
Qed.

Lemma stop_in n l t' : In t' (stop_task n l) ->
  exists t, In t l /\ same_task t t' /\ tk_st t' = tk_st t /\
    (tk_id t = n -> tk_stop t' = true) /\ (tk_id t <> n -> t' = t).
Proof.
  intros H. unfold stop_task in H. apply in_map_iff in H as (t & E & H). exists t. split; [auto|].
  destruct (Nat.eqb_spec (tk_id t) n); subst t'; cbn; unfold same_task; cbn; splits; auto; tauto.
Qed.

Lemma stop_in_fwd n l t : In t l -> exists t', In t' (stop_task n l) /\ same_task t t' /\
  tk_st t' = tk_st t /\ (tk_id t = n -> tk_stop t' = true) /\ (tk_id t <> n -> t' = t).
Proof.
  intros H. eexists. split; [unfold stop_task; apply in_map_iff; exists t; split; [reflexivity|exact H]|].
  destruct (Nat.eqb_spec (tk_id t) n); cbn; unfold same_task; cbn; splits; auto; tauto.
Qed.

Lemma nodup_app_r {A} (a b : list A) : NoDup (a ++ b) -> NoDup b.
Proof. induction a; cbn; auto. intros N. inv N. auto. Qed.

Lemma nodup_app_disj {A} (a b : list A) x : NoDup (a ++ b) -> In x a -> In x b -> False.
Proof.
  induction a as [|y a IH]; cbn; [tauto|]. intros N [->|X] Y; inv N; [|eauto].
  apply H1. apply in_or_app; auto.
Qed.

Lemma nodup_app {A} (a b : list A) : NoDup a -> NoDup b -> (forall x, In x a -> ~ In x b) ->
  NoDup (a ++ b).
Proof.
  induction a as [|x a IH]; cbn; auto. intros N M D. inv N. constructor.
  - intros X. apply in_app_or in X as [X|X]; [tauto|]. eapply D; eauto.
  - apply IH; auto.
Qed.

(* --- the objects created by events --- *)
Fixpoint made (evs : list bevent) : list nat :=
  match evs with
  | [] => []
  | BCreated _ _ h :: r => h :: made r
  | BStreamAdded h :: r => h :: made r
  | _ :: r => made r
  end.

Lemma made_app a b : made (a ++ b) = made a ++ made b.
Proof. induction a as [|[] a IH]; cbn; auto; rewrite IH; auto. Qed.

Lemma made_in evs h : In h (made evs) <-> (exists t i, In (BCreated t i h) evs) \/ In (BStreamAdded h) evs.
Proof.
  induction evs as [|e evs IH]; cbn.
  - split; [tauto|]. intros [(t & i & [])|[]].
  - destruct e as [t i h0|i|h0|h0]; cbn; rewrite ?IH; split.
    + intros [<-|[(t1 & i1 & X)|X]]; eauto.
    + intros [(t1 & i1 & [X|X])|[X|X]]; try discriminate; [inv X; auto|eauto|auto].
    + intros [(t1 & i1 & X)|X]; eauto.
    + intros [(t1 & i1 & [X|X])|[X|X]]; try discriminate; eauto.
    + intros [<-|[(t1 & i1 & X)|X]]; eauto.
    + intros [(t1 & i1 & [X|X])|[X|X]]; try discriminate; [eauto|inv X; auto|auto].
    + intros [(t1 & i1 & X)|X]; eauto.
    + intros [(t1 & i1 & [X|X])|[X|X]]; try discriminate; eauto.
Qed.

Lemma made_unique evs h e1 e2 : NoDup (made evs) ->
  In e1 evs -> In e2 evs -> In h (made [e1]) -> In h (made [e2]) -> e1 = e2.
Proof.
  induction evs as [|e evs IH]; [intros _ []|]. intros N A B C D.
  assert (NE : NoDup (made [e] ++ made evs)) by (rewrite <- made_app; exact N).
  assert (N' : NoDup (made evs)) by (apply nodup_app_r in NE; auto).
  assert (X : forall e0, In e0 evs -> In h (made [e0]) -> In h (made [e]) -> False).
  { intros e0 Y1 Y2 Y3. destruct e as [t i h0|i|h0|h0]; cbn in Y3; try tauto; destruct Y3 as [<-|[] ];
      cbn in NE; inv NE; apply H1; clear -Y1 Y2;
      (induction evs as [|e1 evs IH]; [destruct Y1|]; change (e1 :: evs) with ([e1] ++ evs);
       rewrite made_app; apply in_or_app; destruct Y1 as [->|Y1]; auto). }
  destruct A as [->|A], B as [->|B]; auto; exfalso; eauto.
Qed.

Section Order.
Variable order : bufs -> bufs.
Hypothesis order_perm : forall m, Permutation (order m) m.

Lemma reconcile_new opens cfg : forall a a' ok,
  reconcile opens cfg a = (a', ok) ->
  exists new, ra_new a' = ra_new a ++ new /\ NoDup (map (fun e => snd (snd e)) new) /\
    (ra_fresh a <= ra_fresh a')%nat /\
    (forall h, In h (map (fun e => snd (snd e)) new) -> (ra_fresh a <= h < ra_fresh a')%nat).
Proof.
  induction cfg as [|b r IH]; cbn; intros a a' ok H.
  - inv H. exists []. rewrite app_nil_r. cbn. splits; auto; [constructor|tauto].
  - destruct (bc_type b) as [t|].
    2:{ inv H. exists []. rewrite app_nil_r. cbn. splits; auto; [constructor|tauto]. }
    destruct (bfind (bc_id b) (ra_cur a)) as [[t0 h0]|].
    + apply IH in H. exact H.
    + destruct (opens (bc_id b)).
      2:{ inv H. exists []. rewrite app_nil_r. cbn. splits; auto; [constructor|tauto]. }
      apply IH in H as (new & E & N & L & F). cbn in E, L, F.
      exists ((bc_id b, (t, ra_fresh a)) :: new). rewrite E, <- app_assoc. cbn. splits; auto.
      * constructor; [|auto]. intros X. apply F in X. lia.
      * lia.
      * intros h [<-|X]; [lia|]. apply F in X. lia.
Qed.

Lemma made_removed (l : bufs) : made (map (fun e => BRemoved (fst e)) l) = [].
Proof. induction l; cbn; auto. Qed.

Lemma made_created (l : list (Z * (btype * nat))) :
  made (map (fun e => BCreated (fst (snd e)) (fst e) (snd (snd e))) l) = map (fun e => snd (snd e)) l.
Proof. induction l; cbn; congruence. Qed.

Lemma update_made s c :
  NoDup (made (u_events (apply_conf order s c))) /\
  (bm_fresh s <= bm_fresh (u_state (apply_conf order s c)))%nat /\
  (forall h, In h (made (u_events (apply_conf order s c))) ->
     (bm_fresh s <= h < bm_fresh (u_state (apply_conf order s c)))%nat).
Proof.
  unfold apply_conf, update_from_config. destruct (reconcile _ _ _) as [a ok] eqn:R.
  apply reconcile_new in R as (new & E & N & L & F). cbn in E, L, F.
  destruct ok.
  - destruct (stream_update (bm_stream s) (cf_streaming c) (ra_fresh a)) as [[st sev] fr] eqn:ES.
    cbn [u_events u_state bm_fresh]. unfold buffer_events.
    rewrite !made_app, made_removed, made_created, E. cbn [app].
    unfold stream_update in ES. destruct (cf_streaming c), (bm_stream s); inv ES; cbn [made];
      rewrite ?app_nil_r; splits; auto; try lia.
    + apply NoDup_rev in N. apply NoDup_rev in N. rewrite rev_involutive in N.
      eapply Permutation_NoDup.
      * apply Permutation_cons_append.
      * constructor; [|exact N]. intros X. apply F in X. lia.
    + intros h X. apply in_app_or in X as [X|[<-|[]]]; [apply F in X; lia|lia].
  - cbn. splits; auto; [constructor|tauto].
Qed.

Lemma orderly_known a : forall b known (f : Z -> option (btype * nat)),
  (forall x, In x known <-> f x <> None) -> orderly (a ++ b) known ->
  exists k', orderly b k' /\ forall x, In x k' <-> announced a x (f x) <> None.
Proof.
  induction a as [|[t j h|j|h|h] a IH]; intros b known f F H.
  - exists known. auto.
  - cbn in H. destruct H as [_ H].
    destruct (IH b (j :: known) (fun x => if j =? x then Some (t, h) else f x)) as (k' & A & B); [|exact H|].
    + intros x. cbn. rewrite F. destruct (Z.eqb_spec j x); split; intros; auto; try congruence; try tauto.
    + exists k'. auto.
  - cbn in H. destruct H as [_ H].
    destruct (IH b (filter (fun x => negb (x =? j)) known) (fun x => if j =? x then None else f x)) as (k' & A & B); [|exact H|].
    + intros x. rewrite filter_In, F. destruct (Z.eqb_spec x j), (Z.eqb_spec j x); cbn; subst;
        try congruence; try tauto; split; intros; try congruence; try tauto.
      destruct H0; discriminate.
    + exists k'. auto.
  - exact (IH b known f F H).
  - exact (IH b known f F H).
Qed.

Lemma orderly_created a t j h b : orderly (a ++ BCreated t j h :: b) [] -> announced a j None = None.
Proof.
  intros H. destruct (orderly_known a (BCreated t j h :: b) [] (fun _ => None)) as (k' & A & B); [|exact H|].
  - cbn. intros; split; [tauto|congruence].
  - cbn in A. destruct A as [A _]. rewrite B in A. destruct (announced a j None); auto.
    exfalso. apply A. congruence.
Qed.

Lemma orderly_front a b known : orderly (a ++ b) known -> orderly a known.
Proof.
  revert known. induction a as [|[t j h|j|h|h] a IH]; cbn; intros known H; auto.
  - destruct H; auto.
  - destruct H; auto.
Qed.

(* --- the invariant --- *)
Definition pend (s : um) : list bevent :=
  match um_chan s with Some e => [e] | None => [] end
  ++ match um_api s with Some l => l | None => [] end.

Definition trig_eff (s : um) : amap :=
  match um_mode s with MWait _ i => removed i (um_trig s) | _ => um_trig s end.

Definition trig_of (x : option (btype * nat)) : option nat :=
  match x with Some (BTrigger, h) => Some h | _ => None end.

Definition owns (handled : list bevent) (t : task) : Prop :=
  match tk_kind t with
  | TKTrigger _ => In (BCreated BTrigger (tk_buf t) (tk_h t)) handled
  | TKContinuous => In (BCreated BContinuous (tk_buf t) (tk_h t)) handled
  | TKStream => In (BStreamAdded (tk_h t)) handled
  end.

Definition busy (t : task) : Prop := is_trigger t = true /\ tk_st t <> TDone.

Record inv (s : um) (handled : list bevent) : Prop := mkInv {
  v_bm : wf (um_bm s);
  v_made : NoDup (made (handled ++ pend s));
  v_fresh : forall h, In h (made (handled ++ pend s)) -> (h < bm_fresh (um_bm s))%nat;
  v_ids : NoDup (map tk_id (um_tasks s));
  v_next : forall t, In t (um_tasks s) -> (tk_id t < um_next s)%nat;
  v_own : forall t, In t (um_tasks s) -> owns handled t;
  v_trig : forall i h, aget i (um_trig s) = Some h -> In (BCreated BTrigger i h) handled;
  v_single : forall t1 t2, In t1 (um_tasks s) -> In t2 (um_tasks s) -> is_trigger t1 = false ->
     is_trigger t2 = false -> tk_h t1 = tk_h t2 -> tk_id t1 = tk_id t2;
  v_active : forall t, In t (um_tasks s) -> busy t -> In (tk_buf t) (um_active s);
  v_one : forall t1 t2, In t1 (um_tasks s) -> In t2 (um_tasks s) -> busy t1 -> busy t2 ->
     tk_buf t1 = tk_buf t2 -> tk_id t1 = tk_id t2;
  v_mode : um_mode s <> MStopped;
  v_req : forall r q n, nth_error (um_reqs s) r = Some q -> In n (rq_tasks q) ->
     exists t, In t (um_tasks s) /\ tk_id t = n /\ tk_kind t = TKTrigger r;
  v_ans : forall r, In r (um_answers s) -> exists q, nth_error (um_reqs s) r = Some q /\
     forall n, In n (rq_tasks q) -> finished (um_tasks s) n = true;
  v_once : NoDup (um_answers s);
  v_shut : forall i n, aget i (um_shut s) = Some n -> exists t, In t (um_tasks s) /\
     tk_id t = n /\ tk_buf t = i /\ tk_kind t <> TKStream;
  v_sshut : forall n, um_sshut s = Some n -> exists t, In t (um_tasks s) /\
     tk_id t = n /\ tk_kind t = TKStream;
  v_wait : forall n i, um_mode s = MWait n i -> exists t, In t (um_tasks s) /\ tk_id t = n /\
     tk_stop t = true /\
     match i with Some i => tk_buf t = i /\ tk_kind t <> TKStream | None => tk_kind t = TKStream end;
  v_idle : um_api s = None -> um_chan s = None /\ um_mode s = MIdle;
  v_sig : forall t, In t (um_tasks s) -> tk_st t = TSignalled -> is_trigger t = true;
  v_told : orderly (handled ++ pend s) [] ->
     forall i, aget i (trig_eff s) = trig_of (announced handled i None) }.

Lemma inv_new : inv um_new [].
Proof.
  constructor; cbn; intros; try tauto; try discriminate; try apply wf_new; try constructor; auto.
  destruct r; discriminate.
Qed.

Lemma finished_task l n : NoDup (map tk_id l) ->
  finished l n = true <-> exists t, In t l /\ tk_id t = n /\ open t = false.
Proof.
  intros N. unfold finished. split.
  - destruct (get_task n l) as [t|] eqn:E; [|discriminate]. apply get_task_in in E as [A B].
    intros H. exists t. splits; auto. destruct (open t); auto; discriminate.
  - intros (t & A & <- & O). rewrite (get_task_some l t N A), O. reflexivity.
Qed.

Lemma released_task l n t : NoDup (map tk_id l) -> In t l -> tk_id t = n ->
  released n l = negb (open t).
Proof. intros N A <-. unfold released. rewrite (get_task_some l t N A). reflexivity. Qed.

(* the tasks move on *)
Definition evolve (l l' : list task) : Prop :=
  map tk_id l' = map tk_id l /\
  (forall t', In t' l' -> exists t, In t l /\ same_task t t' /\
     (tk_st t = TDone -> tk_st t' = TDone) /\ (open t = false -> open t' = false) /\
     (tk_stop t = true -> tk_stop t' = true) /\
     (tk_st t' = TSignalled -> tk_st t = TSignalled \/ is_trigger t = true)) /\
  (forall t, In t l -> exists t', In t' l' /\ same_task t t' /\
     (tk_st t = TDone -> tk_st t' = TDone) /\ (open t = false -> open t' = false) /\
     (tk_stop t = true -> tk_stop t' = true)).

Lemma evolve_refl l : evolve l l.
Proof. unfold evolve, same_task. splits; auto; intros t H; exists t; splits; auto. Qed.

Lemma evolve_set n st l t : NoDup (map tk_id l) -> get_task n l = Some t ->
  tk_st t <> TDone -> (open t = false -> st = TDone) ->
  (st = TSignalled -> is_trigger t = true) -> evolve l (set_st n st l).
Proof.
  intros N G D O SG. destruct (get_task_in _ _ _ G) as [GI GN].
  assert (U : forall x, In x l -> tk_id x = n -> x = t).
  { intros x X1 X2. pose proof (get_task_some _ _ N X1) as Y. rewrite X2 in Y. congruence. }
  split; [apply set_ids|]. split; intros x X.
  - apply set_in in X as (y & Y & S & E & A & B). exists y. split; [auto|]. split; [auto|].
    destruct (Nat.eq_dec (tk_id y) n) as [e|e].
    + pose proof (U y Y e); subst y. rewrite E. unfold open at 2. rewrite (A e).
      splits; auto; [congruence|]. intros Q. rewrite (O Q). reflexivity.
    + rewrite (B e) in *. splits; auto.
  - destruct (set_in_fwd n st l x X) as (y & Y & S & E & A & B). exists y. split; [auto|].
    split; [auto|]. destruct (Nat.eq_dec (tk_id x) n) as [e|e].
    + pose proof (U x X e); subst x. rewrite E. unfold open at 2. rewrite (A e).
      splits; auto; [congruence|]. intros Q. rewrite (O Q). reflexivity.
    + rewrite (B e) in *. auto.
Qed.

Lemma evolve_stop n l : evolve l (stop_task n l).
Proof.
  split; [apply stop_ids|]. split; intros x X.
  - apply stop_in in X as (y & Y & S & E & A & B). exists y. split; [auto|]. split; [auto|].
    unfold open. rewrite E. splits; auto. intros Q. destruct (Nat.eq_dec (tk_id y) n) as [e|e].
    + auto.
    + rewrite (B e). auto.
  - destruct (stop_in_fwd n l x X) as (y & Y & S & E & A & B). exists y. split; [auto|].
    split; [auto|]. unfold open. rewrite E. splits; auto. intros Q.
    destruct (Nat.eq_dec (tk_id x) n) as [e|e]; [auto|]. rewrite (B e). auto.
Qed.

Lemma trigger_kind t t' : same_task t t' -> is_trigger t' = is_trigger t.
Proof. intros (_ & _ & _ & K). unfold is_trigger. rewrite K. reflexivity. Qed.

Lemma inv_evolve s handled l act : inv s handled -> evolve (um_tasks s) l ->
  (forall t, In t l -> busy t -> In (tk_buf t) act) ->
  inv (mkUm (um_bm s) (um_api s) (um_chan s) (um_mode s) (um_trig s) (um_shut s) (um_sshut s)
            act l (um_reqs s) (um_answers s) (um_next s)) handled.
Proof.
  intros [H1 H2 H3 H4 H5 H6 H7 H8 H9 H10 H11 H12 H13 H14 H15 H16 H17 H18 H20 H19] (E1 & E2 & E3) AC.
  constructor; cbn; auto.
  - rewrite E1. auto.
  - intros x X. apply E2 in X as (y & Y & (Y1 & _) & _). rewrite Y1. auto.
  - intros x X. apply E2 in X as (y & Y & (Y1 & Y2 & Y3 & Y4) & _). unfold owns.
    rewrite Y2, Y3, Y4. apply H6; auto.
  - intros a b Xa Xb. apply E2 in Xa as (ya & Ya & Sa & _). apply E2 in Xb as (yb & Yb & Sb & _).
    rewrite (trigger_kind _ _ Sa), (trigger_kind _ _ Sb).
    destruct Sa as (A1 & _ & A3 & _), Sb as (B1 & _ & B3 & _). rewrite A1, B1, A3, B3. auto.
  - intros a b Xa Xb. apply E2 in Xa as (ya & Ya & Sa & Da & _).
    apply E2 in Xb as (yb & Yb & Sb & Db & _). unfold busy.
    rewrite (trigger_kind _ _ Sa), (trigger_kind _ _ Sb). intros [P1 P2] [Q1 Q2].
    destruct Sa as (A1 & A2 & _), Sb as (B1 & B2 & _). rewrite A1, B1, A2, B2.
    apply H10; auto; split; auto.
  - intros r q n R N. destruct (H12 r q n R N) as (t & T1 & T2 & T3).
    destruct (E3 t T1) as (t' & T' & (S1 & S2 & S3 & S4) & _). exists t'.
    rewrite S1, S4. auto.
  - intros r R. destruct (H13 r R) as (q & Q1 & Q2). exists q. split; [auto|]. intros n N.
    apply Q2 in N. apply (finished_task _ _ H4) in N as (t & T1 & T2 & T3).
    destruct (E3 t T1) as (t' & T' & (S1 & _) & _ & O & _).
    apply finished_task; [rewrite E1; auto|]. exists t'. rewrite S1. auto.
  - intros i n A. destruct (H15 i n A) as (t & T1 & T2 & T3 & T4).
    destruct (E3 t T1) as (t' & T' & (S1 & S2 & S3 & S4) & _). exists t'. rewrite S1, S2, S4. auto.
  - intros n A. destruct (H16 n A) as (t & T1 & T2 & T3).
    destruct (E3 t T1) as (t' & T' & (S1 & S2 & S3 & S4) & _). exists t'. rewrite S1, S4. auto.
  - intros n i A. destruct (H17 n i A) as (t & T1 & T2 & T3 & T4).
    destruct (E3 t T1) as (t' & T' & (S1 & S2 & S3 & S4) & _ & _ & S5). exists t'.
    rewrite S1, S2, S4. auto.
  - intros x X Q. apply E2 in X as (y & Y & S & _ & _ & _ & G). rewrite (trigger_kind _ _ S).
    destruct (G Q); auto.
Qed.

(* a task at work is in the active set as long as only other tasks go *)
Lemma active_evolve s handled l : inv s handled -> evolve (um_tasks s) l ->
  forall t, In t l -> busy t -> In (tk_buf t) (um_active s).
Proof.
  intros I (E1 & E2 & E3) t X [B1 B2]. apply E2 in X as (y & Y & S & D & _).
  rewrite (trigger_kind _ _ S) in B1. destruct S as (_ & S2 & _). rewrite S2.
  apply (v_active _ _ I); auto. split; auto.
Qed.

(* a new task *)
Lemma inv_spawn s handled handled' i h k shut sshut act trig md ch :
  inv s handled -> (forall e, In e handled -> In e handled') ->
  let t := mkTask (um_next s) i h k TReading false in
  owns handled' t -> has_consumer h (um_tasks s) = false ->
  NoDup (made (handled' ++ match ch with Some e => [e] | None => [] end
                         ++ match um_api s with Some l => l | None => [] end)) ->
  (forall x, In x (made (handled' ++ match ch with Some e => [e] | None => [] end
                         ++ match um_api s with Some l => l | None => [] end)) ->
             (x < bm_fresh (um_bm s))%nat) ->
  (is_trigger t = false -> forall x, In x (um_tasks s) -> is_trigger x = false -> tk_h x <> h) ->
  (forall x, In x (um_active s) -> In x act) ->
  (is_trigger t = true -> In i act /\ forall x, In x (um_tasks s) -> busy x -> tk_buf x <> i) ->
  (forall j n, aget j shut = Some n -> (n = um_next s /\ j = i /\ k <> TKStream) \/ aget j (um_shut s) = Some n) ->
  (forall n, sshut = Some n -> (n = um_next s /\ k = TKStream) \/ um_sshut s = Some n) ->
  (forall j h, aget j trig = Some h -> In (BCreated BTrigger j h) handled') ->
  md = MIdle -> (um_api s = None -> ch = None) ->
  (orderly (handled' ++ match ch with Some e => [e] | None => [] end
                         ++ match um_api s with Some l => l | None => [] end) [] ->
   forall j, aget j trig = trig_of (announced handled' j None)) ->
  inv (mkUm (um_bm s) (um_api s) ch md trig shut sshut act (um_tasks s ++ [t])
            (um_reqs s) (um_answers s) (S (um_next s))) handled'.
Proof.
  intros [H1 H2 H3 H4 H5 H6 H7 H8 H9 H10 H11 H12 H13 H14 H15 H16 H17 H18 H20 H19]
    HH t OW HC ND FR SG AC TR SH SS TG MD CH TL.
  assert (NEW : forall x, In x (um_tasks s) -> tk_id x <> um_next s).
  { intros x X. apply H5 in X. lia. }
  constructor; cbn; auto.
  - rewrite map_app. cbn. apply nodup_app; auto; [repeat constructor; cbn; tauto|].
    intros x X [<-|[]]. apply in_map_iff in X as (y & E & Y). apply (NEW y Y E).
  - intros x X. apply in_app_or in X as [X|[<-|[]]]; [apply H5 in X; lia|cbn; lia].
  - intros x X. apply in_app_or in X as [X|[<-|[]]]; [|exact OW].
    apply H6 in X. unfold owns in *. destruct (tk_kind x); auto.
  - intros a b Xa Xb P Q R. apply in_app_or in Xa. apply in_app_or in Xb.
    destruct Xa as [Xa|[<-|[]]], Xb as [Xb|[<-|[]]]; auto.
    + exfalso. eapply SG; eauto.
    + exfalso. eapply SG; eauto.
  - intros x X B. apply in_app_or in X as [X|[<-|[]]]; [auto|]. destruct B as [B _].
    apply TR; auto.
  - intros a b Xa Xb P Q R. apply in_app_or in Xa. apply in_app_or in Xb.
    destruct Xa as [Xa|[<-|[]]], Xb as [Xb|[<-|[]]]; auto.
    + exfalso. destruct Q as [Q _]. destruct (TR Q) as [_ T]. eapply T; eauto.
    + exfalso. destruct P as [P _]. destruct (TR P) as [_ T]. eapply T; eauto.
  - subst md. discriminate.
  - intros r q n R N. destruct (H12 r q n R N) as (x & X & Y). exists x. split; [|auto].
    apply in_or_app; auto.
  - intros r R. destruct (H13 r R) as (q & Q1 & Q2). exists q. split; [auto|]. intros n N.
    apply Q2 in N. apply (finished_task _ _ H4) in N as (x & T1 & T2 & T3).
    apply finished_task.
    + rewrite map_app. cbn. apply nodup_app; auto; [repeat constructor; cbn; tauto|].
      intros y X [<-|[]]. apply in_map_iff in X as (z & E & Y). apply (NEW z Y E).
    + exists x. split; [apply in_or_app; auto|auto].
  - intros j n A. destruct (SH j n A) as [(-> & -> & K)|B].
    + exists t. split; [apply in_or_app; right; left; auto|]. cbn. auto.
    + destruct (H15 j n B) as (x & X & Y). exists x. split; [apply in_or_app; auto|auto].
  - intros n A. destruct (SS n A) as [(-> & K)|B].
    + exists t. split; [apply in_or_app; right; left; auto|]. cbn. auto.
    + destruct (H16 n B) as (x & X & Y). exists x. split; [apply in_or_app; auto|auto].
  - subst md. discriminate.
  - intros x X Q. apply in_app_or in X as [X|[<-|[]]]; [auto|]. discriminate.
  - unfold trig_eff. cbn. subst md. auto.
Qed.

Lemma consumer_none s h : (forall x, In x (um_tasks s) -> tk_h x = h -> open x = false) ->
  has_consumer h (um_tasks s) = false.
Proof.
  intros H. unfold has_consumer. apply not_true_is_false. intros X.
  apply existsb_exists in X as (x & A & B). apply andb_prop in B as [B C].
  apply Nat.eqb_eq in B. rewrite (H x A B) in C. discriminate.
Qed.

(* the buffer object of a task belongs to one creation *)
Lemma same_owner s handled t1 t2 : inv s handled -> owns handled t1 -> owns handled t2 ->
  tk_h t1 = tk_h t2 ->
  is_trigger t1 = is_trigger t2 /\ (is_trigger t1 = true -> tk_buf t1 = tk_buf t2).
Proof.
  intros I O1 O2 E. pose proof (v_made _ _ I) as N. rewrite made_app in N.
  assert (N' : NoDup (made handled)).
  { clear -N. induction (made handled); [constructor|]. cbn in N. inv N. constructor; auto.
    intros X. apply H1. apply in_or_app; auto. }
  assert (P : forall t, owns handled t -> exists e, In e handled /\ In (tk_h t) (made [e]) /\
    match tk_kind t with TKTrigger _ => e = BCreated BTrigger (tk_buf t) (tk_h t)
                       | TKContinuous => e = BCreated BContinuous (tk_buf t) (tk_h t)
                       | TKStream => e = BStreamAdded (tk_h t) end).
  { intros t O. unfold owns in O. destruct (tk_kind t); eexists; (split; [exact O|]); cbn; auto. }
  destruct (P t1 O1) as (e1 & A1 & B1 & C1). destruct (P t2 O2) as (e2 & A2 & B2 & C2).
  rewrite <- E in B2. pose proof (made_unique handled (tk_h t1) e1 e2 N' A1 A2 B1 B2) as EE.
  subst e2. unfold is_trigger. destruct (tk_kind t1), (tk_kind t2); subst e1; try discriminate;
    inv C2; split; auto; discriminate.
Qed.

Lemma start_uploads_inv r : forall ids s handled started s1 started1 ok,
  inv s handled -> um_mode s = MIdle ->
  start_uploads r ids s started = (s1, started1, ok) ->
  ok = true /\ inv s1 handled /\ um_mode s1 = MIdle /\ um_reqs s1 = um_reqs s /\
  um_api s1 = um_api s /\ um_chan s1 = um_chan s /\ um_trig s1 = um_trig s /\
  um_bm s1 = um_bm s /\ um_answers s1 = um_answers s /\
  exists new, um_tasks s1 = um_tasks s ++ new /\ started1 = started ++ map tk_id new /\
    (forall t, In t new -> tk_kind t = TKTrigger r /\ tk_st t = TReading /\
       In (tk_buf t) ids /\ ~ In (tk_buf t) (um_active s) /\ aget (tk_buf t) (um_trig s) = Some (tk_h t)) /\
    NoDup (map tk_buf new) /\
    (forall i h, In i ids -> ~ In i (um_active s) -> aget i (um_trig s) = Some h ->
       exists t, In t new /\ tk_buf t = i).
Proof.
  induction ids as [|i ids IH]; cbn [start_uploads]; intros s handled started s1 started1 ok I MD H.
  - inv H. splits; auto. exists []. cbn. rewrite !app_nil_r. splits; auto; [tauto|constructor|tauto].
  - destruct (mem i (um_active s)) eqn:M.
    + apply mem_in in M. apply IH with (handled := handled) in H; auto.
      destruct H as (A1 & A2 & A3 & A4 & A5 & A6 & A7 & A8 & A9 & new & B1 & B2 & B3 & B4 & B5).
      splits; auto. exists new. splits; auto.
      * intros t T. apply B3 in T. cbn. tauto.
      * intros j h [<-|J] NA; [tauto|]. eauto.
    + apply mem_notin in M. destruct (aget i (um_trig s)) as [h|] eqn:G.
      2:{ apply IH with (handled := handled) in H; auto.
          destruct H as (A1 & A2 & A3 & A4 & A5 & A6 & A7 & A8 & A9 & new & B1 & B2 & B3 & B4 & B5).
          splits; auto. exists new. splits; auto.
          - intros t T. apply B3 in T. cbn. tauto.
          - intros j h [<-|J] NA Q; [congruence|]. eauto. }
      assert (HO : In (BCreated BTrigger i h) handled) by (apply (v_trig _ _ I); auto).
      assert (HC : has_consumer h (um_tasks s) = false).
      { apply consumer_none. intros x X E. destruct (open x) eqn:O; auto. exfalso.
        pose (t0 := mkTask 0 i h (TKTrigger r) TReading false).
        destruct (same_owner s handled t0 x I) as [K1 K2]; [exact HO|apply (v_own _ _ I); auto|auto|].
        cbn in K1. apply M. replace i with (tk_buf x) by (symmetry; exact (K2 eq_refl)).
        apply (v_active _ _ I); auto. split; [auto|].
        unfold open in O. destruct (tk_st x); discriminate. }
      rewrite HC in H.
      apply IH with (handled := handled) in H; auto; cbn [um_mode um_tasks um_reqs] in *.
      2:{ apply (inv_spawn s handled handled i h (TKTrigger r)); auto.
          - exact (v_made _ _ I).
          - exact (v_fresh _ _ I).
          - intros X. discriminate.
          - intros x X. right; auto.
          - intros _. split; [left; auto|]. intros x X B E. apply M. rewrite <- E.
            apply (v_active _ _ I); auto.
          - intros j n A. rewrite aget_put in A. destruct (Z.eqb_spec i j); [|auto].
            inv A. left. splits; auto. discriminate.
          - exact (v_trig _ _ I).
          - intros A. apply (v_idle _ _ I) in A. tauto.
          - intros OR j. rewrite <- (v_told _ _ I OR). unfold trig_eff. rewrite MD. reflexivity. }
      cbn [um_api um_chan um_trig um_bm um_answers um_active] in H.
      destruct H as (A1 & A2 & A3 & A4 & A5 & A6 & A7 & A8 & A9 & new & B1 & B2 & B3 & B4 & B5).
      splits; auto. exists (mkTask (um_next s) i h (TKTrigger r) TReading false :: new).
      rewrite B1, <- app_assoc. rewrite B2, <- app_assoc. cbn. splits; auto.
      * intros t [<-|T]; cbn; [splits; auto|]. apply B3 in T as (T1 & T2 & T3 & T4 & T5).
        cbn in T4. splits; auto.
      * constructor; [|auto]. intros X. apply in_map_iff in X as (t & E & T).
        apply B3 in T as (_ & _ & _ & T & _). apply T. left; auto.
      * intros j h0 [<-|J] NA Q; [eexists; split; [left; reflexivity|reflexivity]|].
        destruct (Z.eq_dec i j) as [<-|NE]; [eexists; split; [left; reflexivity|reflexivity]|].
        destruct (B5 j h0 J) as (t & T1 & T2); auto.
        -- intros [X|X]; tauto.
        -- exists t. auto.
Qed.

Definition news (s : um) (l : label) : list bevent :=
  match l with UConfig c => u_events (apply_conf order (um_bm s) c) | _ => [] end.

Lemma announced_one e i k : announced [e] i k =
  match e with
  | BCreated t j h => if j =? i then Some (t, h) else k
  | BRemoved j => if j =? i then None else k
  | _ => k
  end.
Proof. destruct e; reflexivity. Qed.

(* the end of a removal *)
Lemma inv_removed s handled e r shut sshut i :
  inv s handled -> um_mode s = MIdle -> um_chan s = Some e -> pend s = e :: r ->
  (match i with Some j => e = BRemoved j | None => exists h, e = BStreamRemoved h end) ->
  (forall j n, aget j shut = Some n -> aget j (um_shut s) = Some n) ->
  (forall n, sshut = Some n -> um_sshut s = Some n) ->
  inv (mkUm (um_bm s) (um_api s) None MIdle (removed i (um_trig s)) shut sshut (um_active s)
            (um_tasks s) (um_reqs s) (um_answers s) (um_next s)) (handled ++ [e]).
Proof.
  intros [H1 H2 H3 H4 H5 H6 H7 H8 H9 H10 H11 H12 H13 H14 H15 H16 H17 H18 H20 H19] MD CH PE EV SH SS.
  assert (PP : pend s = e :: match um_api s with Some l => l | None => [] end)
    by (unfold pend; rewrite CH; reflexivity).
  assert (INC : forall x, In x handled -> In x (handled ++ [e])) by (intros; apply in_or_app; auto).
  constructor; cbn; auto.
  - unfold pend; cbn. rewrite <- app_assoc. cbn. rewrite <- PP. auto.
  - unfold pend; cbn. rewrite <- app_assoc. cbn. rewrite <- PP. auto.
  - intros t T. apply H6 in T. unfold owns in *. destruct (tk_kind t); auto.
  - intros j h A. apply INC. apply H7. destruct i as [i|]; [|auto]. cbn in A. rewrite aget_del in A.
    destruct (i =? j); [discriminate|auto].
  - discriminate.
  - discriminate.
  - unfold pend; cbn. rewrite <- app_assoc. cbn. rewrite <- PP. intros OR j.
    unfold trig_eff; cbn. rewrite announced_app, announced_one. specialize (H19 OR j).
    unfold trig_eff in H19. rewrite MD in H19.
    destruct i as [i|]; cbn.
    + subst e. rewrite aget_del. destruct (i =? j); auto.
    + destruct EV as (h & ->). auto.
Qed.

Lemma inv_shutdown s handled e shut sshut n i :
  inv s handled -> um_mode s = MIdle -> um_chan s = Some e ->
  (match i with Some j => e = BRemoved j | None => exists h, e = BStreamRemoved h end) ->
  (forall j n, aget j shut = Some n -> aget j (um_shut s) = Some n) ->
  (forall n, sshut = Some n -> um_sshut s = Some n) ->
  match i with Some j => n = aget j (um_shut s) | None => n = um_sshut s end ->
  inv (shutdown_task s shut sshut n i) (handled ++ [e]) /\
  pend (shutdown_task s shut sshut n i) = tl (pend s) /\
  um_bm (shutdown_task s shut sshut n i) = um_bm s.
Proof.
  intros I MD CH EV SH SS NN.
  assert (PP : pend s = e :: match um_api s with Some l => l | None => [] end)
    by (unfold pend; rewrite CH; reflexivity).
  unfold shutdown_task. destruct n as [n|].
  2:{ splits; [eapply inv_removed; eauto|rewrite PP; reflexivity|reflexivity]. }
  destruct (released n (um_tasks s)) eqn:R.
  { splits; [eapply inv_removed; eauto|rewrite PP; reflexivity|reflexivity]. }
  splits; [|rewrite PP; reflexivity|reflexivity].
  assert (W : exists t, In t (um_tasks s) /\ tk_id t = n /\
     match i with Some i => tk_buf t = i /\ tk_kind t <> TKStream | None => tk_kind t = TKStream end).
  { destruct i as [i|].
    - destruct (v_shut _ _ I i n (eq_sym NN)) as (t & T1 & T2 & T3 & T4). exists t. auto.
    - destruct (v_sshut _ _ I n (eq_sym NN)) as (t & T1 & T2 & T3). exists t. auto. }
  pose proof (inv_evolve s handled (stop_task n (um_tasks s)) (um_active s) I (evolve_stop n _)
    (active_evolve s handled _ I (evolve_stop n _))) as I2.
  destruct I2 as [H1 H2 H3 H4 H5 H6 H7 H8 H9 H10 H11 H12 H13 H14 H15 H16 H17 H18 H20 H19].
  cbn [um_bm um_api um_chan um_mode um_trig um_shut um_sshut um_active um_tasks um_reqs um_answers um_next] in *.
  assert (INC : forall x, In x handled -> In x (handled ++ [e])) by (intros; apply in_or_app; auto).
  constructor; cbn [um_bm um_api um_chan um_mode um_trig um_shut um_sshut um_active um_tasks um_reqs um_answers um_next]; auto.
  - unfold pend; cbn. rewrite <- app_assoc. cbn. unfold pend in H2; cbn in H2. rewrite CH in H2. auto.
  - unfold pend; cbn. rewrite <- app_assoc. cbn. unfold pend in H3; cbn in H3. rewrite CH in H3. auto.
  - intros t T. apply H6 in T. unfold owns in *. destruct (tk_kind t); auto.
  - discriminate.
  - intros n0 i0 Q. inv Q. destruct W as (t & T1 & T2 & T3).
    destruct (stop_in_fwd n0 _ t T1) as (t' & A & (B1 & B2 & B3 & B4) & _ & C & _).
    exists t'. rewrite B1, B2, B4. splits; auto.
  - intros Q. destruct (H18 Q). congruence.
  - unfold pend; cbn. rewrite <- app_assoc. cbn. intros OR j. unfold pend in H19; cbn in H19.
    rewrite CH in H19. specialize (H19 OR j).
    unfold trig_eff; cbn. rewrite announced_app, announced_one.
    unfold trig_eff in H19. cbn in H19. rewrite MD in H19.
    destruct i as [i|]; cbn.
    + subst e. rewrite aget_del. destruct (i =? j); auto.
    + destruct EV as (h & ->). auto.
Qed.

Lemma inv_handle s handled e : inv s handled -> um_mode s = MIdle -> um_chan s = Some e ->
  inv (handle_event s e) (handled ++ [e]) /\ pend (handle_event s e) = tl (pend s) /\
  um_bm (handle_event s e) = um_bm s.
Proof.
  intros I MD CH.
  assert (PP : pend s = e :: match um_api s with Some l => l | None => [] end)
    by (unfold pend; rewrite CH; reflexivity).
  assert (INC : forall x, In x handled -> In x (handled ++ [e])) by (intros; apply in_or_app; auto).
  (* the object of the event is new *)
  assert (NW : forall h x, In h (made [e]) -> In x (um_tasks s) -> tk_h x = h -> False).
  { intros h x E X Y. pose proof (v_made _ _ I) as N. rewrite made_app in N.
    apply (nodup_app_disj _ _ h N).
    - pose proof (v_own _ _ I x X) as O. unfold owns in O. apply made_in. subst h.
      destruct (tk_kind x); eauto.
    - rewrite PP. change (e :: ?r) with ([e] ++ r). rewrite made_app. apply in_or_app; auto. }
  assert (TLD : orderly (handled ++ pend s) [] ->
                forall j, aget j (um_trig s) = trig_of (announced handled j None)).
  { intros OR j. rewrite <- (v_told _ _ I OR). unfold trig_eff. rewrite MD. reflexivity. }
  assert (AP : forall l, (handled ++ [e]) ++ l = handled ++ e :: l) by (intros; rewrite <- app_assoc; auto).
  destruct e as [t i h|i|h|h]; [destruct t| | |].
  - (* continuous *)
    cbn [handle_event].
    assert (HC : has_consumer h (um_tasks s) = false).
    { apply consumer_none. intros x X E. exfalso. eapply NW; eauto. left; reflexivity. }
    rewrite HC. splits; [|unfold pend; cbn; rewrite CH; reflexivity|reflexivity].
    apply (inv_spawn s handled (handled ++ [BCreated BContinuous i h]) i h TKContinuous); auto.
    + unfold owns; cbn. apply in_or_app; right; left; auto.
    + cbn. rewrite AP, <- PP. exact (v_made _ _ I).
    + cbn. rewrite AP, <- PP. exact (v_fresh _ _ I).
    + intros _ x X _ E. eapply NW; eauto. left; reflexivity.
    + discriminate.
    + intros j n A. rewrite aget_put in A. destruct (Z.eqb_spec i j); [|auto].
      inv A. left. splits; auto. discriminate.
    + intros j h0 A. apply INC. apply (v_trig _ _ I); auto.
    + cbn. rewrite AP, <- PP. intros OR j. rewrite announced_app, announced_one, (TLD OR).
      destruct (Z.eqb_spec i j) as [->|]; auto. rewrite PP in OR.
      rewrite (orderly_created _ _ _ _ _ OR). reflexivity.
  - (* trigger *)
    cbn [handle_event]. splits; [|unfold pend; cbn; rewrite CH; reflexivity|reflexivity].
    destruct I as [H1 H2 H3 H4 H5 H6 H7 H8 H9 H10 H11 H12 H13 H14 H15 H16 H17 H18 H20 H19].
    constructor; cbn; auto.
    + unfold pend; cbn. rewrite AP, <- PP. auto.
    + unfold pend; cbn. rewrite AP, <- PP. auto.
    + intros t T. apply H6 in T. unfold owns in *. destruct (tk_kind t); auto.
    + intros j h0 A. rewrite aget_put in A. destruct (Z.eqb_spec i j); [|auto].
      inv A. apply in_or_app; right; left; auto.
    + discriminate.
    + discriminate.
    + unfold pend, trig_eff; cbn. rewrite AP, <- PP. intros OR j.
      rewrite announced_app, announced_one, aget_put, (TLD OR). destruct (i =? j); reflexivity.
  - (* removed *)
    apply (inv_shutdown s handled (BRemoved i) (adel i (um_shut s)) (um_sshut s) (aget i (um_shut s)) (Some i)); auto.
    intros j n A. rewrite aget_del in A. destruct (i =? j); [discriminate|auto].
  - (* stream added *)
    cbn [handle_event].
    assert (HC : has_consumer h (um_tasks s) = false).
    { apply consumer_none. intros x X E. exfalso. eapply NW; eauto. left; reflexivity. }
    rewrite HC. splits; [|unfold pend; cbn; rewrite CH; reflexivity|reflexivity].
    apply (inv_spawn s handled (handled ++ [BStreamAdded h]) (-1) h TKStream); auto.
    + unfold owns; cbn. apply in_or_app; right; left; auto.
    + cbn. rewrite AP, <- PP. exact (v_made _ _ I).
    + cbn. rewrite AP, <- PP. exact (v_fresh _ _ I).
    + intros _ x X _ E. eapply NW; eauto. left; reflexivity.
    + discriminate.
    + intros n A. inv A. left. auto.
    + intros j h0 A. apply INC. apply (v_trig _ _ I); auto.
    + cbn. rewrite AP, <- PP. intros OR j. rewrite announced_app, announced_one, (TLD OR). reflexivity.
  - (* stream removed *)
    apply (inv_shutdown s handled (BStreamRemoved h) (um_shut s) None (um_sshut s) None); eauto.
    discriminate.
Qed.

Lemma inv_tasks s handled l : inv s handled -> evolve (um_tasks s) l ->
  inv (with_tasks s l) handled /\ pend (with_tasks s l) = pend s.
Proof.
  intros I E. split; [|reflexivity].
  apply (inv_evolve s handled l (um_active s) I E (active_evolve s handled l I E)).
Qed.

Definition taken (s : um) (l : label) : list bevent :=
  match l with UHandle => match um_chan s with Some e => [e] | None => [] end | _ => [] end.

Lemma step_inv s handled l s' : inv s handled -> ustep order s l = Some s' ->
  exists handled', handled' = handled ++ taken s l /\ inv s' handled' /\ handled' ++ pend s' = (handled ++ pend s) ++ news s l.
Proof.
  intros I H. pose proof (v_ids _ _ I) as NI.
  destruct l as [c| | | | |ids|n|n|n|n|n|r]; cbn [ustep] in H; cbn [news taken].
  - (* UConfig *)
    destruct (um_api s) as [l|] eqn:A; [discriminate|]. inv H.
    destruct (v_idle _ _ I A) as [CH MD].
    destruct (update_wf order (um_bm s) c (v_bm _ _ I)) as (W1 & L1 & _ & _).
    destruct (update_made (um_bm s) c) as (N1 & L2 & F1).
    set (u := apply_conf order (um_bm s) c) in *.
    assert (EV : u_ok u = false -> u_events u = []).
    { unfold u, apply_conf, update_from_config. destruct (reconcile _ _ _) as [a ok].
      destruct ok; [|reflexivity]. destruct (stream_update _ _ _) as [[? ?] ?]. discriminate. }
    assert (PE : pend s = []) by (unfold pend; rewrite CH, A; reflexivity).
    assert (E2 : match (if u_ok u then Some (u_events u) else None) with Some l => l | None => [] end
                 = u_events u) by (destruct (u_ok u) eqn:O; auto; rewrite EV; auto).
    exists handled. split; [symmetry; apply app_nil_r|]. unfold pend at 1. cbn [um_chan um_api]. rewrite CH, E2, PE, app_nil_r.
    split; [|reflexivity].
    destruct I as [H1 H2 H3 H4 H5 H6 H7 H8 H9 H10 H11 H12 H13 H14 H15 H16 H17 H18 H20 H19].
    rewrite PE, app_nil_r in H2, H3, H19.
    constructor; cbn; auto.
    + unfold pend; cbn. rewrite ?CH, E2. cbn. rewrite made_app. apply nodup_app; auto.
      intros x X Y. apply H3 in X. apply F1 in Y. lia.
    + unfold pend; cbn. rewrite ?CH, E2. cbn. rewrite made_app. intros h X.
      apply in_app_or in X as [X|X]; [apply H3 in X; lia|apply F1 in X; lia].
    + unfold pend, trig_eff in *; cbn. rewrite ?CH, E2. cbn. intros OR. apply H19.
      apply orderly_front in OR; auto.
  - (* USend *)
    destruct (um_api s) as [[|e r]|] eqn:A; try discriminate.
    destruct (um_chan s) as [?|] eqn:CH; [discriminate|]. inv H.
    assert (PE : pend s = e :: r) by (unfold pend; rewrite CH, A; reflexivity).
    exists handled. split; [symmetry; apply app_nil_r|]. unfold pend at 1. cbn [um_chan um_api]. rewrite PE, app_nil_r.
    split; [|reflexivity].
    destruct I as [H1 H2 H3 H4 H5 H6 H7 H8 H9 H10 H11 H12 H13 H14 H15 H16 H17 H18 H20 H19].
    rewrite PE in H2, H3, H19. constructor; cbn; auto. discriminate.
  - (* UReturn *)
    destruct (um_api s) as [[|e r]|] eqn:A; try discriminate.
    destruct (um_chan s) as [?|] eqn:CH; [discriminate|].
    destruct (um_mode s) eqn:MD; try discriminate. inv H.
    assert (PE : pend s = []) by (unfold pend; rewrite CH, A; reflexivity).
    exists handled. split; [symmetry; apply app_nil_r|]. unfold pend at 1. cbn [um_chan um_api]. rewrite PE, !app_nil_r.
    split; [|reflexivity].
    destruct I as [H1 H2 H3 H4 H5 H6 H7 H8 H9 H10 H11 H12 H13 H14 H15 H16 H17 H18 H20 H19].
    unfold trig_eff in H19. rewrite PE in H2, H3, H19. rewrite MD in *.
    constructor; cbn; auto.
  - (* UHandle *)
    destruct (um_mode s) eqn:MD; try discriminate. destruct (um_chan s) as [e|] eqn:CH; [|discriminate].
    inv H. destruct (inv_handle s handled e I MD CH) as (A & B & C). exists (handled ++ [e]).
    split; [reflexivity|]. split; [auto|]. rewrite B, app_nil_r. unfold pend. rewrite CH. cbn. rewrite <- app_assoc. reflexivity.
  - (* UResume *)
    destruct (um_mode s) as [|n i|] eqn:MD; try discriminate.
    destruct (released n (um_tasks s)); [|discriminate]. inv H. exists handled. split; [symmetry; apply app_nil_r|].
    rewrite app_nil_r. split; [|reflexivity].
    destruct I as [H1 H2 H3 H4 H5 H6 H7 H8 H9 H10 H11 H12 H13 H14 H15 H16 H17 H18 H20 H19].
    unfold trig_eff in H19. rewrite MD in *.
    constructor; cbn; auto.
    + intros j h A. apply H7. destruct i as [i|]; [|auto]. cbn in A. rewrite aget_del in A.
      destruct (i =? j); [discriminate|auto].
    + discriminate.
    + discriminate.
    + intros A. destruct (H18 A). discriminate.
  - (* UTrigger *)
    destruct (um_mode s) eqn:MD; try discriminate.
    destruct (start_uploads (length (um_reqs s)) ids s []) as [[s1 started] ok] eqn:ST. inv H.
    destruct (start_uploads_inv _ _ _ _ _ _ _ _ I MD ST)
      as (-> & I1 & M1 & R1 & A1 & C1 & T1 & B1 & AN & new & B & C & D & E & F).
    exists handled. split; [symmetry; apply app_nil_r|]. split; [|unfold pend; cbn; rewrite A1, C1, app_nil_r; reflexivity].
    destruct I1 as [H1 H2 H3 H4 H5 H6 H7 H8 H9 H10 H11 H12 H13 H14 H15 H16 H17 H18 H20 H19].
    unfold trig_eff in H19. rewrite M1 in *.
    constructor; cbn; auto.
    + intros r q n Q X. rewrite R1 in Q. destruct (Nat.lt_ge_cases r (length (um_reqs s))) as [L|L].
      * rewrite nth_error_app1 in Q by auto. apply (H12 r q n); [rewrite R1; auto|auto].
      * rewrite nth_error_app2 in Q by auto. destruct (r - length (um_reqs s))%nat as [|k] eqn:K;
          cbn in Q; [|destruct k; discriminate]. inv Q. cbn in X.
        replace r with (length (um_reqs s)) by lia. apply in_map_iff in X as (t & <- & T).
        exists t. rewrite B. split; [apply in_or_app; auto|]. split; [auto|]. apply D; auto.
    + intros r R. destruct (H13 r R) as (q & Q1 & Q2). exists q. split; [|auto].
      rewrite nth_error_app1; [auto|]. apply nth_error_Some. congruence.
  - (* UComplete *)
    destruct (um_mode s) eqn:MD; try discriminate.
    destruct (get_task n (um_tasks s)) as [t|] eqn:G; [|discriminate].
    destruct (tk_st t) eqn:S; try discriminate. inv H. exists handled. split; [symmetry; apply app_nil_r|]. rewrite app_nil_r.
    split; [|reflexivity]. rewrite <- MD.
    assert (EV : evolve (um_tasks s) (set_st n TDone (um_tasks s))).
    { apply evolve_set with (t := t); auto; congruence. }
    apply inv_evolve; auto.
    intros x X BX. apply filter_In. split; [apply (active_evolve s handled _ I EV); auto|].
    destruct (Z.eqb_spec (tk_buf x) (tk_buf t)) as [e|]; [exfalso|reflexivity].
    destruct (get_task_in _ _ _ G) as [GI GN].
    apply set_in in X as (y & Y & SY & _ & P & Q).
    destruct (Nat.eq_dec (tk_id y) n) as [e1|e1].
    + destruct BX as [_ BX]. apply BX. auto.
    + rewrite (Q e1) in *. assert (BT : busy t).
      { split; [|congruence]. destruct (is_trigger t) eqn:TT; auto.
        rewrite (v_sig _ _ I t GI S) in TT. discriminate. }
      pose proof (v_one _ _ I y t Y GI BX BT e). congruence.
  - (* UUpload *)
    destruct (get_task n (um_tasks s)) as [t|] eqn:G; [|discriminate].
    destruct (tk_st t) eqn:S; try discriminate. inv H.
    destruct (inv_tasks s handled (set_st n TWaiting (um_tasks s)) I) as [A B].
    { apply evolve_set with (t := t); auto; unfold open; rewrite ?S; try discriminate; try (destruct (is_trigger t); congruence). }
    exists handled. split; [symmetry; apply app_nil_r|]. rewrite B, app_nil_r. auto.
  - (* URespond *)
    destruct (um_api s) eqn:A; [discriminate|].
    destruct (get_task n (um_tasks s)) as [t|] eqn:G; [|discriminate].
    destruct (tk_st t) eqn:S; try discriminate. inv H.
    destruct (inv_tasks s handled (set_st n TReading (um_tasks s)) I) as [X Y].
    { apply evolve_set with (t := t); auto; unfold open; rewrite ?S; try discriminate; try (destruct (is_trigger t); congruence). }
    exists handled. split; [symmetry; apply app_nil_r|]. rewrite Y, app_nil_r. auto.
  - (* UEnd *)
    destruct (get_task n (um_tasks s)) as [t|] eqn:G; [|discriminate].
    destruct (tk_st t) eqn:S; try discriminate. inv H.
    destruct (inv_tasks s handled (set_st n (if is_trigger t then TSignalled else TDone) (um_tasks s)) I) as [X Y].
    { apply evolve_set with (t := t); auto; unfold open; rewrite ?S; try discriminate; try (destruct (is_trigger t); congruence). }
    exists handled. split; [symmetry; apply app_nil_r|]. rewrite Y, app_nil_r. auto.
  - (* UStop *)
    destruct (get_task n (um_tasks s)) as [t|] eqn:G; [|discriminate].
    destruct (open t && tk_stop t && negb (is_trigger t)) eqn:C; [|discriminate]. inv H.
    destruct (inv_tasks s handled (set_st n TDone (um_tasks s)) I) as [X Y].
    { apply evolve_set with (t := t); auto; try discriminate.
      intros Q. unfold open in C. rewrite Q in C. discriminate. }
    exists handled. split; [symmetry; apply app_nil_r|]. rewrite Y, app_nil_r. auto.
  - (* UAnswer *)
    destruct (nth_error (um_reqs s) r) as [q|] eqn:Q; [|discriminate].
    destruct (forallb (finished (um_tasks s)) (rq_tasks q) && negb (existsb (Nat.eqb r) (um_answers s))) eqn:C;
      [|discriminate]. inv H. apply andb_prop in C as [C1 C2].
    exists handled. split; [symmetry; apply app_nil_r|]. rewrite app_nil_r. split; [|reflexivity].
    destruct I as [H1 H2 H3 H4 H5 H6 H7 H8 H9 H10 H11 H12 H13 H14 H15 H16 H17 H18 H20 H19].
    constructor; cbn; auto.
    + intros r0 [<-|R]; [|auto]. exists q. split; [auto|]. rewrite forallb_forall in C1. auto.
    + constructor; [|auto]. intros X. apply negb_true_iff in C2.
      assert (Y : existsb (Nat.eqb r) (um_answers s) = true).
      { apply existsb_exists. exists r. split; [auto|apply Nat.eqb_refl]. }
      congruence.
Qed.
End Order.
