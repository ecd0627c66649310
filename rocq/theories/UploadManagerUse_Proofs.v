From Verif Require Import Base BufferManager_Model BufferManager_Spec BufferManager_Proofs
  UploadManager_Model UploadManager_Spec UploadManager_Proofs.
Local Open Scope Z_scope.

Lemma stream_known a : forall b k, stream_orderly (a ++ b) k ->
  exists k', stream_orderly b k' /\
    forall x, (k = true <-> x <> None) -> (k' = true <-> announced_stream a x <> None).
Proof.
  induction a as [|[t j h|j|h|h] a IH]; cbn; intros b k H.
  - exists k. auto.
  - apply IH; auto.
  - apply IH; auto.
  - destruct H as [_ H]. destruct (IH b true H) as (k' & A & B). exists k'. split; [auto|].
    intros x X. apply B. split; congruence.
  - destruct H as [_ H]. destruct (IH b false H) as (k' & A & B). exists k'. split; [auto|].
    intros x X. apply B. split; congruence.
Qed.

Lemma stream_added a h b : stream_orderly (a ++ BStreamAdded h :: b) false ->
  announced_stream a None = None.
Proof.
  intros H. destruct (stream_known a _ _ H) as (k' & A & B). cbn in A. destruct A as [A _].
  specialize (B None). destruct (announced_stream a None); auto. exfalso.
  assert (k' = true) by (apply B; [split; congruence|congruence]). congruence.
Qed.

Lemma stream_front a b k : stream_orderly (a ++ b) k -> stream_orderly a k.
Proof.
  revert k. induction a as [|[t j h|j|h|h] a IH]; cbn; intros k H; auto; destruct H; eauto.
Qed.

Lemma announced_stream_app a : forall b k,
  announced_stream (a ++ b) k = announced_stream b (announced_stream a k).
Proof. induction a as [|[t j h|j|h|h] a IH]; cbn; intros; auto. Qed.

(* the requested uploads in detail *)
Lemma start_uploads_more r : forall ids s started s1 started1,
  start_uploads r ids s started = (s1, started1, true) ->
  um_sshut s1 = um_sshut s /\
  exists new, um_tasks s1 = um_tasks s ++ new /\
    (forall i, In i (um_active s1) <-> In i (um_active s) \/ exists t, In t new /\ tk_buf t = i) /\
    (forall t, In t new -> ~ In (tk_buf t) (um_active s) /\ tk_st t = TReading /\
       tk_kind t = TKTrigger r /\ aget (tk_buf t) (um_shut s1) = Some (tk_id t)) /\
    (forall i, (forall t, In t new -> tk_buf t <> i) -> aget i (um_shut s1) = aget i (um_shut s)).
Proof.
  induction ids as [|i ids IH]; cbn [start_uploads]; intros s started s1 started1 H.
  - inv H. split; [auto|]. exists []. rewrite app_nil_r. cbn. splits; auto; try tauto.
    intros i. split; [auto|]. intros [X|(t & [] & _)]; auto.
  - destruct (mem i (um_active s)) eqn:M; [eauto|].
    destruct (aget i (um_trig s)) as [h|] eqn:G; [|eauto].
    destruct (has_consumer h (um_tasks s)); [discriminate|].
    apply IH in H as (A & new & B1 & B2 & B3 & B4). cbn in A, B1, B2, B3, B4. split; [auto|].
    apply mem_notin in M.
    exists (mkTask (um_next s) i h (TKTrigger r) TReading false :: new).
    rewrite B1, <- app_assoc. cbn.
    assert (NI : forall t, In t new -> tk_buf t <> i).
    { intros t T E. apply B3 in T as (T & _). apply T. left; auto. }
    splits; auto.
    + intros j. rewrite B2. cbn. split.
      * intros [[<-|X]|(t & T & E)]; eauto.
      * intros [X|(t & [<-|T] & E)]; cbn in *; eauto.
    + intros t [<-|T]; cbn.
      * splits; auto. rewrite (B4 i NI), aget_put, Z.eqb_refl. reflexivity.
      * apply B3 in T as (T1 & T2 & T3 & T4). cbn in T1. splits; auto.
    + intros j J. rewrite B4; [|intros t T; apply J; auto]. rewrite aget_put.
      destruct (Z.eqb_spec i j) as [E|]; auto. exfalso.
      apply (J (mkTask (um_next s) i h (TKTrigger r) TReading false)); cbn; auto.
Qed.

Definition ktype (k : tkind) : btype := match k with TKTrigger _ => BTrigger | _ => BContinuous end.

Definition live (s : um) (handled : list bevent) (t : task) : Prop :=
  match tk_kind t with
  | TKStream => (announced_stream handled None = Some (tk_h t) /\ um_sshut s = Some (tk_id t))
                \/ um_mode s = MWait (tk_id t) None
  | k => (announced handled (tk_buf t) None = Some (ktype k, tk_h t) /\
          aget (tk_buf t) (um_shut s) = Some (tk_id t))
         \/ um_mode s = MWait (tk_id t) (Some (tk_buf t))
  end.

Record inv2 (s : um) (handled : list bevent) : Prop := mkInv2 {
  w_kind : forall t r, In t (um_tasks s) -> tk_kind t = TKTrigger r ->
     exists q, nth_error (um_reqs s) r = Some q /\ In (tk_id t) (rq_tasks q);
  w_act : forall i, In i (um_active s) -> exists t, In t (um_tasks s) /\ busy t /\ tk_buf t = i;
  w_cont : forall i h, In (BCreated BContinuous i h) handled ->
     exists t, In t (um_tasks s) /\ tk_kind t = TKContinuous /\ tk_buf t = i /\ tk_h t = h;
  w_str : forall h, In (BStreamAdded h) handled ->
     exists t, In t (um_tasks s) /\ tk_kind t = TKStream /\ tk_h t = h;
  w_live : orderly (handled ++ pend s) [] -> stream_orderly (handled ++ pend s) false ->
     forall t, In t (um_tasks s) -> open t = true -> live s handled t }.

Lemma inv2_new : inv2 um_new [].
Proof. constructor; cbn; intros; tauto. Qed.

(* steps of the tasks *)
Lemma inv2_tasks s handled l act : inv2 s handled -> evolve (um_tasks s) l ->
  (forall i, In i act -> In i (um_active s)) ->
  (forall t, In t (um_tasks s) -> busy t -> In (tk_buf t) act ->
     exists t', In t' l /\ busy t' /\ tk_buf t' = tk_buf t) ->
  inv2 (mkUm (um_bm s) (um_api s) (um_chan s) (um_mode s) (um_trig s) (um_shut s) (um_sshut s)
             act l (um_reqs s) (um_answers s) (um_next s)) handled.
Proof.
  intros [K A C S L] (E1 & E2 & E3) AC BU. constructor; cbn; auto.
  - intros t r T R. apply E2 in T as (y & Y & (Y1 & Y2 & Y3 & Y4) & _). rewrite Y1.
    rewrite Y4 in R. eauto.
  - intros i I. destruct (A i (AC i I)) as (t & T & B & <-). apply BU; auto.
  - intros i h I. destruct (C i h I) as (t & T & P & Q & R).
    destruct (E3 t T) as (y & Y & (Y1 & Y2 & Y3 & Y4) & _). exists y. rewrite Y2, Y3, Y4. auto.
  - intros h I. destruct (S h I) as (t & T & P & Q).
    destruct (E3 t T) as (y & Y & (Y1 & Y2 & Y3 & Y4) & _). exists y. rewrite Y3, Y4. auto.
  - intros O1 O2 t T O. apply E2 in T as (y & Y & (Y1 & Y2 & Y3 & Y4) & _ & OO & _).
    assert (OY : open y = true) by (destruct (open y); auto; rewrite OO in O; auto).
    specialize (L O1 O2 y Y OY). unfold live in *. cbn. rewrite Y1, Y2, Y3, Y4. exact L.
Qed.

Lemma set_busy s handled n st t : inv s handled -> get_task n (um_tasks s) = Some t ->
  (is_trigger t = true -> st <> TDone) ->
  forall x, In x (um_tasks s) -> busy x -> 
     exists t', In t' (set_st n st (um_tasks s)) /\ busy t' /\ tk_buf t' = tk_buf x.
Proof.
  intros I G D x X [B1 B2]. destruct (get_task_in _ _ _ G) as [GI GN].
  destruct (set_in_fwd n st _ x X) as (y & Y & S & E & P & Q). exists y. split; [auto|].
  split; [|apply S]. split; [rewrite (trigger_kind _ _ S); auto|].
  destruct (Nat.eq_dec (tk_id x) n) as [e|e].
  - rewrite (P e). apply D. pose proof (get_task_some _ _ (v_ids _ _ I) X) as Z. rewrite e, G in Z.
    inv Z. auto.
  - rewrite (Q e). auto.
Qed.

Section Order.
Variable order : bufs -> bufs.
Hypothesis order_perm : forall m, Permutation (order m) m.

Lemma inv2_handle s handled e : inv s handled -> inv2 s handled ->
  um_mode s = MIdle -> um_chan s = Some e -> inv2 (handle_event s e) (handled ++ [e]).
Proof.
  intros I [K A C S L] MD CH.
  assert (PP : pend s = e :: match um_api s with Some l => l | None => [] end)
    by (unfold pend; rewrite CH; reflexivity).
  assert (AP : forall l, (handled ++ [e]) ++ l = handled ++ e :: l) by (intros; rewrite <- app_assoc; auto).
  assert (HC : forall i h, (e = BCreated BContinuous i h \/ e = BStreamAdded h) ->
                 has_consumer h (um_tasks s) = false).
  { intros i h E. apply consumer_none. intros x X EH. exfalso.
    pose proof (v_made _ _ I) as N. rewrite PP, made_app in N. pose proof (v_own _ _ I x X) as O.
    eapply nodup_app_disj; [exact N| |].
    - assert (Y : In (tk_h x) (made handled)); [|exact Y].
      unfold owns in O. apply made_in. destruct (tk_kind x); eauto.
    - rewrite EH. destruct E as [-> | ->]; cbn; auto. }
  assert (ONE : forall i t, orderly (handled ++ pend s) [] -> stream_orderly (handled ++ pend s) false ->
     In t (um_tasks s) -> open t = true -> tk_kind t <> TKStream -> tk_buf t = i ->
     announced handled i None = Some (ktype (tk_kind t), tk_h t) /\ aget i (um_shut s) = Some (tk_id t)).
  { intros i t O1 O2 T O NS <-. specialize (L O1 O2 t T O). unfold live in L. rewrite MD in L.
    destruct (tk_kind t); try congruence; destruct L as [L|L]; try discriminate; auto. }
  destruct e as [ty i h|i|h|h]; [destruct ty| | |]; cbn [handle_event].
  - (* continuous *)
    rewrite (HC i h) by auto. constructor; cbn; auto.
    + intros t r T R. apply in_app_or in T as [T|[<-|[]]]; [eauto|discriminate].
    + intros j J. destruct (A j J) as (t & T & B). exists t. split; [apply in_or_app; auto|auto].
    + intros j h0 X. apply in_app_or in X as [X|[X|[]]].
      * destruct (C j h0 X) as (t & T & B). exists t. split; [apply in_or_app; auto|auto].
      * inv X. eexists. split; [apply in_or_app; right; left; reflexivity|]. cbn. auto.
    + intros h0 X. apply in_app_or in X as [X|[X|[]]]; [|discriminate].
      destruct (S h0 X) as (t & T & B). exists t. split; [apply in_or_app; auto|auto].
    + unfold pend; cbn. rewrite AP, <- PP. intros O1 O2 t T O.
      pose proof O1 as O1'. rewrite PP in O1'. pose proof (orderly_created _ _ _ _ _ O1') as N.
      apply in_app_or in T as [T|[<-|[]]].
      * pose proof (L O1 O2 t T O) as LT. unfold live in *. cbn. rewrite MD in LT.
        rewrite announced_app, announced_one, announced_stream_app. cbn. rewrite aget_put.
        destruct (Z.eqb_spec i (tk_buf t)) as [E|]; [|destruct (tk_kind t); auto].
        destruct (tk_kind t) eqn:KT; auto; exfalso;
          (destruct (ONE i t) as [Q _]; auto; [congruence|]; congruence).
      * unfold live; cbn. left. rewrite announced_app, announced_one, aget_put, Z.eqb_refl. auto.
  - (* trigger *)
    constructor; cbn; auto.
    + intros j h0 X. apply in_app_or in X as [X|[X|[]]]; [auto|discriminate].
    + intros h0 X. apply in_app_or in X as [X|[X|[]]]; [auto|discriminate].
    + unfold pend; cbn. rewrite AP, <- PP. intros O1 O2 t T O.
      pose proof O1 as O1'. rewrite PP in O1'. pose proof (orderly_created _ _ _ _ _ O1') as N.
      pose proof (L O1 O2 t T O) as LT. unfold live in *. cbn. rewrite MD in LT.
      rewrite announced_app, announced_one, announced_stream_app. cbn.
      destruct (Z.eqb_spec i (tk_buf t)) as [E|]; [|destruct (tk_kind t); auto].
      destruct (tk_kind t) eqn:KT; auto; exfalso;
          (destruct (ONE i t) as [Q _]; auto; [congruence|]; congruence).
  - (* removed *)
    assert (GEN : forall md l, evolve (um_tasks s) l ->
      (forall t, In t (um_tasks s) -> busy t -> exists t', In t' l /\ busy t' /\ tk_buf t' = tk_buf t) ->
      (orderly (handled ++ pend s) [] -> stream_orderly (handled ++ pend s) false ->
         forall t, In t (um_tasks s) -> open t = true -> tk_kind t <> TKStream -> tk_buf t = i ->
           md = MWait (tk_id t) (Some i)) ->
      forall tr, inv2 (mkUm (um_bm s) (um_api s) None md tr (adel i (um_shut s)) (um_sshut s)
                  (um_active s) l (um_reqs s) (um_answers s) (um_next s)) (handled ++ [BRemoved i])).
    { intros md l (E1 & E2 & E3) BU W tr. constructor; cbn; auto.
      - intros t r T R. apply E2 in T as (y & Y & (Y1 & Y2 & Y3 & Y4) & _). rewrite Y1.
        rewrite Y4 in R. eauto.
      - intros j J. destruct (A j J) as (t & T & B & <-). auto.
      - intros j h X. apply in_app_or in X as [X|[X|[]]]; [|discriminate].
        destruct (C j h X) as (t & T & P & Q & R).
        destruct (E3 t T) as (y & Y & (Y1 & Y2 & Y3 & Y4) & _). exists y. rewrite Y2, Y3, Y4. auto.
      - intros h X. apply in_app_or in X as [X|[X|[]]]; [|discriminate].
        destruct (S h X) as (t & T & P & Q).
        destruct (E3 t T) as (y & Y & (Y1 & Y2 & Y3 & Y4) & _). exists y. rewrite Y3, Y4. auto.
      - unfold pend; cbn. rewrite AP, <- PP. intros O1 O2 t T O.
        apply E2 in T as (y & Y & (Y1 & Y2 & Y3 & Y4) & _ & OO & _).
        assert (OY : open y = true) by (destruct (open y); auto; rewrite OO in O; auto).
        pose proof (L O1 O2 y Y OY) as LT. unfold live in *. cbn. rewrite Y1, Y2, Y3, Y4.
        rewrite MD in LT.
        rewrite announced_app, announced_one, announced_stream_app. cbn. rewrite aget_del.
        destruct (Z.eqb_spec i (tk_buf y)) as [E|].
        + destruct (tk_kind y) eqn:KY; try (destruct LT as [LT|LT]; [left; exact LT|discriminate]);
            right; rewrite <- E; apply W; auto; congruence.
        + destruct (tk_kind y); (destruct LT as [LT|LT]; [left; exact LT|discriminate]). }
    unfold shutdown_task. destruct (aget i (um_shut s)) as [n|] eqn:G.
    2:{ apply GEN; [apply evolve_refl|eauto|]. intros O1 O2 t T O NS B.
        destruct (ONE i t) as [_ Q]; auto. congruence. }
    destruct (v_shut _ _ I i n G) as (x & X1 & X2 & X3 & X4).
    rewrite (released_task _ _ x (v_ids _ _ I) X1 X2). destruct (open x) eqn:OX; cbn [negb].
    + apply GEN.
      * apply evolve_stop.
      * intros t T [B1 B2]. destruct (stop_in_fwd n _ t T) as (y & Y & SY & E & _).
        exists y. split; [auto|]. split; [|apply SY]. split; [rewrite (trigger_kind _ _ SY); auto|congruence].
      * intros O1 O2 t T O NS B. destruct (ONE i t) as [_ Q]; auto. congruence.
    + apply GEN; [apply evolve_refl|eauto|]. intros O1 O2 t T O NS B.
      destruct (ONE i t) as [_ Q]; auto. assert (t = x); [|congruence].
      pose proof (get_task_some _ _ (v_ids _ _ I) T). pose proof (get_task_some _ _ (v_ids _ _ I) X1).
      congruence.
  - (* stream added *)
    rewrite (HC 0 h) by auto. constructor; cbn; auto.
    + intros t r T R. apply in_app_or in T as [T|[<-|[]]]; [eauto|discriminate].
    + intros j J. destruct (A j J) as (t & T & B). exists t. split; [apply in_or_app; auto|auto].
    + intros j h0 X. apply in_app_or in X as [X|[X|[]]]; [|discriminate].
      destruct (C j h0 X) as (t & T & B). exists t. split; [apply in_or_app; auto|auto].
    + intros h0 X. apply in_app_or in X as [X|[X|[]]].
      * destruct (S h0 X) as (t & T & B). exists t. split; [apply in_or_app; auto|auto].
      * inv X. eexists. split; [apply in_or_app; right; left; reflexivity|]. cbn. auto.
    + unfold pend; cbn. rewrite AP, <- PP. intros O1 O2 t T O.
      pose proof O2 as O2'. rewrite PP in O2'. pose proof (stream_added _ _ _ O2') as N.
      apply in_app_or in T as [T|[<-|[]]].
      * pose proof (L O1 O2 t T O) as LT. unfold live in *. cbn. rewrite MD in LT.
        rewrite announced_app, announced_one, announced_stream_app. cbn.
        destruct (tk_kind t) eqn:KT; auto. exfalso. destruct LT as [[LT _]|LT]; congruence.
      * unfold live; cbn. left. rewrite announced_stream_app. auto.
  - (* stream removed *)
    assert (GEN : forall md l, evolve (um_tasks s) l ->
      (forall t, In t (um_tasks s) -> busy t -> exists t', In t' l /\ busy t' /\ tk_buf t' = tk_buf t) ->
      (forall t, In t (um_tasks s) -> open t = true -> tk_kind t = TKStream -> um_sshut s = Some (tk_id t) ->
           md = MWait (tk_id t) None) ->
      forall tr, inv2 (mkUm (um_bm s) (um_api s) None md tr (um_shut s) None
                  (um_active s) l (um_reqs s) (um_answers s) (um_next s)) (handled ++ [BStreamRemoved h])).
    { intros md l (E1 & E2 & E3) BU W tr. constructor; cbn; auto.
      - intros t r T R. apply E2 in T as (y & Y & (Y1 & Y2 & Y3 & Y4) & _). rewrite Y1.
        rewrite Y4 in R. eauto.
      - intros j J. destruct (A j J) as (t & T & B & <-). auto.
      - intros j h0 X. apply in_app_or in X as [X|[X|[]]]; [|discriminate].
        destruct (C j h0 X) as (t & T & P & Q & R).
        destruct (E3 t T) as (y & Y & (Y1 & Y2 & Y3 & Y4) & _). exists y. rewrite Y2, Y3, Y4. auto.
      - intros h0 X. apply in_app_or in X as [X|[X|[]]]; [|discriminate].
        destruct (S h0 X) as (t & T & P & Q).
        destruct (E3 t T) as (y & Y & (Y1 & Y2 & Y3 & Y4) & _). exists y. rewrite Y3, Y4. auto.
      - unfold pend; cbn. rewrite AP, <- PP. intros O1 O2 t T O.
        apply E2 in T as (y & Y & (Y1 & Y2 & Y3 & Y4) & _ & OO & _).
        assert (OY : open y = true) by (destruct (open y); auto; rewrite OO in O; auto).
        pose proof (L O1 O2 y Y OY) as LT. unfold live in *. cbn. rewrite Y1, Y2, Y3, Y4.
        rewrite MD in LT.
        rewrite announced_app, announced_one, announced_stream_app. cbn.
        destruct (tk_kind y) eqn:KY; try (destruct LT as [LT|LT]; [left; exact LT|discriminate]).
        right. apply W; auto. destruct LT as [[_ LT]|LT]; [auto|discriminate]. }
    unfold shutdown_task. destruct (um_sshut s) as [n|] eqn:G.
    2:{ apply GEN; [apply evolve_refl|eauto|]. intros t T O NS B. discriminate. }
    destruct (v_sshut _ _ I n G) as (x & X1 & X2 & X3).
    rewrite (released_task _ _ x (v_ids _ _ I) X1 X2). destruct (open x) eqn:OX; cbn [negb].
    + apply GEN.
      * apply evolve_stop.
      * intros t T [B1 B2]. destruct (stop_in_fwd n _ t T) as (y & Y & SY & E & _).
        exists y. split; [auto|]. split; [|apply SY]. split; [rewrite (trigger_kind _ _ SY); auto|congruence].
      * intros t T O NS B. congruence.
    + apply GEN; [apply evolve_refl|eauto|]. intros t T O NS B.
      assert (t = x); [|congruence].
      pose proof (get_task_some _ _ (v_ids _ _ I) T). pose proof (get_task_some _ _ (v_ids _ _ I) X1).
      congruence.
Qed.

Lemma step_inv2 s handled l s' : inv s handled -> inv2 s handled -> ustep order s l = Some s' ->
  inv2 s' (handled ++ taken s l).
Proof.
  intros I J H. pose proof (v_ids _ _ I) as NI.
  destruct l as [c| | | | |ids|n|n|n|n|n|r]; cbn [ustep] in H; cbn [taken]; rewrite ?app_nil_r.
  - (* UConfig *)
    destruct (um_api s) as [l|] eqn:AA; [discriminate|]. inv H.
    destruct J as [K A C S L]. constructor; cbn; auto.
    assert (PE : pend s = []) by (destruct (v_idle _ _ I AA) as [CH _]; unfold pend; rewrite CH, AA; auto).
    rewrite PE, app_nil_r in L. intros O1 O2. apply orderly_front in O1. apply stream_front in O2.
    exact (L O1 O2).
  - (* USend *)
    destruct (um_api s) as [[|e r]|] eqn:AA; try discriminate.
    destruct (um_chan s) as [?|] eqn:CH; [discriminate|]. inv H.
    destruct J as [K A C S L]. constructor; cbn; auto.
    assert (PE : pend s = e :: r) by (unfold pend; rewrite CH, AA; reflexivity).
    rewrite PE in L. exact L.
  - (* UReturn *)
    destruct (um_api s) as [[|e r]|] eqn:AA; try discriminate.
    destruct (um_chan s) as [?|] eqn:CH; [discriminate|].
    destruct (um_mode s) eqn:MD; try discriminate. inv H.
    destruct J as [K A C S L]. constructor; cbn; auto.
    assert (PE : pend s = []) by (unfold pend; rewrite CH, AA; reflexivity).
    rewrite PE in L. unfold live in *. cbn. rewrite MD in L. exact L.
  - (* UHandle *)
    destruct (um_mode s) eqn:MD; try discriminate. destruct (um_chan s) as [e|] eqn:CH; [|discriminate].
    inv H. apply inv2_handle; auto.
  - (* UResume *)
    destruct (um_mode s) as [|n i|] eqn:MD; try discriminate.
    destruct (released n (um_tasks s)) eqn:RL; [|discriminate]. inv H.
    destruct J as [K A C S L]. constructor; cbn; auto.
    intros O1 O2 t T O. specialize (L O1 O2 t T O). unfold live in *. cbn. rewrite MD in L.
    assert (NE : forall z, MWait n i <> MWait (tk_id t) z).
    { intros z E. inv E. rewrite (released_task _ _ t NI T eq_refl), O in RL. discriminate. }
    destruct (tk_kind t); (destruct L as [L|L]; [left; exact L|exfalso; eapply NE; eauto]).
  - (* UTrigger *)
    destruct (um_mode s) eqn:MD; try discriminate.
    destruct (start_uploads (length (um_reqs s)) ids s []) as [[s1 started] ok] eqn:ST. inv H.
    destruct (start_uploads_inv _ _ _ _ _ _ _ _ I MD ST)
      as (-> & I1 & M1 & R1 & A1 & C1 & T1 & B1 & AN & new & B & CC & D & E & F).
    destruct (start_uploads_more _ _ _ _ _ _ ST) as (SS & new' & B' & ACT & NEW & SHU).
    assert (new' = new) by (apply (app_inv_head (um_tasks s)); congruence). subst new'.
    destruct J as [K A C S L]. constructor; cbn.
    + intros t r T R. rewrite B in T. apply in_app_or in T as [T|T].
      * destruct (K t r T R) as (q & Q1 & Q2). exists q. split; [|auto].
        rewrite R1, nth_error_app1; [auto|]. apply nth_error_Some. congruence.
      * destruct (D t T) as (D1 & _). rewrite D1 in R. inv R. rewrite R1, nth_error_app2 by auto.
        rewrite Nat.sub_diag. cbn. eexists. split; [reflexivity|]. cbn. apply in_map. auto.
    + intros i Ai. apply ACT in Ai as [Ai|(t & T & X)].
      * destruct (A i Ai) as (t & T & X). exists t. rewrite B. split; [apply in_or_app; auto|auto].
      * exists t. rewrite B. split; [apply in_or_app; auto|]. split; [|auto].
        destruct (D t T) as (D1 & D2 & _). split; [unfold is_trigger; rewrite D1; auto|congruence].
    + intros i h X. destruct (C i h X) as (t & T & Y). exists t. rewrite B. split; [apply in_or_app; auto|auto].
    + intros h X. destruct (S h X) as (t & T & Y). exists t. rewrite B. split; [apply in_or_app; auto|auto].
    + unfold pend; cbn. rewrite A1, C1. fold (pend s). intros O1 O2 t T O.
      assert (TL : forall i h, aget i (um_trig s) = Some h -> announced handled i None = Some (BTrigger, h)).
      { intros i h X. pose proof (v_told _ _ I O1 i) as Y. unfold trig_eff in Y. rewrite MD, X in Y.
        destruct (announced handled i None) as [[[|] ?]|]; cbn in Y; congruence. }
      rewrite B in T. apply in_app_or in T as [T|T].
      * pose proof (L O1 O2 t T O) as LT. unfold live in *. cbn. rewrite MD in LT. rewrite SS.
        assert (SH2 : tk_kind t <> TKStream -> announced handled (tk_buf t) None = Some (ktype (tk_kind t), tk_h t) ->
                  aget (tk_buf t) (um_shut s1) = aget (tk_buf t) (um_shut s)).
        { intros NS AN2. apply SHU. intros t0 T0 EB. destruct (D t0 T0) as (D1 & D2 & D3 & D4 & D5).
          apply TL in D5. rewrite EB in D5. rewrite D5 in AN2. inv AN2.
          apply D4. rewrite EB. apply (v_active _ _ I); auto. split.
          - unfold is_trigger. destruct (tk_kind t); auto; discriminate.
          - unfold open in O. intros Q. rewrite Q in O. discriminate. }
        destruct (tk_kind t) eqn:KT; (destruct LT as [[L1 L2]|LT]; [left|discriminate]); split; auto;
          rewrite SH2; auto; discriminate.
      * destruct (D t T) as (D1 & D2 & D3 & D4 & D5). unfold live. rewrite D1. left. split.
        -- cbn. apply TL; auto.
        -- cbn. apply NEW; auto.
  - (* UComplete *)
    destruct (um_mode s) eqn:MD; try discriminate.
    destruct (get_task n (um_tasks s)) as [t|] eqn:G; [|discriminate].
    destruct (tk_st t) eqn:S; try discriminate. inv H. rewrite <- MD.
    destruct (get_task_in _ _ _ G) as [GI GN].
    apply inv2_tasks; auto.
    + apply evolve_set with (t := t); auto; congruence.
    + intros i X. apply filter_In in X. tauto.
    + intros x X [B1 B2] F. apply filter_In in F as [_ F].
      destruct (set_in_fwd n TDone _ x X) as (y & Y & SY & E & P & Q). exists y. split; [auto|].
      split; [|apply SY]. split; [rewrite (trigger_kind _ _ SY); auto|].
      destruct (Nat.eq_dec (tk_id x) n) as [e|e]; [|rewrite (Q e); auto].
      exfalso. pose proof (get_task_some _ _ NI X) as Z. rewrite e, G in Z. inv Z.
      rewrite Z.eqb_refl in F. discriminate.
  - (* UUpload *)
    destruct (get_task n (um_tasks s)) as [t|] eqn:G; [|discriminate].
    destruct (tk_st t) eqn:S; try discriminate. inv H. apply inv2_tasks; auto.
    + apply evolve_set with (t := t); auto; unfold open; rewrite ?S; discriminate.
    + intros x X Bx _. eapply set_busy; eauto; discriminate.
  - (* URespond *)
    destruct (um_api s) eqn:AA; [discriminate|].
    destruct (get_task n (um_tasks s)) as [t|] eqn:G; [|discriminate].
    destruct (tk_st t) eqn:S; try discriminate. inv H. unfold with_tasks. apply inv2_tasks; auto.
    + apply evolve_set with (t := t); auto; unfold open; rewrite ?S; discriminate.
    + intros x X Bx _. eapply set_busy; eauto; discriminate.
  - (* UEnd *)
    destruct (get_task n (um_tasks s)) as [t|] eqn:G; [|discriminate].
    destruct (tk_st t) eqn:S; try discriminate. inv H. apply inv2_tasks; auto.
    + apply evolve_set with (t := t); auto; unfold open; rewrite ?S; try discriminate.
      destruct (is_trigger t); congruence.
    + intros x X Bx _. eapply set_busy; eauto. intros ->. discriminate.
  - (* UStop *)
    destruct (get_task n (um_tasks s)) as [t|] eqn:G; [|discriminate].
    destruct (open t && tk_stop t && negb (is_trigger t)) eqn:CC; [|discriminate]. inv H.
    apply inv2_tasks; auto.
    + apply evolve_set with (t := t); auto; try discriminate.
      intros Q. unfold open in CC. rewrite Q in CC. discriminate.
    + intros x X Bx _. eapply set_busy; eauto. intros Q. rewrite Q in CC.
      rewrite andb_false_r in CC. discriminate.
  - (* UAnswer *)
    destruct (nth_error (um_reqs s) r) as [q|] eqn:Q; [|discriminate].
    destruct (forallb (finished (um_tasks s)) (rq_tasks q) && negb (existsb (Nat.eqb r) (um_answers s))) eqn:CC;
      [|discriminate]. inv H. destruct J as [K A C S L]. constructor; cbn; auto.
Qed.

Lemma run_confs_last cs : forall s c, run_confs order s (cs ++ [c]) =
  let '(s1, ev, mk) := run_confs order s cs in
  let u := apply_conf order s1 c in (u_state u, ev ++ u_events u, mk ++ u_marked u).
Proof.
  induction cs as [|d cs IH]; cbn; intros s c.
  - rewrite !app_nil_r. reflexivity.
  - rewrite IH. destruct (run_confs order (u_state (apply_conf order s d)) cs) as [[s1 ev] mk].
    cbn; rewrite !app_assoc. reflexivity.
Qed.

Lemma step_bm s l s' handled : inv s handled -> ustep order s l = Some s' ->
  um_bm s' = match l with UConfig c => u_state (apply_conf order (um_bm s) c) | _ => um_bm s end.
Proof.
  intros I H. destruct l as [c| | | | |ids|n|n|n|n|n|r]; cbn [ustep] in H;
    repeat (dmatch_in H; try discriminate); inv H; try reflexivity.
  - eapply inv_handle; eauto.
  - eapply start_uploads_inv in I; eauto. cbn. tauto.
  - eapply start_uploads_inv in I; eauto. cbn. tauto.
Qed.

Lemma stream_orderly_plain a : (forall h, ~ In (BStreamAdded h) a) -> (forall h, ~ In (BStreamRemoved h) a) ->
  forall b k, stream_orderly b k -> stream_orderly (a ++ b) k.
Proof.
  induction a as [|e a IH]; cbn; intros A B b k H; auto.
  destruct e; try (apply IH; auto; intros h0 X; [eapply A|eapply B]; right; eauto).
  - exfalso. eapply A; left; eauto.
  - exfalso. eapply B; left; eauto.
Qed.

Lemma stream_orderly_app a : forall b k x, (k = true <-> x <> None) -> stream_orderly a k ->
  (forall k', (k' = true <-> announced_stream a x <> None) -> stream_orderly b k') ->
  stream_orderly (a ++ b) k.
Proof.
  induction a as [|[t j h|j|h|h] a IH]; cbn; intros b k x K A B; auto.
  - eapply IH; eauto.
  - eapply IH; eauto.
  - destruct A as [A1 A2]. split; [auto|]. apply (IH b true (Some h)); auto. split; congruence.
  - destruct A as [A1 A2]. split; [auto|]. apply (IH b false None); auto. split; congruence.
Qed.

Lemma update_stream s c :
  stream_orderly (u_events (apply_conf order s c)) (match bm_stream s with Some _ => true | None => false end) /\
  announced_stream (u_events (apply_conf order s c)) (bm_stream s) = bm_stream (u_state (apply_conf order s c)).
Proof.
  unfold apply_conf, update_from_config. destruct (reconcile _ _ _) as [a ok].
  destruct ok; [|cbn; auto].
  destruct (stream_update (bm_stream s) (cf_streaming c) (ra_fresh a)) as [[st sev] fr] eqn:ES.
  cbn [u_events u_state bm_stream].
  assert (PL : forall h, ~ In (BStreamAdded h) (buffer_events order (ra_cur a) (ra_new a)) /\
                         ~ In (BStreamRemoved h) (buffer_events order (ra_cur a) (ra_new a))).
  { intros h. unfold buffer_events. split; intros X; apply in_app_or in X as [X|X];
      apply in_map_iff in X as (e & E & _); discriminate. }
  split.
  - apply stream_orderly_plain; try (intros; apply PL).
    unfold stream_update in ES. destruct (cf_streaming c), (bm_stream s); inv ES; cbn; auto.
  - rewrite announced_stream_app.
    assert (PS : forall a k, (forall h, ~ In (BStreamAdded h) a /\ ~ In (BStreamRemoved h) a) ->
                 announced_stream a k = k).
    { clear. induction a as [|[t j h|j|h|h] a IH]; cbn; intros k P; auto.
      - apply IH; intros h0; destruct (P h0); split; intros X; tauto.
      - apply IH; intros h0; destruct (P h0); split; intros X; tauto.
      - exfalso. destruct (P h). tauto.
      - exfalso. destruct (P h). tauto. }
    rewrite (PS (buffer_events order (ra_cur a) (ra_new a))) by exact PL. unfold stream_update in ES.
    destruct (cf_streaming c), (bm_stream s); inv ES; cbn; auto.
Qed.

Lemma run_stream cs : forall s s' ev mk, run_confs order s cs = (s', ev, mk) ->
  stream_orderly ev (match bm_stream s with Some _ => true | None => false end) /\
  announced_stream ev (bm_stream s) = bm_stream s'.
Proof.
  induction cs as [|c cs IH]; cbn; intros s s' ev mk H.
  - inv H. cbn. auto.
  - destruct (run_confs order (u_state (apply_conf order s c)) cs) as [[s1 ev1] mk1] eqn:R. inv H.
    apply IH in R as [R1 R2]. destruct (update_stream s c) as [U1 U2]. split.
    + apply stream_orderly_app with (x := bm_stream s); auto.
      * destruct (bm_stream s); split; congruence.
      * intros k' K. rewrite U2 in K.
        replace k' with (match bm_stream (u_state (apply_conf order s c)) with Some _ => true | None => false end); auto.
        destruct (bm_stream (u_state (apply_conf order s c))), k'; auto; exfalso.
        -- assert (false = true) by (apply K; congruence). congruence.
        -- destruct K as [K _]. apply K; auto.
    + rewrite announced_stream_app, U2. auto.
Qed.

Lemma reach_inv cs s : reach order cs s -> exists handled evs mk,
  inv s handled /\ inv2 s handled /\ run_confs order bm_new cs = (um_bm s, evs, mk) /\
  evs = handled ++ pend s.
Proof.
  induction 1 as [|cs s l s' R (handled & evs & mk & I & J & RC & E) H].
  - exists [], [], []. splits; auto; [apply inv_new|apply inv2_new].
  - destruct (step_inv order order_perm s handled l s' I H) as (h' & -> & I' & P).
    pose proof (step_inv2 s handled l s' I J H) as J'. pose proof (step_bm s l s' handled I H) as B.
    assert (NC : forall e, e = [] -> news order s l = [] ->
        um_bm s' = um_bm s -> exists handled evs mk,
      inv s' handled /\ inv2 s' handled /\ run_confs order bm_new (cs ++ e) = (um_bm s', evs, mk) /\
      evs = handled ++ pend s').
    { intros e -> N B2. exists (handled ++ taken s l), evs, mk. rewrite app_nil_r, B2. splits; auto.
      rewrite P, N, app_nil_r. auto. }
    destruct l; try (apply NC; auto; fail).
    exists (handled ++ taken s (UConfig c)), (evs ++ u_events (apply_conf order (um_bm s) c)),
      (mk ++ u_marked (apply_conf order (um_bm s) c)).
    rewrite run_confs_last, RC. cbn. rewrite B. splits; auto. cbn in P. rewrite P, E. reflexivity.
Qed.

Lemma busy_uploading t : busy t <-> uploading t.
Proof.
  unfold busy, uploading, is_trigger. destruct (tk_kind t) as [r| |].
  - split; intros [A B]; split; eauto.
  - split; intros [A B]; [discriminate|]. destruct A; discriminate.
  - split; intros [A B]; [discriminate|]. destruct A; discriminate.
Qed.

Lemma open_consuming t : open t = true <-> consuming t.
Proof. unfold open, consuming. destruct (tk_st t); split; intros; try tauto; try discriminate; destruct H; discriminate. Qed.

Lemma task_eq s handled t1 t2 : inv s handled -> In t1 (um_tasks s) -> In t2 (um_tasks s) ->
  tk_id t1 = tk_id t2 -> t1 = t2.
Proof.
  intros I A B E. pose proof (get_task_some _ _ (v_ids _ _ I) A).
  pose proof (get_task_some _ _ (v_ids _ _ I) B). congruence.
Qed.

(* one consumer per buffer object, one upload per trigger buffer *)
Lemma one_upload cs s : reach order cs s ->
  (forall t1 t2, In t1 (um_tasks s) -> In t2 (um_tasks s) -> consuming t1 -> consuming t2 ->
     tk_h t1 = tk_h t2 -> t1 = t2) /\
  (forall t1 t2, In t1 (um_tasks s) -> In t2 (um_tasks s) -> uploading t1 -> uploading t2 ->
     tk_buf t1 = tk_buf t2 -> t1 = t2) /\
  um_mode s <> MStopped.
Proof.
  intros R. destruct (reach_inv cs s R) as (handled & evs & mk & I & J & _ & _). splits.
  - intros t1 t2 T1 T2 C1 C2 E. apply (task_eq s handled); auto.
    destruct (same_owner s handled t1 t2 I (v_own _ _ I _ T1) (v_own _ _ I _ T2) E) as [A B].
    destruct (is_trigger t1) eqn:K.
    + apply (v_one _ _ I); auto; split; auto; [unfold consuming in C1|unfold consuming in C2];
        intuition congruence.
    + apply (v_single _ _ I); auto.
  - intros t1 t2 T1 T2 B1 B2 E. apply (task_eq s handled); auto.
    apply (v_one _ _ I); auto; apply busy_uploading; auto.
  - apply (v_mode _ _ I).
Qed.

(* what a request starts *)
Lemma started cs s ids : reach order cs s -> um_mode s = MIdle ->
  exists s' new, ustep order s (UTrigger ids) = Some s' /\
    um_tasks s' = um_tasks s ++ new /\
    um_reqs s' = um_reqs s ++ [mkRequest ids (map tk_id new)] /\
    um_mode s' = MIdle /\
    NoDup (map tk_buf new) /\
    (forall t, In t new -> tk_kind t = TKTrigger (length (um_reqs s)) /\ tk_st t = TReading /\
       aget (tk_buf t) (um_trig s) = Some (tk_h t)) /\
    (forall i, In i (map tk_buf new) <->
       In i ids /\ aget i (um_trig s) <> None /\
       ~ exists t, In t (um_tasks s) /\ uploading t /\ tk_buf t = i).
Proof.
  intros R MD. destruct (reach_inv cs s R) as (handled & evs & mk & I & J & _ & _).
  cbn [ustep]. rewrite MD.
  destruct (start_uploads (length (um_reqs s)) ids s []) as [[s1 st] ok] eqn:ST.
  destruct (start_uploads_inv _ _ _ _ _ _ _ _ I MD ST)
      as (-> & I1 & M1 & R1 & A1 & C1 & T1 & B1 & AN & new & B & CC & D & E & F).
  eexists _, new. split; [reflexivity|]. cbn. rewrite R1, CC. cbn. splits; auto.
  - intros t T. destruct (D t T) as (D1 & D2 & D3 & D4 & D5). auto.
  - intros i. split.
    + intros X. apply in_map_iff in X as (t & <- & T). destruct (D t T) as (D1 & D2 & D3 & D4 & D5).
      splits; auto; [congruence|]. intros (y & Y1 & Y2 & Y3). apply D4. rewrite <- Y3.
      apply (v_active _ _ I); auto. apply busy_uploading; auto.
    + intros (X1 & X2 & X3). destruct (aget i (um_trig s)) as [h|] eqn:G; [|congruence].
      destruct (F i h X1) as (t & T & TB); auto.
      * intros Y. apply X3. destruct (w_act _ _ J i Y) as (t & P & Q & W). exists t.
        splits; auto. apply busy_uploading; auto.
      * apply in_map_iff. eauto.
Qed.

(* what the manager knows when no update is under way *)
Lemma view cs s : reach order cs s -> (forall c, In c cs -> NoDup (conf_ids c)) -> um_api s = None ->
  (forall i h, aget i (um_trig s) = Some h <-> bfind i (bm_bufs (um_bm s)) = Some (BTrigger, h)) /\
  (forall i h, bfind i (bm_bufs (um_bm s)) = Some (BContinuous, h) ->
     exists t, In t (um_tasks s) /\ tk_kind t = TKContinuous /\ tk_buf t = i /\ tk_h t = h) /\
  (forall h, bm_stream (um_bm s) = Some h ->
     exists t, In t (um_tasks s) /\ tk_kind t = TKStream /\ tk_h t = h) /\
  (forall t, In t (um_tasks s) -> consuming t -> current s t).
Proof.
  intros R N A. destruct (reach_inv cs s R) as (handled & evs & mk & I & J & RC & E).
  destruct (v_idle _ _ I A) as [CH MD].
  assert (PE : pend s = []) by (unfold pend; rewrite CH, A; auto).
  assert (EV : evs = handled) by (rewrite E, PE, app_nil_r; auto). clear E. subst evs.
  destruct (run_announced order order_perm cs bm_new _ _ _ wf_new N RC) as (AN & AS & OR).
  cbn in AN, AS, OR.
  destruct (run_stream _ _ _ _ _ RC) as (SO & _). cbn in SO.
  assert (TO : forall i, aget i (um_trig s) = trig_of (bfind i (bm_bufs (um_bm s)))).
  { intros i. rewrite <- AN, <- (v_told _ _ I).
    - unfold trig_eff. rewrite MD. reflexivity.
    - rewrite PE, app_nil_r. exact OR. }
  splits.
  - intros i h. rewrite TO. destruct (bfind i (bm_bufs (um_bm s))) as [[[|] x]|]; cbn;
      split; intros X; inv X; auto.
  - intros i h X. apply (w_cont _ _ J). rewrite <- AN in X.
    assert (G : forall evs k, announced evs i k = Some (BContinuous, h) ->
              k = Some (BContinuous, h) \/ In (BCreated BContinuous i h) evs).
    { clear. induction evs as [|[t j x|j|x|x] evs IH]; cbn; intros k X; auto.
      - apply IH in X as [X|X]; [|auto]. destruct (Z.eqb_spec j i); [|auto]. inv X. auto.
      - apply IH in X as [X|X]; [|auto]. destruct (Z.eqb_spec j i); [discriminate|auto].
      - apply IH in X as [X|X]; auto.
      - apply IH in X as [X|X]; auto. }
    apply G in X as [X|X]; [discriminate|auto].
  - intros h X. apply (w_str _ _ J). rewrite <- AS in X.
    assert (G : forall evs k, announced_stream evs k = Some h -> k = Some h \/ In (BStreamAdded h) evs).
    { clear. induction evs as [|[t j x|j|x|x] evs IH]; cbn; intros k X; auto.
      - apply IH in X as [X|X]; auto.
      - apply IH in X as [X|X]; auto.
      - apply IH in X as [X|X]; auto. inv X. auto.
      - apply IH in X as [X|X]; auto. discriminate. }
    apply G in X as [X|X]; [discriminate|auto].
  - intros t T C. apply open_consuming in C.
    assert (L : live s handled t).
    { apply (w_live _ _ J); auto; rewrite PE, app_nil_r; auto. }
    unfold live in L. rewrite MD in L. unfold current.
    destruct (tk_kind t); (destruct L as [[L _]|L]; [|discriminate]); rewrite <- ?AN, <- ?AS; exact L.
Qed.

(* the answers *)
Lemma answers cs s : reach order cs s ->
  NoDup (um_answers s) /\
  (forall r, In r (um_answers s) -> exists q, nth_error (um_reqs s) r = Some q /\
     forall t, In t (um_tasks s) -> tk_kind t = TKTrigger r -> ~ consuming t) /\
  (forall r q, nth_error (um_reqs s) r = Some q -> ~ In r (um_answers s) ->
     (forall t, In t (um_tasks s) -> tk_kind t = TKTrigger r -> ~ consuming t) ->
     exists s', ustep order s (UAnswer r) = Some s' /\ um_answers s' = r :: um_answers s).
Proof.
  intros R. destruct (reach_inv cs s R) as (handled & evs & mk & I & J & _ & _). splits.
  - apply (v_once _ _ I).
  - intros r X. destruct (v_ans _ _ I r X) as (q & Q1 & Q2). exists q. split; [auto|].
    intros t T K C. destruct (w_kind _ _ J t r T K) as (q' & Q1' & Q3). rewrite Q1 in Q1'. inv Q1'.
    apply Q2 in Q3. apply (finished_task _ _ (v_ids _ _ I)) in Q3 as (y & Y1 & Y2 & Y3).
    assert (y = t) by (eapply task_eq; eauto). subst y. apply open_consuming in C. congruence.
  - intros r q Q X F. cbn [ustep]. rewrite Q.
    assert (E1 : forallb (finished (um_tasks s)) (rq_tasks q) = true).
    { apply forallb_forall. intros n NN. apply (finished_task _ _ (v_ids _ _ I)).
      destruct (v_req _ _ I r q n Q NN) as (t & T1 & T2 & T3). exists t. splits; auto.
      destruct (open t) eqn:O; auto. exfalso. apply (F t T1 T3). apply open_consuming; auto. }
    assert (E2 : existsb (Nat.eqb r) (um_answers s) = false).
    { apply not_true_is_false. intros Y. apply existsb_exists in Y as (y & Y1 & Y2).
      apply Nat.eqb_eq in Y2. subst y. auto. }
    rewrite E1, E2. cbn. eexists. split; reflexivity.
Qed.

(* --- progress of a configuration update --- *)
Lemma progress cs s : reach order cs s -> um_api s <> None ->
  (exists l s', internal l /\ ustep order s l = Some s') \/
  (exists n i t r, um_mode s = MWait n (Some i) /\ In t (um_tasks s) /\ tk_id t = n /\ tk_buf t = i /\
     tk_kind t = TKTrigger r /\ consuming t).
Proof.
  intros R A. destruct (reach_inv cs s R) as (handled & evs & mk & I & J & _ & _).
  destruct (um_mode s) as [|n i|] eqn:MD.
  - left. destruct (um_chan s) as [e|] eqn:CH.
    + exists UHandle. cbn. rewrite MD, CH. eauto.
    + destruct (um_api s) as [[|e r]|] eqn:AA; [| |congruence].
      * exists UReturn. cbn. rewrite AA, CH, MD. eauto.
      * exists USend. cbn. rewrite AA, CH. eauto.
  - destruct (v_wait _ _ I n i MD) as (t & T1 & T2 & T3 & T4).
    pose proof (get_task_some _ _ (v_ids _ _ I) T1) as G. rewrite T2 in G.
    destruct (open t) eqn:O.
    + destruct (is_trigger t) eqn:K.
      * right. unfold is_trigger in K. destruct (tk_kind t) as [r| |] eqn:KT; try discriminate.
        destruct i as [i|]; [|discriminate]. destruct T4 as [T4 _].
        exists n, i, t, r. splits; auto. apply open_consuming; auto.
      * left. exists (UStop n). cbn. rewrite G, O, T3, K. cbn. eauto.
    + left. exists UResume. cbn. rewrite MD. unfold released. rewrite G, O. cbn. eauto.
  - exfalso. exact (v_mode _ _ I MD).
Qed.

Definition side (t : task) : nat := if open t && negb (is_trigger t) then 1 else 0.
Definition sides (l : list task) : nat := fold_right (fun t n => (side t + n)%nat) 0%nat l.
Definition meas (s : um) : nat :=
  (match um_api s with Some l => 1 + 4 * length l | None => 0 end
   + match um_chan s with Some _ => 3 | None => 0 end
   + match um_mode s with MWait _ _ => 1 | _ => 0 end
   + sides (um_tasks s))%nat.

Lemma sides_app a b : sides (a ++ b) = (sides a + sides b)%nat.
Proof. unfold sides in *. induction a as [|t a IH]; cbn; auto. rewrite IH. lia. Qed.

Lemma sides_stop n l : sides (stop_task n l) = sides l.
Proof.
  induction l as [|t l IH]; auto. unfold stop_task, sides in *. cbn. rewrite IH. f_equal.
  destruct (Nat.eqb (tk_id t) n); reflexivity.
Qed.

Lemma sides_done n l : (sides (set_st n TDone l) <= sides l)%nat /\
  forall t, In t l -> tk_id t = n -> side t = 1%nat -> (sides (set_st n TDone l) < sides l)%nat.
Proof.
  induction l as [|x l [IH1 IH2]]; [cbn; split; [auto|tauto]|].
  change (sides (set_st n TDone (x :: l))) with
    (side (if Nat.eqb (tk_id x) n then mkTask (tk_id x) (tk_buf x) (tk_h x) (tk_kind x) TDone (tk_stop x) else x)
     + sides (set_st n TDone l))%nat.
  change (sides (x :: l)) with (side x + sides l)%nat.
  assert (Z : forall a b c d e, side (mkTask a b c d TDone e) = 0%nat) by reflexivity.
  split.
  - destruct (Nat.eqb (tk_id x) n); rewrite ?Z; lia.
  - intros t [->|T] E S.
    + rewrite E, Nat.eqb_refl, Z, S. lia.
    + specialize (IH2 t T E S). destruct (Nat.eqb (tk_id x) n); rewrite ?Z; lia.
Qed.

Lemma meas_step s l s' handled : inv s handled -> internal l -> ustep order s l = Some s' ->
  (meas s' < meas s)%nat.
Proof.
  intros I IL H. destruct l; cbn [internal] in IL; try tauto; cbn [ustep] in H.
  - destruct (um_api s) as [[|e r]|] eqn:AA; try discriminate.
    destruct (um_chan s) as [?|] eqn:CH; [discriminate|]. inv H.
    unfold meas; cbn [um_api um_chan um_mode um_tasks]. rewrite AA, CH. cbn [length]. lia.
  - destruct (um_api s) as [[|e r]|] eqn:AA; try discriminate.
    destruct (um_chan s) as [?|] eqn:CH; [discriminate|].
    destruct (um_mode s) eqn:MD; try discriminate. inv H.
    unfold meas; cbn [um_api um_chan um_mode um_tasks]. rewrite AA, CH, MD. cbn [length]. lia.
  - destruct (um_mode s) eqn:MD; try discriminate. destruct (um_chan s) as [e|] eqn:CH; [|discriminate].
    inv H. destruct e as [[|] i h|i|h|h]; cbn [handle_event]; unfold shutdown_task;
      repeat dmatch; unfold meas; cbn [um_api um_chan um_mode um_tasks]; rewrite ?CH, ?MD, ?sides_app, ?sides_stop;
      try (cbn [sides fold_right side open tk_st is_trigger tk_kind andb negb Nat.add]; lia);
      try (unfold sides at 2; cbn; lia).
  - destruct (um_mode s) as [|n i|] eqn:MD; try discriminate.
    destruct (released n (um_tasks s)) eqn:RL; [|discriminate]. inv H.
    unfold meas; cbn [um_api um_chan um_mode um_tasks]. rewrite MD. lia.
  - destruct (get_task n (um_tasks s)) as [t|] eqn:G; [|discriminate].
    destruct (open t && tk_stop t && negb (is_trigger t)) eqn:CC; [|discriminate]. inv H.
    destruct (get_task_in _ _ _ G) as [GI GN].
    unfold meas, with_tasks; cbn [um_api um_chan um_mode um_tasks].
    destruct (sides_done n (um_tasks s)) as [_ S]. specialize (S t GI GN).
    enough (side t = 1%nat) by (specialize (S H); lia).
    unfold side. destruct (open t), (is_trigger t); cbn in *; auto; rewrite ?andb_false_r in CC; discriminate.
Qed.

Lemma steps_reach ls : forall cs s s', reach order cs s -> steps order s ls = Some s' ->
  Forall internal ls -> reach order cs s' /\ (length ls + meas s' <= meas s)%nat.
Proof.
  induction ls as [|l ls IH]; cbn; intros cs s s' R H F.
  - inv H. auto.
  - destruct (ustep order s l) as [s1|] eqn:E; [|discriminate]. inv F.
    pose proof (reach_step order cs s l s1 R E) as R1.
    destruct (reach_inv cs s R) as (handled & evs & mk & I & _).
    pose proof (meas_step s l s1 handled I H2 E) as M.
    assert (X : match l with UConfig c => [c] | _ => [] end = []) by (destruct l; auto; destruct H2).
    rewrite X, app_nil_r in R1. destruct (IH cs s1 s' R1 H H3) as [A B]. split; [auto|lia].
Qed.

(* no trigger upload is in the way of what is left to be announced *)
Definition clear (s : um) : Prop :=
  forall t, In t (um_tasks s) -> is_trigger t = true -> open t = true ->
    ~ In (BRemoved (tk_buf t)) (pend s) /\ forall i, um_mode s <> MWait (tk_id t) i.

Lemma clear_step s l s' handled : inv s handled -> internal l -> clear s ->
  ustep order s l = Some s' -> clear s'.
Proof.
  intros I IL C H. destruct l; cbn [internal] in IL; try tauto; cbn [ustep] in H.
  - destruct (um_api s) as [[|e r]|] eqn:AA; try discriminate.
    destruct (um_chan s) as [?|] eqn:CH; [discriminate|]. inv H.
    intros t T K O. destruct (C t T K O) as [A B]. unfold pend in *. cbn in *. rewrite AA, CH in A. auto.
  - destruct (um_api s) as [[|e r]|] eqn:AA; try discriminate.
    destruct (um_chan s) as [?|] eqn:CH; [discriminate|].
    destruct (um_mode s) eqn:MD; try discriminate. inv H.
    intros t T K O. cbn. split; [tauto|discriminate].
  - destruct (um_mode s) eqn:MD; try discriminate. destruct (um_chan s) as [e|] eqn:CH; [|discriminate].
    assert (PP : pend s = e :: match um_api s with Some l => l | None => [] end)
      by (unfold pend; rewrite CH; reflexivity).
    assert (P2 : pend (handle_event s e) = tl (pend s)) by (eapply inv_handle; eauto).
    inv H. intros t T K O. rewrite P2.
    assert (Q : (exists y, In y (um_tasks s) /\ same_task y t /\ open y = true) /\
                (forall i, um_mode (handle_event s e) <> MWait (tk_id t) i)).
    { assert (SP : forall i h k, k <> TKTrigger 0 -> (forall r, k <> TKTrigger r) ->
           In t (um_tasks s ++ [mkTask (um_next s) i h k TReading false]) -> In t (um_tasks s)).
      { intros i h k _ NK X. apply in_app_or in X as [X|[<-|[]]]; auto. exfalso.
        unfold is_trigger in K. cbn in K. destruct k; try discriminate. eapply NK; eauto. }
      assert (SM : same_task t t) by (unfold same_task; auto).
      destruct e as [[|] i h|i|h|h]; cbn [handle_event] in *.
      - destruct (has_consumer h (um_tasks s)); cbn in *; (split; [|discriminate]); exists t; splits; auto.
        eapply SP; eauto; congruence.
      - cbn in *. split; [|discriminate]. exists t; auto.
      - unfold shutdown_task in *. destruct (aget i (um_shut s)) as [n|] eqn:G.
        2:{ cbn in *. split; [|discriminate]. exists t; auto. }
        destruct (released n (um_tasks s)) eqn:RL; cbn in *.
        { split; [|discriminate]. exists t; auto. }
        apply stop_in in T as (y & Y & SY & E & _). assert (OY : open y = true) by (unfold open in *; rewrite <- E; auto).
        split; [exists y; auto|]. intros j X. inv X.
        destruct (v_shut _ _ I _ _ G) as (x & X1 & X2 & X3 & X4).
        destruct SY as (S1 & S2 & S3 & S4).
        assert (x = y) by (eapply task_eq; eauto; congruence). subst x.
        destruct (C y Y) as [NB _]; auto; [unfold is_trigger in *; rewrite <- S4; auto|].
        apply NB. rewrite PP. left. congruence.
      - destruct (has_consumer h (um_tasks s)); cbn in *; (split; [|discriminate]); exists t; splits; auto.
        eapply SP; eauto; congruence.
      - unfold shutdown_task in *. destruct (um_sshut s) as [n|] eqn:G.
        2:{ cbn in *. split; [|discriminate]. exists t; auto. }
        destruct (released n (um_tasks s)) eqn:RL; cbn in *.
        { split; [|discriminate]. exists t; auto. }
        apply stop_in in T as (y & Y & SY & E & _). assert (OY : open y = true) by (unfold open in *; rewrite <- E; auto).
        split; [exists y; auto|]. intros j X. inv X.
        destruct (v_sshut _ _ I _ G) as (x & X1 & X2 & X3).
        destruct SY as (S1 & S2 & S3 & S4).
        assert (x = y) by (eapply task_eq; eauto; congruence). subst x.
        unfold is_trigger in K. rewrite S4, X3 in K. discriminate. }
    destruct Q as ((y & Y & SY & OY) & Q). split; [|exact Q].
    destruct (C y Y) as [NB _]; auto; [rewrite <- (trigger_kind _ _ SY); auto|].
    destruct SY as (_ & SB & _). rewrite SB. intros X. apply NB. rewrite PP in *. right; auto.
  - destruct (um_mode s) as [|n i|] eqn:MD; try discriminate.
    destruct (released n (um_tasks s)) eqn:RL; [|discriminate]. inv H.
    intros t T K O. destruct (C t T K O) as [A B]. split; [exact A|discriminate].
  - destruct (get_task n (um_tasks s)) as [t|] eqn:G; [|discriminate].
    destruct (open t && tk_stop t && negb (is_trigger t)) eqn:CC; [|discriminate]. inv H.
    intros x T K O. apply set_in in T as (y & Y & SY & E & P & Q).
    assert (NE : tk_id y <> n).
    { intros e. unfold open in O. rewrite (P e) in O. discriminate. }
    rewrite (Q NE) in *. exact (C y Y K O).
Qed.

Lemma completes cs s : reach order cs s ->
  (forall t r, In t (um_tasks s) -> tk_kind t = TKTrigger r -> consuming t ->
     ~ In (BRemoved (tk_buf t)) (match um_chan s with Some e => [e] | None => [] end
                                 ++ match um_api s with Some l => l | None => [] end) /\
     forall i, um_mode s <> MWait (tk_id t) i) ->
  exists bound, forall ls s', Forall internal ls -> steps order s ls = Some s' ->
  (length ls <= bound)%nat /\
  (um_api s' <> None -> exists l s2, internal l /\ ustep order s' l = Some s2) /\
  exists ls2 s2, Forall internal ls2 /\ steps order s' ls2 = Some s2 /\ um_api s2 = None.
Proof.
  intros R C0.
  assert (C : clear s).
  { intros t T K O. unfold is_trigger in K. destruct (tk_kind t) as [r| |] eqn:KT; try discriminate.
    apply (C0 t r T KT). apply open_consuming; auto. }
  clear C0.
  assert (CL : forall ls s s', reach order cs s -> clear s -> Forall internal ls -> steps order s ls = Some s' -> clear s').
  { induction ls as [|l ls IH]; cbn; intros a a' Ra Ca F H; [inv H; auto|].
    destruct (ustep order a l) as [s1|] eqn:E; [|discriminate]. inv F.
    destruct (reach_inv cs a Ra) as (handled & evs & mk & I & _).
    eapply (IH s1); eauto.
    - pose proof (reach_step order cs a l s1 Ra E) as R1.
      assert (X : match l with UConfig c => [c] | _ => [] end = []) by (destruct l; auto; destruct H2).
      rewrite X, app_nil_r in R1. auto.
    - eapply clear_step; eauto. }
  assert (PR : forall a, reach order cs a -> clear a -> um_api a <> None ->
                 exists l s2, internal l /\ ustep order a l = Some s2).
  { intros a Ra Ca A. destruct (progress cs a Ra A) as [P|(n & i & t & r & M & T & E1 & E2 & K & CO)]; auto.
    exfalso. apply open_consuming in CO. destruct (Ca t T) as [_ W]; auto.
    - unfold is_trigger. rewrite K. auto.
    - apply (W (Some i)). congruence. }
  assert (FIN : forall k a, (meas a <= k)%nat -> reach order cs a -> clear a ->
     exists ls2 s2, Forall internal ls2 /\ steps order a ls2 = Some s2 /\ um_api s2 = None).
  { induction k as [|k IH]; intros a M Ra Ca.
    - exists [], a. cbn. splits; auto. unfold meas in M. destruct (um_api a); auto. lia.
    - destruct (um_api a) as [l|] eqn:A; [|exists [], a; cbn; auto].
      destruct (PR a Ra Ca) as (lb & s2 & IL & H); [congruence|].
      destruct (steps_reach [lb] cs a s2 Ra) as [R2 M2]; cbn; [rewrite H; auto|repeat constructor; auto|].
      cbn in M2. destruct (IH s2) as (ls2 & s3 & F3 & H3 & A3); auto; [lia| |].
      + apply (CL [lb] a s2); auto. cbn. rewrite H. auto.
      + exists (lb :: ls2), s3. cbn. rewrite H. splits; auto. }
  exists (meas s). intros ls s' F H. destruct (steps_reach ls cs s s' R H F) as [R' M].
  pose proof (CL ls s s' R C F H) as C'. splits.
  - lia.
  - intros A. apply PR; auto.
  - eapply FIN; eauto.
Qed.

(* --- the deadlock --- *)
Definition stuck (s : um) (n : nat) (r : nat) : Prop :=
  um_api s <> None /\ (exists i, um_mode s = MWait n i) /\
  exists t, get_task n (um_tasks s) = Some t /\ tk_st t = TWaiting /\ tk_kind t = TKTrigger r.

Lemma get_set_other n m st l : n <> m -> get_task n (set_st m st l) = get_task n l.
Proof.
  intros NE. unfold get_task, set_st. induction l as [|t l IH]; cbn; auto.
  destruct (Nat.eqb_spec (tk_id t) m) as [e|e]; cbn.
  - destruct (Nat.eqb_spec (tk_id t) n); [congruence|auto].
  - destruct (Nat.eqb_spec (tk_id t) n); auto.
Qed.

Lemma stuck_step s n r l s' : stuck s n r -> ustep order s l = Some s' -> stuck s' n r.
Proof.
  intros (A & (i & M) & t & G & W & K) H.
  assert (OT : forall m t0 st, get_task m (um_tasks s) = Some t0 -> tk_st t0 <> TWaiting ->
     stuck (with_tasks s (set_st m st (um_tasks s))) n r).
  { intros m t0 st G0 W0. split; [exact A|]. split; [exists i; exact M|]. exists t.
    unfold with_tasks; cbn [um_tasks]. rewrite get_set_other by congruence. auto. }
  destruct l; cbn [ustep] in H; rewrite ?M in H.
  - destruct (um_api s); [discriminate|congruence].
  - destruct (um_api s) as [[|e q]|]; try discriminate. destruct (um_chan s); try discriminate.
    inv H. split; [cbn; congruence|]. split; [exists i; auto|]. exists t. auto.
  - destruct (um_api s) as [[|e q]|], (um_chan s); discriminate.
  - discriminate.
  - unfold released in H. rewrite G in H. unfold open in H. rewrite W in H. discriminate.
  - discriminate.
  - discriminate.
  - destruct (get_task n0 (um_tasks s)) as [t0|] eqn:G0; [|discriminate].
    destruct (tk_st t0) eqn:S0; try discriminate. inv H. eapply OT; eauto. congruence.
  - destruct (um_api s); [discriminate|congruence].
  - destruct (get_task n0 (um_tasks s)) as [t0|] eqn:G0; [|discriminate].
    destruct (tk_st t0) eqn:S0; try discriminate. inv H. eapply OT; eauto. congruence.
  - destruct (get_task n0 (um_tasks s)) as [t0|] eqn:G0; [|discriminate].
    destruct (open t0 && tk_stop t0 && negb (is_trigger t0)) eqn:CC; [|discriminate]. inv H.
    split; [exact A|]. split; [exists i; exact M|]. exists t. unfold with_tasks; cbn [um_tasks].
    rewrite get_set_other; [auto|]. intros <-. rewrite G in G0. inv G0.
    unfold is_trigger in CC. rewrite K in CC. rewrite andb_false_r in CC. discriminate.
  - destruct (nth_error (um_reqs s) r0); [|discriminate]. dmatch_in H; inv H.
    split; [exact A|]. split; [exists i; auto|]. exists t. auto.
Qed.

Lemma stuck_run ls : forall s n r, stuck s n r -> stuck (urun order s ls) n r.
Proof.
  unfold urun. induction ls as [|l ls IH]; cbn; intros s n r H; auto.
  apply IH. destruct (ustep order s l) eqn:E; auto. eapply stuck_step; eauto.
Qed.

Lemma reach_run ls : forall cs s, reach order cs s -> exists cs', reach order cs' (urun order s ls).
Proof.
  unfold urun. induction ls as [|l ls IH]; cbn; intros cs s R; eauto.
  destruct (ustep order s l) eqn:E; eauto. eapply IH. eapply reach_step; eauto.
Qed.
End Order.

(* --- witnesses --- *)
Definition wc (l : list (Z * btype)) : conf :=
  mkConf (map (fun e => mkBconf (fst e) (Some (snd e))) l) false (fun _ => true).

Definition w_start : list label :=
  [UConfig (wc [(1, BTrigger)]); USend; UHandle; UReturn; UTrigger [1]].

Lemma order_nil (order : bufs -> bufs) : (forall m, Permutation (order m) m) -> order [] = [].
Proof. intros P. apply Permutation_nil, Permutation_sym, P. Qed.

Lemma order_one (order : bufs -> bufs) x : (forall m, Permutation (order m) m) -> order [x] = [x].
Proof. intros P. apply Permutation_length_1_inv, Permutation_sym, P. Qed.

Lemma urun_cons order s l s' ls : ustep order s l = Some s' -> urun order s (l :: ls) = urun order s' ls.
Proof. intros H. unfold urun. cbn [fold_left]. rewrite H. reflexivity. Qed.

Lemma w_first order : (forall m, Permutation (order m) m) ->
  ustep order um_new (UConfig (wc [(1, BTrigger)])) =
  Some (mkUm (mkBm [(1, (BTrigger, 0%nat))] None 1) (Some [BCreated BTrigger 1 0]) None MIdle [] [] None []
             [] [] [] 0).
Proof.
  intros P. cbn [ustep um_new um_api]. unfold apply_conf, update_from_config, wc.
  cbn [um_new cf_bufs cf_streaming cf_opens map reconcile um_bm bm_new bm_bufs bm_fresh bm_stream bc_type bc_id
       fst snd bfind ra_cur ra_fresh ra_new ra_upd ra_opened stream_update app u_state u_ok u_events].
  unfold buffer_events. rewrite (order_nil order P). reflexivity.
Qed.

Definition w_state (st : tstate) : um :=
  mkUm (mkBm [(1, (BTrigger, 0%nat))] None 1) None None MIdle [(1, 0%nat)] [(1, 0%nat)] None [1]
       [mkTask 0 1 0 (TKTrigger 0) st false] [mkRequest [1] [0%nat]] [] 1.

Lemma w_started order ls : (forall m, Permutation (order m) m) ->
  urun order um_new (w_start ++ ls) = urun order (w_state TReading) ls.
Proof.
  intros P. unfold w_start. cbn [app]. rewrite (urun_cons _ _ _ _ _ (w_first order P)).
  do 4 (erewrite urun_cons; [|reflexivity]). reflexivity.
Qed.

Lemma deadlock order : (forall m, Permutation (order m) m) ->
  exists before c, NoDup (conf_ids c) /\
    let s := urun order um_new before in
    um_api s = None /\
    (exists t, um_tasks s = [t] /\ uploading t /\ bfind (tk_buf t) (bm_bufs (um_bm s)) = Some (BTrigger, tk_h t)) /\
    forall later, um_api (urun order s (UConfig c :: USend :: UHandle :: later)) <> None /\
      um_answers (urun order s (UConfig c :: USend :: UHandle :: later)) = [].
Proof.
  intros P. exists (w_start ++ [UUpload 0]), (wc []). split; [constructor|].
  assert (E : urun order um_new (w_start ++ [UUpload 0]) = w_state TWaiting).
  { rewrite (w_started order _ P). reflexivity. }
  rewrite E. cbn zeta. splits; auto.
  - eexists. split; [reflexivity|]. split; [split; [exists 0%nat; reflexivity|discriminate]|reflexivity].
  - assert (E2 : forall later, urun order (w_state TWaiting) (UConfig (wc []) :: USend :: UHandle :: later)
      = urun order (mkUm (mkBm [] None 1) (Some []) None (MWait 0 (Some 1)) [(1, 0%nat)] [] None [1]
         [mkTask 0 1 0 (TKTrigger 0) TWaiting true] [mkRequest [1] [0%nat]] [] 1) later).
    { intros later. erewrite urun_cons.
      2:{ cbn [ustep w_state um_api]. unfold apply_conf, update_from_config, wc.
          cbn [w_state cf_bufs cf_streaming cf_opens map reconcile um_bm bm_bufs bm_fresh bm_stream
               ra_cur ra_fresh ra_new ra_upd ra_opened stream_update app u_state u_ok u_events].
          unfold buffer_events. rewrite (order_one order _ P). reflexivity. }
      do 2 (erewrite urun_cons; [|reflexivity]). reflexivity. }
    intros later. rewrite E2.
    match goal with |- um_api (urun order ?s _) <> None /\ _ => set (s0 := s) end.
    assert (S0 : stuck s0 0 0).
    { split; [discriminate|]. split; [exists (Some 1); reflexivity|]. eexists. split; [reflexivity|]. auto. }
    split; [apply (stuck_run order later s0 0 0 S0)|].
    (* the request is never answered *)
    assert (G : forall ls s, stuck s 0 0 -> (exists q, nth_error (um_reqs s) 0 = Some q /\ In 0%nat (rq_tasks q)) ->
       (length (um_reqs s) = 1%nat) -> um_answers s = [] -> um_answers (urun order s ls) = []).
    { clear. unfold urun. induction ls as [|l ls IH]; cbn [fold_left]; intros s ST Q L A; auto.
      destruct (ustep order s l) as [s'|] eqn:H; [|apply IH; auto].
      assert (X : um_reqs s' = um_reqs s /\ um_answers s' = []).
      { destruct ST as (A1 & (i & M) & t & G & W & K).
        destruct l; cbn [ustep] in H; rewrite ?M in H; try discriminate;
          repeat (dmatch_in H; try discriminate); inv H; auto.
        exfalso. destruct Q as (q & Q1 & Q2).
        assert (r = 0%nat).
        { assert (B : (r < length (um_reqs s))%nat) by (apply nth_error_Some; congruence). lia. }
        subst r. rewrite Q1 in E. inv E. apply andb_prop in E0 as [E0 _].
        rewrite forallb_forall in E0. specialize (E0 0%nat Q2). unfold finished in E0.
        rewrite G in E0. unfold open in E0. rewrite W in E0. discriminate. }
      destruct X as [X1 X2]. apply IH; auto.
      - eapply stuck_step; eauto.
      - rewrite X1; auto.
      - rewrite X1; auto. }
    apply G; auto. eexists. split; [reflexivity|]. cbn. auto.
Qed.

(* a request for a buffer that is being uploaded is answered at once *)
Lemma early_answer order : (forall m, Permutation (order m) m) ->
  exists ls t, let s := urun order um_new ls in
    um_answers s = [1%nat] /\ nth_error (um_reqs s) 1 = Some (mkRequest [1] []) /\
    um_tasks s = [t] /\ tk_buf t = 1 /\ tk_kind t = TKTrigger 0 /\ consuming t.
Proof.
  intros P. exists (w_start ++ [UUpload 0; UTrigger [1]; UAnswer 1]).
  eexists. rewrite (w_started order _ P). cbn zeta.
  do 3 (erewrite urun_cons; [|reflexivity]). cbn. splits; auto. right; reflexivity.
Qed.
