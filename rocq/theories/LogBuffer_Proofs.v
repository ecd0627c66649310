From Verif Require Import Base Str_Base Log_Model Metadata_Model Metadata_Spec Matcher_Spec Metadata_Proofs LogBuffer_Model LogBuffer_Spec.
From Verif Require Network_Model Session_Model PreConfig_Model.
Local Open Scope string_scope. Local Open Scope list_scope.

Section Buffer.
Variables (C P V E R : Type).
Variables (p_new : C -> P) (p_update : P -> C -> P) (p_log : P -> log -> bool -> V -> option (P * list E)) (p_run : P -> R -> option (P * list E))
  (p_persist : P -> P).
Variables (threshold write_interval : Z) (size : log -> N) (show_time : Z -> string) (has_stats : bool).
Notation buf := (buf P). Notation event := (event V E). Notation label := (label C V R). Notation tenv := (tenv V).
Notation step := (step C P V E R p_new p_update p_log p_run p_persist threshold write_interval size show_time has_stats).
Notation run := (run C P V E R p_new p_update p_log p_run p_persist threshold write_interval size show_time has_stats).
Notation take := (take P V E p_log threshold write_interval size show_time has_stats).
Notation process_log := (process_log P V E p_log threshold write_interval size show_time).
Notation inner := (inner P V E). Notation gone := (gone P V E). Notation dies := (dies P V E).
Notation write_log := (write_log P V E p_log size).
Notation session_id := (session_id threshold write_interval). Notation quiet := (quiet step).

Lemma run_app : forall l1 l2 (b : buf), run b (l1 ++ l2) =
  match run b l1 with Some (b, e1) => match run b l2 with Some (b, e2) => Some (b, e1 ++ e2) | None => None end | None => None end.
Proof.
  induction l1 as [|x l1 IH]; intros l2 b; simpl.
  - destruct (run b l2) as [[b' e]|]; reflexivity.
  - destruct (step b x) as [[b' e]|]; [|reflexivity]. rewrite IH. destruct (run b' l1) as [[b2 e2]|]; [|reflexivity].
    destruct (run b2 l2) as [[b3 e3]|]; [rewrite app_assoc|]; reflexivity.
Qed.
(** Each event belongs to a step. *)
Lemma run_in : forall l (b b' : buf) e x, run b l = Some (b', e) -> In x e ->
  exists l1 y l2 b1 e1 b2 es e2, l = l1 ++ y :: l2 /\ run b l1 = Some (b1, e1) /\ step b1 y = Some (b2, es) /\ In x es /\ run b2 l2 = Some (b', e2) /\ e = e1 ++ es ++ e2.
Proof.
  induction l as [|y l IH]; intros b b' e x H Hi; simpl in H; [inversion H; subst; destruct Hi|].
  destruct (step b y) as [[b1 es]|] eqn:Es; [|discriminate]. destruct (run b1 l) as [[b2 e2]|] eqn:Er; [|discriminate]. inversion H; subst; clear H.
  apply in_app_or in Hi. destruct Hi as [Hi|Hi].
  - exists [], y, l, b, [], b1, es, e2. repeat split; auto.
  - destruct (IH _ _ _ _ Er Hi) as (l1 & z & l2 & c1 & f1 & c2 & fs & f2 & -> & R1 & R2 & R3 & R4 & ->).
    exists (y :: l1), z, l2, c1, (es ++ f1), c2, fs, f2. repeat split; auto.
    + simpl. rewrite Es, R1. reflexivity.
    + rewrite app_assoc. reflexivity.
Qed.
(** Induction on histories, last step first. *)
Lemma run_ind (I : buf -> list event -> Prop) (b0 : buf) : I b0 [] ->
  (forall b e x b' es, I b e -> step b x = Some (b', es) -> I b' (e ++ es)) ->
  forall l b e, run b0 l = Some (b, e) -> I b e.
Proof.
  intros H0 Hs. induction l as [|x l IH] using rev_ind; intros b e H; [simpl in H; inversion H; subst; exact H0|].
  rewrite run_app in H. destruct (run b0 l) as [[b1 e1]|] eqn:Er; [|discriminate]. simpl in H. destruct (step b1 x) as [[b2 es]|] eqn:Es; [|discriminate].
  inversion H; subst. rewrite app_nil_r. exact (Hs _ _ _ _ _ (IH _ _ eq_refl) Es).
Qed.

(** ** Shapes *)
(** What the calls of the provider leave behind. *)
Record ishape (b b' : buf) (e : list event) (d : bool) (q : list message) : Prop := {
  is_queue : b_queue b' = b_queue b ++ q;
  is_acc : map (fun m => (ms_id m, ms_call m)) q = accepted e;
  is_next : b_next b <= b_next b';
  is_ids : forall m, In m q -> b_next b <= ms_id m < b_next b';
  is_sorted : Sorted.StronglySorted lt (map ms_id q);
  is_globals : b_globals b' = b_globals b; is_icept : b_icept b' = b_icept b; is_session : b_session b' = b_session b;
  is_state : b_state b' = b_state b; is_place : b_place b' = b_place b;
  is_events : forall x, In x e -> (exists c, x = Guarded c) \/ (exists k w a, x = Called k (CFlush w) a);
  is_died : d = true -> exists k, In (Called k (CFlush true) Accepted) e }.
Lemma inner_shape : forall l (b b' : buf) e d, inner b l = (b', e, d) -> exists q, ishape b b' e d q.
Proof.
  induction l as [|[c a] l IH]; intros b b' e d H; simpl in H.
  - inversion H; subst. exists []. constructor; auto; try (intros ? []); try constructor; try discriminate. rewrite app_nil_r. reflexivity.
  - assert (G : forall c', (let '(b1, es, x) := inner b l in (b1, Guarded c' :: es, x)) = (b', e, d) -> exists q, ishape b b' e d q).
    { intros c' G. destruct (inner b l) as [[b1 es] x] eqn:Ei. inversion G; subst. destruct (IH _ _ _ _ Ei) as (q & [A1 A2 A3 A4 A5 A6 A7 A8 A9 A10 A12 A13]).
      exists q. constructor; simpl; auto. intros x [<-|Hx]; eauto. intros Hd. destruct (A13 Hd) as (k & Hk). eauto. }
    assert (N : forall a', a' <> Accepted -> forall w, (let '(b1, es, x) := inner (with_queue b (S (b_next b)) (b_queue b)) l in (b1, Called (b_next b) (CFlush w) a' :: es, x)) = (b', e, d) ->
      exists q, ishape b b' e d q).
    { clear H G. intros a' Ha w G'. destruct (inner _ l) as [[b1 es] x] eqn:Ei. inversion G'; subst. destruct (IH _ _ _ _ Ei) as (q & [A1 A2 A3 A4 A5 A6 A7 A8 A9 A10 A12 A13]).
      simpl in *. exists q. constructor; simpl; auto; try lia.
      - destruct a'; simpl; congruence.
      - intros m Hm. specialize (A4 _ Hm). lia.
      - intros y [<-|Hy]; eauto 6.
      - intros Hd. destruct (A13 Hd) as (k & Hk). eauto. }
    destruct c as [ln w|f|k|w]; try (exact (G _ H)).
    destruct a; try (refine (N _ _ _ H); discriminate).
    destruct w.
    + inversion H; subst. exists [mkMessage (b_next b) (CFlush true)]. constructor; simpl; auto; try (repeat constructor; fail).
      * intros m [<-|[]]. simpl. lia.
      * intros x [<-|[]]. eauto 6.
      * intros _. eauto.
    + clear G N. destruct (inner _ l) as [[b1 es] x] eqn:Ei. inversion H; subst. destruct (IH _ _ _ _ Ei) as (q & [A1 A2 A3 A4 A5 A6 A7 A8 A9 A10 A12 A13]).
      simpl in *. exists (mkMessage (b_next b) (CFlush false) :: q). constructor; simpl; auto; try lia.
      * rewrite A1, <- app_assoc. reflexivity.
      * rewrite A2. reflexivity.
      * intros m [<-|Hm]; simpl; [lia|]. specialize (A4 _ Hm). lia.
      * constructor; [exact A5|]. apply Forall_forall. intros m Hm. apply in_map_iff in Hm. destruct Hm as (m' & <- & Hm). specialize (A4 _ Hm). lia.
      * intros y [<-|Hy]; eauto 6.
      * intros Hd. destruct (A13 Hd) as (k & Hk). eauto.
Qed.

(** ** The session of the process before *)
Lemma session_id_prev s k s' i : session_id s k = (s', i) -> previous_process_session_id s' = previous_process_session_id s.
Proof.
  destruct s as [[[[j p]|] st]|[[m|] st]]; unfold LogBuffer_Model.session_id; simpl.
  - intros H. inversion H; subst. reflexivity.
  - intros H. inversion H; subst. reflexivity.
  - unfold Session_Model.session_id; simpl. repeat (match goal with |- context [if ?x then _ else _] => destruct x end); intros H; inversion H; subst; reflexivity.
  - unfold Session_Model.session_id; simpl. destruct st as [st|]; simpl; repeat (match goal with |- context [if ?x then _ else _] => destruct x end); intros H; inversion H; subst; reflexivity.
Qed.
Lemma start_new_prev s k : previous_process_session_id (start_new_session s k) = previous_process_session_id s.
Proof. destruct s as [[[[j p]|] st]|[[m|] st]]; reflexivity. Qed.
Lemma flush_prev s : previous_process_session_id (session_flush s) = previous_process_session_id s.
Proof. destruct s as [[[[j p]|] st]|[[m|] st]]; reflexivity. Qed.

(** Same but for the session and the pipeline. *)
Record same (b b' : buf) : Prop := { sm_next : b_next b' = b_next b; sm_queue : b_queue b' = b_queue b; sm_globals : b_globals b' = b_globals b;
  sm_icept : b_icept b' = b_icept b; sm_place : b_place b' = b_place b }.
Lemma same_refl (b : buf) : same b b. Proof. constructor; reflexivity. Qed.
Lemma write_same b l w v b' h : write_log b l w v = Some (b', h) -> same b b' /\ b_session b' = b_session b.
Proof.
  unfold LogBuffer_Model.write_log. destruct (b_state b) as [p|p].
  - destruct (PreConfig_Model.push size p l) as [p' []]; intros H; inversion H; subst; (split; [constructor; reflexivity|reflexivity]).
  - destruct (p_log p l w v) as [[p' es]|]; intros H; inversion H; subst. split; [constructor; reflexivity|reflexivity].
Qed.
Definition ret (k : nat) (w : bool) : list event := if w then [Returned k] else [].
(** What is written for a line. *)
Inductive written (s : strategy) (l : line) (t : tenv) (m : metadata) : log -> bool -> strategy -> Prop :=
| WPlain s' id : ln_override l = None -> session_id s (t_clock t) = (s', id) ->
    written s l t m (mkLog (ln_level l) (ln_type l) (ln_message l) (m_fields m) (m_matching m) id (m_time m)) false s'
| WOver x at_ : ln_override l = Some (x, at_) -> previous_process_session_id s = Some x ->
    written s l t m (mkLog (ln_level l) (ln_type l) (ln_message l) (m_fields m ++ [mkField "_logged_at" (VStr (show_time (m_time m)))]) (m_matching m) x at_) false s
| WInternal x at_ s' id : ln_override l = Some (x, at_) -> previous_process_session_id s <> Some x -> session_id s (t_clock t) = (s', id) ->
    written s l t m (mkLog 3 4 (VStr "failed to override log attributes, provided override attributes do not match expectations")
      (m_fields m ++ [mkField "_original_session_id" (VStr id); mkField "_override_session_id" (VStr x)]) (m_matching m) id (m_time m)) true s'.
Lemma written_prev s l t m lg i s' : written s l t m lg i s' -> previous_process_session_id s' = previous_process_session_id s.
Proof. intros W. inversion W; subst; auto; eapply session_id_prev; eassumption. Qed.
Definition wrote_event (k : nat) (internal : bool) (l : log) (h : fate E) : event := if internal then WroteInternal k l h else Wrote k l h.
Inductive pout (b : buf) (k : nat) (l : line) (w : bool) (t : tenv) : buf -> list event -> Prop :=
| PDied b1 ie d b2 : inner b (t_inner t) = (b1, ie, d) -> same b1 b2 -> b_state b2 = b_state b1 -> previous_process_session_id (b_session b2) = previous_process_session_id (b_session b1) ->
    (b_session b2 = b_session b1 \/ exists j, session_id (b_session b1) (t_clock t) = (b_session b2, j)) -> pout b k l w t (fst (gone b2)) (ie ++ Died :: ret k w ++ snd (gone b2))
| PFailed b1 ie : inner b (t_inner t) = (b1, ie, false) -> t_time t = None \/ t_provider t = None -> pout b k l w t b1 (ie ++ Failed k :: ret k w)
| PWrote b1 ie ts pv m lg internal s b2 h : inner b (t_inner t) = (b1, ie, false) -> t_time t = Some ts -> t_provider t = Some pv ->
    normalized_metadata (b_globals b1) (Some ts) (Some pv) (ln_fields l) (ln_matching l) (ln_type l) = Some m ->
    written (b_session b1) l t m lg internal s ->
    write_log (with_session b1 s) lg (w && negb internal) (t_pipe t) = Some (b2, h) ->
    pout b k l w t b2 (ie ++ wrote_event k internal lg h :: ret k w).
Lemma process_out b k l w t b' e : process_log b k l w t = (b', e) -> pout b k l w t b' e.
Proof.
  unfold LogBuffer_Model.process_log. destruct (inner b (t_inner t)) as [[b1 ie] d] eqn:Ei. destruct d.
  { unfold LogBuffer_Model.dies. destruct (gone b1) as [bg r] eqn:Eg. intros H. inversion H; subst.
    replace b' with (fst (gone b1)) by (rewrite Eg; reflexivity). replace r with (snd (gone b1)) by (rewrite Eg; reflexivity).
    exact (PDied _ _ _ _ _ _ _ _ _ Ei (same_refl _) eq_refl eq_refl (or_introl eq_refl)). }
  destruct (normalized_metadata (b_globals b1) (t_time t) (t_provider t) (ln_fields l) (ln_matching l) (ln_type l)) as [m|] eqn:Em.
  2:{ intros H. inversion H; subst. apply (PFailed _ _ _ _ _ _ _ Ei). unfold normalized_metadata in Em.
      destruct (t_time t); [|auto]. destruct (t_provider t) as [pv|]; [|auto]. exfalso.
      destruct (is_matching_only_type (ln_type l)); destruct (partition_fields pv), (partition_fields (ln_fields l)), (partition_fields (ln_matching l)); simpl in Em; try discriminate;
      destruct (partition_fields []); discriminate. }
  destruct (t_time t) as [ts|] eqn:Et; [|discriminate]. destruct (t_provider t) as [pv|] eqn:Ep; [|discriminate].
  assert (G : forall lg internal s, written (b_session b1) l t m lg internal s ->
     match write_log (with_session b1 s) lg (w && negb internal) (t_pipe t) with
     | None => dies (with_session b1 s) k w ie
     | Some (b, h) => (b, ie ++ (if internal then WroteInternal k lg h else Wrote k lg h) :: (if w then [Returned k] else []))
     end = (b', e) -> pout b k l w t b' e).
  { intros lg internal s W H. destruct (write_log (with_session b1 s) lg (w && negb internal) (t_pipe t)) as [[b2 h]|] eqn:Ew.
    - inversion H; subst. exact (PWrote _ _ _ _ _ _ _ _ _ _ _ _ _ _ _ Ei Et Ep Em W Ew).
    - unfold LogBuffer_Model.dies in H. destruct (gone (with_session b1 s)) as [bg r] eqn:Eg. inversion H; subst.
      replace b' with (fst (gone (with_session b1 s))) by (rewrite Eg; reflexivity). replace r with (snd (gone (with_session b1 s))) by (rewrite Eg; reflexivity).
      apply (PDied _ _ _ _ _ _ _ _ _ Ei); [constructor; reflexivity|reflexivity|exact (written_prev _ _ _ _ _ _ _ W)|simpl; inversion W; subst; eauto]. }
  destruct (ln_override l) as [[x at_]|] eqn:Eo.
  - destruct (match previous_process_session_id (b_session b1) with Some p => String.eqb x p | None => false end) eqn:Ex.
    + assert (previous_process_session_id (b_session b1) = Some x) as Hp.
      { destruct (previous_process_session_id (b_session b1)) as [p|]; [|discriminate]. apply String.eqb_eq in Ex. congruence. }
      pose proof (G _ _ _ (WOver _ _ _ _ _ _ Eo Hp)) as G'. destruct b1 as [a1 a2 a3 a4 a5 a6 a7]. exact G'.
    + assert (previous_process_session_id (b_session b1) <> Some x) as Hp.
      { intros Hp. rewrite Hp in Ex. rewrite String.eqb_refl in Ex. discriminate. }
      destruct (session_id (b_session b1) (t_clock t)) as [s' id] eqn:Es. exact (G _ _ _ (WInternal _ _ _ _ _ _ _ _ Eo Hp Es)).
  - destruct (session_id (b_session b1) (t_clock t)) as [s' id] eqn:Es. exact (G _ _ _ (WPlain _ _ _ _ _ _ Eo Es)).
Qed.

(** ** One step *)
Definition items (s : lstate P) : list log := match s with Waiting p => PreConfig_Model.pop_all p | Ready _ => [] end.
Inductive sout (b : buf) : label -> buf -> list event -> Prop :=
| SAccepted c : b_place b <> Gone -> sout b (Call c Accepted) (with_queue b (S (b_next b)) (b_queue b ++ [mkMessage (b_next b) c])) [Called (b_next b) c Accepted]
| SRefused c a : a <> Accepted -> (a = Closed <-> b_place b = Gone) \/ b_place b = Gone -> sout b (Call c a) (with_queue b (S (b_next b)) (b_queue b)) [Called (b_next b) c a]
| SQuality q : sout b (SetQuality q) (with_icept b (mkIcept (i_report (b_icept b)) (i_traffic (b_icept b)) q)) [QualitySet q]
| SNewSession k : sout b (NewSession k) (with_session b (start_new_session (b_session b) k)) []
| SSessionId k : sout b (SessionId k) (with_session b (fst (session_id (b_session b) k))) []
| SConfig c vs p e : b_place b = Idle -> (forall x, In x e -> exists l es, x = Replayed l es) -> replayed e = items (b_state b) -> sout b (Config c vs) (with_state b (Ready p)) e
| SConfigDied c vs : b_place b = Idle -> sout b (Config c vs) (fst (gone b)) (Died :: snd (gone b))
| STakeLog m q l w t i l' shot b' e : b_place b = Idle -> b_queue b = m :: q -> ms_call m = CLog l w ->
    intercept (t_report t) (t_now t) (b_icept b) l = (i, l', shot) -> pout (with_icept (with_queue b (b_next b) q) i) (ms_id m) l' w t b' e ->
    sout b (Take t) b' (Taken (ms_id m) (CLog l w) t :: (if shot then [Shot] else []) ++ e)
| STakeAdd m q f t : b_place b = Idle -> b_queue b = m :: q -> ms_call m = CAdd f ->
    sout b (Take t) (with_globals (with_queue b (b_next b) q) (fst (add_field (b_globals b) f))) [Taken (ms_id m) (CAdd f) t]
| STakeRemove m q f t : b_place b = Idle -> b_queue b = m :: q -> ms_call m = CRemove f ->
    sout b (Take t) (with_globals (with_queue b (b_next b) q) (remove_field (b_globals b) f)) [Taken (ms_id m) (CRemove f) t]
| STakeFlush m q w t : b_place b = Idle -> b_queue b = m :: q -> ms_call m = CFlush w ->
    sout b (Take t) (with_place (with_queue b (b_next b) q) (if has_stats then InStats (ms_id m) w else InBuffers (ms_id m) w))
      (Taken (ms_id m) (CFlush w) t :: (if has_stats then [StatsAsked] else [BuffersAsked]))
| SStats k w : b_place b = InStats k w -> sout b StatsDone (with_place b (InBuffers k w)) [StatsAnswered; BuffersAsked]
| SBuffersWaiting k w p : b_place b = InBuffers k w -> b_state b = Waiting p ->
    sout b BuffersDone (with_place (with_session b (session_flush (b_session b))) Idle) (BuffersAnswered :: SessionSaved :: ret k w)
| SBuffersReady k w p : b_place b = InBuffers k w -> b_state b = Ready p ->
    sout b BuffersDone (with_state (with_place (with_session b (session_flush (b_session b))) Idle) (Ready (p_persist p))) (BuffersAnswered :: SessionSaved :: Persisted :: ret k w)
| SRan r p p' es : b_place b = Idle -> b_state b = Ready p -> sout b (Run r) (with_state b (Ready p')) [Ran es]
| SRunDied r p : b_place b = Idle -> b_state b = Ready p -> sout b (Run r) (fst (gone b)) (Died :: snd (gone b))
| SStop : b_place b <> Gone -> sout b Stop (fst (gone b)) (snd (gone b)).
Lemma replay_events vs : forall l p p' e, replay P V E p_log p l vs = Some (p', e) -> forall x : event, In x e -> exists l es, x = Replayed l es.
Proof.
  intros l. revert vs. induction l as [|a l IH]; intros vs p p' e H x Hx; simpl in H; [inversion H; subst; destruct Hx|].
  destruct (p_log p a false (vs 0)) as [[p1 es]|]; [|discriminate]. destruct (replay P V E p_log p1 l (fun n => vs (S n))) as [[p2 e2]|] eqn:Er; [|discriminate].
  inversion H; subst. destruct Hx as [<-|Hx]; eauto.
Qed.
Lemma replay_all vs : forall l p p' e, replay P V E p_log p l vs = Some (p', e) -> replayed e = l.
Proof.
  intros l. revert vs. induction l as [|a l IH]; intros vs p p' e H; simpl in H; [inversion H; subst; reflexivity|].
  destruct (p_log p a false (vs 0)) as [[p1 es]|]; [|discriminate]. destruct (replay P V E p_log p1 l (fun n => vs (S n))) as [[p2 e2]|] eqn:Er; [|discriminate].
  inversion H; subst. simpl. f_equal. exact (IH _ _ _ _ Er).
Qed.
Lemma step_out b x b' es : step b x = Some (b', es) -> sout b x b' es.
Proof.
  destruct x as [c a|q|k|k|c vs|t| | |r|]; simpl; intros H.
  - unfold do_call in H. destruct (b_place b) eqn:Ep; destruct a; inversion H; subst; try (apply SAccepted; congruence);
      (apply SRefused; [discriminate|]; rewrite Ep; first [right; reflexivity | left; split; intros Q; discriminate]).
  - inversion H; subst. constructor.
  - inversion H; subst. constructor.
  - inversion H; subst. constructor.
  - unfold configure in H. destruct (b_place b) eqn:Ep; try discriminate. destruct (b_state b) as [p|p] eqn:Es.
    + destruct (replay P V E p_log (p_new c) (PreConfig_Model.pop_all p) vs) as [[p' e]|] eqn:Er; inversion H; subst.
      * apply SConfig; [exact Ep|exact (replay_events _ _ _ _ _ Er)|]. rewrite Es. exact (replay_all _ _ _ _ _ Er).
      * apply SConfigDied; exact Ep.
    + inversion H; subst. apply SConfig; [exact Ep|intros x []|rewrite Es; reflexivity].
  - unfold LogBuffer_Model.take in H. destruct (b_place b) eqn:Ep; try discriminate. destruct (b_queue b) as [|m q] eqn:Eq; [discriminate|].
    destruct (ms_call m) as [l w|f|f|w] eqn:Em.
    + simpl in H. destruct (intercept (t_report t) (t_now t) (b_icept b) l) as [[i l'] shot] eqn:Ei.
      destruct (process_log (with_icept (with_queue b (b_next b) q) i) (ms_id m) l' w t) as [b1 e] eqn:Epl. inversion H; subst.
      exact (STakeLog _ _ _ _ _ _ _ _ _ _ _ Ep Eq Em Ei (process_out _ _ _ _ _ _ _ Epl)).
    + inversion H; subst. exact (STakeAdd _ _ _ _ _ Ep Eq Em).
    + inversion H; subst. exact (STakeRemove _ _ _ _ _ Ep Eq Em).
    + unfold begin_flush in H. pose proof (STakeFlush _ _ _ _ t Ep Eq Em) as S0. destruct has_stats; inversion H; subst; exact S0.
  - destruct (b_place b) eqn:Ep; try discriminate. inversion H; subst. exact (SStats _ _ _ Ep).
  - destruct (b_place b) eqn:Ep; try discriminate. unfold end_flush in H. destruct (b_state b) as [p|p] eqn:Es; simpl in H; rewrite Es in H; inversion H; subst.
    + exact (SBuffersWaiting _ _ _ _ Ep Es).
    + exact (SBuffersReady _ _ _ _ Ep Es).
  - destruct (b_place b) eqn:Ep; try discriminate. destruct (b_state b) as [p|p] eqn:Es; [discriminate|].
    destruct (p_run p r) as [[p' es']|] eqn:Er; inversion H; subst; [exact (SRan _ _ _ _ _ Ep Es)|]. pose proof (SRunDied _ r _ Ep Es) as S0. unfold LogBuffer_Model.gone in S0. simpl in S0. rewrite Ep in S0. exact S0.
  - destruct (b_place b) eqn:Ep; try discriminate; inversion H; subst; apply SStop; congruence.
Qed.

(** ** Order *)
Definition pr (m : message) : nat * call := (ms_id m, ms_call m).
Lemma accepted_app (e1 e2 : list event) : accepted (e1 ++ e2) = accepted e1 ++ accepted e2.
Proof. induction e1 as [|x e1 IH]; [reflexivity|]. destruct x as [k c []| | | | | | | | | | | | | | | | |]; simpl; rewrite ?IH; reflexivity. Qed.
Lemma taken_app (e1 e2 : list event) : taken (e1 ++ e2) = taken e1 ++ taken e2.
Proof. induction e1 as [|x e1 IH]; [reflexivity|]. destruct x; simpl; rewrite ?IH; reflexivity. Qed.
Lemma outcomes_app (e1 e2 : list event) : outcomes (e1 ++ e2) = outcomes e1 ++ outcomes e2.
Proof. induction e1 as [|x e1 IH]; [reflexivity|]. destruct x; simpl; rewrite ?IH; reflexivity. Qed.
Lemma returns_app (e1 e2 : list event) : returns (e1 ++ e2) = returns e1 ++ returns e2.
Proof. induction e1 as [|x e1 IH]; [reflexivity|]. destruct x; simpl; rewrite ?IH; reflexivity. Qed.
Lemma kept_app (e1 e2 : list event) : kept (e1 ++ e2) = kept e1 ++ kept e2.
Proof. induction e1 as [|x e1 IH]; [reflexivity|]. destruct x as [| | | |k l []|k l []| | | | | | | | | | | |]; simpl; rewrite ?IH; reflexivity. Qed.
Lemma replayed_app (e1 e2 : list event) : replayed (e1 ++ e2) = replayed e1 ++ replayed e2.
Proof. induction e1 as [|x e1 IH]; [reflexivity|]. destruct x; simpl; rewrite ?IH; reflexivity. Qed.
Lemma log_ids_app a b : log_ids (a ++ b) = log_ids a ++ log_ids b.
Proof. unfold log_ids. rewrite filter_app, map_app. reflexivity. Qed.
Lemma waiting_ids_app a b : waiting_ids (a ++ b) = waiting_ids a ++ waiting_ids b.
Proof. unfold waiting_ids. rewrite filter_app, map_app. reflexivity. Qed.
Lemma field_ops_app a b : field_ops (a ++ b) = field_ops a ++ field_ops b.
Proof. unfold field_ops. apply flat_map_app. Qed.

(** Nothing of the provider's calls is any of these. *)
Lemma ie_nothing b b' (ie : list event) d q : ishape b b' ie d q ->
  accepted ie = map pr q /\ taken ie = [] /\ outcomes ie = [] /\ returns ie = [] /\ kept ie = [] /\ replayed ie = [] /\ ~ In Died ie /\ log_ids (map pr q) = [].
Proof.
  intros [A1 A2 A3 A4 A5 A6 A7 A8 A9 A10 A12 A13].
  assert (L : forall x, In x (map pr q) -> exists k w, x = (k, CFlush w)).
  { intros x Hx. change (map (fun m => (ms_id m, ms_call m)) q = accepted ie) in A2. unfold pr in Hx. rewrite A2 in Hx. clear - Hx A12. induction ie as [|y ie IH]; [destruct Hx|].
    destruct (A12 y (or_introl eq_refl)) as [(c & ->)|(k & w & a & ->)].
    - apply IH; [|exact Hx]. intros z Hz. apply A12. right. exact Hz.
    - simpl in Hx. assert (forall z, In z ie -> (exists c, z = Guarded c) \/ (exists k w a, z = Called k (CFlush w) a)) by (intros z Hz; apply A12; right; exact Hz).
      destruct a; try (apply IH; assumption). destruct Hx as [<-|Hx]; [eauto|apply IH; assumption]. }
  split; [symmetry; exact A2|].
  assert (N : log_ids (map pr q) = []).
  { unfold log_ids. clear - L. induction q as [|m q IH]; [reflexivity|]. simpl. destruct (L (pr m) (or_introl eq_refl)) as (k & w & Em). unfold pr in Em. inversion Em. simpl. rewrite H1. apply IH.
    intros x Hx. apply L. right. exact Hx. }
  clear - A12 N. assert (G : taken ie = [] /\ outcomes ie = [] /\ returns ie = [] /\ kept ie = [] /\ replayed ie = [] /\ ~ In Died ie); [|tauto].
  clear N. induction ie as [|y ie IH]; [simpl; tauto|].
  destruct IH as (I1 & I2 & I3 & I4 & I5 & I6); [intros z Hz; apply A12; right; exact Hz|].
  destruct (A12 y (or_introl eq_refl)) as [(c & ->)|(k & w & a & ->)]; simpl; splits; auto; intros [H|H]; auto; discriminate.
Qed.
Lemma release_nothing q : accepted (V:=V) (E:=E) (release V E q) = [] /\ taken (V:=V) (E:=E) (release V E q) = [] /\ outcomes (V:=V) (E:=E) (release V E q) = [] /\
  kept (V:=V) (E:=E) (release V E q) = [] /\ replayed (V:=V) (E:=E) (release V E q) = [] /\ returns (V:=V) (E:=E) (release V E q) = waiting_ids (map pr q).
Proof.
  unfold release, waiting_ids. induction q as [|m q (I1 & I2 & I3 & I4 & I5 & I6)]; [simpl; tauto|]. simpl.
  destruct (ms_call m) as [? []|?|?|[]] eqn:Em; simpl; rewrite ?I6; splits; auto.
Qed.
Definition serving (p : place) : list nat := match p with InStats k true | InBuffers k true => [k] | _ => [] end.
Lemma place_nothing p : accepted (V:=V) (E:=E) (release_place V E p) = [] /\ taken (V:=V) (E:=E) (release_place V E p) = [] /\ outcomes (V:=V) (E:=E) (release_place V E p) = [] /\
  kept (V:=V) (E:=E) (release_place V E p) = [] /\ replayed (V:=V) (E:=E) (release_place V E p) = [] /\ returns (V:=V) (E:=E) (release_place V E p) = serving p.
Proof. destruct p as [|k []|k []|]; simpl; auto 10. Qed.
Lemma gone_nothing (b : buf) : accepted (snd (gone b)) = [] /\ taken (snd (gone b)) = [] /\ outcomes (snd (gone b)) = [] /\
  kept (snd (gone b)) = [] /\ replayed (snd (gone b)) = [] /\ returns (snd (gone b)) = serving (b_place b) ++ waiting_ids (map pr (b_queue b)).
Proof.
  unfold LogBuffer_Model.gone. simpl. destruct (place_nothing (b_place b)) as (P1 & P2 & P3 & P4 & P5 & P6). destruct (release_nothing (b_queue b)) as (R1 & R2 & R3 & R4 & R5 & R6).
  rewrite accepted_app, taken_app, outcomes_app, kept_app, replayed_app, returns_app, P1, P2, P3, P4, P5, P6, R1, R2, R3, R4, R5, R6. auto 10.
Qed.

Record finv (s0 : strategy) (b : buf) (e : list event) : Prop := {
  fi_rest : exists rest, accepted e = taken e ++ rest /\ (b_place b <> Gone -> rest = map pr (b_queue b));
  fi_gone : b_place b = Gone -> b_queue b = [];
  fi_died : In Died e -> b_place b = Gone;
  fi_sorted : Sorted.StronglySorted lt (map fst (accepted e));
  fi_bound : forall x, In x (accepted e) -> fst x < b_next b;
  fi_globals : b_globals b = fold_left gstep (field_ops (taken e)) [];
  fi_prev : previous_process_session_id (b_session b) = previous_process_session_id s0;
  fi_logs : log_ids (taken e) = outcomes e \/ (In Died e /\ exists k, log_ids (taken e) = outcomes e ++ [k]);
  fi_waiting : waiting_ids (accepted e) = returns e ++ serving (b_place b) ++ waiting_ids (map pr (b_queue b)) }.

Lemma sorted_app (a b : list nat) : Sorted.StronglySorted lt a -> Sorted.StronglySorted lt b -> (forall x y, In x a -> In y b -> x < y) -> Sorted.StronglySorted lt (a ++ b).
Proof.
  induction a as [|x a IH]; simpl; intros Ha Hb H; [exact Hb|]. inversion Ha; subst. constructor; [apply IH; auto|].
  apply Forall_app. split; [assumption|]. apply Forall_forall. intros y Hy. apply H; auto.
Qed.

Record pfacts (b : buf) (k : nat) (w : bool) (b' : buf) (e : list event) (q : list message) : Prop := {
  pf_acc : accepted e = map pr q; pf_log : log_ids (map pr q) = []; pf_sorted : Sorted.StronglySorted lt (map ms_id q);
  pf_ids : forall m, In m q -> b_next b <= ms_id m < b_next b'; pf_next : b_next b <= b_next b';
  pf_taken : taken e = []; pf_replayed : replayed e = [];
  pf_globals : b_globals b' = b_globals b; pf_icept : b_icept b' = b_icept b; pf_prev : previous_process_session_id (b_session b') = previous_process_session_id (b_session b);
  pf_items : items (b_state b') = items (b_state b) ++ kept e;
  pf_end : (In Died e /\ b_place b' = Gone /\ b_queue b' = [] /\ outcomes e = [] /\ returns e = (if w then [k] else []) ++ waiting_ids (map pr (b_queue b ++ q))) \/
           (~ In Died e /\ b_place b' = Idle /\ b_queue b' = b_queue b ++ q /\ outcomes e = [k] /\ returns e = (if w then [k] else [])) }.
Lemma ret_nothing k w : accepted (V:=V) (E:=E) (ret k w) = [] /\ taken (V:=V) (E:=E) (ret k w) = [] /\ outcomes (V:=V) (E:=E) (ret k w) = [] /\ kept (V:=V) (E:=E) (ret k w) = [] /\
  replayed (V:=V) (E:=E) (ret k w) = [] /\ returns (V:=V) (E:=E) (ret k w) = (if w then [k] else []) /\ ~ In Died (ret k w).
Proof. destruct w; simpl; splits; auto; intros [H|[]]; discriminate. Qed.
Lemma write_items b l w v b' h : write_log b l w v = Some (b', h) -> forall k i, items (b_state b') = items (b_state b) ++ kept [wrote_event k i l h].
Proof.
  unfold LogBuffer_Model.write_log. destruct (b_state b) as [p|p]; intros H k i.
  - unfold PreConfig_Model.push in H. destruct (_ <=? _)%N; [|destruct (_ <? _)%N]; inversion H; subst; destruct i; simpl; rewrite ?app_nil_r; reflexivity.
  - destruct (p_log p l w v) as [[p' es]|]; inversion H; subst; destruct i; reflexivity.
Qed.
Lemma pout_facts b k l w t b' e : pout b k l w t b' e -> b_place b = Idle -> exists q, pfacts b k w b' e q.
Proof.
  intros [b1 ie d b2 Hi Hs Hst Hpr Hse|b1 ie Hi Hn|b1 ie ts pv m lg internal s b2 h Hi Ht Hp Hm Hw Hl] Hb; destruct (inner_shape _ _ _ _ _ Hi) as (q & Q);
    destruct (ie_nothing _ _ _ _ _ Q) as (N1 & N2 & N3 & N4 & N5 & N6 & N7 & N8); destruct Q as [A1 A2 A3 A4 A5 A6 A7 A8 A9 A10 A12 A13]; exists q;
    destruct (ret_nothing k w) as (R1 & R2 & R3 & R4 & R5 & R6 & R7).
  - destruct Hs as [S1 S2 S3 S4 S5]. generalize (gone_nothing b2). generalize (snd (gone b2)). intros g (G1 & G2 & G3 & G4 & G5 & G6).
    constructor; rewrite ?accepted_app, ?taken_app, ?replayed_app; simpl; rewrite ?accepted_app, ?taken_app, ?replayed_app, ?N1, ?N2, ?N6, ?G1, ?G2, ?G5, ?R1, ?R2, ?R5, ?app_nil_r; simpl; auto; try congruence.
    + intros m Hm. rewrite S1. exact (A4 _ Hm).
    + rewrite Hst, A9, kept_app. simpl. rewrite kept_app, N5, R4, G4, app_nil_r. reflexivity.
    + left. splits; auto.
      * apply in_or_app. right. left. reflexivity.
      * rewrite outcomes_app. simpl. rewrite outcomes_app, N3, R3, G3. reflexivity.
      * rewrite returns_app. simpl. rewrite returns_app, N4, R6, G6, S5, A10, Hb, S2, A1. reflexivity.
  - constructor; rewrite ?accepted_app, ?taken_app, ?replayed_app, ?kept_app; simpl; rewrite ?N1, ?N2, ?N5, ?N6, ?R1, ?R2, ?R4, ?R5, ?app_nil_r; simpl; auto; try congruence.
    right. splits; auto; try congruence.
    + intros H. apply in_app_or in H. destruct H as [H|[H|H]]; auto; discriminate.
    + rewrite outcomes_app. simpl. rewrite N3, R3. reflexivity.
    + rewrite returns_app. simpl. rewrite N4, R6. reflexivity.
  - destruct (write_same _ _ _ _ _ _ Hl) as [[S1 S2 S3 S4 S5] S6]. simpl in *.
    pose proof (write_items _ _ _ _ _ _ Hl k internal) as Hk. pose proof (written_prev _ _ _ _ _ _ _ Hw) as Hpr. simpl in Hk.
    constructor; rewrite ?accepted_app, ?taken_app, ?replayed_app; simpl; auto; try congruence.
    + rewrite N1. destruct internal; simpl; rewrite R1, app_nil_r; reflexivity.
    + intros m' Hm'. rewrite S1. exact (A4 _ Hm').
    + rewrite N2. destruct internal; simpl; exact R2.
    + rewrite N6. destruct internal; simpl; exact R5.
    + rewrite Hk, A9. change (wrote_event k internal lg h :: ret k w) with ([wrote_event k internal lg h] ++ ret k w). rewrite !kept_app, N5, R4, app_nil_r. reflexivity.
    + right. splits; auto; try congruence.
      * intros H. apply in_app_or in H. destruct H as [H|[H|H]]; auto. destruct internal; discriminate.
      * rewrite outcomes_app, N3. destruct internal; simpl; rewrite R3; reflexivity.
      * rewrite returns_app, N4. destruct internal; simpl; rewrite R6; reflexivity.
Qed.

Lemma finv_new s0 mc ms now : finv s0 (buf_new mc ms now s0) [].
Proof. constructor; simpl; auto; try discriminate; try tauto; try (exists []; split; auto); constructor. Qed.
(** A step that does nothing of interest here. *)
Lemma finv_quiet s0 (b b' : buf) e es : finv s0 b e -> accepted es = [] -> taken es = [] -> outcomes es = [] -> returns es = [] -> ~ In Died es ->
  b_next b <= b_next b' -> b_queue b' = b_queue b -> b_globals b' = b_globals b -> (b_place b' = Gone <-> b_place b = Gone) -> serving (b_place b') = serving (b_place b) ->
  previous_process_session_id (b_session b') = previous_process_session_id (b_session b) -> finv s0 b' (e ++ es).
Proof.
  intros [F1 F2 F3 F4 F5 F6 F7 F8 F9] E1 E2 E3 E4 E5 Hn Hq Hg Hp Hs Hv.
  constructor; rewrite ?accepted_app, ?taken_app, ?outcomes_app, ?returns_app, ?E1, ?E2, ?E3, ?E4, ?app_nil_r.
  - destruct F1 as (rest & R1 & R2). exists rest. split; [exact R1|]. rewrite Hq. tauto.
  - rewrite Hq. tauto.
  - intros H. apply in_app_or in H. destruct H; [|contradiction]. tauto.
  - exact F4.
  - intros x Hx. specialize (F5 _ Hx). lia.
  - congruence.
  - congruence.
  - destruct F8 as [F8|[F8 F8']]; [left; exact F8|right]. split; [apply in_or_app; auto|exact F8'].
  - rewrite Hq, Hs. exact F9.
Qed.
(** The loop ends. *)
Lemma finv_gone s0 (b : buf) e d : finv s0 b e -> b_place b <> Gone -> (d = [] \/ d = [Died]) -> finv s0 (fst (gone b)) (e ++ d ++ snd (gone b)).
Proof.
  intros [F1 F2 F3 F4 F5 F6 F7 F8 F9] Hp Hd. generalize (gone_nothing b). generalize (snd (gone b)). intros g (G1 & G2 & G3 & G4 & G5 & G6).
  assert (D : accepted d = [] /\ taken d = [] /\ outcomes d = [] /\ returns d = []) by (destruct Hd as [->| ->]; simpl; auto). destruct D as (D1 & D2 & D3 & D4).
  constructor; rewrite ?accepted_app, ?taken_app, ?outcomes_app, ?returns_app, ?D1, ?D2, ?D3, ?D4, ?G1, ?G2, ?G3, ?G6, ?app_nil_r; simpl; auto.
  - destruct F1 as (rest & R1 & R2). exists rest. split; [exact R1|congruence].
  - destruct F8 as [F8|[F8 F8']]; [left; exact F8|right]. split; [apply in_or_app; auto|exact F8'].
Qed.
(** A message is taken. *)
Lemma taken_next s0 (b : buf) e m q : finv s0 b e -> b_place b = Idle -> b_queue b = m :: q ->
  accepted e = taken e ++ pr m :: map pr q /\ waiting_ids (accepted e) = returns e ++ waiting_ids (pr m :: map pr q) /\ log_ids (taken e) = outcomes e /\ ~ In Died e.
Proof.
  intros [F1 F2 F3 F4 F5 F6 F7 F8 F9] Hp Hq. destruct F1 as (rest & R1 & R2).
  assert (Hn : b_place b <> Gone) by congruence. specialize (R2 Hn). subst rest. rewrite Hq in *. rewrite Hp in F9. simpl in F9. assert (~ In Died e) by (intros F; specialize (F3 F); contradiction). splits; auto.
  destruct F8 as [F8|[F8 _]]; [exact F8|contradiction].
Qed.
Lemma waiting_cons m q : waiting_ids (pr m :: map pr q) = (if waits (ms_call m) then [ms_id m] else []) ++ waiting_ids (map pr q).
Proof. unfold waiting_ids, waits. simpl. destruct (ms_call m) as [? []|?|?|[]]; reflexivity. Qed.
Lemma finv_step s0 b e x b' es : finv s0 b e -> step b x = Some (b', es) -> finv s0 b' (e ++ es).
Proof.
  intros F H. apply step_out in H.
  destruct H as [c Hp|c a Ha Hp|q|k|k|c vs p e2 Hp Hr Hrep|c vs Hp|m q l w t i l' shot b2 e2 Hp Hq Hm Hi Ho|m q f t Hp Hq Hm|m q f t Hp Hq Hm|m q w t Hp Hq Hm|k w Hp|k w p Hp Hs|k w p Hp Hs|r p p' es Hp Hs|r p Hp Hs|Hp].
  - destruct F as [F1 F2 F3 F4 F5 F6 F7 F8 F9]. constructor; rewrite ?accepted_app, ?taken_app, ?outcomes_app, ?returns_app; simpl; rewrite ?app_nil_r; auto.
    + destruct F1 as (rest & R1 & R2). exists (rest ++ [(b_next b, c)]). split; [rewrite R1, app_assoc; reflexivity|]. intros _. rewrite (R2 Hp), map_app. reflexivity.
    + contradiction.
    + intros H. apply in_app_or in H. destruct H as [H|[H|[]]]; [auto|discriminate].
    + rewrite map_app. apply sorted_app; [exact F4|repeat constructor|]. intros y z Hy Hz. apply in_map_iff in Hy. destruct Hy as (y' & <- & Hy). simpl in Hz. destruct Hz as [<-|[]]. auto.
    + intros y Hy. apply in_app_or in Hy. destruct Hy as [Hy|[<-|[]]]; [specialize (F5 _ Hy); lia|simpl; lia].
    + destruct F8 as [F8|[F8 F8']]; [left; exact F8|right]. split; [apply in_or_app; auto|exact F8'].
    + rewrite map_app, !waiting_ids_app, F9, <- !app_assoc. reflexivity.
  - apply (finv_quiet _ _ _ _ _ F); simpl; auto; try tauto. destruct a; auto; congruence. intros [H|[]]; discriminate.
  - apply (finv_quiet _ _ _ _ _ F); simpl; auto; try tauto. intros [H|[]]; discriminate.
  - apply (finv_quiet _ _ _ _ _ F); simpl; auto; try tauto. apply start_new_prev.
  - apply (finv_quiet _ _ _ _ _ F); simpl; auto; try tauto. destruct (session_id (b_session b) k) as [s' id] eqn:Es. simpl. exact (session_id_prev _ _ _ _ Es).
  - assert (X : accepted e2 = [] /\ taken e2 = [] /\ outcomes e2 = [] /\ returns e2 = [] /\ ~ In Died e2).
    { clear - Hr. induction e2 as [|x e2 IH]; [simpl; tauto|]. destruct (Hr x (or_introl eq_refl)) as (l & es & ->). simpl.
      destruct IH as (I1 & I2 & I3 & I4 & I5); [intros y Hy; apply Hr; right; exact Hy|]. splits; auto. intros [H|H]; [discriminate|contradiction]. }
    destruct X as (X1 & X2 & X3 & X4 & X5). apply (finv_quiet _ _ _ _ _ F); simpl; auto; tauto.
  - apply (finv_gone s0 b e [Died] F); auto. congruence.
  - destruct (taken_next _ _ _ _ _ F Hp Hq) as (T1 & T2 & T3 & T4). pose proof F as [F1 F2 F3 F4 F5 F6 F7 F8 F9]. destruct (pout_facts _ _ _ _ _ _ _ Ho Hp) as (q' & [P1 P2 P3 P4 P5 P6 P7 P8 P9 P10 P11 P12]). simpl in *.
    assert (Sh : accepted (V:=V) (E:=E) (if shot then [Shot] else []) = [] /\ taken (V:=V) (E:=E) (if shot then [Shot] else []) = [] /\ outcomes (V:=V) (E:=E) (if shot then [Shot] else []) = [] /\ returns (V:=V) (E:=E) (if shot then [Shot] else []) = [] /\ ~ In (Died (V:=V) (E:=E)) (if shot then [Shot] else []))
      by (destruct shot; simpl; splits; auto; intros [H|[]]; discriminate). destruct Sh as (S1 & S2 & S3 & S4 & S5).
    assert (Em : pr m = (ms_id m, CLog l w)) by (unfold pr; rewrite Hm; reflexivity).
    assert (Lg : forall x, log_ids ((ms_id m, CLog l w) :: x) = ms_id m :: log_ids x) by reflexivity.
    assert (Dq : In Died (e ++ Taken (ms_id m) (CLog l w) t :: (if shot then [Shot] else []) ++ e2) -> In Died e2).
    { intros H. apply in_app_or in H. destruct H as [H|[H|H]]; [contradiction|discriminate|]. apply in_app_or in H. tauto. }
    constructor; rewrite ?accepted_app, ?taken_app, ?outcomes_app, ?returns_app; simpl; rewrite ?accepted_app, ?taken_app, ?outcomes_app, ?returns_app, ?P1, ?P6, ?S1, ?S2, ?S3, ?S4; simpl.
    + exists (map pr q ++ map pr q'). split; [rewrite T1, Em, <- !app_assoc; reflexivity|].
      intros Hg. destruct P12 as [(_ & D & _)|(_ & _ & D & _)]; [contradiction|]. rewrite D, map_app. reflexivity.
    + intros Hg. destruct P12 as [(_ & _ & D & _)|(_ & D & _)]; [exact D|congruence].
    + intros H. apply Dq in H. destruct P12 as [(_ & D & _)|(D & _)]; [exact D|contradiction].
    + rewrite map_app, map_map. apply sorted_app; [exact F4|exact P3|]. intros y z Hy Hz. apply in_map_iff in Hy. destruct Hy as (y' & <- & Hy). apply in_map_iff in Hz. destruct Hz as (z' & <- & Hz).
      specialize (F5 _ Hy). specialize (P4 _ Hz). simpl. lia.
    + intros y Hy. apply in_app_or in Hy. destruct Hy as [Hy|Hy]; [specialize (F5 _ Hy); lia|]. apply in_map_iff in Hy. destruct Hy as (z & <- & Hz). specialize (P4 _ Hz). simpl. lia.
    + rewrite P8, F6, field_ops_app. simpl. rewrite app_nil_r. reflexivity.
    + congruence.
    + rewrite log_ids_app, T3, Lg. destruct P12 as [(D & _ & _ & O & _)|(_ & _ & _ & O & _)]; rewrite O.
      * right. split; [apply in_or_app; right; right; apply in_or_app; auto|]. exists (ms_id m). rewrite app_nil_r. reflexivity.
      * left. reflexivity.
    + rewrite waiting_ids_app, T2, waiting_cons, Hm. unfold waits.
      destruct P12 as [(_ & D & Dq' & _ & O)|(_ & D & Dq' & _ & O)]; rewrite O, D, Dq', map_app, waiting_ids_app, <- !app_assoc; simpl; rewrite ?app_nil_r; reflexivity.
  - destruct (taken_next _ _ _ _ _ F Hp Hq) as (T1 & T2 & T3 & T4). destruct F as [F1 F2 F3 F4 F5 F6 F7 F8 F9].
    constructor; rewrite ?accepted_app, ?taken_app, ?outcomes_app, ?returns_app; simpl; rewrite ?app_nil_r; auto.
    + exists (map pr q). split; [|auto]. rewrite T1, <- app_assoc. unfold pr at 1. rewrite Hm. reflexivity.
    + congruence.
    + intros H. apply in_app_or in H. destruct H as [H|[H|[]]]; [contradiction|discriminate].
    + rewrite field_ops_app, fold_left_app, <- F6. destruct f; reflexivity.
    + left. rewrite log_ids_app, T3. simpl. rewrite app_nil_r. reflexivity.
    + rewrite T2, waiting_cons, Hm, Hp. reflexivity.
  - destruct (taken_next _ _ _ _ _ F Hp Hq) as (T1 & T2 & T3 & T4). destruct F as [F1 F2 F3 F4 F5 F6 F7 F8 F9].
    constructor; rewrite ?accepted_app, ?taken_app, ?outcomes_app, ?returns_app; simpl; rewrite ?app_nil_r; auto.
    + exists (map pr q). split; [|auto]. rewrite T1, <- app_assoc. unfold pr at 1. rewrite Hm. reflexivity.
    + congruence.
    + intros H. apply in_app_or in H. destruct H as [H|[H|[]]]; [contradiction|discriminate].
    + rewrite field_ops_app, fold_left_app, <- F6. reflexivity.
    + left. rewrite log_ids_app, T3. simpl. rewrite app_nil_r. reflexivity.
    + rewrite T2, waiting_cons, Hm, Hp. reflexivity.
  - destruct (taken_next _ _ _ _ _ F Hp Hq) as (T1 & T2 & T3 & T4). destruct F as [F1 F2 F3 F4 F5 F6 F7 F8 F9].
    assert (X : accepted (V:=V) (E:=E) (if has_stats then [StatsAsked] else [BuffersAsked]) = [] /\ taken (V:=V) (E:=E) (if has_stats then [StatsAsked] else [BuffersAsked]) = [] /\
      outcomes (V:=V) (E:=E) (if has_stats then [StatsAsked] else [BuffersAsked]) = [] /\ returns (V:=V) (E:=E) (if has_stats then [StatsAsked] else [BuffersAsked]) = [] /\
      ~ In (Died (V:=V) (E:=E)) (if has_stats then [StatsAsked] else [BuffersAsked])) by (destruct has_stats; simpl; splits; auto; intros [H|[]]; discriminate).
    destruct X as (X1 & X2 & X3 & X4 & X5).
    constructor; rewrite ?accepted_app, ?taken_app, ?outcomes_app, ?returns_app; simpl; rewrite ?X1, ?X2, ?X3, ?X4, ?app_nil_r; auto.
    + exists (map pr q). split; [|auto]. rewrite T1, <- app_assoc. unfold pr at 1. rewrite Hm. reflexivity.
    + destruct has_stats; discriminate.
    + intros H. apply in_app_or in H. destruct H as [H|[H|H]]; [contradiction|discriminate|contradiction].
    + rewrite field_ops_app. simpl. rewrite app_nil_r. exact F6.
    + left. rewrite log_ids_app, T3. simpl. rewrite app_nil_r. reflexivity.
    + rewrite T2, waiting_cons, Hm. destruct has_stats, w; reflexivity.
  - apply (finv_quiet _ _ _ _ _ F); simpl; auto; try tauto.
    + intros [H|[H|[]]]; discriminate.
    + rewrite Hp. split; discriminate.
    + rewrite Hp. reflexivity.
  - destruct F as [F1 F2 F3 F4 F5 F6 F7 F8 F9]. destruct (ret_nothing k w) as (R1 & R2 & R3 & R4 & R5 & R6 & R7).
    constructor; rewrite ?accepted_app, ?taken_app, ?outcomes_app, ?returns_app; simpl; rewrite ?R1, ?R2, ?R3, ?R6, ?app_nil_r; auto; try discriminate.
    + destruct F1 as (rest & Q1 & Q2). exists rest. split; [exact Q1|]. intros _. apply Q2. congruence.
    + intros H. apply in_app_or in H. destruct H as [H|[H|[H|H]]]; try discriminate; [|contradiction]. specialize (F3 H). congruence.
    + rewrite flush_prev. exact F7.
    + destruct F8 as [F8|[F8 F8']]; [left; exact F8|right]. split; [apply in_or_app; auto|exact F8'].
    + rewrite F9, Hp. simpl. rewrite <- app_assoc. destruct w; reflexivity.
  - destruct F as [F1 F2 F3 F4 F5 F6 F7 F8 F9]. destruct (ret_nothing k w) as (R1 & R2 & R3 & R4 & R5 & R6 & R7).
    constructor; rewrite ?accepted_app, ?taken_app, ?outcomes_app, ?returns_app; simpl; rewrite ?R1, ?R2, ?R3, ?R6, ?app_nil_r; auto; try discriminate.
    + destruct F1 as (rest & Q1 & Q2). exists rest. split; [exact Q1|]. intros _. apply Q2. congruence.
    + intros H. apply in_app_or in H. destruct H as [H|[H|[H|[H|H]]]]; try discriminate; [|contradiction]. specialize (F3 H). congruence.
    + rewrite flush_prev. exact F7.
    + destruct F8 as [F8|[F8 F8']]; [left; exact F8|right]. split; [apply in_or_app; auto|exact F8'].
    + rewrite F9, Hp. simpl. rewrite <- app_assoc. destruct w; reflexivity.
  - apply (finv_quiet _ _ _ _ _ F); simpl; auto; try tauto. intros [H|[]]; discriminate.
  - apply (finv_gone s0 b e [Died] F); auto. congruence.
  - apply (finv_gone s0 b e [] F); auto.
Qed.
Lemma finv_run mc ms now s0 l b e : run (buf_new mc ms now s0) l = Some (b, e) -> finv s0 b e.
Proof. apply (run_ind (finv s0)); [apply finv_new|]. intros. eapply finv_step; eassumption. Qed.

(** ** Logs kept until the first configuration *)
Lemma kept_step b e x b' es : kept e = replayed e ++ items (b_state b) -> step b x = Some (b', es) -> kept (e ++ es) = replayed (e ++ es) ++ items (b_state b').
Proof.
  intros F H. apply step_out in H. rewrite kept_app, replayed_app, F.
  destruct H as [c Hp|c a Ha Hp|q|k|k|c vs p e2 Hp Hr Hrep|c vs Hp|m q l w t i l' shot b2 e2 Hp Hq Hm Hi Ho|m q f t Hp Hq Hm|m q f t Hp Hq Hm|m q w t Hp Hq Hm|k w Hp|k w p Hp Hs|k w p Hp Hs|r p p' es Hp Hs|r p Hp Hs|Hp];
    try (simpl; rewrite ?app_nil_r; reflexivity).
  - assert (K : kept e2 = []).
    { clear - Hr. induction e2 as [|x e2 IH]; [reflexivity|]. destruct (Hr x (or_introl eq_refl)) as (l & es & ->). simpl. apply IH. intros y Hy. apply Hr. right. exact Hy. }
    rewrite K, Hrep. simpl. rewrite !app_nil_r. reflexivity.
  - generalize (gone_nothing b). generalize (snd (gone b)). intros g (G1 & G2 & G3 & G4 & G5 & G6). simpl. rewrite G4, G5, !app_nil_r. reflexivity.
  - destruct (pout_facts _ _ _ _ _ _ _ Ho Hp) as (q' & [P1 P2 P3 P4 P5 P6 P7 P8 P9 P10 P11 P12]). simpl in *. rewrite kept_app, replayed_app, P7, P11. destruct shot; simpl; rewrite !app_nil_r, app_assoc; reflexivity.
  - destruct has_stats; simpl; rewrite !app_nil_r; reflexivity.
  - destruct (ret_nothing k w) as (R1 & R2 & R3 & R4 & R5 & R6 & R7). simpl. rewrite R4, R5, !app_nil_r. reflexivity.
  - destruct (ret_nothing k w) as (R1 & R2 & R3 & R4 & R5 & R6 & R7). simpl. rewrite R4, R5, Hs, !app_nil_r. reflexivity.
  - rewrite Hs. simpl. rewrite !app_nil_r. reflexivity.
  - generalize (gone_nothing b). generalize (snd (gone b)). intros g (G1 & G2 & G3 & G4 & G5 & G6). simpl. rewrite G4, G5, !app_nil_r. reflexivity.
  - generalize (gone_nothing b). generalize (snd (gone b)). intros g (G1 & G2 & G3 & G4 & G5 & G6). simpl. rewrite G4, G5, !app_nil_r. reflexivity.
Qed.
Lemma kept_run mc ms now s0 l b e : run (buf_new mc ms now s0) l = Some (b, e) -> kept e = replayed e ++ items (b_state b).
Proof. apply (run_ind (fun b e => kept e = replayed e ++ items (b_state b))); [reflexivity|]. intros. eapply kept_step; eassumption. Qed.

(** ** C87: fields *)
Lemma prefix_in {A} (a b c : list A) x : a = b ++ c -> In x b -> In x a.
Proof. intros -> H. apply in_or_app. auto. Qed.
Lemma wrote_outcome (e : list event) k i lg h : In (wrote_event k i lg h) e -> In k (outcomes e).
Proof. induction e as [|x e IH]; [intros []|]. intros [->|H]; [destruct i; left; reflexivity|]. destruct x; simpl; auto. Qed.
Lemma wrote_event_inj k i lg h k' i' lg' h' : wrote_event k i lg h = wrote_event k' i' lg' h' -> k = k' /\ i = i' /\ lg = lg' /\ h = h'.
Proof. destruct i, i'; simpl; intros H; inversion H; auto. Qed.
(** The step that wrote. *)
Lemma wrote_step s0 mc ms now ls b e k lg h i : run (buf_new mc ms now s0) ls = Some (b, e) -> In (wrote_event k i lg h) e ->
  exists e1 e2 es ln w t ic l' shot b1 bq b2, e = e1 ++ (Taken k (CLog ln w) t :: es) ++ e2 /\ In (wrote_event k i lg h) es /\ (finv s0 b1 e1 /\ exists l1, run (buf_new mc ms now s0) l1 = Some (b1, e1)) /\ accepted e1 = taken e1 ++ (k, CLog ln w) :: map pr bq /\
    intercept (t_report t) (t_now t) (b_icept b1) ln = (ic, l', shot) /\
    exists bi ie ts pv m s, inner (with_icept (with_queue b1 (b_next b1) bq) ic) (t_inner t) = (bi, ie, false) /\ t_time t = Some ts /\ t_provider t = Some pv /\
      normalized_metadata (b_globals b1) (Some ts) (Some pv) (ln_fields l') (ln_matching l') (ln_type l') = Some m /\ written (b_session b1) l' t m lg i s /\
      write_log (with_session bi s) lg (w && negb i) (t_pipe t) = Some (b2, h) /\ es = (if shot then [Shot] else []) ++ ie ++ wrote_event k i lg h :: ret k w.
Proof.
  intros Hr Hin. destruct (run_in _ _ _ _ _ Hr Hin) as (l1 & y & l2 & b1 & e1 & b2 & es & e2 & El & R1 & St & Hi & R2 & Ee).
  pose proof (finv_run _ _ _ _ _ _ _ R1) as F. apply step_out in St.
  destruct St as [c Hp|c a Ha Hp|q|k'|k'|c vs p e3 Hp Hr' Hrep|c vs Hp|m q l w t i' l' shot b3 e3 Hp Hq Hm Hic Ho|m q f t Hp Hq Hm|m q f t Hp Hq Hm|m q w t Hp Hq Hm|k' w Hp|k' w p Hp Hs|k' w p Hp Hs|r p p' es Hp Hs|r p Hp Hs|Hp];
    try (apply wrote_outcome in Hi; simpl in Hi; contradiction).
  - exfalso. apply Hr' in Hi. destruct Hi as (l & es & Hi). destruct i; discriminate.
  - destruct (gone_nothing b1) as (_ & _ & G3 & _). apply wrote_outcome in Hi. simpl outcomes in Hi. change (In k (outcomes (snd (gone b1)))) in Hi. rewrite G3 in Hi. destruct Hi.
  - destruct (taken_next _ _ _ _ _ F Hp Hq) as (T1 & T2 & T3 & T4). destruct Hi as [Hi|Hi]; [destruct i; discriminate|].
    apply in_app_or in Hi. destruct Hi as [Hi|Hi]; [destruct shot, i; simpl in Hi; try contradiction; destruct Hi as [Hi|[]]; discriminate|].
    destruct (ret_nothing (ms_id m) w) as (R1' & R2' & R3 & R4 & R5 & R6 & R7).
    destruct Ho as [bi ie d b4 Hin' Hs Hst Hpr Hse|bi ie Hin' Hn|bi ie ts pv md lg' internal s b4 h' Hin' Ht Hpv Hmd Hw Hl].
    + apply wrote_outcome in Hi. destruct (inner_shape _ _ _ _ _ Hin') as (q' & Q). destruct (ie_nothing _ _ _ _ _ Q) as (N1 & N2 & N3 & N4 & N5 & N6 & N7 & N8).
      destruct (gone_nothing b4) as (_ & _ & G3 & _). rewrite outcomes_app, N3 in Hi. simpl outcomes in Hi. rewrite outcomes_app, R3 in Hi. change (In k (outcomes (snd (gone b4)))) in Hi. rewrite G3 in Hi. destruct Hi.
    + exfalso. apply in_app_or in Hi. destruct (inner_shape _ _ _ _ _ Hin') as (q' & Q). destruct (ie_nothing _ _ _ _ _ Q) as (N1 & N2 & N3 & N4 & N5 & N6 & N7 & N8).
      destruct Hi as [Hi|[Hi|Hi]]; [apply wrote_outcome in Hi; rewrite N3 in Hi; exact Hi|destruct i; discriminate|apply wrote_outcome in Hi; rewrite R3 in Hi; exact Hi].
    + apply in_app_or in Hi. destruct (inner_shape _ _ _ _ _ Hin') as (q' & Q). destruct (ie_nothing _ _ _ _ _ Q) as (N1 & N2 & N3 & N4 & N5 & N6 & N7 & N8).
      destruct Hi as [Hi|[Hi|Hi]]; [apply wrote_outcome in Hi; rewrite N3 in Hi; destruct Hi| |apply wrote_outcome in Hi; rewrite R3 in Hi; destruct Hi].
      apply wrote_event_inj in Hi. destruct Hi as (<- & -> & -> & ->).
      pose proof (is_globals _ _ _ _ _ Q) as Qg. pose proof (is_session _ _ _ _ _ Q) as Qs. simpl in Qg, Qs. rewrite Qg in Hmd. rewrite Qs in Hw.
      exists e1, e2, ((if shot then [Shot] else []) ++ ie ++ wrote_event (ms_id m) i lg h :: ret (ms_id m) w), l, w, t, i', l', shot, b1, q, b4. split; [rewrite Ee; reflexivity|]. split; [apply in_or_app; right; apply in_or_app; right; left; reflexivity|].
      split; [split; [exact F|exists l1; exact R1]|]. split; [rewrite T1; unfold pr at 1; rewrite Hm; reflexivity|]. split; [exact Hic|].
      exists bi, ie, ts, pv, md, s. splits; auto.
  - exfalso. destruct Hi as [Hi|Hi]; [destruct i; discriminate|]. apply wrote_outcome in Hi. destruct has_stats; exact Hi.
  - exfalso. destruct Hi as [Hi|[Hi|Hi]]; try (destruct i; discriminate). apply wrote_outcome in Hi. destruct (ret_nothing k' w) as (_ & _ & R3 & _). rewrite R3 in Hi. exact Hi.
  - exfalso. destruct Hi as [Hi|[Hi|[Hi|Hi]]]; try (destruct i; discriminate). apply wrote_outcome in Hi. destruct (ret_nothing k' w) as (_ & _ & R3 & _). rewrite R3 in Hi. exact Hi.
  - destruct (gone_nothing b1) as (_ & _ & G3 & _). apply wrote_outcome in Hi. simpl outcomes in Hi. change (In k (outcomes (snd (gone b1)))) in Hi. rewrite G3 in Hi. destruct Hi.
  - destruct (gone_nothing b1) as (_ & _ & G3 & _). apply wrote_outcome in Hi. rewrite G3 in Hi. destruct Hi.
Qed.

(** ** What the interceptors add *)
Definition is_report (l : line) (on : bool) : bool := (ln_type l =? 3)%N && match ln_message l with VStr m => String.eqb m "" | VBytes _ => false end && on.
Record added_by (on : bool) (i i' : icept) (l l' : line) (fs : list field) : Prop := {
  ab_fields : ln_fields l' = ln_fields l ++ map ootb fs;
  ab_level : ln_level l' = ln_level l; ab_type : ln_type l' = ln_type l; ab_message : ln_message l' = ln_message l; ab_matching : ln_matching l' = ln_matching l; ab_override : ln_override l' = ln_override l;
  ab_names : forall f, In f fs -> internal_name (f_key f);
  ab_report : i_report i' = (if is_report l on then report_clear (report_count (ln_type l) (i_report i)) else report_count (ln_type l) (i_report i));
  ab_reports : is_report l on = true -> exists rest, fs = report_fields (report_count (ln_type l) (i_report i)) ++ rest;
  ab_quality : forall w, i_quality i' = (if is_response (CLog l w) then Online else i_quality i);
  ab_resource : ln_type l = 3%N -> absent "_network_quality" fs;
  ab_offline : ln_type l <> 3%N -> fs = (if (ln_type l =? 1)%N || (ln_type l =? 4)%N then [] else match i_quality i' with Offline => [mkField "_network_quality" (VStr "offline")] | _ => [] end) }.
Lemma report_names r f : In f (report_fields r) -> internal_name (f_key f).
Proof.
  unfold report_fields, report_kinds. intros H. apply in_flat_map in H. destruct H as ([[n t] [a b]] & Hin & Hf). apply in_combine_l in Hin. simpl in Hf.
  repeat (destruct Hin as [Hin|Hin]; [inversion Hin; subst; clear Hin; destruct Hf as [<-|[<-|[]]]; simpl; eexists; simpl; reflexivity|]). destruct Hin.
Qed.
Lemma traffic_names now c c' fs f : Network_Model.process_resource_utilization_log now c = (c', fs) -> In f fs -> internal_name (f_key f).
Proof.
  unfold Network_Model.process_resource_utilization_log. destruct (Network_Model.get_summary_sample now c) as [c1 [s|]]; intros H; inversion H; subst; simpl; [|intros []].
  intros Hf. repeat (destruct Hf as [<-|Hf]; [simpl; eexists; simpl; reflexivity|]). destruct Hf.
Qed.
Lemma report_no_quality r : absent "_network_quality" (report_fields r).
Proof.
  apply Forall_forall. unfold report_fields, report_kinds. intros f H. apply in_flat_map in H. destruct H as ([[n t] [a b]] & Hin & Hf). apply in_combine_l in Hin. simpl in Hf.
  repeat (destruct Hin as [Hin|Hin]; [inversion Hin; subst; clear Hin; destruct Hf as [<-|[<-|[]]]; simpl; discriminate|]). destruct Hin.
Qed.
Lemma traffic_no_quality now c c' fs : Network_Model.process_resource_utilization_log now c = (c', fs) -> absent "_network_quality" fs.
Proof.
  unfold Network_Model.process_resource_utilization_log. destruct (Network_Model.get_summary_sample now c) as [c1 [s|]]; intros H; inversion H; subst; repeat constructor; simpl; discriminate.
Qed.
Lemma intercepted on now i l i' l' shot : intercept on now i l = (i', l', shot) -> exists fs, added_by on i i' l l' fs.
Proof.
  unfold intercept, report_process, traffic_process, quality_process. destruct l as [lv ty msg fl mf ov]. simpl.
  destruct msg as [m|bs].
  - destruct (ty =? 8)%N eqn:E8.
    + apply N.eqb_eq in E8. subst ty. simpl. destruct (String.eqb m "HTTPResponse") eqn:Em; intros H; inversion H; subst; clear H; simpl.
      * set (q := match Network_Model.get_int_field_value (map a_field fl) "_status_code" with Some _ => Online | None => i_quality i end).
        assert (Hq : forall w, q = (if is_response (CLog (mkLine lv 8 (VStr m) fl mf ov) w) then Online else i_quality i)).
        { intros w. simpl. rewrite Em. simpl. unfold q. destruct (Network_Model.get_int_field_value (map a_field fl) "_status_code"); reflexivity. }
        exists (match q with Offline => [mkField "_network_quality" (VStr "offline")] | _ => [] end). constructor; simpl; auto; try discriminate.
        -- destruct q; simpl; rewrite ?app_nil_r; reflexivity.
        -- intros f Hf. destruct q; simpl in Hf; try contradiction. destruct Hf as [<-|[]]. eexists. simpl. reflexivity.
      * exists (match i_quality i with Offline => [mkField "_network_quality" (VStr "offline")] | _ => [] end). constructor; simpl; auto; try discriminate.
        -- destruct (i_quality i); simpl; rewrite ?app_nil_r; reflexivity.
        -- intros f Hf. destruct (i_quality i); simpl in Hf; try contradiction. destruct Hf as [<-|[]]. eexists. simpl. reflexivity.
        -- intros w. rewrite Em. reflexivity.
    + simpl. destruct (ty =? 3)%N eqn:E3.
      * apply N.eqb_eq in E3. subst ty. simpl. destruct (String.eqb m "") eqn:Em; simpl.
        -- destruct on; destruct (Network_Model.process_resource_utilization_log now (i_traffic i)) as [c' added] eqn:Et; intros H; inversion H; subst; clear H; simpl.
           ++ exists (report_fields (report_count 3 (i_report i)) ++ added). constructor; simpl; auto; unfold is_report; simpl; try (rewrite Em; simpl); auto; try congruence.
              ** rewrite map_app, app_assoc. reflexivity.
              ** intros f Hf. apply in_app_or in Hf. destruct Hf as [Hf|Hf]; [exact (report_names _ _ Hf)|exact (traffic_names _ _ _ _ _ Et Hf)].
              ** intros _. exists added. reflexivity.
              ** intros _. apply Forall_app. split; [apply report_no_quality|exact (traffic_no_quality _ _ _ _ Et)].
           ++ exists added. constructor; simpl; auto; unfold is_report; simpl; try (rewrite Em; simpl); auto; try congruence.
              ** intros f Hf. exact (traffic_names _ _ _ _ _ Et Hf).
              ** intros _. exact (traffic_no_quality _ _ _ _ Et).
        -- intros H; inversion H; subst; clear H; simpl. exists []. constructor; simpl; auto; unfold is_report; simpl; try (rewrite Em; simpl); auto; try congruence.
           ++ rewrite app_nil_r. reflexivity.
           ++ intros f [].
           ++ intros _. constructor.
      * simpl. intros H; inversion H; subst; clear H; simpl.
        exists (if (ty =? 1)%N || (ty =? 4)%N then [] else match i_quality i with Offline => [mkField "_network_quality" (VStr "offline")] | _ => [] end).
        constructor; simpl; auto; unfold is_report; simpl; rewrite ?E3, ?E8; simpl; auto; try discriminate.
        -- destruct ((ty =? 1)%N || (ty =? 4)%N); [rewrite app_nil_r; reflexivity|]. destruct (i_quality i); simpl; rewrite ?app_nil_r; reflexivity.
        -- intros f Hf. destruct ((ty =? 1)%N || (ty =? 4)%N); [destruct Hf|]. destruct (i_quality i); simpl in Hf; try contradiction. destruct Hf as [<-|[]]. eexists. simpl. reflexivity.
        -- intros ->. discriminate.
  - destruct (ty =? 3)%N eqn:E3.
    + simpl. intros H; inversion H; subst; clear H; simpl. apply N.eqb_eq in E3. subst ty. exists []. constructor; simpl; auto; unfold is_report; simpl; auto; try congruence.
      * rewrite app_nil_r. reflexivity.
      * intros f [].
      * intros _. constructor.
    + simpl. intros H; inversion H; subst; clear H; simpl.
      exists (if (ty =? 1)%N || (ty =? 4)%N then [] else match i_quality i with Offline => [mkField "_network_quality" (VStr "offline")] | _ => [] end).
      constructor; simpl; auto; unfold is_report; simpl; rewrite ?E3; simpl; auto; try discriminate.
      * destruct ((ty =? 1)%N || (ty =? 4)%N); [rewrite app_nil_r; reflexivity|]. destruct (i_quality i); simpl; rewrite ?app_nil_r; reflexivity.
      * intros f Hf. destruct ((ty =? 1)%N || (ty =? 4)%N); [destruct Hf|]. destruct (i_quality i); simpl in Hf; try contradiction. destruct Hf as [<-|[]]. eexists. simpl. reflexivity.
      * intros w. destruct (ty =? 8)%N; reflexivity.
      * intros ->. discriminate.
Qed.

(** ** Fields of what is passed on *)
Lemma source_ootb l fs lo lc : source l Ootb lo -> source l Custom lc -> source (l ++ map ootb fs) Ootb (lo ++ fs) /\ source (l ++ map ootb fs) Custom lc.
Proof.
  assert (G : forall kd s, source l kd s -> source (l ++ map ootb fs) kd (match kd with Ootb => s ++ fs | Custom => s end)).
  { assert (B : forall kd, source (map ootb fs) kd (match kd with Ootb => fs | Custom => [] end)).
    { intros kd. induction fs as [|f fs' IH]; [destruct kd; constructor|]. destruct kd; simpl; [apply source_use; [discriminate|exact IH]|apply source_other; [discriminate|exact IH]]. }
    induction 1 as [kd|f kd l' s' A _ IH|f kd kd' l' s' N _ IH|f l' s' N _ IH]; simpl.
    - specialize (B kd). destruct kd; exact B.
    - destruct kd; simpl; apply source_use; assumption.
    - destruct kd; apply source_other; assumption.
    - apply source_refused; assumption. }
  intros H1 H2. split; [exact (G _ _ H1)|exact (G _ _ H2)].
Qed.
Lemma absent_app k (a b : list field) : absent k (a ++ b) <-> absent k a /\ absent k b.
Proof. apply Forall_app. Qed.
Lemma picks_drop k a b fs rest v : absent k fs -> picks k (a ++ (b ++ fs) :: rest) v <-> picks k (a ++ b :: rest) v.
Proof.
  intros H. rewrite <- !first_concat, !concat_app. simpl. rewrite !first_app.
  assert (N : forall v, ~ first k fs v). { intros v' F. clear - H F. induction F; inversion H; subst; auto. }
  split; (intros [X|[X1 X2]]; [left; exact X|right; split; [exact X1|]]).
  - destruct X2 as [[X2|[_ X2]]|[X2 X3]]; [left; exact X2|elim (N _ X2)|]. apply absent_app in X2. destruct X2. right. split; assumption.
  - destruct X2 as [X2|[X2 X3]]; [left; left; exact X2|]. right. split; [apply absent_app; split; assumption|exact X3].
Qed.
Lemma in_accepted (e : list event) k c : In (k, c) (accepted e) -> In (Called k c Accepted) e.
Proof.
  induction e as [|x e IH]; [intros []|]. destruct x as [k' c' []| | | | | | | | | | | | | | | | |]; simpl; auto. intros [H|H]; [inversion H; auto|auto].
Qed.
Lemma accepted_in (e : list event) k c : In (Called k c Accepted) e -> In (k, c) (accepted e).
Proof. induction e as [|x e IH]; [intros []|]. intros [->|H]; [left; reflexivity|]. destruct x as [k' c' []| | | | | | | | | | | | | | | | |]; simpl; auto. Qed.
Lemma before_prefix (l1 l2 : list (nat * call)) k c : Sorted.StronglySorted lt (map fst (l1 ++ (k, c) :: l2)) -> List.filter (fun x => Nat.ltb (fst x) k) (l1 ++ (k, c) :: l2) = l1.
Proof.
  induction l1 as [|x l1 IH]; simpl; intros H; inversion H as [|? ? H1 H2]; subst.
  - rewrite Nat.ltb_irrefl. rewrite Forall_forall in H2. assert (G : forall l, (forall x, In x l -> k < fst x) -> List.filter (fun x : nat * call => Nat.ltb (fst x) k) l = []).
    { induction l as [|y l IHl]; intros Hl; [reflexivity|]. simpl. destruct (Nat.ltb_spec (fst y) k); [specialize (Hl y (or_introl eq_refl)); lia|]. apply IHl. intros z Hz. apply Hl. right. exact Hz. }
    apply G. intros x Hx. apply H2. apply in_map. exact Hx.
  - rewrite Forall_forall in H2. assert (fst x < k). { apply H2. rewrite map_app. apply in_or_app. right. left. reflexivity. }
    destruct (Nat.ltb_spec (fst x) k); [|lia]. f_equal. exact (IH H1).
Qed.
Lemma internal_dec_key key fs : (forall f, In f fs -> internal_name (f_key f)) -> ~ internal_name key -> absent key fs.
Proof. intros H N. apply Forall_forall. intros f Hf E0. apply N. rewrite <- E0. exact (H _ Hf). Qed.
Lemma in_app_internal (fs extra : list field) key v : (forall f, In f extra -> internal_name (f_key f)) -> ~ internal_name key -> In (mkField key v) (fs ++ extra) <-> In (mkField key v) fs.
Proof. intros H N. rewrite in_app_iff. split; [|auto]. intros [X|X]; [exact X|]. elim N. exact (H _ X). Qed.
Lemma ops_before_eq s0 mc ms now ls b e e1 c l2 k tail : run (buf_new mc ms now s0) ls = Some (b, e) -> e = e1 ++ tail -> accepted e1 = taken e1 ++ (k, c) :: l2 ->
  ops_before k e = field_ops (taken e1) /\ In (Called k c Accepted) e.
Proof.
  intros Hr Ee Ha. pose proof (fi_sorted _ _ _ (finv_run _ _ _ _ _ _ _ Hr)) as Hs. unfold ops_before. subst e. rewrite accepted_app, Ha, <- app_assoc in *. simpl in *.
  split; [rewrite (before_prefix _ _ _ _ Hs); reflexivity|]. apply in_or_app. left. apply in_accepted. rewrite Ha. apply in_or_app. right. left. reflexivity.
Qed.
Lemma fields s0 mc ms now ls b e k lg h : run (buf_new mc ms now s0) ls = Some (b, e) -> In (Wrote k lg h) e ->
  exists ln w t ts pv globals, In (Called k (CLog ln w) Accepted) e /\ In (Taken k (CLog ln w) t) e /\ t_time t = Some ts /\ t_provider t = Some pv /\
    l_level lg = ln_level ln /\ l_type lg = ln_type ln /\ l_message lg = ln_message ln /\
    NoDup (map f_key globals) /\ (forall key v, In (mkField key v) globals <-> added key v (ops_before k e)) /\
    forall po pc lo lc mo mc, source pv Ootb po -> source pv Custom pc -> source (ln_fields ln) Ootb lo -> source (ln_fields ln) Custom lc ->
      source (ln_matching ln) Ootb mo -> source (ln_matching ln) Custom mc ->
      forall key, ~ internal_name key -> carries (ln_type ln) po pc lo lc mo mc globals key (l_fields lg) (l_matching lg).
Proof.
  intros Hr Hin. destruct (wrote_step _ _ _ _ _ _ _ _ _ _ false Hr Hin) as (e1 & e2 & es & ln & w & t & ic & l' & shot & b1 & bq & b2 & Ee & Hes & [F Rl] & Ha & Hic & bi & ie & ts & pv & m & s & Hi & Ht & Hp & Hm & Hw & _ & _).
  destruct (ops_before_eq _ _ _ _ _ _ _ _ _ _ _ _ Hr Ee Ha) as [Ho Hc]. destruct (intercepted _ _ _ _ _ _ _ Hic) as (fs & [A1 A2 A3 A4 A5 A6 A7 _ _ _ _]).
  exists ln, w, t, ts, pv, (b_globals b1).
  assert (Hl : l_level lg = ln_level ln /\ l_type lg = ln_type ln /\ l_message lg = ln_message ln /\ l_matching lg = m_matching m /\
    exists extra, l_fields lg = m_fields m ++ extra /\ forall f, In f extra -> internal_name (f_key f)).
  { inversion Hw; subst; simpl; splits; auto; [exists []; rewrite app_nil_r; split; [reflexivity|intros f []]|].
    eexists. split; [reflexivity|]. intros f [<-|[]]. eexists. simpl. reflexivity. }
  destruct Hl as (L1 & L2 & L3 & L4 & extra & L5 & L6).
  splits; auto.
  - rewrite Ee. apply in_or_app. right. apply in_or_app. left. left. reflexivity.
  - rewrite (fi_globals _ _ _ F). exact (proj1 (ginv_run _)).
  - intros key v. rewrite (fi_globals _ _ _ F), Ho. exact (proj1 (globals_run _ key v)).
  - intros po pc lo lc mo mc' S1 S2 S3 S4 S5 S6 key Hk. destruct (source_ootb _ fs _ _ S3 S4) as [S3' S4']. rewrite <- A1 in S3', S4'. rewrite <- A5 in S5, S6.
    destruct (normalized _ _ _ _ _ _ _ Hm _ _ _ _ _ _ S1 S2 S3' S4' S5 S6) as (_ & _ & _ & N1 & N2). rewrite A3 in N1, N2.
    pose proof (internal_dec_key _ _ A7 Hk) as Hab. unfold carries. rewrite L4, L5. split; intros Hty v.
    + destruct (N1 Hty key v) as [M1 M2]. split; [|exact M2]. rewrite (in_app_internal _ _ _ _ L6 Hk), M1. exact (picks_drop _ [po] _ _ _ _ Hab).
    + destruct (N2 Hty key v) as [M1 M2]. split; [|exact M2]. rewrite (in_app_internal _ _ _ _ L6 Hk), M1. exact (picks_drop _ [] _ _ _ _ Hab).
Qed.

(** ** C89: logs of the process before *)
Lemma sorted_unique (l : list (nat * call)) k c c' : Sorted.StronglySorted lt (map fst l) -> In (k, c) l -> In (k, c') l -> c = c'.
Proof.
  induction l as [|x l IH]; simpl; intros H H1 H2; [destruct H1|]. inversion H as [|? ? Hs Hf]; subst. rewrite Forall_forall in Hf.
  destruct H1 as [->|H1], H2 as [H2|H2].
  - inversion H2. reflexivity.
  - specialize (Hf k (in_map fst _ _ H2)). simpl in Hf. lia.
  - subst x. specialize (Hf k (in_map fst _ _ H1)). simpl in Hf. lia.
  - exact (IH Hs H1 H2).
Qed.
Lemma call_unique s0 mc ms now ls b e k c c' : run (buf_new mc ms now s0) ls = Some (b, e) -> In (Called k c Accepted) e -> In (Called k c' Accepted) e -> c = c'.
Proof.
  intros Hr H1 H2. apply accepted_in in H1, H2. exact (sorted_unique _ _ _ _ (fi_sorted _ _ _ (finv_run _ _ _ _ _ _ _ Hr)) H1 H2).
Qed.
Lemma overridden s0 mc ms now ls b e k ln w x at_ : run (buf_new mc ms now s0) ls = Some (b, e) -> In (Called k (CLog ln w) Accepted) e -> ln_override ln = Some (x, at_) ->
  (forall lg h, In (Wrote k lg h) e -> previous_process_session_id s0 = Some x /\ l_session lg = x /\ l_time lg = at_ /\
     exists t ts, In (Taken k (CLog ln w) t) e /\ t_time t = Some ts /\ In (mkField "_logged_at" (VStr (show_time ts))) (l_fields lg)) /\
  (forall lg h, In (WroteInternal k lg h) e -> previous_process_session_id s0 <> Some x /\ l_level lg = 3%N /\ l_type lg = 4%N /\
     In (mkField "_original_session_id" (VStr (l_session lg))) (l_fields lg) /\ In (mkField "_override_session_id" (VStr x)) (l_fields lg)).
Proof.
  intros Hr Hc Ho. split; intros lg h Hin.
  - destruct (wrote_step _ _ _ _ _ _ _ _ _ _ false Hr Hin) as (e1 & e2 & es & ln' & w' & t & ic & l' & shot & b1 & bq & b2 & Ee & Hes & [F Rl] & Ha & Hic & bi & ie & ts & pv & m & s & Hi & Ht & Hp & Hm & Hw & _ & _).
    destruct (ops_before_eq _ _ _ _ _ _ _ _ _ _ _ _ Hr Ee Ha) as [_ Hc']. pose proof (call_unique _ _ _ _ _ _ _ _ _ _ Hr Hc Hc') as Eq. inversion Eq; subst ln' w'; clear Eq.
    destruct (intercepted _ _ _ _ _ _ _ Hic) as (fs & [A1 A2 A3 A4 A5 A6 A7 _ _ _ _]).
    inversion Hw as [s' id O1 O2|y aty O1 O2|]; subst; [congruence|]. rewrite A6, Ho in O1. inversion O1; subst y aty. rewrite (fi_prev _ _ _ F) in O2. simpl. splits; auto.
    exists t, ts. splits; auto.
    + apply in_or_app. right. left. reflexivity.
    + apply in_or_app. right. left. f_equal. f_equal. f_equal. destruct (source_exists pv Ootb) as (z1 & Z1), (source_exists pv Custom) as (z2 & Z2), (source_exists (ln_fields l') Ootb) as (z3 & Z3),
        (source_exists (ln_fields l') Custom) as (z4 & Z4), (source_exists (ln_matching l') Ootb) as (z5 & Z5), (source_exists (ln_matching l') Custom) as (z6 & Z6).
      exact (proj1 (normalized _ _ _ _ _ _ _ Hm _ _ _ _ _ _ Z1 Z2 Z3 Z4 Z5 Z6)).
  - destruct (wrote_step _ _ _ _ _ _ _ _ _ _ true Hr Hin) as (e1 & e2 & es & ln' & w' & t & ic & l' & shot & b1 & bq & b2 & Ee & Hes & [F Rl] & Ha & Hic & bi & ie & ts & pv & m & s & Hi & Ht & Hp & Hm & Hw & _ & _).
    destruct (ops_before_eq _ _ _ _ _ _ _ _ _ _ _ _ Hr Ee Ha) as [_ Hc']. pose proof (call_unique _ _ _ _ _ _ _ _ _ _ Hr Hc Hc') as Eq. inversion Eq; subst ln' w'; clear Eq.
    destruct (intercepted _ _ _ _ _ _ _ Hic) as (fs & [A1 A2 A3 A4 A5 A6 A7 _ _ _ _]).
    inversion Hw as [| |y aty s' id O1 O2 O3]; subst. rewrite A6, Ho in O1. inversion O1; subst y aty. rewrite (fi_prev _ _ _ F) in O2. simpl. splits; auto; apply in_or_app; right; simpl; auto.
Qed.
(** Other logs are written as they are. *)
Lemma not_overridden s0 mc ms now ls b e k ln w : run (buf_new mc ms now s0) ls = Some (b, e) -> In (Called k (CLog ln w) Accepted) e -> ln_override ln = None ->
  (forall lg h, In (Wrote k lg h) e -> exists t, In (Taken k (CLog ln w) t) e /\ t_time t = Some (l_time lg)) /\ (forall lg h, ~ In (WroteInternal k lg h) e).
Proof.
  intros Hr Hc Ho. split; intros lg h Hin.
  - destruct (wrote_step _ _ _ _ _ _ _ _ _ _ false Hr Hin) as (e1 & e2 & es & ln' & w' & t & ic & l' & shot & b1 & bq & b2 & Ee & Hes & [F Rl] & Ha & Hic & bi & ie & ts & pv & m & s & Hi & Ht & Hp & Hm & Hw & _ & _).
    destruct (ops_before_eq _ _ _ _ _ _ _ _ _ _ _ _ Hr Ee Ha) as [_ Hc']. pose proof (call_unique _ _ _ _ _ _ _ _ _ _ Hr Hc Hc') as Eq. inversion Eq; subst ln' w'; clear Eq.
    destruct (intercepted _ _ _ _ _ _ _ Hic) as (fs & [A1 A2 A3 A4 A5 A6 A7 _ _ _ _]).
    destruct (source_exists pv Ootb) as (z1 & Z1), (source_exists pv Custom) as (z2 & Z2), (source_exists (ln_fields l') Ootb) as (z3 & Z3),
        (source_exists (ln_fields l') Custom) as (z4 & Z4), (source_exists (ln_matching l') Ootb) as (z5 & Z5), (source_exists (ln_matching l') Custom) as (z6 & Z6).
    pose proof (proj1 (normalized _ _ _ _ _ _ _ Hm _ _ _ _ _ _ Z1 Z2 Z3 Z4 Z5 Z6)) as Tm.
    exists t. split; [rewrite Ee; apply in_or_app; right; left; reflexivity|]. inversion Hw as [s' id O1 O2|y aty O1 O2|]; subst; simpl; congruence.
  - destruct (wrote_step _ _ _ _ _ _ _ _ _ _ true Hr Hin) as (e1 & e2 & es & ln' & w' & t & ic & l' & shot & b1 & bq & b2 & Ee & Hes & [F Rl] & Ha & Hic & bi & ie & ts & pv & m & s & Hi & Ht & Hp & Hm & Hw & _ & _).
    destruct (ops_before_eq _ _ _ _ _ _ _ _ _ _ _ _ Hr Ee Ha) as [_ Hc']. pose proof (call_unique _ _ _ _ _ _ _ _ _ _ Hr Hc Hc') as Eq. inversion Eq; subst ln' w'; clear Eq.
    destruct (intercepted _ _ _ _ _ _ _ Hic) as (fs & [A1 A2 A3 A4 A5 A6 A7 _ _ _ _]).
    inversion Hw as [| |y aty s' id O1 O2 O3]; subst. congruence.
Qed.

(** ** C94, C95: what the interceptors know *)
Definition kind_of (t : option N) (c : call) : bool := match t with None => is_log c | Some ty => is_type ty c end.
Definition told (e : list event) : report := map (fun x => (N.of_nat (tally_since (kind_of (snd x)) 0 e) mod U32, N.of_nat (tally (kind_of (snd x)) 0 e) mod U32)%N) report_kinds.
Lemma tally_app p : forall (e1 e2 : list event) n, tally p n (e1 ++ e2) = tally p (tally p n e1) e2.
Proof. induction e1 as [|x e1 IH]; intros e2 n; [reflexivity|]. destruct x; simpl; auto. Qed.
Lemma tally_since_app p : forall (e1 e2 : list event) n, tally_since p n (e1 ++ e2) = tally_since p (tally_since p n e1) e2.
Proof. induction e1 as [|x e1 IH]; intros e2 n; [reflexivity|]. destruct x; simpl; auto. Qed.
Lemma quality_app : forall (e1 e2 : list event) q, quality_after q (e1 ++ e2) = quality_after (quality_after q e1) e2.
Proof. induction e1 as [|x e1 IH]; intros e2 q; [reflexivity|]. destruct x; simpl; auto. Qed.
Lemma tally_none p (e : list event) n : taken e = [] -> tally p n e = n /\ tally_since p n e = n.
Proof. revert n. induction e as [|x e IH]; intros n H; [auto|]. destruct x; simpl in *; try discriminate; auto. Qed.
Lemma quality_none (e : list event) q : taken e = [] -> (forall q', ~ In (QualitySet q') e) -> quality_after q e = q.
Proof.
  revert q. induction e as [|x e IH]; intros q H N; [reflexivity|]. assert (N' : forall q', ~ In (QualitySet q') e) by (intros q' H'; apply (N q'); right; exact H').
  destruct x; simpl in *; try discriminate; auto. elim (N q0). left. reflexivity.
Qed.
Lemma mod_succ n : ((N.of_nat n mod U32 + 1) mod U32 = N.of_nat (S n) mod U32)%N.
Proof. rewrite N.add_mod_idemp_l by discriminate. f_equal. lia. Qed.
Lemma combine_map {A B D} (f : A -> B) (g : A * B -> D) (l : list A) : map g (combine l (map f l)) = map (fun x => g (x, f x)) l.
Proof. induction l as [|x l IH]; [reflexivity|]. simpl. rewrite IH. reflexivity. Qed.
Lemma count_told (e : list event) l w t k :
  report_count (ln_type l) (told e) = map (fun x => (N.of_nat (tally_since (kind_of (snd x)) 0 e + (if kind_of (snd x) (CLog l w) then 1 else 0)) mod U32,
    N.of_nat (tally (kind_of (snd x)) 0 (e ++ [Taken (E:=E) k (CLog l w) t])) mod U32)%N) report_kinds.
Proof.
  unfold told, report_count. rewrite combine_map. apply map_ext. intros [n ty]. cbn [snd]. rewrite tally_app. cbn [tally].
  destruct ty as [ty|]; cbn [kind_of is_log is_type].
  - rewrite N.eqb_sym. destruct (ln_type l =? ty)%N; [rewrite !mod_succ, Nat.add_1_r|rewrite Nat.add_0_r]; reflexivity.
  - rewrite !mod_succ, Nat.add_1_r. reflexivity.
Qed.
Lemma told_step (e : list event) l w t k : (if reports (CLog l w) t then report_clear (report_count (ln_type l) (told e)) else report_count (ln_type l) (told e)) = told (e ++ [Taken (E:=E) k (CLog l w) t]).
Proof.
  rewrite (count_told e l w t k). destruct (reports (CLog l w) t) eqn:Er; unfold report_clear, told; [rewrite map_map|]; apply map_ext; intros [n ty]; cbn [snd]; rewrite tally_since_app; cbn [tally_since]; rewrite Er.
  - reflexivity.
  - destruct (kind_of ty (CLog l w)); [rewrite Nat.add_1_r|rewrite Nat.add_0_r]; reflexivity.
Qed.
Lemma told_quiet (e es : list event) : taken es = [] -> told (e ++ es) = told e.
Proof. intros H. unfold told. apply map_ext. intros [n ty]. rewrite tally_app, tally_since_app. destruct (tally_none (kind_of (snd (n, ty))) es (tally (kind_of (snd (n, ty))) 0 e) H) as [-> _].
  destruct (tally_none (kind_of (snd (n, ty))) es (tally_since (kind_of (snd (n, ty))) 0 e) H) as [_ ->]. reflexivity. Qed.
Record iinv (b : buf) (e : list event) : Prop := { ii_report : i_report (b_icept b) = told e; ii_quality : i_quality (b_icept b) = quality_after Unknown e }.
Lemma iinv_quiet (b b' : buf) e es : iinv b e -> b_icept b' = b_icept b -> taken es = [] -> (forall q', ~ In (QualitySet q') es) -> iinv b' (e ++ es).
Proof. intros [I1 I2] Hb Ht Hq. constructor; rewrite Hb. - rewrite told_quiet; auto. - rewrite quality_app, quality_none; auto. Qed.
Lemma told_other (e es : list event) k c t : is_log c = false -> taken es = [] -> told (e ++ Taken k c t :: es) = told e.
Proof.
  intros Hc H. change (e ++ Taken k c t :: es) with (e ++ [Taken k c t] ++ es). rewrite app_assoc, told_quiet by exact H. unfold told. apply map_ext. intros [n ty]. rewrite tally_app, tally_since_app. cbn [tally tally_since snd].
  destruct c; try discriminate; destruct ty; reflexivity.
Qed.
Lemma no_quality (es : list event) : (forall x, In x es -> match x with QualitySet _ => False | _ => True end) -> forall q, ~ In (QualitySet q) es.
Proof. intros H q Hq. exact (H _ Hq). Qed.
Lemma gone_quality (b : buf) q : ~ In (QualitySet q) (snd (gone b)).
Proof.
  unfold LogBuffer_Model.gone, release. simpl. intros H. apply in_app_or in H. destruct H as [H|H].
  - destruct (b_place b) as [|k []|k []|]; simpl in H; try contradiction; destruct H as [H|[]]; discriminate.
  - apply in_map_iff in H. destruct H as (m & H & _). discriminate.
Qed.
Lemma pout_quality b k l w t b' e q : pout b k l w t b' e -> ~ In (QualitySet q) e.
Proof.
  intros [b1 ie d b2 Hi Hs Hst Hpr Hse|b1 ie Hi Hn|b1 ie ts pv m lg internal s b2 h Hi Ht Hp Hm Hw Hl] H; destruct (inner_shape _ _ _ _ _ Hi) as (q' & Q);
    (apply in_app_or in H; destruct H as [H|[H|H]]; [destruct (is_events _ _ _ _ _ Q _ H) as [(c & X)|(k' & w' & a & X)]; discriminate|try destruct internal; discriminate|]).
  - apply in_app_or in H. destruct H as [H|H]; [destruct w; simpl in H; [destruct H as [H|[]]; discriminate|exact H]|exact (gone_quality _ _ H)].
  - destruct w; simpl in H; [destruct H as [H|[]]; discriminate|exact H].
  - destruct w; simpl in H; [destruct H as [H|[]]; discriminate|exact H].
Qed.
Lemma iinv_step b e x b' es : iinv b e -> step b x = Some (b', es) -> iinv b' (e ++ es).
Proof.
  intros I H. apply step_out in H.
  destruct H as [c Hp|c a Ha Hp|q|k|k|c vs p e2 Hp Hr Hrep|c vs Hp|m q l w t i l' shot b2 e2 Hp Hq Hm Hi Ho|m q f t Hp Hq Hm|m q f t Hp Hq Hm|m q w t Hp Hq Hm|k w Hp|k w p Hp Hs|k w p Hp Hs|r p p' es Hp Hs|r p Hp Hs|Hp].
  - apply (iinv_quiet _ _ _ _ I); auto. intros q' [H|[]]; discriminate.
  - apply (iinv_quiet _ _ _ _ I); auto. intros q' [H|[]]; discriminate.
  - destruct I as [I1 I2]. constructor; simpl; [rewrite told_quiet; auto|rewrite quality_app; reflexivity].
  - apply (iinv_quiet _ _ _ _ I); auto.
  - apply (iinv_quiet _ _ _ _ I); auto.
  - apply (iinv_quiet _ _ _ _ I); auto.
    + clear - Hr. induction e2 as [|x e2 IH]; [reflexivity|]. destruct (Hr x (or_introl eq_refl)) as (l & es & ->). simpl. apply IH. intros y Hy. apply Hr. right. exact Hy.
    + intros q' H. apply Hr in H. destruct H as (l & es & H). discriminate.
  - destruct (gone_nothing b) as (_ & G2 & _). apply (iinv_quiet _ _ _ _ I); auto. intros q' [H|H]; [discriminate|exact (gone_quality _ _ H)].
  - destruct (pout_facts _ _ _ _ _ _ _ Ho Hp) as (q' & [P1 P2 P3 P4 P5 P6 P7 P8 P9 P10 P11 P12]). simpl in P9. destruct (intercepted _ _ _ _ _ _ _ Hi) as (fs & A).
    change (e ++ Taken (ms_id m) (CLog l w) t :: (if shot then [Shot] else []) ++ e2) with (e ++ [Taken (ms_id m) (CLog l w) t] ++ (if shot then [Shot] else []) ++ e2). rewrite app_assoc.
    apply (iinv_quiet (with_icept b i)).
    + destruct I as [I1 I2]. constructor; simpl.
      * rewrite (ab_report _ _ _ _ _ _ A), I1, <- told_step. reflexivity.
      * rewrite (ab_quality _ _ _ _ _ _ A w), quality_app, I2. reflexivity.
    + exact P9.
    + rewrite taken_app, P6. destruct shot; reflexivity.
    + intros q0 H. apply in_app_or in H. destruct H as [H|H]; [destruct shot; simpl in H; [destruct H as [H|[]]; discriminate|exact H]|exact (pout_quality _ _ _ _ _ _ _ _ Ho H)].
  - destruct I as [I1 I2]. constructor; simpl; [rewrite told_other; auto|rewrite quality_app; exact I2].
  - destruct I as [I1 I2]. constructor; simpl; [rewrite told_other; auto|rewrite quality_app; exact I2].
  - destruct I as [I1 I2]. constructor; simpl; [rewrite told_other; auto; destruct has_stats; reflexivity|rewrite quality_app; simpl; rewrite I2; destruct has_stats; reflexivity].
  - apply (iinv_quiet _ _ _ _ I); auto. intros q' [H|[H|[]]]; discriminate.
  - apply (iinv_quiet _ _ _ _ I); auto; [destruct w; reflexivity|]. intros q' [H|[H|H]]; try discriminate. destruct w; simpl in H; [destruct H as [H|[]]; discriminate|exact H].
  - apply (iinv_quiet _ _ _ _ I); auto; [destruct w; reflexivity|]. intros q' [H|[H|[H|H]]]; try discriminate. destruct w; simpl in H; [destruct H as [H|[]]; discriminate|exact H].
  - apply (iinv_quiet _ _ _ _ I); auto. intros q' [H|[]]; discriminate.
  - destruct (gone_nothing b) as (_ & G2 & _). apply (iinv_quiet _ _ _ _ I); auto. intros q' [H|H]; [discriminate|exact (gone_quality _ _ H)].
  - destruct (gone_nothing b) as (_ & G2 & _). apply (iinv_quiet _ _ _ _ I); auto. intros q' H. exact (gone_quality _ _ H).
Qed.
Lemma iinv_run mc ms now s0 l b e : run (buf_new mc ms now s0) l = Some (b, e) -> iinv b e.
Proof. apply (run_ind iinv); [constructor; reflexivity|]. intros. eapply iinv_step; eassumption. Qed.

(** What the intercepted fields become. *)
Lemma picks_first k s rest v : first k s v -> forall v', picks k (s :: rest) v' <-> v' = v.
Proof.
  intros H v'. assert (U : forall l a b, first k l a -> first k l b -> a = b).
  { intros l a b F. revert b. induction F; intros b G; inversion G; subst; auto; contradiction. }
  split; [|intros ->; constructor; exact H]. intros P0. inversion P0 as [s' r' v0 F|s' r' v0 A _]; subst; [exact (U _ _ _ F H)|].
  exfalso. clear - A H. induction H; inversion A; subst; auto.
Qed.
Lemma counters_kinds n p : In (n, p) counters -> exists ty, In (n, ty) report_kinds /\ forall c, kind_of ty c = p c.
Proof.
  unfold counters, report_kinds. intros H. simpl in H.
  assert (G : forall ty, In (n, ty) report_kinds -> p = kind_of ty -> exists ty, In (n, ty) report_kinds /\ forall c, kind_of ty c = p c) by (intros ty H1 ->; exists ty; auto).
  unfold report_kinds in G.
  destruct H as [H|[H|[H|[H|[H|[H|[H|[H|[]]]]]]]]]; inversion H; subst; clear H.
  - apply (G None); [simpl; tauto|reflexivity].
  - apply (G (Some 6%N)); [simpl; tauto|reflexivity].
  - apply (G (Some 4%N)); [simpl; tauto|reflexivity].
  - apply (G (Some 8%N)); [simpl; tauto|reflexivity].
  - apply (G (Some 0%N)); [simpl; tauto|reflexivity].
  - apply (G (Some 2%N)); [simpl; tauto|reflexivity].
  - apply (G (Some 1%N)); [simpl; tauto|reflexivity].
  - apply (G (Some 3%N)); [simpl; tauto|reflexivity].
Qed.
Lemma report_first (f : string * option N -> N * N) n ty rest : In (n, ty) report_kinds ->
  first (n ++ "_count") (report_fields (map f report_kinds) ++ rest) (VStr (dec_string (fst (f (n, ty))))) /\
  first (n ++ "_total_count") (report_fields (map f report_kinds) ++ rest) (VStr (dec_string (snd (f (n, ty))))).
Proof.
  unfold report_fields. rewrite flat_map_concat_map, combine_map, <- flat_map_concat_map. intros H. unfold report_kinds in *. simpl flat_map.
  repeat (destruct H as [H|H]; [inversion H; subst; clear H; repeat (match goal with |- context [f ?x] => destruct (f x) as [? ?] end); simpl fst; simpl snd;
    split; repeat (first [apply first_here | apply first_later; [simpl; discriminate|] ])|]). destruct H.
Qed.
Lemma reported s0 mc ms now ls b e k lg h : run (buf_new mc ms now s0) ls = Some (b, e) -> In (Wrote k lg h) e ->
  exists ln w t e1 e2, e = e1 ++ Taken k (CLog ln w) t :: e2 /\
    (reports (CLog ln w) t = true -> forall n p lo, In (n, p) counters -> source (ln_fields ln) Ootb lo ->
      (absent (n ++ "_count") lo -> forall v, In (mkField (n ++ "_count") v) (l_fields lg) <->
         v = VStr (dec_string (N.of_nat (tally_since p 0 e1 + (if p (CLog ln w) then 1 else 0)) mod 4294967296))) /\
      (absent (n ++ "_total_count") lo -> forall v, In (mkField (n ++ "_total_count") v) (l_fields lg) <->
         v = VStr (dec_string (N.of_nat (tally p 0 e1 + (if p (CLog ln w) then 1 else 0)) mod 4294967296)))).
Proof.
  intros Hr Hin. destruct (wrote_step _ _ _ _ _ _ _ _ _ _ false Hr Hin) as (e1 & e2 & es & ln & w & t & ic & l' & shot & b1 & bq & b2 & Ee & Hes & [F (l1 & Rl)] & Ha & Hic & bi & ie & ts & pv & m & s & Hi & Ht & Hp & Hm & Hw & _ & _).
  exists ln, w, t, e1, (es ++ e2). split; [exact Ee|]. intros Hrep n p lo Hn Hlo.
  destruct (intercepted _ _ _ _ _ _ _ Hic) as (fs & A). pose proof (iinv_run _ _ _ _ _ _ _ Rl) as [I1 _].
  assert (Hir : is_report ln (t_report t) = true) by exact Hrep.
  destruct (ab_reports _ _ _ _ _ _ A Hir) as (rest & Hfs). rewrite I1, (count_told e1 ln w t 0) in Hfs.
  destruct (counters_kinds _ _ Hn) as (ty & Hk & Hkp).
  match type of Hfs with fs = report_fields (map ?f report_kinds) ++ rest => destruct (report_first f n ty rest Hk) as [R1 R2] end. rewrite <- Hfs in R1, R2. cbn [fst snd] in R1, R2.
  assert (Ety : ln_type ln = 3%N). { unfold is_report in Hir. apply andb_prop in Hir. destruct Hir as [Hir _]. apply andb_prop in Hir. destruct Hir as [Hir _]. apply N.eqb_eq in Hir. exact Hir. }
  assert (T1 : forall q, (forall c, q c = p c) -> tally_since q 0 e1 = tally_since p 0 e1).
  { intros q Hq. clear - Hq. generalize 0. induction e1 as [|x e1 IH]; intros n0; [reflexivity|]. destruct x; simpl; auto. rewrite Hq. destruct (reports c t); [apply IH|]. destruct (p c); apply IH. }
  assert (T2 : forall q, (forall c, q c = p c) -> tally q 0 e1 = tally p 0 e1).
  { intros q Hq. clear - Hq. generalize 0. induction e1 as [|x e1 IH]; intros n0; [reflexivity|]. destruct x; simpl; auto. rewrite Hq. destruct (p c); apply IH. }
  rewrite (T1 _ Hkp), Hkp in R1. rewrite tally_app in R2. cbn [tally] in R2. rewrite Hkp, (T2 _ Hkp) in R2.
  assert (G : forall key v0, key <> "_logged_at" -> absent key lo -> first key fs v0 -> forall v, In (mkField key v) (l_fields lg) <-> v = v0).
  { intros key v0 Hlg Hab Hf v. destruct (source_exists (ln_fields ln) Custom) as (lc & Hlc). destruct (source_ootb _ fs _ _ Hlo Hlc) as [S3 S4]. rewrite <- (ab_fields _ _ _ _ _ _ A) in S3, S4.
    destruct (source_exists pv Ootb) as (z1 & Z1), (source_exists pv Custom) as (z2 & Z2), (source_exists (ln_matching l') Ootb) as (z5 & Z5), (source_exists (ln_matching l') Custom) as (z6 & Z6).
    destruct (normalized _ _ _ _ _ _ _ Hm _ _ _ _ _ _ Z1 Z2 S3 S4 Z5 Z6) as (_ & _ & _ & _ & N2). rewrite (ab_type _ _ _ _ _ _ A), Ety in N2. destruct (N2 (or_intror (or_introl eq_refl)) key v) as [M1 _].
    assert (X : In (mkField key v) (l_fields lg) <-> In (mkField key v) (m_fields m)).
    { inversion Hw; subst; simpl; [tauto|]. rewrite in_app_iff. simpl. split; [|auto]. intros [X|[X|[]]]; [exact X|]. inversion X. congruence. }
    rewrite X, M1. apply picks_first. apply first_app. right. split; assumption. }
  assert (Nn : (n ++ "_count")%string <> "_logged_at" /\ (n ++ "_total_count")%string <> "_logged_at").
  { clear - Hk. unfold report_kinds in Hk. repeat (destruct Hk as [Hk|Hk]; [inversion Hk; subst; split; simpl; discriminate|]). destruct Hk. }
  split; intros Hab v.
  - rewrite (G _ _ (proj1 Nn) Hab R1 v). reflexivity.
  - rewrite (G _ _ (proj2 Nn) Hab R2 v). destruct (p (CLog ln w)); [rewrite Nat.add_1_r|rewrite Nat.add_0_r]; reflexivity.
Qed.
Lemma custom_admissible l s : source l Custom s -> forall f, In f s -> admissible (f_key f).
Proof.
  intros H. remember Custom as kd eqn:Ek. induction H as [kd|f kd l s A _ IH|f kd kd' l s N _ IH|f l s N _ IH]; intros g Hg; auto; [destruct Hg|]. destruct Hg as [<-|Hg]; auto.
Qed.
Lemma quality_told s0 mc ms now ls b e k lg h : run (buf_new mc ms now s0) ls = Some (b, e) -> In (Wrote k lg h) e ->
  exists ln w t pv e1 e2, e = e1 ++ Taken k (CLog ln w) t :: e2 /\ t_provider t = Some pv /\
    forall po lo, source pv Ootb po -> source (ln_fields ln) Ootb lo -> absent "_network_quality" lo ->
      (~ In (ln_type ln) [1; 3; 4]%N -> absent "_network_quality" po -> forall v, In (mkField "_network_quality" v) (l_fields lg) <->
         v = VStr "offline" /\ quality_after Unknown (e1 ++ [Taken k (CLog ln w) t]) = Offline) /\
      (In (ln_type ln) [1; 3; 4]%N -> forall v, ~ In (mkField "_network_quality" v) (l_fields lg)).
Proof.
  intros Hr Hin. destruct (wrote_step _ _ _ _ _ _ _ _ _ _ false Hr Hin) as (e1 & e2 & es & ln & w & t & ic & l' & shot & b1 & bq & b2 & Ee & Hes & [F (l1 & Rl)] & Ha & Hic & bi & ie & ts & pv & m & s & Hi & Ht & Hp & Hm & Hw & _ & _).
  exists ln, w, t, pv, e1, (es ++ e2). split; [exact Ee|]. split; [exact Hp|]. intros po lo Hpo Hlo Hab.
  destruct (intercepted _ _ _ _ _ _ _ Hic) as (fs & A). pose proof (iinv_run _ _ _ _ _ _ _ Rl) as [_ I2].
  destruct (source_exists (ln_fields ln) Custom) as (lc & Hlc). destruct (source_ootb _ fs _ _ Hlo Hlc) as [S3 S4]. rewrite <- (ab_fields _ _ _ _ _ _ A) in S3, S4.
  destruct (source_exists pv Custom) as (pc & Hpc), (source_exists (ln_matching l') Ootb) as (z5 & Z5), (source_exists (ln_matching l') Custom) as (z6 & Z6).
  destruct (normalized _ _ _ _ _ _ _ Hm _ _ _ _ _ _ Hpo Hpc S3 S4 Z5 Z6) as (_ & _ & _ & N1 & N2). rewrite (ab_type _ _ _ _ _ _ A) in N1, N2.
  assert (Cu : forall l, (forall f, In f l -> admissible (f_key f)) -> absent "_network_quality" l).
  { intros l H. apply Forall_forall. intros f Hf Ek. destruct (H _ Hf) as [_ H2]. rewrite Ek in H2. exact (H2 "network_quality" eq_refl). }
  pose proof (Cu _ (custom_admissible _ _ Hlc)) as Alc. pose proof (Cu _ (custom_admissible _ _ Hpc)) as Apc.
  assert (Ag : absent "_network_quality" (b_globals b1)).
  { rewrite (fi_globals _ _ _ F). apply Cu. intros [key v] Hf. exact (proj2 (globals_run _ key v) Hf). }
  assert (X : forall v, In (mkField "_network_quality" v) (l_fields lg) <-> In (mkField "_network_quality" v) (m_fields m)).
  { intros v. inversion Hw; subst; simpl; [tauto|]. rewrite in_app_iff. simpl. split; [|auto]. intros [X|[X|[]]]; [exact X|]. inversion X. }
  assert (NF : forall l v, absent "_network_quality" l -> ~ first "_network_quality" l v). { intros l v Hl Hf. induction Hf; inversion Hl; subst; auto. }
  assert (Hq : i_quality ic = quality_after Unknown (e1 ++ [Taken k (CLog ln w) t])) by (rewrite (ab_quality _ _ _ _ _ _ A w), quality_app, I2; reflexivity).
  split.
  - intros Hty Hpo' v. rewrite X. destruct (N1 Hty "_network_quality" v) as [M1 _]. rewrite M1, <- first_concat. simpl. rewrite app_nil_r.
    rewrite !first_app. rewrite <- Hq.
    assert (Ht3 : ln_type ln <> 3%N) by (intros Q; apply Hty; rewrite Q; simpl; auto).
    pose proof (ab_offline _ _ _ _ _ _ A Ht3) as Hfs.
    assert (Ht14 : (ln_type ln =? 1)%N || (ln_type ln =? 4)%N = false).
    { destruct (N.eqb_spec (ln_type ln) 1) as [Q|_]; [elim Hty; rewrite Q; simpl; auto|]. destruct (N.eqb_spec (ln_type ln) 4) as [Q|_]; [elim Hty; rewrite Q; simpl; auto|]. reflexivity. }
    rewrite Ht14 in Hfs. split.
    + intros [Y|[_ [[Y|[_ Y]]|[_ [Y|[_ [Y|[_ Y]]]]]]]]; try (eapply NF in Y; [destruct Y|assumption]). rewrite Hfs in Y. destruct (i_quality ic); inversion Y; subst; auto. inversion H4.
    + intros [-> Hoff]. rewrite Hfs, Hoff. right. split; [exact Hpo'|]. left. right. split; [exact Hab|constructor].
  - intros Hty v Hf. rewrite X in Hf. destruct (N2 Hty "_network_quality" v) as [M1 _]. rewrite M1, <- first_concat in Hf. revert Hf. apply NF. simpl. rewrite app_nil_r.
    assert (Afs : absent "_network_quality" fs).
    { destruct (N.eq_dec (ln_type ln) 3) as [Q|Q]; [exact (ab_resource _ _ _ _ _ _ A Q)|]. rewrite (ab_offline _ _ _ _ _ _ A Q). destruct Hty as [Hty|[Hty|[Hty|[]]]]; [rewrite <- Hty| congruence |rewrite <- Hty]; constructor. }
    repeat (apply absent_app; split; auto).
Qed.

(** ** C88, C90: order, and the end of the loop *)
Lemma run_ind2 (I : list label -> buf -> list event -> Prop) (b0 : buf) : I [] b0 [] ->
  (forall l b e x b' es, I l b e -> step b x = Some (b', es) -> I (l ++ [x]) b' (e ++ es)) ->
  forall l b e, run b0 l = Some (b, e) -> I l b e.
Proof.
  intros H0 Hs. induction l as [|x l IH] using rev_ind; intros b e H; [simpl in H; inversion H; subst; exact H0|].
  rewrite run_app in H. destruct (run b0 l) as [[b1 e1]|] eqn:Er; [|discriminate]. simpl in H. destruct (step b1 x) as [[b2 es]|] eqn:Es; [|discriminate].
  inversion H; subst. rewrite app_nil_r. exact (Hs _ _ _ _ _ _ (IH _ _ eq_refl) Es).
Qed.
Lemma gone_iff mc ms now s0 l b e : run (buf_new mc ms now s0) l = Some (b, e) -> (b_place b = Gone <-> ended l e).
Proof.
  apply (run_ind2 (fun l b e => b_place b = Gone <-> ended l e)); unfold ended.
  - simpl. split; [discriminate|tauto].
  - clear. intros l b e x b' es I H. apply step_out in H.
    assert (Q : b_place b' = Gone <-> b_place b = Gone \/ x = Stop \/ In Died es).
    { destruct H as [c Hp|c a Ha Hp|q|k|k|c vs p e2 Hp Hr Hrep|c vs Hp|m q l0 w t i l' shot b2 e2 Hp Hq Hm Hi Ho|m q f t Hp Hq Hm|m q f t Hp Hq Hm|m q w t Hp Hq Hm|k w Hp|k w p Hp Hs|k w p Hp Hs|r p p' es Hp Hs|r p Hp Hs|Hp]; simpl.
      - split; [tauto|]. intros [H|[H|[H|[]]]]; congruence.
      - split; [tauto|]. intros [H|[H|[H|[]]]]; congruence.
      - split; [tauto|]. intros [H|[H|[H|[]]]]; congruence.
      - split; [tauto|]. intros [H|[H|[]]]; congruence.
      - split; [tauto|]. intros [H|[H|[]]]; congruence.
      - split; [tauto|]. intros [H|[H|H]]; try congruence. apply Hr in H. destruct H as (l0 & es & H). discriminate.
      - split; auto.
      - destruct (pout_facts _ _ _ _ _ _ _ Ho Hp) as (q' & [P1 P2 P3 P4 P5 P6 P7 P8 P9 P10 P11 P12]). split.
        + intros Hg. right. right. right. apply in_or_app. right. destruct P12 as [[D _]|(_ & D & _)]; [exact D|congruence].
        + intros [H|[H|[H|H]]]; try congruence. apply in_app_or in H. destruct H as [H|H]; [destruct shot; simpl in H; [destruct H as [H|[]]; discriminate|destruct H]|].
          destruct P12 as [(_ & D & _)|[D _]]; [exact D|contradiction].
      - split; [intros H; congruence|]. intros [H|[H|[H|[]]]]; congruence.
      - split; [intros H; congruence|]. intros [H|[H|[H|[]]]]; congruence.
      - split; [destruct has_stats; discriminate|]. intros [H|[H|[H|H]]]; try congruence. destruct has_stats; destruct H as [H|[]]; discriminate.
      - split; [discriminate|]. intros [H|[H|[H|[H|[]]]]]; congruence.
      - split; [discriminate|]. intros [H|[H|[H|[H|H]]]]; try congruence. destruct (ret_nothing k w) as (_ & _ & _ & _ & _ & _ & R7). contradiction.
      - split; [discriminate|]. intros [H|[H|[H|[H|[H|H]]]]]; try congruence. destruct (ret_nothing k w) as (_ & _ & _ & _ & _ & _ & R7). contradiction.
      - split; [tauto|]. intros [H|[H|[H|[]]]]; congruence.
      - split; auto.
      - split; auto. }
    rewrite Q, I, !in_app_iff. simpl. assert (X : x = Stop <-> Stop = x) by (split; congruence). tauto.
Qed.
(** The loop has nothing to do. *)
Lemma quiet_state b : quiet b -> (exists t : tenv, True) -> b_place b = Gone \/ (b_place b = Idle /\ b_queue b = []).
Proof.
  intros (Q1 & Q2 & Q3) (t & _). simpl in *. destruct (b_place b) eqn:Ep; try discriminate; [right; split; [reflexivity|]|left; reflexivity].
  specialize (Q1 t). unfold LogBuffer_Model.take in Q1. rewrite Ep in Q1. destruct (b_queue b) as [|m q]; [reflexivity|]. exfalso.
  destruct (ms_call m); [destruct (intercept _ _ _ _) as [[? ?] ?]; destruct (process_log _ _ _ _ _); discriminate|discriminate|discriminate|destruct (begin_flush _ _ _ _ _ _ _); discriminate].
Qed.
Lemma ordered mc ms now s0 l b e : run (buf_new mc ms now s0) l = Some (b, e) ->
  Sorted.StronglySorted lt (map fst (accepted e)) /\
  (exists rest, log_ids (accepted e) = outcomes e ++ rest /\ (~ ended l e -> quiet b -> (exists t : tenv, True) -> rest = [])) /\
  (exists rest, waiting_ids (accepted e) = returns e ++ rest /\ (ended l e \/ quiet b -> (exists t : tenv, True) -> rest = [])).
Proof.
  intros Hr. pose proof (finv_run _ _ _ _ _ _ _ Hr) as [F1 F2 F3 F4 F5 F6 F7 F8 F9]. pose proof (gone_iff _ _ _ _ _ _ _ Hr) as Hg. split; [exact F4|]. split.
  - destruct F1 as (rest & R1 & R2). rewrite R1, log_ids_app. destruct F8 as [F8|[F8 (k & F8')]].
    + rewrite F8. exists (log_ids rest). split; [reflexivity|]. intros Hn Hq Ht. destruct (quiet_state _ Hq Ht) as [X|[X1 X2]]; [tauto|]. rewrite R2, X2 by congruence. reflexivity.
    + rewrite F8', <- app_assoc. eexists. split; [reflexivity|]. intros Hn. elim Hn. right. exact F8.
  - rewrite F9. eexists. split; [reflexivity|]. intros [Hn|Hq] Ht.
    + apply Hg in Hn. rewrite Hn, (F2 Hn). reflexivity.
    + destruct (quiet_state _ Hq Ht) as [Hn|[X1 X2]]; [rewrite Hn, (F2 Hn)|rewrite X1, X2]; reflexivity.
Qed.
Lemma in_waiting (l : list (nat * call)) k : In k (waiting_ids l) -> exists c, In (k, c) l /\ match c with CLog _ w | CFlush w => w = true | _ => False end.
Proof.
  unfold waiting_ids. rewrite in_map_iff. intros ([k' c] & <- & H). apply filter_In in H. destruct H as [H1 H2]. exists c. split; [exact H1|]. simpl in H2. destruct c as [? []|?|?|[]]; auto; discriminate.
Qed.
Lemma taken_in (e : list event) k c : In (k, c) (taken e) -> exists t, In (Taken k c t) e.
Proof. induction e as [|x e IH]; [intros []|]. destruct x; simpl; try (intros H; destruct (IH H) as (t0 & H0); exists t0; auto; fail). intros [H|H]; [inversion H; subst; eauto|destruct (IH H) as (t0 & H0); eauto]. Qed.
Lemma in_returns (e : list event) k : In (Returned k) e <-> In k (returns e).
Proof.
  induction e as [|x e IH]; [simpl; tauto|]. destruct x; simpl; rewrite <- IH; try (split; [intros [H|H]; [discriminate|exact H]|auto]; fail).
  split; intros [H|H]; auto; left; congruence.
Qed.
Lemma in_log_ids (l : list (nat * call)) k ln w : In (k, CLog ln w) l -> In k (log_ids l).
Proof. intros H. unfold log_ids. apply in_map_iff. exists (k, CLog ln w). split; [reflexivity|]. apply filter_In. auto. Qed.
Lemma not_before mc ms now s0 l b e k : run (buf_new mc ms now s0) l = Some (b, e) -> In (Returned k) e ->
  ended l e \/ exists c t, In (Taken k c t) e /\ match c with CLog _ w => w = true /\ In k (outcomes e) | CFlush w => w = true | _ => False end.
Proof.
  intros Hr H. pose proof (finv_run _ _ _ _ _ _ _ Hr) as [F1 F2 F3 F4 F5 F6 F7 F8 F9]. pose proof (gone_iff _ _ _ _ _ _ _ Hr) as Hg.
  assert (D : b_place b = Gone \/ b_place b <> Gone) by (destruct (b_place b); auto; right; discriminate). destruct D as [D|D]; [left; tauto|right].
  destruct F1 as (rest & R1 & R2). rewrite (R2 D) in R1. rewrite R1, waiting_ids_app, app_assoc in F9. apply app_inv_tail in F9.
  apply in_returns in H. assert (Hk : In k (waiting_ids (taken e))) by (rewrite F9; apply in_or_app; auto).
  destruct (in_waiting _ _ Hk) as (c & Hc & Hw). destruct (taken_in _ _ _ Hc) as (t & Ht). exists c, t. split; [exact Ht|]. destruct c; auto. split; [exact Hw|].
  destruct F8 as [F8|[F8 _]]; [|elim D; exact (F3 F8)]. rewrite <- F8. exact (in_log_ids _ _ _ _ Hc).
Qed.
(** What is left to do is done in a bounded number of steps, if the provider makes no calls. *)
Lemma take_some b t : b_place b = Idle -> b_queue b <> [] -> exists b' es, step b (Take t) = Some (b', es).
Proof.
  intros Hp Hq. simpl. unfold LogBuffer_Model.take. rewrite Hp. destruct (b_queue b) as [|m q]; [congruence|].
  destruct (ms_call m); [destruct (intercept _ _ _ _) as [[? ?] ?]; destruct (process_log _ _ _ _ _)| | |destruct (begin_flush _ _ _ _ _ _ _)]; eauto.
Qed.
Lemma drains_from t : t_inner t = [] -> forall n b, (b_place b <> Gone -> length (b_queue b) = n) ->
  exists ls b' e, Forall (loop_label (C:=C) (R:=R) t) ls /\ length ls <= 3 * n + 2 /\ run b ls = Some (b', e) /\ quiet b'.
Proof.
  intros Ht.
  assert (Gq : forall b : buf, b_place b = Gone -> quiet b) by (intros b Hb; split; [intros t0|split]; simpl; [unfold LogBuffer_Model.take; rewrite Hb|rewrite Hb|rewrite Hb]; reflexivity).
  assert (Idle_n : forall n (b : buf), b_place b = Idle -> length (b_queue b) = n -> exists ls b' e, Forall (loop_label (C:=C) (R:=R) t) ls /\ length ls <= 3 * n /\ run b ls = Some (b', e) /\ quiet b').
  { induction n as [|n IH]; intros b Hp Hn.
    - exists [], b, []. split; [constructor|]. split; [simpl; lia|]. split; [reflexivity|]. split; [|simpl; rewrite Hp; auto]. intros t0. simpl. unfold LogBuffer_Model.take. rewrite Hp. destruct (b_queue b); [reflexivity|discriminate].
    - assert (Hq : b_queue b <> []) by (intros X; rewrite X in Hn; discriminate). destruct (take_some b t Hp Hq) as (b1 & es & Hst). pose proof (step_out _ _ _ _ Hst) as So.
      assert (Hlt : loop_label (C:=C) (R:=R) t (Take t)) by (left; reflexivity). assert (Hls : loop_label (C:=C) (R:=R) t StatsDone) by (right; left; reflexivity). assert (Hlb : loop_label (C:=C) (R:=R) t BuffersDone) by (right; right; reflexivity).
      assert (B : forall bb k w, b_place bb = InBuffers k w -> length (b_queue bb) = n -> exists ls b' e, Forall (loop_label (C:=C) (R:=R) t) ls /\ length ls <= S (3 * n) /\ run bb ls = Some (b', e) /\ quiet b').
      { intros bb k w Hb Hl. destruct (end_flush P V E p_persist bb k w) as [b2 e2] eqn:Ee.
        assert (Hb2 : b_place b2 = Idle /\ b_queue b2 = b_queue bb). { unfold end_flush in Ee. destruct (b_state bb) eqn:Es; simpl in Ee; rewrite Es in Ee; inversion Ee; subst; auto. }
        destruct Hb2 as [Hb2 Hq2]. rewrite <- Hq2 in Hl. destruct (IH b2 Hb2 Hl) as (ls & b' & e & L1 & L2 & L3 & L4). exists (BuffersDone :: ls), b', (e2 ++ e). split; [auto|]. split; [simpl; lia|]. split; [|exact L4].
        simpl. rewrite Hb, Ee, L3. reflexivity. }
      inversion So as [| | | | | | |m q l w t' i l' shot b2 e2 Hp' Hq' Hm Hi Ho|m q f t' Hp' Hq' Hm|m q f t' Hp' Hq' Hm|m q w t' Hp' Hq' Hm| | | | | |]; subst.
      + destruct (pout_facts _ _ _ _ _ _ _ Ho Hp') as (q' & [P1 P2 P3 P4 P5 P6 P7 P8 P9 P10 P11 P12]). simpl in P12.
        assert (Q0 : q' = []).
        { destruct Ho as [bi ie d b4 Hin' Hs Hst' Hpr Hse|bi ie Hin' Hn'|bi ie ts pv md lg' internal s b4 h' Hin' Ht' Hpv Hmd Hw Hl]; rewrite Ht in Hin'; simpl in Hin'; inversion Hin'; subst;
            destruct (map pr q') as [|z zs] eqn:Ez; try (apply map_eq_nil in Ez; exact Ez); exfalso; destruct (ret_nothing (ms_id m) w) as (R1 & _); simpl in P1.
          - rewrite accepted_app, R1 in P1. destruct (gone_nothing b4) as (G1 & _). simpl in G1. rewrite G1 in P1. discriminate.
          - rewrite R1 in P1. discriminate.
          - destruct internal; simpl in P1; rewrite R1 in P1; discriminate. }
        subst q'. rewrite app_nil_r in P12. destruct P12 as [(_ & D & _)|(_ & D & D2 & _)].
        * exists [Take t], b1, (Taken (ms_id m) (CLog l w) t :: (if shot then [Shot] else []) ++ e2). split; [auto|]. split; [simpl; lia|]. split; [|exact (Gq _ D)]. simpl in Hst |- *. rewrite Hst, app_nil_r. reflexivity.
        * rewrite Hq' in Hn. simpl in Hn. rewrite <- D2 in Hn. destruct (IH b1 D ltac:(lia)) as (ls & b' & e & L1 & L2 & L3 & L4).
          exists (Take t :: ls). do 2 eexists. split; [auto|]. split; [simpl; lia|]. split; [|exact L4]. simpl in Hst |- *. rewrite Hst, L3. reflexivity.
      + rewrite Hq' in Hn. simpl in Hn. match type of Hst with _ = Some (?bb, _) => destruct (IH bb Hp' ltac:(simpl; lia)) as (ls & b' & e & L1 & L2 & L3 & L4) end.
        exists (Take t :: ls). do 2 eexists. split; [auto|]. split; [simpl; lia|]. split; [|exact L4]. simpl in Hst |- *. rewrite Hst, L3. reflexivity.
      + rewrite Hq' in Hn. simpl in Hn. match type of Hst with _ = Some (?bb, _) => destruct (IH bb Hp' ltac:(simpl; lia)) as (ls & b' & e & L1 & L2 & L3 & L4) end.
        exists (Take t :: ls). do 2 eexists. split; [auto|]. split; [simpl; lia|]. split; [|exact L4]. simpl in Hst |- *. rewrite Hst, L3. reflexivity.
      + rewrite Hq' in Hn. simpl in Hn. destruct has_stats eqn:Hh.
        * match type of Hst with _ = Some (?bb, _) => destruct (B (with_place bb (InBuffers (ms_id m) w)) _ _ eq_refl ltac:(simpl; lia)) as (ls & b' & e & L1 & L2 & L3 & L4) end.
          exists (Take t :: StatsDone :: ls). do 2 eexists. split; [auto|]. split; [simpl; lia|]. split; [|exact L4]. simpl in Hst |- *. rewrite Hst. simpl. simpl in L3. rewrite L3. reflexivity.
        * match type of Hst with _ = Some (?bb, _) => destruct (B bb (ms_id m) w eq_refl ltac:(simpl; lia)) as (ls & b' & e & L1 & L2 & L3 & L4) end.
          exists (Take t :: ls). do 2 eexists. split; [auto|]. split; [simpl; lia|]. split; [|exact L4]. simpl in Hst |- *. rewrite Hst, L3. reflexivity. }
  intros n b Hn. assert (Hls : loop_label (C:=C) (R:=R) t StatsDone) by (right; left; reflexivity). assert (Hlb : loop_label (C:=C) (R:=R) t BuffersDone) by (right; right; reflexivity).
  assert (B : forall bb k w, b_place bb = InBuffers k w -> length (b_queue bb) = n -> exists ls b' e, Forall (loop_label (C:=C) (R:=R) t) ls /\ length ls <= S (3 * n) /\ run bb ls = Some (b', e) /\ quiet b').
  { intros bb k w Hb Hl. destruct (end_flush P V E p_persist bb k w) as [b2 e2] eqn:Ee.
    assert (Hb2 : b_place b2 = Idle /\ b_queue b2 = b_queue bb). { unfold end_flush in Ee. destruct (b_state bb) eqn:Es; simpl in Ee; rewrite Es in Ee; inversion Ee; subst; auto. }
    destruct Hb2 as [Hb2 Hq2]. rewrite <- Hq2 in Hl. destruct (Idle_n n b2 Hb2 Hl) as (ls & b' & e & L1 & L2 & L3 & L4). exists (BuffersDone :: ls), b', (e2 ++ e). split; [auto|]. split; [simpl; lia|]. split; [|exact L4].
    simpl. rewrite Hb, Ee, L3. reflexivity. }
  destruct (b_place b) as [|k w|k w|] eqn:Hp.
  - destruct (Idle_n n b Hp (Hn ltac:(discriminate))) as (ls & b' & e & L1 & L2 & L3 & L4). exists ls, b', e. split; [auto|]. split; [lia|auto].
  - destruct (B (with_place b (InBuffers k w)) k w eq_refl (Hn ltac:(discriminate))) as (ls & b' & e & L1 & L2 & L3 & L4).
    exists (StatsDone :: ls). do 2 eexists. split; [auto|]. split; [simpl; lia|]. split; [|exact L4]. simpl. rewrite Hp, L3. reflexivity.
  - destruct (B b k w Hp (Hn ltac:(discriminate))) as (ls & b' & e & L1 & L2 & L3 & L4). exists ls, b', e. split; [auto|]. split; [lia|auto].
  - exists [], b, []. split; [auto|]. split; [simpl; lia|]. split; [reflexivity|]. apply Gq. exact Hp.
Qed.

(** ** C91: flushes *)
(** The flush [k] was taken after [e0]. *)
Definition due (k : nat) (w : bool) (e0 : list event) : Prop := exists rest, accepted e0 = taken e0 ++ (k, CFlush w) :: rest /\ log_ids (taken e0) = outcomes e0.
Definition flushing (b : buf) (e : list event) : Prop :=
  match b_place b with
  | InStats k w => has_stats = true /\ exists t e0 e1, e = e0 ++ Taken k (CFlush w) t :: StatsAsked :: e1 /\ due k w e0
  | InBuffers k w => exists t e0 e1 e2, e = e0 ++ Taken k (CFlush w) t :: e1 ++ BuffersAsked :: e2 /\ due k w e0 /\ (has_stats = true -> exists m, e1 = StatsAsked :: m ++ [StatsAnswered])
  | _ => True
  end.
Lemma flushing_more (b b' : buf) e es : flushing b e -> b_place b' = b_place b -> flushing b' (e ++ es).
Proof.
  unfold flushing. intros F ->. destruct (b_place b) as [|k w|k w|]; auto.
  - destruct F as (Hh & t & e0 & e1 & -> & D). split; [exact Hh|]. exists t, e0, (e1 ++ es). split; [|exact D]. rewrite <- app_assoc. reflexivity.
  - destruct F as (t & e0 & e1 & e2 & -> & D & M). exists t, e0, e1, (e2 ++ es). split; [|auto]. rewrite <- app_assoc. simpl. rewrite <- app_assoc. reflexivity.
Qed.
Lemma flushing_step s0 b e x b' es : finv s0 b e -> flushing b e -> step b x = Some (b', es) -> flushing b' (e ++ es).
Proof.
  intros Fi F H. apply step_out in H.
  destruct H as [c Hp|c a Ha Hp|q|k|k|c vs p e2 Hp Hr Hrep|c vs Hp|m q l w t i l' shot b2 e2 Hp Hq Hm Hi Ho|m q f t Hp Hq Hm|m q f t Hp Hq Hm|m q w t Hp Hq Hm|k w Hp|k w p Hp Hs|k w p Hp Hs|r p p' es Hp Hs|r p Hp Hs|Hp];
    try (apply (flushing_more _ _ _ _ F); reflexivity); try exact Logic.I.
  - destruct (pout_facts _ _ _ _ _ _ _ Ho Hp) as (q' & [P1 P2 P3 P4 P5 P6 P7 P8 P9 P10 P11 P12]). unfold flushing. destruct P12 as [(_ & -> & _)|(_ & -> & _)]; exact Logic.I.
  - destruct (taken_next _ _ _ _ _ Fi Hp Hq) as (T1 & T2 & T3 & T4). assert (D : due (ms_id m) w e). { exists (map pr q). split; [|exact T3]. rewrite T1. unfold pr at 1. rewrite Hm. reflexivity. }
    unfold flushing. simpl. destruct has_stats.
    + split; [reflexivity|]. exists t, e, []. split; [reflexivity|exact D].
    + exists t, e, [], []. split; [reflexivity|]. split; [exact D|discriminate].
  - unfold flushing in *. rewrite Hp in F. simpl. destruct F as (Hh & t & e0 & e1 & -> & D). exists t, e0, (StatsAsked :: e1 ++ [StatsAnswered]), []. split; [|split; [exact D|eauto]].
    rewrite <- app_assoc. simpl. rewrite <- app_assoc. reflexivity.
Qed.
Lemma flushing_run mc ms now s0 l b e : run (buf_new mc ms now s0) l = Some (b, e) -> finv s0 b e /\ flushing b e.
Proof.
  apply (run_ind (fun b e => finv s0 b e /\ flushing b e)).
  - split; [apply finv_new|exact Logic.I].
  - intros b1 e1 x b' es [I1 I2] H. split; [exact (finv_step _ _ _ _ _ _ I1 H)|exact (flushing_step _ _ _ _ _ _ I1 I2 H)].
Qed.
Lemma due_before mc ms now s0 l b e e0 e' k w j ln w' : run (buf_new mc ms now s0) l = Some (b, e) -> e = e0 ++ e' -> due k w e0 -> In (Called j (CLog ln w') Accepted) e -> j < k -> In j (outcomes e0).
Proof.
  intros Hr Ee (rest & D1 & D2) Hj Hlt. apply accepted_in in Hj. pose proof (fi_sorted _ _ _ (finv_run _ _ _ _ _ _ _ Hr)) as Hs. subst e. rewrite accepted_app, D1, <- app_assoc in Hs, Hj. simpl in Hs, Hj.
  rewrite <- D2. pose proof (before_prefix _ _ _ _ Hs) as Hb. apply (in_log_ids _ _ ln w'). rewrite <- Hb. apply filter_In. split; [exact Hj|]. simpl. apply Nat.ltb_lt. exact Hlt.
Qed.
Lemma ready_when mc ms now s0 l b e : run (buf_new mc ms now s0) l = Some (b, e) -> (exists p, b_state b = Ready p) \/ ~ configured l \/ In Died e.
Proof.
  apply (run_ind2 (fun l b e => (exists p, b_state b = Ready p) \/ ~ configured l \/ In Died e)).
  - right. left. intros (c & vs & []).
  - clear. intros l b e x b' es I H. apply step_out in H.
    assert (NC : (forall c vs, x <> Config c vs) -> ~ configured l -> ~ configured (l ++ [x])).
    { intros Hx Hn (c & vs & Hc). apply in_app_or in Hc. destruct Hc as [Hc|[Hc|[]]]; [apply Hn; exists c, vs; exact Hc|exact (Hx _ _ Hc)]. }
    destruct I as [(p0 & I)|[I|I]]; [| |right; right; apply in_or_app; auto].
    + destruct H as [c Hp|c a Ha Hp|q|k|k|c vs p e2 Hp Hr Hrep|c vs Hp|m q l0 w t i l' shot b2 e2 Hp Hq Hm Hi Ho|m q f t Hp Hq Hm|m q f t Hp Hq Hm|m q w t Hp Hq Hm|k w Hp|k w p Hp Hs|k w p Hp Hs|r p p' es Hp Hs|r p Hp Hs|Hp]; simpl; eauto.
      left. destruct Ho as [b1 ie d b4 Hi' Hs Hst Hpr Hse|b1 ie Hi' Hn|b1 ie ts pv md lg internal s b4 h Hi' Ht Hp' Hmd Hw Hl]; destruct (inner_shape _ _ _ _ _ Hi') as (q' & Q); pose proof (is_state _ _ _ _ _ Q) as Qs; simpl in Qs; rewrite I in Qs.
      * simpl. exists p0. congruence.
      * exists p0. exact Qs.
      * unfold LogBuffer_Model.write_log in Hl. simpl in Hl. rewrite Qs in Hl. destruct (p_log p0 lg (w && negb internal) (t_pipe t)) as [[p1 es1]|]; inversion Hl; subst. eexists. reflexivity.
    + destruct H as [c Hp|c a Ha Hp|q|k|k|c vs p e2 Hp Hr Hrep|c vs Hp|m q l0 w t i l' shot b2 e2 Hp Hq Hm Hi Ho|m q f t Hp Hq Hm|m q f t Hp Hq Hm|m q w t Hp Hq Hm|k w Hp|k w p Hp Hs|k w p Hp Hs|r p p' es Hp Hs|r p Hp Hs|Hp]; simpl; eauto;
      try (right; left; apply NC; [discriminate|exact I]; fail).
      right. right. apply in_or_app. right. left. reflexivity.
Qed.
Lemma flushed mc ms now s0 l b e k : run (buf_new mc ms now s0) l = Some (b, e) -> In (Called k (CFlush true) Accepted) e -> In (Returned k) e -> ~ ended l e ->
  exists l1 l2 t e0 e1 e2 e3 e4, l = l1 ++ BuffersDone :: l2 /\ e = (e0 ++ Taken k (CFlush true) t :: e1 ++ BuffersAsked :: e2) ++ BuffersAnswered :: SessionSaved :: e3 ++ Returned k :: e4 /\
    (forall j ln w, In (Called j (CLog ln w) Accepted) e -> j < k -> In j (outcomes e0)) /\
    (has_stats = true -> exists m, e1 = StatsAsked :: m ++ [StatsAnswered]) /\
    (configured l1 -> e3 = [Persisted]) /\ (e3 = [Persisted] \/ e3 = []) /\
    (exists b1 b2 es, run (buf_new mc ms now s0) l1 = Some (b1, e0 ++ Taken k (CFlush true) t :: e1 ++ BuffersAsked :: e2) /\ step b1 BuffersDone = Some (b2, es) /\
       match b_session b2 with Activity a => forall m, Session_Model.a_mem a = Some m -> Session_Model.a_store a = Some (Session_Model.to_stored m) | Fixed _ => True end /\
       forall p, b_state b1 = Ready p -> b_state b2 = Ready (p_persist p)).
Proof.
  intros Hr Hc Hk Hn. destruct (run_in _ _ _ _ _ Hr Hk) as (l1 & y & l2 & b1 & e1 & b2 & es & e2 & El & R1 & St & Hi & R2 & Ee).
  destruct (flushing_run _ _ _ _ _ _ _ R1) as [F Fl]. pose proof (step_out _ _ _ _ St) as So.
  assert (NS : ~ In Died e) by (intros X; apply Hn; right; exact X). assert (ND : ~ In Died es) by (intros X; apply NS; rewrite Ee; apply in_or_app; right; apply in_or_app; auto).
  pose proof (ready_when _ _ _ _ _ _ _ R1) as Rw.
  assert (ND1 : ~ In Died e1) by (intros X; apply NS; rewrite Ee; apply in_or_app; auto).
  destruct So as [c Hp|c a Ha Hp|q|k'|k'|c vs p e3 Hp Hr' Hrep|c vs Hp|m q l0 w t i l' shot b3 e3 Hp Hq Hm Hic Ho|m q f t Hp Hq Hm|m q f t Hp Hq Hm|m q w t Hp Hq Hm|k' w Hp|k' w p Hp Hs|k' w p Hp Hs|r p p' es Hp Hs|r p Hp Hs|Hp].
  - destruct Hi as [Hi|[]]; discriminate.
  - destruct Hi as [Hi|[]]; discriminate.
  - destruct Hi as [Hi|[]]; discriminate.
  - destruct Hi.
  - destruct Hi.
  - apply Hr' in Hi. destruct Hi as (? & ? & Hi). discriminate.
  - elim ND. left. reflexivity.
  - exfalso. destruct (pout_facts _ _ _ _ _ _ _ Ho Hp) as (q' & [P1 P2 P3 P4 P5 P6 P7 P8 P9 P10 P11 P12]). destruct P12 as [(D & _)|(_ & _ & _ & _ & Rt)]; [apply ND; right; apply in_or_app; auto|].
    destruct Hi as [Hi|Hi]; [discriminate|]. apply in_app_or in Hi. destruct Hi as [Hi|Hi]; [destruct shot; simpl in Hi; [destruct Hi as [Hi|[]]; discriminate|exact Hi]|].
    apply in_returns in Hi. rewrite Rt in Hi. destruct w; [|destruct Hi]. destruct Hi as [Hi|[]]. subst k.
    destruct (taken_next _ _ _ _ _ F Hp Hq) as (T1 & _). assert (Hc' : In (Called (ms_id m) (CLog l0 true) Accepted) e).
    { rewrite Ee. apply in_or_app. left. apply in_accepted. rewrite T1. apply in_or_app. right. left. unfold pr. rewrite Hm. reflexivity. }
    pose proof (call_unique _ _ _ _ _ _ _ _ _ _ Hr Hc Hc'). discriminate.
  - destruct Hi as [Hi|[]]; discriminate.
  - destruct Hi as [Hi|[]]; discriminate.
  - exfalso. destruct Hi as [Hi|Hi]; [discriminate|]. destruct has_stats; destruct Hi as [Hi|[]]; discriminate.
  - destruct Hi as [Hi|[Hi|[]]]; discriminate.
  - destruct Hi as [Hi|[Hi|Hi]]; try discriminate. destruct w; [|destruct Hi]. destruct Hi as [Hi|[]]. inversion Hi; subst k'.
    unfold flushing in Fl. rewrite Hp in Fl. destruct Fl as (t & f0 & f1 & f2 & Ef & D & M).
    exists l1, l2, t, f0, f1, f2, [], e2. split; [exact El|]. split; [rewrite Ee, Ef; reflexivity|]. split; [|split; [exact M|split; [|split; [auto|]]]].
    + intros j ln w Hj Hlt. apply (due_before _ _ _ _ _ _ _ f0 (Taken k (CFlush true) t :: f1 ++ BuffersAsked :: f2 ++ (BuffersAnswered :: SessionSaved :: ret k true) ++ e2) k true j ln w Hr); auto.
      rewrite Ee, Ef, <- app_assoc. simpl. rewrite <- app_assoc. reflexivity.
    + intros Hcf. destruct Rw as [(p' & Rw)|[Rw|Rw]]; [congruence|contradiction|contradiction].
    + exists b1. do 2 eexists. split; [rewrite <- Ef; exact R1|]. split; [exact St|]. split.
      * simpl. unfold session_flush. destruct (b_session b1) as [f|a]; [exact Logic.I|]. unfold Session_Model.flush. destruct (Session_Model.a_mem a) eqn:Ea; simpl; intros m0 Hm0; congruence.
      * intros p0 Hp0. congruence.
  - destruct Hi as [Hi|[Hi|[Hi|Hi]]]; try discriminate. destruct w; [|destruct Hi]. destruct Hi as [Hi|[]]. inversion Hi; subst k'.
    unfold flushing in Fl. rewrite Hp in Fl. destruct Fl as (t & f0 & f1 & f2 & Ef & D & M).
    exists l1, l2, t, f0, f1, f2, [Persisted], e2. split; [exact El|]. split; [rewrite Ee, Ef; reflexivity|]. split; [|split; [exact M|split; [auto|split; [auto|]]]].
    + intros j ln w Hj Hlt. apply (due_before _ _ _ _ _ _ _ f0 (Taken k (CFlush true) t :: f1 ++ BuffersAsked :: f2 ++ (BuffersAnswered :: SessionSaved :: Persisted :: ret k true) ++ e2) k true j ln w Hr); auto.
      rewrite Ee, Ef, <- app_assoc. simpl. rewrite <- app_assoc. reflexivity.
    + exists b1. do 2 eexists. split; [rewrite <- Ef; exact R1|]. split; [exact St|]. split.
      * simpl. unfold session_flush. destruct (b_session b1) as [f|a]; [exact Logic.I|]. unfold Session_Model.flush. destruct (Session_Model.a_mem a) eqn:Ea; simpl; intros m0 Hm0; congruence.
      * intros p0 Hp0. simpl. congruence.
  - destruct Hi as [Hi|[]]; discriminate.
  - elim ND. left. reflexivity.
  - elim Hn. left. rewrite El. apply in_or_app. right. left. reflexivity.
Qed.

(** ** C88: what the pipeline gets *)
Lemma delivered_app (e1 e2 : list event) : delivered (e1 ++ e2) = delivered e1 ++ delivered e2.
Proof. induction e1 as [|x e1 IH]; [reflexivity|]. destruct x; simpl; auto; destruct h; simpl; rewrite ?IH; reflexivity. Qed.
Lemma delivered_none (e : list event) : outcomes e = [] -> delivered e = [].
Proof. induction e as [|x e IH]; [reflexivity|]. destruct x; simpl; auto; discriminate. Qed.
Section History.
Variable hist : P -> list log.
Hypothesis hist_new : forall c, hist (p_new c) = [].
Hypothesis hist_update : forall p c, hist (p_update p c) = hist p.
Hypothesis hist_log : forall p l w v p' es, p_log p l w v = Some (p', es) -> hist p' = hist p ++ [l].
Hypothesis hist_run : forall p r p' es, p_run p r = Some (p', es) -> hist p' = hist p.
Hypothesis hist_persist : forall p, hist (p_persist p) = hist p.
Definition hinv (b : buf) (e : list event) : Prop := match b_state b with Waiting p => delivered e = PreConfig_Model.pop_all p | Ready p => delivered e = hist p end.
Lemma hinv_same (b b' : buf) e es : hinv b e -> b_state b' = b_state b -> outcomes es = [] -> hinv b' (e ++ es).
Proof. unfold hinv. intros I -> H. rewrite delivered_app, (delivered_none _ H), app_nil_r. exact I. Qed.
Lemma replay_hist : forall l p p' (e : list event) vs, replay P V E p_log p l vs = Some (p', e) -> hist p' = hist p ++ l.
Proof.
  induction l as [|x l IH]; intros p p' e vs; simpl; [intros H; inversion H; subst; rewrite app_nil_r; reflexivity|].
  destruct (p_log p x false (vs 0)) as [[p1 es]|] eqn:E1; [|discriminate]. destruct (replay P V E p_log p1 l (fun n => vs (S n))) as [[p2 e2]|] eqn:E2; [|discriminate].
  intros H. inversion H; subst. rewrite (IH _ _ _ _ E2), (hist_log _ _ _ _ _ _ E1), <- app_assoc. reflexivity.
Qed.
Lemma write_hinv b l w v b' h k i e : write_log b l w v = Some (b', h) -> hinv b e -> hinv b' (e ++ [wrote_event k i l h]).
Proof.
  unfold LogBuffer_Model.write_log, hinv. destruct (b_state b) as [p|p] eqn:Eb; rewrite delivered_app.
  - destruct (PreConfig_Model.push size p l) as [p' a] eqn:Ep. intros H I.
    assert (X : PreConfig_Model.pop_all p' = PreConfig_Model.pop_all p ++ match a with PreConfig_Model.PushOk => [l] | _ => [] end).
    { pose proof (write_items b l w v) as W. unfold LogBuffer_Model.write_log in W. rewrite Eb, Ep in W. destruct a; (specialize (W _ _ eq_refl 0 true); simpl in W; exact W). }
    destruct a; inversion H; subst; simpl; rewrite X, I; destruct i; reflexivity.
  - destruct (p_log p l w v) as [[p' es]|] eqn:Ep; [|discriminate]. intros H I. inversion H; subst. simpl. rewrite (hist_log _ _ _ _ _ _ Ep), I. destruct i; reflexivity.
Qed.
Lemma hinv_step b e x b' es : hinv b e -> step b x = Some (b', es) -> hinv b' (e ++ es).
Proof.
  intros I H. pose proof H as So. apply step_out in So.
  destruct So as [c Hp|c a Ha Hp|q|k|k|c vs p e2 Hp Hr Hrep|c vs Hp|m q l w t i l' shot b2 e2 Hp Hq Hm Hi Ho|m q f t Hp Hq Hm|m q f t Hp Hq Hm|m q w t Hp Hq Hm|k w Hp|k w p Hp Hs|k w p Hp Hs|r p p' es Hp Hs|r p Hp Hs|Hp];
    try (apply (hinv_same _ _ _ _ I); reflexivity).
  - simpl in H. unfold configure in H. rewrite Hp in H. unfold hinv in *. destruct (b_state b) as [p0|p0] eqn:Eb.
    + destruct (replay P V E p_log (p_new c) (PreConfig_Model.pop_all p0) vs) as [[p1 e1]|] eqn:Er; [|unfold LogBuffer_Model.gone in H; inversion H; congruence].
      inversion H; subst. simpl. rewrite delivered_app, I, (replay_hist _ _ _ _ _ Er), hist_new. simpl.
      replace (delivered e2) with (@nil log); [rewrite app_nil_r; reflexivity|]. symmetry. apply delivered_none.
      clear - Hr. induction e2 as [|x e2 IH]; [reflexivity|]. destruct (Hr x (or_introl eq_refl)) as (? & ? & ->). simpl. apply IH. intros y Hy. apply Hr. right. exact Hy.
    + inversion H; subst. simpl. rewrite app_nil_r, hist_update. exact I.
  - apply (hinv_same _ _ _ _ I); [reflexivity|]. destruct (gone_nothing b) as (_ & _ & G & _). exact G.
  - clear H. destruct Ho as [bi ie d b4 Hin' Hs Hst Hpr Hse|bi ie Hin' Hn|bi ie ts pv md lg' internal s b4 h' Hin' Ht Hpv Hmd Hw Hl]; destruct (inner_shape _ _ _ _ _ Hin') as (q' & Q); destruct (ie_nothing _ _ _ _ _ Q) as (N1 & N2 & N3 & N4 & N5 & N6 & N7 & N8);
      pose proof (is_state _ _ _ _ _ Q) as Qs; simpl in Qs; destruct (ret_nothing (ms_id m) w) as (R1' & R2' & R3 & R4 & R5 & R6 & R7).
    + apply (hinv_same _ _ _ _ I); [simpl; congruence|]. destruct (gone_nothing b4) as (_ & _ & G & _). simpl outcomes. rewrite outcomes_app, outcomes_app, N3. simpl. rewrite outcomes_app, R3. change (outcomes ((if shot then [Shot] else []) : list event) ++ outcomes (snd (gone b4)) = []). rewrite G. destruct shot; reflexivity.
    + unfold hinv. rewrite Qs. rewrite delivered_app. cbn [delivered]. rewrite delivered_app, (delivered_none (if shot then _ else _)), delivered_app, (delivered_none ie N3) by (destruct shot; reflexivity). simpl. rewrite (delivered_none _ R3), app_nil_r. exact I.
    + replace (e ++ Taken (ms_id m) (CLog l w) t :: (if shot then [Shot] else []) ++ ie ++ wrote_event (ms_id m) internal lg' h' :: ret (ms_id m) w) with
        (((e ++ Taken (ms_id m) (CLog l w) t :: (if shot then [Shot] else []) ++ ie) ++ [wrote_event (ms_id m) internal lg' h']) ++ ret (ms_id m) w).
      2:{ rewrite <- !app_assoc. simpl. rewrite <- !app_assoc. reflexivity. }
      apply (hinv_same b4); [|reflexivity|exact R3]. apply (write_hinv _ _ _ _ _ _ _ _ _ Hl). apply (hinv_same b); [exact I|exact Qs|]. simpl. rewrite outcomes_app, N3. destruct shot; reflexivity.
  - apply (hinv_same _ _ _ _ I); [reflexivity|]. destruct has_stats; reflexivity.
  - apply (hinv_same _ _ _ _ I); [reflexivity|]. simpl. apply ret_nothing.
  - unfold hinv in *. rewrite Hs in I. simpl. rewrite delivered_app, hist_persist, I. rewrite (delivered_none (_ :: _)); [apply app_nil_r|]. simpl. apply ret_nothing.
  - simpl in H. rewrite Hp, Hs in H. unfold hinv in *. rewrite Hs in I. destruct (p_run p r) as [[p1 es1]|] eqn:Ep; inversion H; subst. simpl. rewrite delivered_app, app_nil_r, I. symmetry. exact (hist_run _ _ _ _ Ep).
  - apply (hinv_same _ _ _ _ I); [reflexivity|]. destruct (gone_nothing b) as (_ & _ & G & _). exact G.
  - apply (hinv_same _ _ _ _ I); [reflexivity|]. destruct (gone_nothing b) as (_ & _ & G & _). exact G.
Qed.
Lemma pipeline_gets mc ms now s0 l b e : run (buf_new mc ms now s0) l = Some (b, e) ->
  (configured l -> ~ In Died e -> exists p, b_state b = Ready p) /\ (forall p, b_state b = Ready p -> hist p = delivered e).
Proof.
  intros Hr. split; [intros Hc Hd; destruct (ready_when _ _ _ _ _ _ _ Hr) as [X|[X|X]]; [exact X|contradiction|contradiction]|].
  assert (H : hinv b e). { revert l b e Hr. intros l b e. apply run_ind; [reflexivity|]. intros. eapply hinv_step; eassumption. }
  intros p Hp. unfold hinv in H. rewrite Hp in H. symmetry. exact H.
Qed.
End History.
(** After the first configuration nothing is kept or refused. *)
Lemma all_piped mc ms now s0 l1 l2 b1 e1 b2 e2 k lg h : run (buf_new mc ms now s0) l1 = Some (b1, e1) -> configured l1 -> run b1 l2 = Some (b2, e2) ->
  In (Wrote k lg h) e2 \/ In (WroteInternal k lg h) e2 -> exists es, h = Piped es.
Proof.
  intros R1 Hc R2 Hin. assert (exists i, In (wrote_event k i lg h) e2) as (i & Hi) by (destruct Hin; [exists false|exists true]; assumption). clear Hin.
  destruct (run_in _ _ _ _ _ R2 Hi) as (l3 & y & l4 & b3 & e3 & b4 & es & e4 & El & R3 & St & Hi' & R4 & Ee).
  assert (R13 : run (buf_new mc ms now s0) (l1 ++ l3) = Some (b3, e1 ++ e3)) by (rewrite run_app, R1, R3; reflexivity).
  assert (Hc' : configured (l1 ++ l3)) by (destruct Hc as (c & vs & Hc); exists c, vs; apply in_or_app; auto).
  pose proof (finv_run _ _ _ _ _ _ _ R13) as F. apply wrote_outcome in Hi' as Hk.
  apply step_out in St. destruct St as [c Hp|c a Ha Hp|q|k'|k'|c vs p e5 Hp Hr' Hrep|c vs Hp|m q l w t i' l' shot b5 e5 Hp Hq Hm Hic Ho|m q f t Hp Hq Hm|m q f t Hp Hq Hm|m q w t Hp Hq Hm|k' w Hp|k' w p Hp Hs|k' w p Hp Hs|r p p' es Hp Hs|r p Hp Hs|Hp];
    try (simpl in Hk; contradiction).
  - exfalso. apply Hr' in Hi'. destruct Hi' as (? & ? & Hi'). destruct i; discriminate.
  - destruct (gone_nothing b3) as (_ & _ & G & _). simpl outcomes in Hk. change (In k (outcomes (snd (gone b3)))) in Hk. rewrite G in Hk. destruct Hk.
  - destruct (ready_when _ _ _ _ _ _ _ R13) as [(p & Hst)|[X|X]]; [|contradiction|apply (fi_died _ _ _ F) in X; congruence].
    destruct Hi' as [Hi'|Hi']; [destruct i; discriminate|]. apply in_app_or in Hi'. destruct Hi' as [Hi'|Hi']; [destruct shot, i; simpl in Hi'; try contradiction; destruct Hi' as [Hi'|[]]; discriminate|].
    destruct (ret_nothing (ms_id m) w) as (_ & _ & R3' & _).
    destruct Ho as [bi ie d b6 Hin' Hs Hst' Hpr Hse|bi ie Hin' Hn|bi ie ts pv md lg' internal s b6 h' Hin' Ht Hpv Hmd Hw Hl]; destruct (inner_shape _ _ _ _ _ Hin') as (q' & Q); destruct (ie_nothing _ _ _ _ _ Q) as (_ & _ & N3 & _).
    + apply wrote_outcome in Hi'. destruct (gone_nothing b6) as (_ & _ & G & _). rewrite outcomes_app, N3 in Hi'. simpl outcomes in Hi'. rewrite outcomes_app, R3' in Hi'. change (In k (outcomes (snd (gone b6)))) in Hi'. rewrite G in Hi'. destruct Hi'.
    + exfalso. apply in_app_or in Hi'. destruct Hi' as [X|[X|X]]; [apply wrote_outcome in X; rewrite N3 in X; exact X|destruct i; discriminate|apply wrote_outcome in X; rewrite R3' in X; exact X].
    + apply in_app_or in Hi'. destruct Hi' as [X|[X|X]]; [apply wrote_outcome in X; rewrite N3 in X; destruct X| |apply wrote_outcome in X; rewrite R3' in X; destruct X].
      apply wrote_event_inj in X. destruct X as (_ & _ & _ & <-). pose proof (is_state _ _ _ _ _ Q) as Qs. simpl in Qs. rewrite Hst in Qs.
      unfold LogBuffer_Model.write_log in Hl. simpl in Hl. rewrite Qs in Hl. destruct (p_log p lg' (w && negb internal) (t_pipe t)) as [[p1 es1]|]; inversion Hl; subst. eauto.
  - exfalso. destruct has_stats; exact Hk.
  - exfalso. simpl in Hk. destruct (ret_nothing k' w) as (_ & _ & R3' & _). rewrite R3' in Hk. exact Hk.
  - exfalso. simpl in Hk. destruct (ret_nothing k' w) as (_ & _ & R3' & _). rewrite R3' in Hk. exact Hk.
  - destruct (gone_nothing b3) as (_ & _ & G & _). simpl outcomes in Hk. change (In k (outcomes (snd (gone b3)))) in Hk. rewrite G in Hk. destruct Hk.
  - destruct (gone_nothing b3) as (_ & _ & G & _). rewrite G in Hk. destruct Hk.
Qed.
(** What it is told about a log. *)
Lemma replay_asked (Q : log -> bool -> V -> list E -> Prop) : (forall p l w v p' es, p_log p l w v = Some (p', es) -> Q l w v es) ->
  forall l p p' (e : list event) vs lg es, replay P V E p_log p l vs = Some (p', e) -> In (Replayed lg es) e -> exists v, Q lg false v es.
Proof.
  intros HQ. induction l as [|x l IH]; intros p p' e vs lg es; simpl; [intros H; inversion H; subst; intros []|].
  destruct (p_log p x false (vs 0)) as [[p1 es1]|] eqn:E1; [|discriminate]. destruct (replay P V E p_log p1 l (fun n => vs (S n))) as [[p2 e2]|] eqn:E2; [|discriminate].
  intros H. inversion H; subst. intros [X|X]; [inversion X; subst; exists (vs 0); exact (HQ _ _ _ _ _ _ E1)|exact (IH _ _ _ _ _ _ E2 X)].
Qed.
Lemma asked (Q : log -> bool -> V -> list E -> Prop) mc ms now s0 l b e : (forall p l w v p' es, p_log p l w v = Some (p', es) -> Q l w v es) ->
  run (buf_new mc ms now s0) l = Some (b, e) ->
  (forall k lg es, In (Wrote k lg (Piped es)) e -> exists ln w t, In (Called k (CLog ln w) Accepted) e /\ In (Taken k (CLog ln w) t) e /\ Q lg w (t_pipe t) es) /\
  (forall k lg es, In (WroteInternal k lg (Piped es)) e -> exists ln w t, In (Called k (CLog ln w) Accepted) e /\ In (Taken k (CLog ln w) t) e /\ Q lg false (t_pipe t) es) /\
  (forall lg es, In (Replayed lg es) e -> exists v, Q lg false v es).
Proof.
  intros HQ Hr.
  assert (G : forall k i lg es, In (wrote_event k i lg (Piped es)) e -> exists ln w t, In (Called k (CLog ln w) Accepted) e /\ In (Taken k (CLog ln w) t) e /\ Q lg (w && negb i) (t_pipe t) es).
  { intros k i lg ps Hin. destruct (wrote_step _ _ _ _ _ _ _ _ _ _ i Hr Hin) as (e1 & e2 & es & ln & w & t & ic & l' & shot & b1 & bq & b2 & Ee & Hes & [F Rl] & Ha & Hic & bi & ie & ts & pv & m & s & Hi & Ht & Hp & Hm & Hw & Hl & _).
    destruct (ops_before_eq _ _ _ _ _ _ _ _ _ _ _ _ Hr Ee Ha) as [_ Hc]. exists ln, w, t. split; [exact Hc|]. split; [rewrite Ee; apply in_or_app; right; left; reflexivity|].
    unfold LogBuffer_Model.write_log in Hl. simpl in Hl. destruct (b_state bi) as [p|p]; [destruct (PreConfig_Model.push size p lg) as [? []]; discriminate|].
    destruct (p_log p lg (w && negb i) (t_pipe t)) as [[p1 es1]|] eqn:Ep; inversion Hl; subst. exact (HQ _ _ _ _ _ _ Ep). }
  split; [|split].
  - intros k lg es Hi. destruct (G k false lg es Hi) as (ln & w & t & H1 & H2 & H3). rewrite andb_true_r in H3. eauto 6.
  - intros k lg es Hi. destruct (G k true lg es Hi) as (ln & w & t & H1 & H2 & H3). rewrite andb_false_r in H3. eauto 6.
  - intros lg ps Hi. destruct (run_in _ _ _ _ _ Hr Hi) as (l1 & y & l2 & b1 & e1 & b2 & es & e2 & El & R1 & St & Hi' & R2 & Ee).
    assert (NG : forall b0 : buf, ~ In (Replayed lg ps) (snd (gone b0))). { intros b0 X. destruct (gone_nothing b0) as (_ & _ & _ & _ & G5 & _). 
      assert (Y : In lg (replayed (snd (gone b0)))) by (clear - X; induction (snd (gone b0)) as [|x l IH]; [destruct X|destruct X as [->|X]; [left; reflexivity|destruct x; simpl; auto]]). rewrite G5 in Y. exact Y. }
    pose proof St as So. apply step_out in So. destruct So as [c Hp|c a Ha Hp|q|k'|k'|c vs p e5 Hp Hr' Hrep|c vs Hp|m q l0 w t i' l' shot b5 e5 Hp Hq Hm Hic Ho|m q f t Hp Hq Hm|m q f t Hp Hq Hm|m q w t Hp Hq Hm|k' w Hp|k' w p Hp Hs|k' w p Hp Hs|r p p' es Hp Hs|r p Hp Hs|Hp];
      try (simpl in Hi'; repeat (destruct Hi' as [Hi'|Hi']; try discriminate); try contradiction; fail).
    + simpl in St. unfold configure in St. rewrite Hp in St. destruct (b_state b1) as [p0|p0].
      * destruct (replay P V E p_log (p_new c) (PreConfig_Model.pop_all p0) vs) as [[p1 e6]|] eqn:Er; [|destruct (gone b1) eqn:Eg; inversion St; subst; destruct Hi' as [Hi'|Hi']; [discriminate|]; elim (NG b1); rewrite Eg; exact Hi'].
        inversion St; subst. exact (replay_asked Q HQ _ _ _ _ _ _ _ Er Hi').
      * inversion St; subst. destruct Hi'.
    + exfalso. destruct Hi' as [Hi'|Hi']; [discriminate|exact (NG _ Hi')].
    + exfalso. destruct Hi' as [Hi'|Hi']; [discriminate|]. apply in_app_or in Hi'. destruct Hi' as [Hi'|Hi']; [destruct shot; simpl in Hi'; [destruct Hi' as [Hi'|[]]; discriminate|contradiction]|].
      assert (X : replayed e5 <> []). { clear - Hi'. induction e5 as [|x e5 IH]; [destruct Hi'|]. destruct Hi' as [->|Hi']; [discriminate|]. destruct x; simpl; try (apply IH; exact Hi'). discriminate. }
      apply X. destruct (pout_facts _ _ _ _ _ _ _ Ho Hp) as (q' & PF). exact (pf_replayed _ _ _ _ _ _ PF).
    + exfalso. destruct Hi' as [Hi'|Hi']; [discriminate|]. destruct has_stats; destruct Hi' as [Hi'|[]]; discriminate.
    + exfalso. destruct Hi' as [Hi'|[Hi'|Hi']]; try discriminate. destruct w; [destruct Hi' as [Hi'|[]]; discriminate|destruct Hi'].
    + exfalso. destruct Hi' as [Hi'|[Hi'|[Hi'|Hi']]]; try discriminate. destruct w; [destruct Hi' as [Hi'|[]]; discriminate|destruct Hi'].
    + exfalso. destruct Hi' as [Hi'|Hi']; [discriminate|exact (NG _ Hi')].
    + exfalso. exact (NG _ Hi').
Qed.

(** ** C92: calls of the provider *)
Lemma inner_mute : forall l (b : buf), (forall w a, ~ In (CFlush w, a) l) -> inner b l = (b, map (fun x => Guarded (fst x)) l, false).
Proof.
  induction l as [|[c a] l IH]; intros b H; [reflexivity|]. assert (IH' := IH b (fun w a' X => H w a' (or_intror X))). simpl.
  destruct c; try (rewrite IH'; reflexivity). elim (H blocking a). left. reflexivity.
Qed.
Lemma apart_app (e1 e2 : list event) : apart (e1 ++ e2) = apart e1 ++ apart e2.
Proof. induction e1 as [|x e1 IH]; [reflexivity|]. destruct x; simpl; rewrite ?IH; reflexivity. Qed.
Lemma apart_guarded (l : list (call * answer)) : apart (map (fun x => Guarded (fst x)) l : list event) = [].
Proof. induction l; auto. Qed.
Lemma process_mute b k l w t b' e : (forall w a, ~ In (CFlush w, a) (t_inner t)) -> process_log b k l w t = (b', e) -> exists e', process_log b k l w (mute t) = (b', e') /\ apart e' = apart e.
Proof.
  intros Hf. unfold LogBuffer_Model.process_log. rewrite (inner_mute _ _ Hf). simpl.
  assert (G : forall b0 lg i,
    match write_log b0 lg (w && negb i) (t_pipe t) with None => dies b0 k w (map (fun x => Guarded (fst x)) (t_inner t))
      | Some (b1, h) => (b1, map (fun x => Guarded (fst x)) (t_inner t) ++ (if i then WroteInternal k lg h else Wrote k lg h) :: if w then [Returned k] else []) end = (b', e) ->
    exists e', match write_log b0 lg (w && negb i) (t_pipe t) with None => dies b0 k w [] | Some (b1, h) => (b1, (if i then WroteInternal k lg h else Wrote k lg h) :: if w then [Returned k] else []) end = (b', e') /\ apart e' = apart e).
  { intros b0 lg i. destruct (write_log b0 lg (w && negb i) (t_pipe t)) as [[b1 h]|].
    - intros H. inversion H; subst. eexists. split; [reflexivity|]. rewrite apart_app, apart_guarded. reflexivity.
    - unfold LogBuffer_Model.dies. destruct (gone b0) as [bg r]. intros H. inversion H; subst. eexists. split; [reflexivity|]. rewrite !apart_app, apart_guarded. reflexivity. }
  destruct (normalized_metadata (b_globals b) (t_time t) (t_provider t) (ln_fields l) (ln_matching l) (ln_type l)) as [m|].
  2:{ intros H. inversion H; subst. eexists. split; [reflexivity|]. rewrite !apart_app, apart_guarded. reflexivity. }
  destruct (ln_override l) as [[x at_]|].
  - destruct (match previous_process_session_id (b_session b) with Some p => String.eqb x p | None => false end); [intros H; exact (G _ _ false H)|].
    destruct (session_id (b_session b) (t_clock t)) as [s id]. intros H. exact (G _ _ true H).
  - destruct (session_id (b_session b) (t_clock t)) as [s id]. intros H. exact (G _ _ false H).
Qed.
Lemma step_mute b x b' e : flushless x -> step b x = Some (b', e) -> exists e', step b (muted x) = Some (b', e') /\ apart e' = apart e.
Proof.
  destruct x; simpl; intros Hf H; try (exists e; split; [exact H|reflexivity]).
  unfold LogBuffer_Model.take in *. destruct (b_place b); try discriminate. destruct (b_queue b) as [|m q]; [discriminate|].
  destruct (ms_call m) as [l w|f|k|w].
  - change (t_report (mute t)) with (t_report t). change (t_now (mute t)) with (t_now t).
    destruct (intercept (t_report t) (t_now t) (b_icept (with_queue b (b_next b) q)) l) as [[i l'] shot].
    destruct (process_log (with_icept (with_queue b (b_next b) q) i) (ms_id m) l' w t) as [b1 e1] eqn:Ep. destruct (process_mute _ _ _ _ _ _ _ Hf Ep) as (e2 & E2 & A2).
    rewrite E2. inversion H; subst. eexists. split; [reflexivity|]. simpl. f_equal. rewrite !apart_app, A2. reflexivity.
  - inversion H; subst. eexists. split; reflexivity.
  - inversion H; subst. eexists. split; reflexivity.
  - destruct (begin_flush _ _ _ _ _ _ _) as [b1 e1]. inversion H; subst. eexists. split; reflexivity.
Qed.
Lemma provider_apart : forall l b b' e, Forall flushless l -> run b l = Some (b', e) -> exists e', run b (map muted l) = Some (b', e') /\ apart e' = apart e.
Proof.
  induction l as [|x l IH]; intros b b' e Hf H; [exists e; split; [exact H|reflexivity]|]. inversion Hf; subst. simpl in H.
  destruct (step b x) as [[b1 e1]|] eqn:E1; [|discriminate]. destruct (run b1 l) as [[b2 e2]|] eqn:E2; [|discriminate]. inversion H; subst.
  destruct (step_mute _ _ _ _ H2 E1) as (e3 & S3 & A3). destruct (IH _ _ _ H3 E2) as (e4 & S4 & A4). exists (e3 ++ e4). split; [simpl; rewrite S3, S4; reflexivity|]. rewrite !apart_app. congruence.
Qed.

(** ** C93: the session of a log *)
(** The session of [i] goes on, and the last activity was between [lo] and [hi]. *)
Definition holds (i : string) (lo hi : Z) (s : strategy) : Prop :=
  match s with
  | Fixed f => exists p, Session_Model.f_mem f = Some (i, p)
  | Activity a => exists m, Session_Model.a_mem a = Some m /\ Session_Model.m_id m = i /\ (lo <= Session_Model.m_activity m <= hi)%Z
  end.
Definition timed (lo hi now : Z) (s : strategy) : Prop := match s with Fixed _ => True | Activity _ => (hi <= now <= lo + threshold)%Z end.
Lemma holds_mono i lo hi hi' s : holds i lo hi s -> match s with Fixed _ => True | Activity _ => (hi <= hi')%Z end -> holds i lo hi' s.
Proof. destruct s; simpl; auto. intros (m & H1 & H2 & H3) H. exists m. splits; auto; lia. Qed.
Lemma holds_id i lo hi s k s' j : holds i lo hi s -> timed lo hi (k_now k) s -> session_id s k = (s', j) -> j = i /\ holds i lo (k_now k) s' /\ (forall f, s = Fixed f -> exists f', s' = Fixed f') /\ (forall f, s' = Fixed f -> exists f', s = Fixed f').
Proof.
  destruct s as [f|a]; simpl; intros H T.
  - destruct H as (p & H). unfold Session_Model.fixed_session_id. rewrite H. intros X. inversion X; subst. splits; eauto. exists p. exact H.
  - destruct H as (m & H1 & H2 & H3). unfold Session_Model.session_id. rewrite H1.
    replace (k_now k <? Session_Model.m_activity m)%Z with false by (symmetry; apply Z.ltb_ge; lia). replace (threshold <? k_now k - Session_Model.m_activity m)%Z with false by (symmetry; apply Z.ltb_ge; lia). simpl.
    destruct (match Session_Model.m_write m with Some w => (write_interval <? k_now k - w)%Z | None => true end); intros X; inversion X; subst; (split; [reflexivity|]; split; [eexists; split; [reflexivity|]; simpl; split; [reflexivity|lia]|split; intros ? ?; discriminate]).
Qed.
Lemma holds_flush i lo hi s : holds i lo hi s -> holds i lo hi (session_flush s).
Proof. destruct s as [f|a]; simpl; auto. intros (m & H1 & H2 & H3). unfold Session_Model.flush. rewrite H1. exists m. simpl. auto. Qed.
(** Of one step: how the session changes. *)
Definition is_fixed (s : strategy) : bool := match s with Fixed _ => true | _ => false end.
Definition clock_of (x : label) : option Z := match x with Take t => Some (k_now (t_clock t)) | SessionId k => Some (k_now k) | _ => None end.
Lemma session_fixed s k s' j : session_id s k = (s', j) -> is_fixed s' = is_fixed s.
Proof.
  destruct s as [f|a]; simpl.
  - destruct (Session_Model.fixed_session_id f (k_first k)). intros H. inversion H; reflexivity.
  - destruct (Session_Model.session_id threshold write_interval a (k_now k) (k_first k) (k_next k)). intros H. inversion H; reflexivity.
Qed.
Lemma gone_session (b : buf) : b_session (fst (gone b)) = b_session b. Proof. reflexivity. Qed.
Lemma holds_step i lo hi b x b' es : (forall k, x <> NewSession k) -> holds i lo hi (b_session b) ->
  (is_fixed (b_session b) = false -> match clock_of x with Some n => (hi <= n <= lo + threshold)%Z | None => True end) -> step b x = Some (b', es) ->
  is_fixed (b_session b') = is_fixed (b_session b) /\ holds i lo (match clock_of x with Some n => n | None => hi end) (b_session b') /\
  (forall k lg h, In (Wrote k lg h) es -> (exists t x at_ ln w, In (Taken k (CLog ln w) t) es /\ ln_override ln = Some (x, at_)) \/ l_session lg = i) /\
  (forall k lg h, In (WroteInternal k lg h) es -> l_session lg = i).
Proof.
  intros Hn H T St. apply step_out in St.
  assert (NW : forall e : list event, outcomes e = [] -> (forall k lg h, In (Wrote k lg h) e -> (exists t x at_ ln w, In (Taken k (CLog ln w) t) e /\ ln_override ln = Some (x, at_)) \/ l_session lg = i) /\ (forall k lg h, In (WroteInternal k lg h) e -> l_session lg = i)).
  { intros e He. split; intros k lg h Hi; exfalso; [apply (wrote_outcome _ k false lg h) in Hi|apply (wrote_outcome _ k true lg h) in Hi]; rewrite He in Hi; exact Hi. }
  assert (TM : forall s n, is_fixed s = is_fixed (b_session b) -> clock_of x = Some n -> timed lo hi n s).
  { intros s n Hs Hx. rewrite Hx in T. destruct s; simpl in *; [exact Logic.I|]. apply T. congruence. }
  destruct St as [c Hp|c a Ha Hp|q|k|k|c vs p e2 Hp Hr Hrep|c vs Hp|m q l w t ic l' shot b2 e2 Hp Hq Hm Hi Ho|m q f t Hp Hq Hm|m q f t Hp Hq Hm|m q w t Hp Hq Hm|k w Hp|k w p Hp Hs|k w p Hp Hs|r p p' es Hp Hs|r p Hp Hs|Hp]; simpl clock_of in *; cbv beta iota in T;
    try (split; [reflexivity|]; split; [exact H|]; apply NW; reflexivity).
  - elim (Hn k). reflexivity.
  - destruct (session_id (b_session b) k) as [s' j] eqn:Es. destruct (holds_id _ _ _ _ _ _ _ H (TM _ _ eq_refl eq_refl) Es) as (_ & H' & _). split; [exact (session_fixed _ _ _ _ Es)|]. split; [exact H'|]. apply (NW []). reflexivity.
  - split; [reflexivity|]. split; [exact H|]. apply NW. clear - Hr. induction e2 as [|x e2 IH]; [reflexivity|]. destruct (Hr x (or_introl eq_refl)) as (? & ? & ->). simpl. apply IH. intros y Hy. apply Hr. right. exact Hy.
  - split; [reflexivity|]. split; [exact H|]. apply NW. exact (proj1 (proj2 (proj2 (gone_nothing b)))).
  - assert (HM : forall n, clock_of (Take t) = Some n -> holds i lo n (b_session b)).
    { intros n En. apply (holds_mono _ _ _ _ _ H). pose proof (TM (b_session b) n eq_refl En) as X. destruct (b_session b); simpl in *; [exact Logic.I|lia]. }
    destruct Ho as [bi ie d b4 Hin' Hs Hst Hpr Hse0|bi ie Hin' Hnn|bi ie ts pv md lg' internal s b4 h' Hin' Ht Hpv Hmd Hw Hl]; destruct (inner_shape _ _ _ _ _ Hin') as (q' & Q); destruct (ie_nothing _ _ _ _ _ Q) as (N1 & N2 & N3 & N4 & N5 & N6 & N7 & N8);
      pose proof (is_session _ _ _ _ _ Q) as Qs; simpl in Qs; destruct (ret_nothing (ms_id m) w) as (R1' & R2' & R3 & R4 & R5 & R6 & R7).
    + assert (Hse : is_fixed (b_session b4) = is_fixed (b_session b) /\ holds i lo (k_now (t_clock t)) (b_session b4)).
      { rewrite Qs in Hse0. destruct Hse0 as [->|(j & Es)]; [split; [reflexivity|exact (HM _ eq_refl)]|].
        destruct (holds_id _ _ _ _ _ _ _ H (TM _ _ eq_refl eq_refl) Es) as (_ & H' & _). split; [exact (session_fixed _ _ _ _ Es)|exact H']. }
      destruct Hse as [S1 S2]. split; [exact S1|]. split; [exact S2|]. apply NW. destruct (gone_nothing b4) as (_ & _ & G & _). simpl outcomes. rewrite outcomes_app, outcomes_app, N3. simpl. rewrite outcomes_app, R3.
      change (outcomes ((if shot then [Shot] else []) : list event) ++ outcomes (snd (gone b4)) = []). rewrite G. destruct shot; reflexivity.
    + rewrite Qs. split; [reflexivity|]. split; [exact (HM _ eq_refl)|].
      split; intros k lg h X; exfalso; (destruct X as [X|X]; [discriminate|]; apply in_app_or in X; destruct X as [X|X]; [destruct shot; simpl in X; [destruct X as [X|[]]; discriminate|exact X]|]; apply in_app_or in X; destruct X as [X|[X|X]]; [|discriminate|]).
      * apply (wrote_outcome _ k false) in X. rewrite N3 in X. exact X.
      * apply (wrote_outcome _ k false) in X. rewrite R3 in X. exact X.
      * apply (wrote_outcome _ k true) in X. rewrite N3 in X. exact X.
      * apply (wrote_outcome _ k true) in X. rewrite R3 in X. exact X.
    + destruct (write_same _ _ _ _ _ _ Hl) as [_ Es4]. simpl in Es4. rewrite Qs in Hw. destruct (intercepted _ _ _ _ _ _ _ Hi) as (fs & [A1 A2 A3 A4 A5 A6 A7 _ _ _ _]).
      assert (XX : forall k int lg h, In (wrote_event k int lg h) (Taken (ms_id m) (CLog l w) t :: (if shot then [Shot] else []) ++ ie ++ wrote_event (ms_id m) internal lg' h' :: ret (ms_id m) w) -> k = ms_id m /\ int = internal /\ lg = lg').
      { intros k int lg h X. destruct X as [X|X]; [destruct int; discriminate|]. apply in_app_or in X. destruct X as [X|X]; [destruct shot, int; simpl in X; try contradiction; destruct X as [X|[]]; discriminate|].
        apply in_app_or in X. destruct X as [X|[X|X]]; [apply wrote_outcome in X; rewrite N3 in X; destruct X| |apply wrote_outcome in X; rewrite R3 in X; destruct X]. apply wrote_event_inj in X. destruct X as (<- & <- & <- & _). auto. }
      assert (WW : is_fixed s = is_fixed (b_session b) /\ holds i lo (k_now (t_clock t)) s /\ ((exists x at_, ln_override l = Some (x, at_)) /\ internal = false \/ l_session lg' = i)).
      { inversion Hw as [s' id O1 O2|y aty O1 O2|y aty s' id O1 O2 O3]; subst.
        - destruct (holds_id _ _ _ _ _ _ _ H (TM _ _ eq_refl eq_refl) O2) as (-> & H' & _). split; [exact (session_fixed _ _ _ _ O2)|]. split; [exact H'|]. right. reflexivity.
        - split; [reflexivity|]. split; [exact (HM _ eq_refl)|]. left. split; [|reflexivity]. rewrite <- A6. eauto.
        - destruct (holds_id _ _ _ _ _ _ _ H (TM _ _ eq_refl eq_refl) O3) as (-> & H' & _). split; [exact (session_fixed _ _ _ _ O3)|]. split; [exact H'|]. right. reflexivity. }
      destruct WW as (W1 & W2 & W3). rewrite Es4. split; [exact W1|]. split; [exact W2|]. split.
      * intros k lg h X. destruct (XX k false lg h X) as (-> & Ei & ->). destruct W3 as [[(x & at_ & Ho) _]|W3]; [|right; exact W3]. left. exists t, x, at_, l, w. split; [left; reflexivity|exact Ho].
      * intros k lg h X. destruct (XX k true lg h X) as (-> & Ei & ->). destruct W3 as [[_ W3]|W3]; [congruence|exact W3].
  - split; [reflexivity|]. split; [apply (holds_mono _ _ _ _ _ H); pose proof (TM (b_session b) _ eq_refl eq_refl) as X; destruct (b_session b); simpl in *; [exact Logic.I|lia]|]. apply NW. reflexivity.
  - split; [reflexivity|]. split; [apply (holds_mono _ _ _ _ _ H); pose proof (TM (b_session b) _ eq_refl eq_refl) as X; destruct (b_session b); simpl in *; [exact Logic.I|lia]|]. apply NW. reflexivity.
  - split; [reflexivity|]. split; [apply (holds_mono _ _ _ _ _ H); pose proof (TM (b_session b) _ eq_refl eq_refl) as X; destruct (b_session b); simpl in *; [exact Logic.I|lia]|]. apply NW. destruct has_stats; reflexivity.
  - split; [simpl; destruct (b_session b); reflexivity|]. split; [exact (holds_flush _ _ _ _ H)|]. apply NW. simpl. apply ret_nothing.
  - split; [simpl; destruct (b_session b); reflexivity|]. split; [exact (holds_flush _ _ _ _ H)|]. apply NW. simpl. apply ret_nothing.
  - split; [reflexivity|]. split; [exact H|]. apply NW. exact (proj1 (proj2 (proj2 (gone_nothing b)))).
  - split; [reflexivity|]. split; [exact H|]. apply NW. exact (proj1 (proj2 (proj2 (gone_nothing b)))).
Qed.
Lemma holds_run i lo : forall l hi b b' e, (forall k, ~ In (NewSession k) l) -> holds i lo hi (b_session b) ->
  (is_fixed (b_session b) = false -> Sorted.StronglySorted Z.le (hi :: clocks l) /\ Forall (fun n => n <= lo + threshold)%Z (clocks l)) -> run b l = Some (b', e) ->
  (forall k lg h, In (Wrote k lg h) e -> (exists t x at_ ln w, In (Taken k (CLog ln w) t) e /\ ln_override ln = Some (x, at_)) \/ l_session lg = i) /\
  (forall k lg h, In (WroteInternal k lg h) e -> l_session lg = i).
Proof.
  induction l as [|x l IH]; intros hi b b' e Hn H T Hr; [inversion Hr; subst; split; intros ? ? ? []|]. simpl in Hr.
  destruct (step b x) as [[b1 e1]|] eqn:E1; [|discriminate]. destruct (run b1 l) as [[b2 e2]|] eqn:E2; [|discriminate]. inversion Hr; subst.
  assert (Ec : clocks (x :: l) = match clock_of x with Some n => n :: clocks l | None => clocks l end) by (destruct x; reflexivity). rewrite Ec in T.
  destruct (holds_step i lo hi b x b1 e1) as (S1 & S2 & S3 & S4); auto.
  - intros k Ek. apply (Hn k). left. exact Ek.
  - intros Hf. destruct (T Hf) as [T1 T2]. destruct (clock_of x); [|exact Logic.I]. inversion T2; subst. apply Sorted.StronglySorted_inv in T1. destruct T1 as [_ T1]. inversion T1; subst. lia.
  - destruct (IH (match clock_of x with Some n => n | None => hi end) b1 b' e2) as [I1 I2]; auto.
    + intros k Hk. apply (Hn k). right. exact Hk.
    + rewrite S1. intros Hf. destruct (T Hf) as [T1 T2]. destruct (clock_of x); [|split; assumption]. inversion T2; subst. apply Sorted.StronglySorted_inv in T1. destruct T1 as [T1 _]. split; assumption.
    + split; intros k lg h X; apply in_app_or in X; destruct X as [X|X].
      * destruct (S3 _ _ _ X) as [(t & y & a & ln & w & Y1 & Y2)|Y]; [|right; exact Y]. left. exists t, y, a, ln, w. split; [apply in_or_app; auto|exact Y2].
      * destruct (I1 _ _ _ X) as [(t & y & a & ln & w & Y1 & Y2)|Y]; [|right; exact Y]. left. exists t, y, a, ln, w. split; [apply in_or_app; auto|exact Y2].
      * exact (S4 _ _ _ X).
      * exact (I2 _ _ _ X).
Qed.
Lemma told_id s k s' i : session_id s k = (s', i) -> holds i (k_now k) (k_now k) s'.
Proof.
  destruct s as [f|a]; simpl.
  - unfold Session_Model.fixed_session_id. destruct (Session_Model.f_mem f) as [[j p]|] eqn:Ef; intros H; inversion H; subst; simpl; eauto.
  - unfold Session_Model.session_id. set (m := match Session_Model.a_mem a with Some m => m | None => _ end). destruct (_ || _); [|destruct (match Session_Model.m_write m with Some w => (write_interval <? k_now k - w)%Z | None => true end)];
      intros H; inversion H; subst; simpl; eexists; (split; [reflexivity|]); simpl; (split; [reflexivity|lia]).
Qed.
Lemma in_session s0 mc ms now l1 k l2 b1 e1 b2 e2 i : run (buf_new mc ms now s0) l1 = Some (b1, e1) -> snd (session_id (b_session b1) k) = i -> run b1 (SessionId k :: l2) = Some (b2, e2) ->
  (forall k', ~ In (NewSession k') l2) -> (forall a, s0 = Activity a -> Sorted.StronglySorted Z.le (k_now k :: clocks l2) /\ Forall (fun n => n <= k_now k + threshold)%Z (clocks l2)) ->
  (forall j ln w lg h, In (Called j (CLog ln w) Accepted) (e1 ++ e2) -> ln_override ln = None -> In (Wrote j lg h) e2 -> l_session lg = i) /\
  (forall j lg h, In (WroteInternal j lg h) e2 -> l_session lg = i).
Proof.
  intros R1 Hi R2 Hn T. pose proof R2 as R2'. simpl in R2. destruct (session_id (b_session b1) k) as [s' j] eqn:Es. simpl in Hi. subst j. simpl in R2.
  destruct (run (with_session b1 s') l2) as [[b3 e3]|] eqn:R3; [|discriminate]. inversion R2; subst b3 e3. clear R2.
  assert (Fx : is_fixed (b_session b1) = is_fixed s0).
  { clear - R1. revert R1. apply (run_ind (fun b e => is_fixed (b_session b) = is_fixed s0)); [reflexivity|]. intros b e x b' es I H. rewrite <- I. apply step_out in H.
    destruct H as [c Hp|c a Ha Hp|q|k|k|c vs p e2 Hp Hr Hrep|c vs Hp|m q l w t ic l' shot b2 e2 Hp Hq Hm Hi Ho|m q f t Hp Hq Hm|m q f t Hp Hq Hm|m q w t Hp Hq Hm|k w Hp|k w p Hp Hs|k w p Hp Hs|r p p' es Hp Hs|r p Hp Hs|Hp]; simpl; auto; try (destruct (b_session b); reflexivity).
    - destruct (session_id (b_session b) k) as [s' j] eqn:Es. exact (session_fixed _ _ _ _ Es).
    - destruct Ho as [bi ie d b4 Hin' Hs Hst Hpr Hse|bi ie Hin' Hnn|bi ie ts pv md lg' internal s b4 h' Hin' Ht Hpv Hmd Hw Hl]; destruct (inner_shape _ _ _ _ _ Hin') as (q' & Q); pose proof (is_session _ _ _ _ _ Q) as Qs; simpl in Qs.
      + simpl. rewrite Qs in Hse. destruct Hse as [->|(j & Es)]; [reflexivity|exact (session_fixed _ _ _ _ Es)].
      + rewrite Qs. reflexivity.
      + destruct (write_same _ _ _ _ _ _ Hl) as [_ ->]. simpl. rewrite Qs in Hw. inversion Hw; subst; auto; eapply session_fixed; eassumption. }
  destruct (holds_run i (k_now k) l2 (k_now k) (with_session b1 s') b2 e2 Hn (told_id _ _ _ _ Es)) as [H1 H2]; auto.
  - simpl. rewrite (session_fixed _ _ _ _ Es), Fx. intros Hf. destruct s0; [discriminate|]. eapply T. reflexivity.
  - split; [|exact H2]. intros j ln w lg h Hc Ho Hw. destruct (H1 _ _ _ Hw) as [(t & x & at_ & ln' & w' & Y1 & Y2)|Y]; [|exact Y]. exfalso.
    assert (Rr : run (buf_new mc ms now s0) (l1 ++ SessionId k :: l2) = Some (b2, e1 ++ e2)) by (rewrite run_app, R1, R2'; reflexivity).
    pose proof (finv_run _ _ _ _ _ _ _ Rr) as F. destruct (fi_rest _ _ _ F) as (rest & Fr & _).
    assert (Hc' : In (j, CLog ln' w') (accepted (e1 ++ e2))). { rewrite Fr. apply in_or_app. left. rewrite taken_app. apply in_or_app. right. clear - Y1. induction e2 as [|y e2 IH]; [destruct Y1|]. destruct Y1 as [->|Y1]; [left; reflexivity|]. destruct y; simpl; auto. }
    pose proof (call_unique _ _ _ _ _ _ _ _ _ _ Rr Hc (in_accepted _ _ _ Hc')). congruence.
Qed.
End Buffer.
