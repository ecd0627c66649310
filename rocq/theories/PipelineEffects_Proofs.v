(** Proofs about the effects of a log in the processing pipeline. *)
From Verif Require Import Base Str_Base Log_Model LogMatcher_Model BufferMatcher_Model Matcher_Spec Matcher_Proofs Workflow_Model Workflow_Spec WorkflowEngine_Model WorkflowEngine_Spec WorkflowEngine_Proofs WorkflowRestore_Proofs WorkflowEqual_Proofs WorkflowActions_Proofs WorkflowNegotiation_Proofs Pipeline_Model Pipeline_Spec Pipeline_Proofs.
From Verif Require Filter_Model.
From Coq Require Import Sorted.
Local Open Scope string_scope. Local Open Scope list_scope.

Lemma write_loop_spec known r w : forall dests wr ok, write_loop known dests r w = (wr, ok) -> exists k,
  wr = map (fun d => EWrite d r (w d)) (firstn k dests) /\ incl (firstn k dests) known /\ (ok = true -> firstn k dests = dests) /\
  ((forall d, In d dests -> In d known) -> (forall d, w d <> WHard) -> ok = true).
Proof.
  induction dests as [|d dests IH]; intros wr ok H; cbn [write_loop] in H; [inv H; exists 0%nat; cbn; splits; auto; intros x []|].
  destruct (mem d known) eqn:EM.
  - apply mem_in in EM. destruct (w d) eqn:EW; try (destruct (write_loop known dests r w) as [wr' ok']; destruct (IH _ _ eq_refl) as (k & -> & I & O & G); injection H as <- <-; exists (S k); cbn [firstn map]; splits;
      [rewrite EW; auto|intros x [<-|Hx]; auto|intros; f_equal; auto|intros A B; apply G; auto; intros; apply A; now right]; fail).
    injection H as <- <-. exists 1%nat. cbn [firstn map]. rewrite EW. splits; auto; [intros x [<-|[] ]; auto|discriminate|]. intros _ B. destruct (B d EW).
  - inv H. exists 0%nat. cbn [firstn map]. splits; auto; [intros x []|discriminate|]. intros A _. specialize (A d (or_introl eq_refl)). apply mem_in in A. congruence.
Qed.

Section Effects.
Variables (re_match : string -> string -> bool) (re_replace : string -> string -> string -> string) (to_i32 : string -> option Z)
  (sha : string -> string) (f64 : string -> option Z).
Notation eprocess := (WorkflowEngine_Model.process_log re_match to_i32 sha f64).
Notation pprocess := (Pipeline_Model.process_log re_match re_replace to_i32 sha f64).
Notation pipe_step := (Pipeline_Model.pstep re_match re_replace to_i32 sha f64).
Notation pipe_run := (Pipeline_Model.prun re_match re_replace to_i32 sha f64).
Notation pipe_filtered := (Pipeline_Model.filtered re_match re_replace to_i32).
Notation matching := (Pipeline_Model.matching_of re_match).
Notation verdict := (Pipeline_Spec.verdict re_match to_i32 sha f64).

Definition harmless (e : effect) : Prop := match e with EStream _ _ | EScreenshot => True | _ => False end.
(** The decisions about a log: the destinations, the actions, and the synthetic record. *)
Definition decides (p : pipe) (l : log) (v : env) (ok : bool) (dests acts : list string) (syn : list effect) (ex : option string) : Prop :=
  match p_engine p with
  | On _ => exists r, verdict p l r /\ dests = o_dests r /\ acts = o_action_ids r /\
      (syn, ex) = if ok then process_flush_buffers_actions acts (p_producers p) (o_flushed r) dests l (v_synthetic v) else ([], None)
  | Off _ => dests = matching p l /\ acts = [] /\ syn = [] /\ ex = None
  end.
Lemma log_effects p l0 b v p' es : pprocess p l0 b v = Some (p', es) -> let l := pipe_filtered p l0 in exists dests acts pre wr ok syn ex,
  decides p l v ok dests acts syn ex /\ write_loop (pr_ids (p_producers p)) dests (make_log l acts []) (v_write v) = (wr, ok) /\ Forall harmless pre /\
  (exists sc, pre = maybe_stream_log re_match to_i32 (p_tails p) l (v_stream v) ++ sc /\ (sc = [] \/ sc = [EScreenshot])) /\
  es = pre ++ wr ++ syn ++ (if b then (if ok then finish_blocking (p_stats p) (match ex with Some id => set_insert id (matching p l) | None => matching p l end) v else []) ++ [EReturn] else []).
Proof.
  unfold Pipeline_Model.process_log. cbv zeta. intros H. set (l := pipe_filtered p l0) in *.
  assert (HS : Forall harmless (maybe_stream_log re_match to_i32 (p_tails p) l (v_stream v))) by (unfold maybe_stream_log; destruct (stream_ids _ _ _ _); repeat constructor).
  unfold decides, Pipeline_Spec.verdict. destruct (p_engine p) as [y|f].
  - destruct (eprocess _ _ _ _) as [ [e r]|] eqn:EP; [|discriminate].
    assert (HC : Forall harmless (if o_screenshot r then [EScreenshot] else [])) by (destruct (o_screenshot r); repeat constructor).
    destruct (write_loop _ _ _ _) as [w ok] eqn:EW. destruct ok.
    + destruct (process_flush_buffers_actions _ _ _ _ _ _) as [syn ex] eqn:EF. injection H as _ <-. exists (o_dests r), (o_action_ids r), (maybe_stream_log re_match to_i32 (p_tails p) l (v_stream v) ++ (if o_screenshot r then [EScreenshot] else [])), w, true, syn, ex.
      splits; auto; [exists r; splits; eauto|apply Forall_app; auto|eexists; split; [reflexivity|]; destruct (o_screenshot r); auto|rewrite <- !app_assoc; do 4 f_equal; destruct b; auto].
    + injection H as _ <-. exists (o_dests r), (o_action_ids r), (maybe_stream_log re_match to_i32 (p_tails p) l (v_stream v) ++ (if o_screenshot r then [EScreenshot] else [])), w, false, [], None.
      splits; auto; [exists r; splits; eauto|apply Forall_app; auto|eexists; split; [reflexivity|]; destruct (o_screenshot r); auto|rewrite <- !app_assoc; do 2 f_equal; destruct b; auto; rewrite app_nil_r; auto].
  - destruct (write_loop _ _ _ _) as [w ok] eqn:EW. exists (matching p l), [], (maybe_stream_log re_match to_i32 (p_tails p) l (v_stream v)), w, ok, [], None.
    splits; auto; [exists []; rewrite app_nil_r; auto|]. destruct ok; inv H; cbn [app]; do 2 f_equal; destruct b; auto. rewrite app_nil_r. auto.
Qed.

(** * The writes of a log *)
Lemma records_app a b : records (a ++ b) = records a ++ records b. Proof. unfold records. apply flat_map_app. Qed.
Lemma records_harmless l : Forall harmless l -> records l = [].
Proof. induction 1 as [|e l H _ IH]; auto. destruct e; try contradiction; exact IH. Qed.
Lemma records_map (f : string -> wres) r l : records (map (fun d => EWrite d r (f d)) l) = map (fun d => (d, r)) l.
Proof. induction l as [|x l IH]; cbn; auto. f_equal. exact IH. Qed.
Lemma records_finish s m v : records (finish_blocking s m v) = [].
Proof. unfold finish_blocking. destruct m; [destruct s; auto|]. destruct (v_flush v), s; auto. Qed.
Lemma records_tail (b ok : bool) s m v : records (if b then (if ok then finish_blocking s m v else []) ++ [EReturn] else []) = [].
Proof. destruct b; auto. rewrite records_app. destruct ok; [rewrite records_finish|]; auto. Qed.

Lemma matching_sorted p l : sorted (matching p l). Proof. unfold matching_of, buffers; apply (buffers_loop_sorted (fun _ => true)); constructor. Qed.
Lemma sorted_NoDup l : sorted l -> NoDup l.
Proof. unfold sorted. intros S. induction S as [|x l S IH F]; constructor; auto. intros H. rewrite Forall_forall in F. specialize (F _ H). rewrite str_cmp_refl in F. discriminate. Qed.
Lemma union_sorted b : forall a, sorted a -> sorted (union a b).
Proof. unfold union. induction b as [|x b IH]; intros a S; cbn [fold_left]; auto. apply IH. apply (set_insert_sorted (fun _ => true) re_match (fun _ => None)). auto. Qed.
Lemma route_sorted dests : forall l final rest b acts final' rest' b', route_loop dests l final rest b = (acts, final', rest', b') -> sorted final -> sorted final'.
Proof.
  induction l as [|a l IH]; intros final rest b acts final' rest' b' H S; cbn [route_loop] in H; [inv H; auto|]. destruct (inter _ _).
  - destruct (route_loop _ _ _ _ _) as [ [ [r f] rs] bb] eqn:E. inv H. eapply IH; eauto.
  - destruct (route_loop _ _ _ _ _) as [ [ [r f] rs] bb] eqn:E. inv H. eapply IH; eauto. apply union_sorted. auto.
Qed.
Lemma dests_sorted e l dests done e' r : eprocess e l dests done = Some (e', r) -> sorted dests -> sorted (o_dests r).
Proof.
  intros H S. unfold WorkflowEngine_Model.process_log in H. cbv zeta in H. destruct (e_workflows _); [inv H; auto|]. destruct (all_process _ _ _ _ _ _ _) as [ [ [ [ws cur] dirty] acts]|]; [|discriminate].
  unfold process_streaming in H. destruct (route_loop _ _ _ _ _) as [ [ [strm final] rest] rr] eqn:ER. destruct (process_flush_actions _ _ _ _ _ _) as [ [created ids] bufs]. injection H as _ <-. cbn [o_dests].
  apply union_sorted. eapply route_sorted; eauto. constructor.
Qed.

Lemma pending_triggers a session t c q : pending_new a session t c = Some q -> forall b, In b (pa_triggers q) <-> In b t /\ (af_buffers a = [] \/ In b (af_buffers a)).
Proof.
  unfold pending_new. cbv zeta. intros H b. remember (match af_buffers a with [] => t | _ => _ end) as m eqn:EM. destruct m as [|x m]; [discriminate|]. injection H as <-. cbn [pa_triggers]. rewrite EM.
  destruct (af_buffers a) as [|y bs]; [tauto|]. rewrite filter_In, mem_in. intuition congruence.
Qed.
Lemma pending_none a session t c : pending_new a session t c = None -> forall b, ~ (In b t /\ (af_buffers a = [] \/ In b (af_buffers a))).
Proof.
  unfold pending_new. cbv zeta. intros H b [B1 B2]. remember (match af_buffers a with [] => t | _ => _ end) as m eqn:EM. destruct m as [|x m]; [|discriminate].
  destruct (af_buffers a) as [|y bs]; [subst t; destruct B1|]. destruct B2 as [B2|B2]; [discriminate|]. assert (X : In b (filter (fun x => mem x t) (y :: bs))) by (apply filter_In; rewrite mem_in; auto). rewrite <- EM in X. destruct X.
Qed.
Lemma flush_loop_decides session t c pend strm : forall acts cr ids bufs cr' ids' bufs', flush_loop session t c pend strm acts cr ids bufs = (cr', ids', bufs') ->
  (forall i, In i ids' <-> In i ids \/ exists a, In a acts /\ af_id a = i) /\
  (forall b, In b bufs' <-> In b bufs \/ exists a, In a acts /\ In b t /\ (af_buffers a = [] \/ In b (af_buffers a))).
Proof.
  induction acts as [|a acts IH]; intros cr ids bufs cr' ids' bufs' H; cbn [flush_loop] in H.
  - inv H. split; intros; split; auto; intros [X|(a & [] & _)]; auto.
  - cbv zeta in H. destruct (pending_new a session t c) as [q|] eqn:E.
    + assert (X : exists cr1, flush_loop session t c pend strm acts cr1 (set_insert (af_id a) ids) (union bufs (pa_triggers q)) = (cr', ids', bufs')) by (destruct (_ || _); eauto). destruct X as (cr1 & X).
      apply IH in X as [X1 X2]. split.
      * intros i. rewrite X1, (set_insert_in (fun _ => true) re_match (fun _ => None)). split; [intros [ [->|A]|(a' & A1 & A2)]|intros [A|(a' & [<-|A1] & A2)]]; eauto using in_eq, in_cons.
      * intros b. rewrite X2, union_in. rewrite (pending_triggers _ _ _ _ _ E). split.
        -- intros [ [A|A]|(a' & A1 & A2)]; auto; right; [exists a; split; [now left|auto]|exists a'; split; [now right|auto]].
        -- intros [A|(a' & [<-|A1] & A2)]; auto. right. eauto.
    + apply IH in H as [X1 X2]. pose proof (pending_none _ _ _ _ E) as PN. split.
      * intros i. rewrite X1, (set_insert_in (fun _ => true) re_match (fun _ => None)). split; [intros [ [->|A]|(a' & A1 & A2)]|intros [A|(a' & [<-|A1] & A2)]]; eauto using in_eq, in_cons.
      * intros b. rewrite X2. split; [intros [A|(a' & A1 & A2)]; auto; right; exists a'; split; [now right|auto]|]. intros [A|(a' & [<-|A1] & A2)]; auto; [destruct (PN b A2)|]. right. eauto.
Qed.
(** The flush actions that a log triggers decide its action ids and the buffers to flush. *)
Lemma verdict_flushes p l r : pinv p -> verdict p l r -> exists acts, (forall i, In i (o_action_ids r) <-> exists a, In a acts /\ af_id a = i) /\ (forall b, In b (o_flushed r) <-> exists a, In a acts /\ asks_for p a b).
Proof.
  intros [_ S] (y & e & EY & H). unfold same_buffers in S. rewrite EY in S. destruct S as (_ & ST & _). rewrite process_log_finish in H. cbv zeta in H.
  destruct (enter_fixed (y_engine y) l) as (E1 & E2 & E3 & E4 & E5 & E6 & E7 & E8 & E9 & E10). cbv zeta in *. set (e1 := enter_session (y_engine y) l) in *. clearbody e1.
  destruct (e_workflows e1) eqn:EW. { injection H as _ <-. exists []. cbn. split; intros; split; try tauto; intros (a & [] & _). }
  destruct (all_process _ _ _ _ _ _ _) as [ [ [ [ws cur] dirty] acts]|]; [|discriminate]. injection H as H. unfold finish in H. cbv zeta in H.
  destruct (process_streaming _ _ _ _ _) as [ [dests' strm] changed]. destruct (process_flush_actions _ _ _ _ _ _) as [ [created ids] bufs] eqn:EF. injection H as _ <-. unfold process_flush_actions in EF. cbn [set_workflows e_triggers] in EF.
  apply flush_loop_decides in EF as [F1 F2]. exists (flushes_of acts). cbn [o_action_ids o_flushed]. split; [intros i; rewrite F1; cbn; split; [intros [ []|X]|]; auto|].
  intros b. rewrite F2. unfold asks_for. rewrite <- ST, <- E5. cbn. split; [intros [ []|X]|]; auto.
Qed.
(** Flushed buffers are trigger buffers. *)
Lemma flushed_triggers p l r b : pinv p -> verdict p l r -> In b (o_flushed r) -> In b (pr_triggers (p_producers p)).
Proof. intros I V H. destruct (verdict_flushes _ _ _ I V) as (acts & _ & F). destruct (proj1 (F b) H) as (a & _ & HT & _). exact HT. Qed.
Lemma decides_dests p l v ok dests acts syn ex : decides p l v ok dests acts syn ex -> sorted dests.
Proof.
  unfold decides. destruct (p_engine p) as [y|f] eqn:EE; [|intros (-> & _); apply matching_sorted]. intros (r & (y' & e & E1 & V) & -> & _). eapply dests_sorted; eauto. apply matching_sorted.
Qed.
(** The synthetic record: written to a flushed buffer, if none of the destinations is a buffer. *)
Lemma decides_syn p l v ok dests acts syn ex : pinv p -> decides p l v ok dests acts syn ex ->
  (syn = [] /\ ex = None) \/ exists r id bs, p_engine p <> Off None /\ verdict p l r /\ o_flushed r = id :: bs /\ syn = [EWrite id (make_synthetic l acts) (v_synthetic v)] /\ ex = Some id /\ In id (pr_triggers (p_producers p)) /\ In id (pr_ids (p_producers p)) /\
    (forall d, In d dests -> ~ In d (pr_triggers (p_producers p)) /\ ~ In d (pr_conts (p_producers p))).
Proof.
  intros I. unfold decides. destruct (p_engine p) as [y|f] eqn:EE; [|intros (_ & _ & -> & ->); auto]. intros (r & V & -> & -> & H). destruct ok; [|inv H; auto]. unfold process_flush_buffers_actions in H. destruct (o_action_ids r) as [|a0 acts0]; [inv H; auto|].
  destruct (o_flushed r) as [|id bs] eqn:EF; [inv H; auto|]. destruct (_ || _) eqn:EO; [inv H; auto|]. apply orb_false_iff in EO as [O1 O2]. right. exists r, id, bs.
  assert (IT : In id (pr_triggers (p_producers p))) by (eapply flushed_triggers; eauto; rewrite EF; now left). assert (II : In id (pr_ids (p_producers p))) by (destruct I as [ [_ C] _]; apply C; auto).
  rewrite (proj2 (mem_in id _) II) in H. injection H as -> ->. splits; auto; [discriminate|]. intros d Hd. rewrite <- !mem_in. split; intros M.
  - assert (existsb (fun x => mem x (pr_triggers (p_producers p))) (o_dests r) = true) by (apply existsb_exists; eauto). congruence.
  - assert (existsb (fun x => mem x (pr_conts (p_producers p))) (o_dests r) = true) by (apply existsb_exists; eauto). congruence.
Qed.
Lemma make_carries l acts : carries l acts (make_log l acts []). Proof. unfold carries. cbn. splits; auto. Qed.
Lemma synthetic_copies l acts : copies l acts (make_synthetic l acts). Proof. unfold copies. cbn. splits; auto. Qed.

Lemma at_most_once p l0 b v p' es : pinv p -> pprocess p l0 b v = Some (p', es) -> let l := pipe_filtered p l0 in
  NoDup (map fst (records es)) /\ exists acts, forall id r, In (id, r) (records es) -> In id (pr_ids (p_producers p)) /\ (carries l acts r \/ (copies l acts r /\ In id (pr_triggers (p_producers p)))).
Proof.
  intros I H. cbv zeta. destruct (log_effects _ _ _ _ _ _ H) as (dests & acts & pre & wr & ok & syn & ex & D & W & P & _ & ->). set (l := pipe_filtered p l0) in *.
  destruct (write_loop_spec _ _ _ _ _ _ W) as (k & -> & K & _). pose proof (decides_dests _ _ _ _ _ _ _ _ D) as S. rewrite !records_app, records_harmless, records_map, records_tail, app_nil_r by auto. cbn [app].
  assert (N : NoDup (firstn k dests)). { apply sorted_NoDup in S. rewrite <- (firstn_skipn k dests) in S. apply NoDup_app_iff in S. tauto. }
  assert (M : map fst (map (fun d => (d, make_log l acts [])) (firstn k dests)) = firstn k dests) by (rewrite map_map; cbn [fst]; apply map_id).
  destruct (decides_syn _ _ _ _ _ _ _ _ I D) as [ [-> ->]|(r & id & bs & _ & V & EF & -> & -> & IT & II & ND)].
  - cbn [records flat_map]. rewrite app_nil_r, M. split; auto. exists acts. intros id r Hr. apply in_map_iff in Hr as (d & E & Hd). inv E. split; auto. left. apply make_carries.
  - cbn [records flat_map app]. rewrite map_app, M. cbn [map fst]. split.
    + apply NoDup_app_iff. splits; auto; [constructor; [intros []|constructor]|]. intros x Hx [<-|[] ]. apply (proj1 (ND id ltac:(rewrite <- (firstn_skipn k dests); apply in_or_app; auto))). auto.
    + exists acts. intros id' r' Hr. apply in_app_or in Hr as [Hr|[E|[] ] ]; [apply in_map_iff in Hr as (d & E & Hd)|]; inv E; split; auto; [left; apply make_carries|right; split; auto; apply synthetic_copies].
Qed.

Lemma matching_wants re_ok cfg p l : selector_new re_ok cfg = Some (p_selector p) -> forall d, In d (matching p l) <-> wants re_match cfg l d.
Proof. intros S d. unfold wants, matching_of. eapply (selection re_ok re_match); eauto. Qed.
Lemma loop_ids sel lt lv m fs : forall acc d, In d (buffers_loop re_match sel lt lv m fs acc) -> In d acc \/ exists b, In b sel /\ bf_id b = d.
Proof.
  induction sel as [|b sel IH]; intros acc d H; cbn [buffers_loop] in H; auto. apply IH in H as [H|(b' & B1 & B2)]; [|right; exists b'; split; [now right|auto] ]. destruct (any_matches _ _ _ _ _ _); auto.
  apply (set_insert_in (fun _ => true) re_match (fun _ => None)) in H as [->|H]; auto. right. exists b. split; [now left|auto].
Qed.
Lemma matching_ids p l d : pinv p -> In d (matching p l) -> In d (pr_ids (p_producers p)).
Proof. intros [ [C _] _] H. apply loop_ids in H as [ []|(b & B & <-)]. apply C. auto. Qed.
(** The engine's destinations are those of the specification. *)
Lemma ends_now_spec e s dn a : ends_now e s dn a = true <-> flush_complete e dn (sa_id a) = true /\ over s a.
Proof.
  unfold ends_now, over. rewrite andb_true_iff, orb_true_iff, negb_true_iff, String.eqb_neq. split; intros [A [B|B]]; split; auto; right; destruct (sa_max a) as [n|]; try discriminate; try (destruct B as (m & [=] & B)).
  - exists n. split; auto. apply N.leb_le. auto.
  - subst. apply N.leb_le. auto.
Qed.
Lemma dests_goes re_ok cfg p l v ok dests acts syn ex : pinv p -> selector_new re_ok cfg = Some (p_selector p) -> decides p l v ok dests acts syn ex -> forall d, In d dests <-> goes re_match cfg p l d.
Proof.
  intros I SN D d. unfold goes, in_force. rewrite <- (matching_wants _ _ _ _ SN). unfold decides in D. destruct (p_engine p) as [y|f] eqn:EE.
  - destruct D as (r & (y' & e & EY & V) & -> & _). rewrite EE in EY. injection EY as <-. destruct (e_workflows (y_engine y)) as [|w0 ws0] eqn:EW.
    + assert (X : o_dests r = matching p l). { rewrite process_log_finish in V. cbv zeta in V. destruct (enter_fixed (y_engine y) l) as (_ & _ & _ & _ & _ & _ & _ & _ & E9 & _). cbv zeta in *. rewrite (proj2 E9 EW) in V. inv V. auto. }
      rewrite X. split; [intros H; left; split; auto; intros (a & (A & _) & _); apply A; auto|]. intros [ [H _]|(a & d' & (A & _) & _)]; auto. destruct (A eq_refl).
    + assert (NW : e_workflows (y_engine y) <> []) by congruence. pose proof (process_log_streaming re_match to_i32 sha f64 _ _ _ _ _ _ V NW) as (_ & _ & _ & _ & _ & P6). cbv zeta in P6. rewrite P6. rewrite <- EW.
      assert (KE : forall a, In a (filter (fun a => negb (ends_now (y_engine y) (l_session l) (is_done (y_done y)) a)) (e_streaming (y_engine y))) <-> In a (e_streaming (y_engine y)) /\ (over (l_session l) a -> flush_complete (y_engine y) (is_done (y_done y)) (sa_id a) = false)).
      { intros a. rewrite filter_In, negb_true_iff. split; intros [A B]; split; auto.
        - intros O. destruct (flush_complete _ _ _) eqn:EC; auto. assert (ends_now (y_engine y) (l_session l) (is_done (y_done y)) a = true) by (apply ends_now_spec; auto). congruence.
        - destruct (ends_now _ _ _ _) eqn:EN; auto. apply ends_now_spec in EN as [E1 E2]. rewrite (B E2) in E1. discriminate. }
      split.
      * intros [(a & A1 & (d' & R1 & R2) & A3)|(A1 & A2 & A3)].
        -- right. exists a, d'. apply KE in A1. rewrite <- (matching_wants _ _ _ _ SN). splits; auto; tauto.
        -- left. split; auto. intros (a & (B1 & B2 & B3) & B4). apply A3. exists a. split; auto. apply KE. auto.
      * intros [(A1 & A2)|(a & d' & (B1 & B2 & B3) & B4 & B5 & B6)].
        -- right. splits; auto. { apply matching_ids in A1; auto. destruct I as [ [_ C] S]. unfold same_buffers in S. rewrite EE in S. destruct S as (S1 & S2 & _). unfold known. rewrite S1, S2. apply C. auto. }
           intros (a & B1 & B2). apply A2. exists a. apply KE in B1. tauto.
        -- left. exists a. rewrite <- (matching_wants _ _ _ _ SN) in B4. splits; auto; [apply KE; auto|]. exists d'. auto.
  - destruct D as (-> & _). split; [intros H; left; split; auto; intros (a & [] & _)|]. intros [ [H _]|(a & d' & [] & _)]; auto.
Qed.
Lemma goes_known cfg re_ok p l d : pinv p -> pfit p -> selector_new re_ok cfg = Some (p_selector p) -> goes re_match cfg p l d -> In d (pr_ids (p_producers p)).
Proof.
  intros I F SN [ [W _]|(a & d' & A1 & A2 & A3 & A4)].
  - rewrite <- (matching_wants _ _ _ _ SN) in W. eapply matching_ids; eauto.
  - unfold in_force in A1. unfold pfit, peng in F. destruct (p_engine p) as [y|f]; [|destruct A1]. destruct F as ([F _] & _). destruct A1 as (_ & A1 & _). destruct I as [ [_ C] _]. apply C. right. eapply F; eauto.
Qed.
Lemma wants_goes cfg re_ok p l d : pinv p -> selector_new re_ok cfg = Some (p_selector p) -> wants re_match cfg l d -> exists d', goes re_match cfg p l d'.
Proof.
  intros I SN W. destruct (p_engine p) as [y|f] eqn:EE; [|exists d; left; split; auto; intros (a & A & _); unfold in_force in A; rewrite EE in A; auto].
  assert (R : routable (y_engine y)) by (destruct I as [_ S]; unfold same_buffers in S; rewrite EE in S; tauto).
  destruct (existsb (fun a => match e_workflows (y_engine y) with [] => false | _ => true end && negb (ends_now (y_engine y) (l_session l) (is_done (y_done y)) a) && mem d (sa_sources a)) (e_streaming (y_engine y))) eqn:EX.
  - apply existsb_exists in EX as (a & A1 & A2). apply andb_true_iff in A2 as [A2 A3]. apply andb_true_iff in A2 as [A2 A4]. apply mem_in in A3. destruct (R a A1) as (d' & D1 & D2). exists d'. right. exists a, d. splits; auto.
    unfold in_force. rewrite EE. splits; auto; [intros X; rewrite X in A2; discriminate|]. intros O. apply negb_true_iff in A4. destruct (flush_complete _ _ _) eqn:EC; auto. assert (ends_now (y_engine y) (l_session l) (is_done (y_done y)) a = true) by (apply ends_now_spec; auto). congruence.
  - exists d. left. split; auto. intros (a & A1 & A2). unfold in_force in A1. rewrite EE in A1. destruct A1 as (B1 & B2 & B3). assert (X : existsb (fun a => match e_workflows (y_engine y) with [] => false | _ => true end && negb (ends_now (y_engine y) (l_session l) (is_done (y_done y)) a) && mem d (sa_sources a)) (e_streaming (y_engine y)) = true).
    { apply existsb_exists. exists a. split; auto. destruct (e_workflows (y_engine y)); [destruct (B1 eq_refl)|]. apply andb_true_iff. split; [|apply mem_in; auto]. cbn [andb]. apply negb_true_iff. destruct (ends_now _ _ _ _) eqn:EN; auto. apply ends_now_spec in EN as [E1 E2]. rewrite (B3 E2) in E1. discriminate. }
    congruence.
Qed.

Lemma delivered re_ok cfg p l0 b v p' es : pinv p -> pfit p -> buffers_work v -> selector_new re_ok cfg = Some (p_selector p) -> pprocess p l0 b v = Some (p', es) -> let l := pipe_filtered p l0 in
  exists acts,
  (forall id, goes re_match cfg p l id -> exists r, In (id, r) (records es) /\ carries l acts r) /\
  (forall id r, In (id, r) (records es) -> (goes re_match cfg p l id /\ carries l acts r) \/ (copies l acts r /\ In id (pr_triggers (p_producers p)) /\ forall d, ~ goes re_match cfg p l d)) /\
  ((exists d, wants re_match cfg l d) -> exists id r, In (id, r) (records es) /\ carries l acts r).
Proof.
  intros I F BW SN H. cbv zeta. destruct (log_effects _ _ _ _ _ _ H) as (dests & acts & pre & wr & ok & syn & ex & D & W & P & _ & ->). set (l := pipe_filtered p l0) in *.
  pose proof (dests_goes _ _ _ _ _ _ _ _ _ _ I SN D) as G. destruct (write_loop_spec _ _ _ _ _ _ W) as (k & -> & K & K2 & K3).
  assert (OK : ok = true) by (apply K3; auto; intros d Hd; apply G in Hd; eapply goes_known; eauto). rewrite (K2 OK). rewrite !records_app, records_harmless, records_map, records_tail, app_nil_r by auto. cbn [app]. exists acts.
  assert (X : forall id, goes re_match cfg p l id -> exists r, In (id, r) (map (fun d => (d, make_log l acts [])) dests ++ records syn) /\ carries l acts r).
  { intros id Hid. exists (make_log l acts []). split; [|apply make_carries]. apply in_or_app. left. apply in_map_iff. exists id. split; auto. apply G. auto. }
  splits; auto.
  - intros id r Hr. apply in_app_or in Hr as [Hr|Hr].
    + apply in_map_iff in Hr as (d & E & Hd). inv E. left. split; [apply G; auto|apply make_carries].
    + destruct (decides_syn _ _ _ _ _ _ _ _ I D) as [ [-> ->]|(r' & id' & bs & _ & V & EF & -> & -> & IT & II & ND)]; [destruct Hr|]. cbn [records flat_map app In] in Hr. destruct Hr as [E|[] ]. inv E. right. splits; auto; [apply synthetic_copies|].
      intros d Hd. assert (Hd' := Hd). apply G in Hd'. apply ND in Hd'. eapply goes_known in Hd; eauto. destruct I as [ [_ C] _]. apply C in Hd. tauto.
  - intros (d & Hd). destruct (wants_goes _ _ _ _ _ I SN Hd) as (d' & Hd'). apply X in Hd' as (r & R). eauto.
Qed.
(** * Blocking logs *)
Lemma no_return_map (f : string -> wres) r l : ~ In EReturn (map (fun d => EWrite d r (f d)) l).
Proof. intros H. apply in_map_iff in H as (d & E & _). discriminate. Qed.
Lemma no_return_finish s m v : ~ In EReturn (finish_blocking s m v).
Proof. unfold finish_blocking. intros H. destruct m, s; cbn [In] in H; try (destruct (v_flush v); cbn [In] in H); decompose [or] H; try discriminate; auto. Qed.
Lemma front_no_return p l0 b v p' es : pinv p -> pprocess p l0 b v = Some (p', es) ->
  (b = false -> ~ In EReturn es) /\ (b = true -> exists es1, es = es1 ++ [EReturn] /\ ~ In EReturn es1).
Proof.
  intros I H. destruct (log_effects _ _ _ _ _ _ H) as (dests & acts & pre & wr & ok & syn & ex & D & W & P & _ & ->). destruct (write_loop_spec _ _ _ _ _ _ W) as (k & -> & _).
  assert (NP : ~ In EReturn pre) by (intros X; rewrite Forall_forall in P; exact (P _ X)).
  assert (NS : ~ In EReturn syn) by (destruct (decides_syn _ _ _ _ _ _ _ _ I D) as [ [-> _]|(r & id & bs & _ & _ & _ & -> & _)]; [auto|intros [X|[] ]; discriminate]).
  pose proof (no_return_map (v_write v) (make_log (pipe_filtered p l0) acts []) (firstn k dests)) as NM. split; intros ->.
  - rewrite !in_app_iff. cbn [In]. tauto.
  - rewrite !app_assoc. eexists. split; [reflexivity|]. rewrite !in_app_iff. destruct ok; [|cbn [In]; tauto]. pose proof (no_return_finish (p_stats p) (match ex with Some id => set_insert id (matching p (pipe_filtered p l0)) | None => matching p (pipe_filtered p l0) end) v). tauto.
Qed.
Lemma last_return es a b : ~ In EReturn es -> es ++ [EReturn] = a ++ EReturn :: b -> a = es /\ b = [].
Proof.
  revert a. induction es as [|e es IH]; intros a N E.
  - destruct a as [|x a]; cbn in E; [injection E as <-; auto|]. injection E as _ E. destruct a; discriminate.
  - destruct a as [|x a]; cbn in E; injection E as -> E; [destruct N; now left|]. destruct (IH a) as [-> ->]; auto. intros X. apply N. now right.
Qed.
Lemma settled_writes re_ok cfg p l0 v p' es id r o : pinv p -> pfit p -> buffers_work v -> v_flush v = FlushOk -> selector_new re_ok cfg = Some (p_selector p) -> pprocess p l0 true v = Some (p', es) -> In (EWrite id r o) es ->
  let l := pipe_filtered p l0 in settled es id r o \/ exists a d, in_force p l a /\ wants re_match cfg l d /\ In d (sa_sources a) /\ In id (sa_dests a).
Proof.
  intros I F BW FO SN H HW. cbv zeta. destruct (front_no_return _ _ _ _ _ _ I H) as [_ NR]. destruct (NR eq_refl) as (es1 & E1 & N1). clear NR.
  destruct (log_effects _ _ _ _ _ _ H) as (dests & acts & pre & wr & ok & syn & ex & D & W & P & _ & E). set (l := pipe_filtered p l0) in *.
  pose proof (dests_goes _ _ _ _ _ _ _ _ _ _ I SN D) as G. destruct (write_loop_spec _ _ _ _ _ _ W) as (k & -> & K & K2 & K3).
  assert (OK : ok = true) by (apply K3; auto; intros d Hd; apply G in Hd; eapply goes_known; eauto). subst ok. rewrite (K2 eq_refl) in *. clear K K2 K3 k W.
  assert (ES1 : es1 = (pre ++ map (fun d => EWrite d (make_log l acts []) (v_write v d)) dests ++ syn) ++ finish_blocking (p_stats p) (match ex with Some id => set_insert id (matching p l) | None => matching p l end) v).
  { rewrite E, !app_assoc in E1. apply app_inj_tail in E1 as [E1 _]. rewrite <- E1, !app_assoc. auto. }
  assert (HW1 : In (EWrite id r o) (pre ++ map (fun d => EWrite d (make_log l acts []) (v_write v d)) dests ++ syn)).
  { rewrite E1 in HW. apply in_app_or in HW as [HW|[HW|[] ] ]; [|discriminate]. rewrite ES1 in HW. apply in_app_or in HW as [HW|HW]; auto. exfalso. unfold finish_blocking in HW. rewrite FO in HW.
    destruct (match ex with Some id => _ | None => _ end), (p_stats p); cbn [In] in HW; decompose [or] HW; try discriminate; auto. }
  assert (Q : (exists a d, in_force p l a /\ wants re_match cfg l d /\ In d (sa_sources a) /\ In id (sa_dests a)) \/ In id (match ex with Some id => set_insert id (matching p l) | None => matching p l end)).
  { assert (MX : In id (matching p l) -> In id (match ex with Some id => set_insert id (matching p l) | None => matching p l end)) by (destruct ex; auto; intros X; apply (set_insert_in (fun _ => true) re_match (fun _ => None)); auto).
    apply in_app_or in HW1 as [X|X]; [rewrite Forall_forall in P; destruct (P _ X)|]. apply in_app_or in X as [X|X].
    - apply in_map_iff in X as (d & EQ & X). inv EQ. apply G in X. destruct X as [ [X _]|X]; auto. right. apply MX. apply (matching_wants _ _ _ _ SN). auto.
    - destruct (decides_syn _ _ _ _ _ _ _ _ I D) as [ [-> _]|(r' & id' & bs & _ & _ & _ & -> & -> & _)]; [destruct X|]. destruct X as [X|[] ]. inv X. right. apply (set_insert_in (fun _ => true) re_match (fun _ => None)); auto. }
  destruct Q as [Q|Q]; auto. left. intros bf af EQ. rewrite E1 in EQ. apply last_return in EQ as [-> ->]; auto. rewrite ES1. unfold finish_blocking at 1. rewrite FO. destruct (match ex with Some id => _ | None => _ end) as [|m ms] eqn:EM; [destruct Q|].
  eexists. exists (m :: ms). eexists. split; [reflexivity|]. auto.
Qed.

(** * Logs that trigger a flush *)
Lemma flush_log re_ok cfg p l0 b v p' es r : pinv p -> pfit p -> buffers_work v -> selector_new re_ok cfg = Some (p_selector p) -> pprocess p l0 b v = Some (p', es) -> let l := pipe_filtered p l0 in verdict p l r ->
  o_flushed r <> [] -> (forall d, goes re_match cfg p l d -> In d (pr_triggers (p_producers p)) -> In d (o_flushed r)) ->
  exists id rec, In (id, rec) (records es) /\ (carries l (o_action_ids r) rec \/ copies l (o_action_ids r) rec) /\ (In id (pr_conts (p_producers p)) \/ In id (o_flushed r)).
Proof.
  intros I F BW SN H. cbv zeta. intros V NF AF. destruct (log_effects _ _ _ _ _ _ H) as (dests & acts & pre & wr & ok & syn & ex & D & W & P & _ & ->). set (l := pipe_filtered p l0) in *.
  pose proof (dests_goes _ _ _ _ _ _ _ _ _ _ I SN D) as G. destruct (write_loop_spec _ _ _ _ _ _ W) as (k & -> & K & K2 & K3).
  assert (OK : ok = true) by (apply K3; auto; intros d Hd; apply G in Hd; eapply goes_known; eauto). rewrite (K2 OK) in *. rewrite !records_app, records_harmless, records_map, records_tail, app_nil_r by auto. cbn [app].
  assert (DD := D). unfold decides in D. assert (V' := V). destruct V' as (y & e & EY & V'). rewrite EY in D. destruct D as (r' & V2 & -> & -> & D). subst ok. assert (r' = r) by (destruct V2 as (y2 & e2 & EY2 & V2); congruence). subst r'. clear V2.
  destruct (o_dests r) as [|d ds] eqn:ED.
  - destruct (verdict_flushes _ _ _ I V) as (A & A1 & A2). destruct (o_flushed r) as [|f fs] eqn:EF; [congruence|]. destruct (proj1 (A2 f) (or_introl eq_refl)) as (a & Ha & _). assert (X : In (af_id a) (o_action_ids r)) by (apply A1; eauto).
    unfold process_flush_buffers_actions in D. destruct (o_action_ids r) as [|i is]; [destruct X|]. cbn [existsb orb] in D. assert (IT : In f (pr_ids (p_producers p))) by (assert (T : In f (pr_triggers (p_producers p))) by (eapply flushed_triggers; [eauto|exact V|rewrite EF; now left]); destruct I as [ [_ C] _]; apply C; auto).
    rewrite (proj2 (mem_in f _) IT) in D. injection D as -> ->. exists f. eexists. cbn [records flat_map app map]. split; [left; reflexivity|]. split; [right; apply synthetic_copies|right; now left].
  - exists d, (make_log l (o_action_ids r) []). split; [apply in_or_app; left; cbn; auto|]. split; [left; apply make_carries|]. assert (GD : goes re_match cfg p l d) by (apply G; now left).
    assert (KD : In d (pr_ids (p_producers p))) by (eapply goes_known; eauto). destruct I as [ [_ C] _]. apply C in KD. destruct KD; auto.
Qed.

(** * Tailing *)
Lemma stream_effects p l0 b v p' es : pinv p -> pprocess p l0 b v = Some (p', es) -> flat_map (fun e => match e with EStream r o => [(r, o)] | _ => [] end) es =
  match stream_ids re_match to_i32 (p_tails p) (pipe_filtered p l0) with [] => [] | ids => [(make_log (pipe_filtered p l0) [] ids, v_stream v)] end.
Proof.
  intros I H. destruct (log_effects _ _ _ _ _ _ H) as (dests & acts & pre & wr & ok & syn & ex & D & W & _ & (sc & -> & SC) & ->). set (l := pipe_filtered p l0) in *. destruct (write_loop_spec _ _ _ _ _ _ W) as (k & -> & _).
  set (f := fun e => match e with EStream r o => [(r, o)] | _ => [] end). rewrite !flat_map_app. replace (flat_map f sc) with (@nil (record * wres)) by (destruct SC as [-> | ->]; auto).
  replace (flat_map f (map _ _)) with (@nil (record * wres)) by (generalize (firstn k dests); intros x; induction x as [|z x IH]; cbn; auto).
  replace (flat_map f syn) with (@nil (record * wres)) by (destruct (decides_syn _ _ _ _ _ _ _ _ I D) as [ [-> _]|(r & id & bs & _ & _ & _ & -> & _)]; auto).
  replace (flat_map f (if b then _ else _)) with (@nil (record * wres)).
  - rewrite !app_nil_r. unfold maybe_stream_log. destruct (stream_ids _ _ _ _); auto.
  - destruct b; auto. rewrite flat_map_app. cbn [flat_map f]. rewrite !app_nil_r. destruct ok; auto. unfold finish_blocking. destruct (match ex with Some id => _ | None => _ end), (p_stats p); auto; destruct (v_flush v); auto.
Qed.
Lemma stream_ids_spec re_ok cfgs l s : (forall i m, In (i, Some m) cfgs -> types_by_equality m) ->
  In s (stream_ids re_match to_i32 (tails_new re_ok cfgs) l) <-> exists m, In (s, m) cfgs /\ (forall c, m = Some c -> tree_new re_ok c <> None) /\ tailed re_match to_i32 l m.
Proof.
  intros T. unfold tails_new. destruct cfgs as [|c0 cfgs0] eqn:EC; [cbn; split; [tauto|intros (m & [] & _)]|]. rewrite <- EC in *. clear EC. cbn [stream_ids]. rewrite in_map_iff. split.
  - intros ((i & m) & E & Hm). cbn [fst] in E. subst i. apply filter_In in Hm as [Hm HM]. cbn [snd] in HM. apply in_flat_map in Hm as ((i & mc) & Hc & Hm). cbn [fst snd] in Hm. destruct mc as [c|].
    + destruct (tree_new re_ok c) as [t|] eqn:ET; [|destruct Hm]. destruct Hm as [E|[] ]. inv E. exists (Some c). splits; auto; [intros c1 [= <-]; congruence|]. cbn [tailed]. eapply formula; eauto.
    + destruct Hm as [E|[] ]. inv E. exists None. splits; auto; [discriminate|exact Logic.I].
  - intros (mc & Hc & HP & HT). destruct mc as [c|].
    + destruct (tree_new re_ok c) as [t|] eqn:ET; [|destruct (HP c eq_refl ET)]. exists (s, Some t). split; auto. apply filter_In. split; [apply in_flat_map; exists (s, Some c); split; auto; cbn [fst snd]; rewrite ET; now left|]. cbn [snd]. cbn [tailed] in HT. unfold matches. eapply formula; eauto.
    + exists (s, None). split; auto. apply filter_In. split; auto. apply in_flat_map. exists (s, None). split; auto. now left.
Qed.
End Effects.

(** * Executions *)
Section Runs.
Variables (re_match : string -> string -> bool) (re_replace : string -> string -> string -> string) (to_i32 : string -> option Z)
  (sha : string -> string) (f64 : string -> option Z).
Notation pipe_step := (Pipeline_Model.pstep re_match re_replace to_i32 sha f64).
Notation pipe_run := (Pipeline_Model.prun re_match re_replace to_i32 sha f64).
Notation pipe_filtered := (Pipeline_Model.filtered re_match re_replace to_i32).
Notation verdict := (Pipeline_Spec.verdict re_match to_i32 sha f64).
Variables (u : update_cfg) (on fon stats : bool) (limit : Z) (file : option saved) (ops : list pop) (p : pipe) (ess : list (list effect)).
Hypothesis R : pipe_run (pipe_new u on fon stats limit file) ops = Some (p, ess).
Hypothesis C : coherent u.

Lemma reached_pinv : all_coherent ops -> pinv p. Proof. intros A. eapply run_pinv; [|exact A|exact R]. apply (new_keeps re_match to_i32 sha f64). auto. Qed.
Lemma reached_pfit : file_fits (pr_conts (u_producers u)) file -> growing (pr_conts (u_producers u)) ops -> pinv p /\ pfit p.
Proof.
  intros F G. split; [apply reached_pinv; eapply growing_coherent; eauto|]. destruct (new_keeps re_match to_i32 sha f64 u on fon stats limit file C) as (N1 & N2 & N3). cbv zeta in *. eapply run_pfit; [| | |exact R]; auto; rewrite N2; auto.
Qed.

Lemma run_once l b v p' es : all_coherent ops -> pipe_step p (PLog l b v) = Some (p', es) ->
  NoDup (map fst (records es)) /\ exists acts, forall id r, In (id, r) (records es) -> In id (pr_ids (p_producers p)) /\
    (carries (pipe_filtered p l) acts r \/ (copies (pipe_filtered p l) acts r /\ In id (pr_triggers (p_producers p)))).
Proof. intros A H. eapply at_most_once; eauto. apply reached_pinv. auto. Qed.
Lemma run_delivered re_ok cfg l0 b v p' es : file_fits (pr_conts (u_producers u)) file -> growing (pr_conts (u_producers u)) ops -> buffers_work v -> selector_new re_ok cfg = Some (p_selector p) ->
  pipe_step p (PLog l0 b v) = Some (p', es) -> let l := pipe_filtered p l0 in exists acts,
  (forall id, goes re_match cfg p l id -> exists r, In (id, r) (records es) /\ carries l acts r) /\
  (forall id r, In (id, r) (records es) -> (goes re_match cfg p l id /\ carries l acts r) \/ (copies l acts r /\ In id (pr_triggers (p_producers p)) /\ forall d, ~ goes re_match cfg p l d)) /\
  ((exists d, wants re_match cfg l d) -> exists id r, In (id, r) (records es) /\ carries l acts r).
Proof. intros F G BW SN H. destruct (reached_pfit F G) as [I FT]. eapply delivered; eauto. Qed.
Lemma run_return l b v p' es : all_coherent ops -> pipe_step p (PLog l b v) = Some (p', es) ->
  (b = false -> ~ In EReturn es) /\ (b = true -> exists es1, es = es1 ++ [EReturn] /\ ~ In EReturn es1).
Proof. intros A H. eapply front_no_return; eauto. apply reached_pinv. auto. Qed.
Lemma run_settled re_ok cfg l0 v p' es id r o : file_fits (pr_conts (u_producers u)) file -> growing (pr_conts (u_producers u)) ops -> buffers_work v -> v_flush v = FlushOk -> selector_new re_ok cfg = Some (p_selector p) ->
  pipe_step p (PLog l0 true v) = Some (p', es) -> In (EWrite id r o) es -> let l := pipe_filtered p l0 in
  settled es id r o \/ exists a d, in_force p l a /\ wants re_match cfg l d /\ In d (sa_sources a) /\ In id (sa_dests a).
Proof. intros F G BW FO SN H HW. destruct (reached_pfit F G) as [I FT]. eapply settled_writes; eauto. Qed.
Lemma run_flush_log re_ok cfg l0 b v p' es r : file_fits (pr_conts (u_producers u)) file -> growing (pr_conts (u_producers u)) ops -> buffers_work v -> selector_new re_ok cfg = Some (p_selector p) ->
  pipe_step p (PLog l0 b v) = Some (p', es) -> let l := pipe_filtered p l0 in verdict p l r -> o_flushed r <> [] ->
  (forall d, goes re_match cfg p l d -> In d (pr_triggers (p_producers p)) -> In d (o_flushed r)) ->
  exists id rec, In (id, rec) (records es) /\ (carries l (o_action_ids r) rec \/ copies l (o_action_ids r) rec) /\ (In id (pr_conts (p_producers p)) \/ In id (o_flushed r)).
Proof. intros F G BW SN H. cbv zeta. intros V NF AF. destruct (reached_pfit F G) as [I FT]. eapply flush_log; eauto. Qed.
Lemma run_flushes l r : all_coherent ops -> verdict p l r -> exists acts, (forall i, In i (o_action_ids r) <-> exists a, In a acts /\ af_id a = i) /\ (forall b, In b (o_flushed r) <-> exists a, In a acts /\ asks_for p a b).
Proof. intros A V. eapply verdict_flushes; eauto. apply reached_pinv. auto. Qed.
Lemma run_tail re_ok cfgs l0 b v p' es : all_coherent ops -> p_tails p = tails_new re_ok cfgs -> (forall i m, In (i, Some m) cfgs -> types_by_equality m) -> pipe_step p (PLog l0 b v) = Some (p', es) ->
  let l := pipe_filtered p l0 in exists ids,
  flat_map (fun e => match e with EStream r _ => [r] | _ => [] end) es = match ids with [] => [] | _ => [make_log l [] ids] end /\
  forall s, In s ids <-> exists m, In (s, m) cfgs /\ (forall c, m = Some c -> tree_new re_ok c <> None) /\ tailed re_match to_i32 l m.
Proof.
  intros A T TE H. cbv zeta. exists (stream_ids re_match to_i32 (p_tails p) (pipe_filtered p l0)). split; [|rewrite T; intros s; apply stream_ids_spec; auto].
  pose proof (stream_effects re_match re_replace to_i32 sha f64 p l0 b v p' es (reached_pinv A) H) as S.
  replace (flat_map _ es) with (map fst (flat_map (fun e => match e with EStream r o => [(r, o)] | _ => [] end) es)); [rewrite S; destruct (stream_ids _ _ _ _); auto|].
  clear. induction es as [|e es IH]; auto. cbn [flat_map]. rewrite map_app, IH. destruct e; auto.
Qed.
End Runs.
