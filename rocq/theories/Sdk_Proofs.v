From Verif Require Import Base Str_Base Log_Model Metadata_Model LogMatcher_Model BufferMatcher_Model Matcher_Spec Workflow_Model WorkflowEngine_Model WorkflowEngine_Spec Pipeline_Model Pipeline_Spec Pipeline_Proofs PipelineEffects_Proofs PipelineState_Proofs LogBuffer_Model LogBuffer_Spec LogBuffer_Proofs Sdk_Model Sdk_Spec.
From Verif Require Filter_Model PreConfig_Model.
Local Open Scope string_scope. Local Open Scope list_scope.

Section Sdk.
Variables (re_match : string -> string -> bool) (re_replace : string -> string -> string -> string) (to_i32 : string -> option Z)
  (sha : string -> string) (f64 : string -> option Z).
Variables (threshold write_interval : Z) (size : log -> N) (show_time : Z -> string) (has_stats : bool).
Variables (file : option saved) (torn : pipe -> bool).
Notation snew := (sdk_new has_stats file).
Notation slog := (sdk_log re_match re_replace to_i32 sha f64).
Notation sturn := (sdk_turn re_match re_replace to_i32 sha f64).
Notation spersist := (sdk_persist re_match to_i32 sha f64 torn).
Notation sstep := (sdk_step re_match re_replace to_i32 sha f64 threshold write_interval size show_time has_stats file torn).
Notation srun := (sdk_run re_match re_replace to_i32 sha f64 threshold write_interval size show_time has_stats file torn).
Notation pstep := (Pipeline_Model.pstep re_match re_replace to_i32 sha f64).
Notation prun := (Pipeline_Model.prun re_match re_replace to_i32 sha f64).
Notation buf := (buf pipe).
Notation carries := Pipeline_Spec.carries.

(** ** Lists of events *)
Lemma given_app (e1 e2 : list sevent) : given (e1 ++ e2) = given e1 ++ given e2.
Proof. induction e1 as [|x e1 IH]; [reflexivity|]. destruct x as [| | | |k l [] |k l [] | | | | | | | | | | | |]; simpl; rewrite ?IH; reflexivity. Qed.
Lemma given_none (e : list sevent) : outcomes e = [] -> replayed e = [] -> given e = [].
Proof. induction e as [|x e IH]; [reflexivity|]. destruct x; simpl; auto; discriminate. Qed.
Lemma confs_app l1 l2 : confs (l1 ++ l2) = confs l1 ++ confs l2.
Proof. induction l1 as [|x l1 IH]; [reflexivity|]. destruct x; simpl; rewrite ?IH; reflexivity. Qed.
Lemma filters_app l2 : forall l1 o, filters_on o (l1 ++ l2) = filters_on (filters_on o l1) l2.
Proof. induction l1 as [|x l1 IH]; intros o; [reflexivity|]. destruct x; simpl; auto. destruct r; auto. Qed.
Lemma workflows_app l2 : forall l1 o, workflows_on o (l1 ++ l2) = workflows_on (workflows_on o l1) l2.
Proof. induction l1 as [|x l1 IH]; intros o; [reflexivity|]. destruct x; simpl; auto. destruct r; auto. destruct on; auto. Qed.
Lemma prun_app l2 : forall l1 p, prun p (l1 ++ l2) = match prun p l1 with Some (p, e1) => match prun p l2 with Some (p, e2) => Some (p, e1 ++ e2) | None => None end | None => None end.
Proof.
  induction l1 as [|o l1 IH]; intros p; [simpl; destruct (prun p l2) as [[] |]; reflexivity|]. cbn [app Pipeline_Model.prun]. destruct (pstep p o) as [[p1 es]|]; [|reflexivity]. rewrite IH.
  destruct (prun p1 l1) as [[p2 e1]|]; [|reflexivity]. destruct (prun p2 l2) as [[p3 e2]|]; reflexivity.
Qed.
Lemma prun_snoc p ops o p1 ess p2 es : prun p ops = Some (p1, ess) -> pstep p1 o = Some (p2, es) -> prun p (ops ++ [o]) = Some (p2, ess ++ [es]).
Proof. intros H1 H2. rewrite prun_app, H1. cbn [Pipeline_Model.prun]. rewrite H2. reflexivity. Qed.

(** ** What a step does to the pipeline *)
Lemma inner_given l (b b' : buf) ie d : inner pipe env effect b l = (b', ie, d) -> given ie = [] /\ delivered ie = [] /\ b_state b' = b_state b /\ (forall ps, ~ In (Ran ps) ie).
Proof.
  intros H. apply (inner_shape _ _ _ threshold show_time has_stats) in H as (q & S). assert (Z : outcomes ie = [] /\ replayed ie = []).
  { assert (X := is_events _ _ _ _ _ _ _ _ S). clear S. induction ie as [|x ie IH]; [auto|]. destruct IH as [IH1 IH2]; [intros y Hy; apply X; now right|].
    destruct (X x (or_introl eq_refl)) as [(c & ->)|(k & w & a & ->)]; simpl; auto. }
  splits; [apply given_none; tauto|apply delivered_none; tauto|exact (is_state _ _ _ _ _ _ _ _ S)|]. intros ps Hp. destruct (is_events _ _ _ _ _ _ _ _ S _ Hp) as [(c & E)|(k & w & a & E)]; discriminate.
Qed.
Lemma gone_given (b : buf) : given (snd (gone pipe env effect b)) = [] /\ delivered (snd (gone pipe env effect b)) = [] /\ (forall ps, ~ In (Ran ps) (snd (gone pipe env effect b))).
Proof.
  destruct (gone_nothing pipe env effect threshold show_time b) as (_ & _ & A & _ & B & _). splits; [apply given_none; auto|apply delivered_none; auto|]. intros ps H. unfold gone in H. cbn [snd] in H. apply in_app_or in H as [H|H].
  - destruct (b_place b) as [|k []|k []|]; simpl in H; intuition discriminate.
  - unfold release in H. apply in_map_iff in H as (m & E & _). discriminate.
Qed.

(** The label leaves the pipeline as it is. *)
Definition idle_label (x : slabel) : Prop := match x with Config _ _ | Run _ => False | _ => True end.
(** The effects of the pipeline's own turns. *)
Fixpoint own (e : list sevent) : list (list effect) := match e with [] => [] | Ran ps :: e => ps :: own e | _ :: e => own e end.
Lemma own_none (e : list sevent) : (forall ps, ~ In (Ran ps) e) -> own e = [].
Proof.
  intros H. induction e as [|x e IH]; [reflexivity|]. assert (IH' : own e = []) by (apply IH; intros ps Hp; apply (H ps); now right). destruct x; cbn; auto. destruct (H es (or_introl eq_refl)).
Qed.
Lemma own_app e1 e2 : own (e1 ++ e2) = own e1 ++ own e2. Proof. induction e1 as [|x e1 IH]; [reflexivity|]. destruct x; simpl; rewrite ?IH; reflexivity. Qed.
Lemma replay_shape vs : forall l p p' e, replay pipe env effect slog p l vs = Some (p', e) -> map fst (given e) = l /\ delivered e = [] /\ own e = [].
Proof.
  intros l. revert vs. induction l as [|a l IH]; intros vs p p' e H; simpl in H; [inv H; auto|].
  destruct (slog p a false (vs 0)) as [[p1 es]|]; [|discriminate]. destruct (replay _ _ _ _ p1 l _) as [[p2 e2]|] eqn:Er; [|discriminate]. inv H. simpl. destruct (IH _ _ _ _ Er) as (-> & -> & ->). auto.
Qed.

Definition waits_on (b : buf) (q : PreConfig_Model.pre log) (x : slabel) (b' : buf) (es : list sevent) : Prop :=
  (exists q', b_state b' = Waiting q' /\ given es = [] /\ own es = [] /\ PreConfig_Model.pop_all q' = PreConfig_Model.pop_all q ++ delivered es /\ (idle_label x \/ b_place b' = Gone)) \/
  (exists c vs p, x = Config c vs /\ b_place b = Idle /\ b_state b' = Ready p /\ replay pipe env effect slog (snew c) (PreConfig_Model.pop_all q) vs = Some (p, es)).
Definition works_on (b : buf) (p : pipe) (x : slabel) (b' : buf) (es : list sevent) : Prop :=
  exists p', b_state b' = Ready p' /\
  ((p' = p /\ given es = [] /\ own es = [] /\ delivered es = [] /\ (idle_label x \/ b_place b' = Gone)) \/
   (exists c vs, x = Config c vs /\ p' = sdk_update p c /\ es = []) \/
   (exists t lg w ps, x = Take t /\ slog p lg w (t_pipe t) = Some (p', ps) /\ given es = [(lg, ps)] /\ own es = [] /\ delivered es = [lg]) \/
   (exists r ps, x = Run r /\ sturn p r = Some (p', ps) /\ es = [Ran ps]) \/
   (x = BuffersDone /\ p' = spersist p /\ given es = [] /\ own es = [] /\ delivered es = [])).

Lemma push_all q l q' r : PreConfig_Model.push size q l = (q', r) -> PreConfig_Model.pop_all q' = PreConfig_Model.pop_all q ++ match r with PreConfig_Model.PushOk => [l] | _ => [] end.
Proof. unfold PreConfig_Model.push, PreConfig_Model.pop_all. repeat (match goal with |- context [if ?c then _ else _] => destruct c end); intros H; inv H; cbn; rewrite ?app_nil_r; reflexivity. Qed.
Lemma ret_nothing k (w : bool) : given (ret env effect k w) = [] /\ own (ret env effect k w) = [] /\ delivered (ret env effect k w) = [].
Proof. destruct w; auto. Qed.

Lemma pout_state (b : buf) k l w t b' e : pout pipe env effect slog threshold write_interval size show_time b k l w t b' e ->
  match b_state b with
  | Waiting q => waits_on b q (Take t) b' e
  | Ready p => works_on b p (Take t) b' e
  end.
Proof.
  intros H. inversion H; subst; clear H.
  - destruct (inner_given _ _ _ _ _ H0) as (G1 & G2 & G3 & G4). destruct (gone_given b2) as (G5 & G6 & G7). destruct (ret_nothing k w) as (R1 & R2 & R3).
    assert (N : given (ie ++ Died :: ret env effect k w ++ snd (gone pipe env effect b2)) = [] /\ own (ie ++ Died :: ret env effect k w ++ snd (gone pipe env effect b2)) = [] /\ delivered (ie ++ Died :: ret env effect k w ++ snd (gone pipe env effect b2)) = []).
    { rewrite given_app, own_app, delivered_app. change (Died :: ?x) with ([Died] ++ x). rewrite !given_app, !own_app, !delivered_app. rewrite G1, G2, R1, R2, R3, G5, G6, (own_none _ G4), (own_none _ G7). auto. }
    destruct N as (N1 & N2 & N3).
    assert (S2 : b_state (fst (gone pipe env effect b2)) = b_state b) by (unfold gone; cbn; congruence).
    destruct (b_state b) as [q|p].
    + left. exists q. rewrite N3, app_nil_r. splits; auto; left; exact Logic.I.
    + exists p. split; auto. left. splits; auto; left; exact Logic.I.
  - destruct (inner_given _ _ _ _ _ H0) as (G1 & G2 & G3 & G4). destruct (ret_nothing k w) as (R1 & R2 & R3).
    assert (N : given (ie ++ Failed k :: ret env effect k w) = [] /\ own (ie ++ Failed k :: ret env effect k w) = [] /\ delivered (ie ++ Failed k :: ret env effect k w) = []).
    { rewrite given_app, own_app, delivered_app. change (Failed k :: ?x) with ([Failed k] ++ x). rewrite !given_app, !own_app, !delivered_app. rewrite G1, G2, R1, R2, R3, (own_none _ G4). auto. }
    destruct N as (N1 & N2 & N3). destruct (b_state b) as [q|p].
    + left. exists q. rewrite N3, app_nil_r. splits; auto; left; exact Logic.I.
    + exists p. split; auto. left. splits; auto; left; exact Logic.I.
  - destruct (inner_given _ _ _ _ _ H0) as (G1 & G2 & G3 & G4). destruct (ret_nothing k w) as (R1 & R2 & R3).
    assert (N : given (ie ++ wrote_event env effect k internal lg h :: ret env effect k w) = given [wrote_event env effect k internal lg h] /\ own (ie ++ wrote_event env effect k internal lg h :: ret env effect k w) = [] /\ delivered (ie ++ wrote_event env effect k internal lg h :: ret env effect k w) = delivered [wrote_event env effect k internal lg h]).
    { change (wrote_event env effect k internal lg h :: ?x) with ([wrote_event env effect k internal lg h] ++ x). rewrite !given_app, !own_app, !delivered_app. rewrite G1, G2, R1, R2, R3, (own_none _ G4), !app_nil_r. cbn [app]. splits; auto. destruct internal; reflexivity. }
    destruct N as (N1 & N2 & N3). unfold write_log in H5. cbn [b_state with_session] in H5. rewrite G3 in H5. destruct (b_state b) as [q|p].
    + left. destruct (PreConfig_Model.push size q lg) as [q' r] eqn:EP. apply push_all in EP. exists q'. rewrite N1, N3. destruct r; inv H5; cbn [b_state with_state]; splits; auto; try (destruct internal; cbn; rewrite ?app_nil_r in *; auto; fail); left; exact Logic.I.
    + destruct (slog p lg (w && negb internal) (t_pipe t)) as [[p' ps]|] eqn:EL; [|discriminate]. inv H5. exists p'. split; auto. right. right. left. exists t, lg, (w && negb internal), ps. rewrite N1, N3. splits; auto; destruct internal; reflexivity.
Qed.

Lemma step_state b x b' es : sstep b x = Some (b', es) ->
  match b_state b with Waiting q => waits_on b q x b' es | Ready p => works_on b p x b' es end.
Proof.
  unfold sdk_step. intros H. destruct x as [c a|q0|k|k|c vs|t| | |r|].
  5:{ cbn [step] in H. unfold configure in H. destruct (b_place b) eqn:EP; try discriminate. destruct (b_state b) as [q|p] eqn:ES.
      - destruct (replay _ _ _ _ _ _ _) as [[p e]|] eqn:ER; inv H; [right; exists c, vs, p; auto|]. left. exists q. rewrite EP. destruct (gone_given b) as (G5 & G6 & G7). cbn [snd gone] in *. unfold gone in *. cbn [snd] in *. rewrite EP in *. cbn [given delivered own app].
        rewrite G5, G6, (own_none _ G7), app_nil_r. cbn. splits; auto.
      - inv H. exists (sdk_update p c). split; auto. right. left. eauto. }
  5:{ assert (H0 := H). apply step_out in H. inversion H; subst; clear H.
      - match goal with X : pout _ _ _ _ _ _ _ _ _ _ _ _ _ _ _ |- _ => apply pout_state in X; cbn [b_state with_icept with_queue] in X; rename X into S end.
        assert (N : forall e0 : list sevent, given (Taken (ms_id m) (CLog l w) t :: (if shot then [Shot] else []) ++ e0) = given e0 /\ own (Taken (ms_id m) (CLog l w) t :: (if shot then [Shot] else []) ++ e0) = own e0 /\ delivered (Taken (ms_id m) (CLog l w) t :: (if shot then [Shot] else []) ++ e0) = delivered e0) by (destruct shot; auto).
        destruct (N e) as (N1 & N2 & N3). destruct (b_state b) as [q1|p].
        + destruct S as [(q' & A)|(c & vs & p & A & _)]; [|discriminate]. left. exists q'. rewrite N1, N2, N3. auto.
        + destruct S as (p' & S1 & [A|[(c & vs & A & _)|[(t0 & lg & w0 & ps & A)|[(r & ps & A & _)|(A & _)]]]]); try discriminate; exists p'; split; auto; [left; rewrite N1, N2, N3; auto|right; right; left; exists t0, lg, w0, ps; rewrite N1, N2, N3; auto].
      - destruct (b_state b) as [q1|p] eqn:ES; [left; exists q1|exists p; split; [auto|left] ]; cbn; rewrite ?app_nil_r; splits; auto; left; exact Logic.I.
      - destruct (b_state b) as [q1|p] eqn:ES; [left; exists q1|exists p; split; [auto|left] ]; cbn; rewrite ?app_nil_r; splits; auto; left; exact Logic.I.
      - destruct (b_state b) as [q1|p] eqn:ES; [left; exists q1|exists p; split; [auto|left] ]; destruct has_stats; cbn; rewrite ?app_nil_r; splits; auto; left; exact Logic.I. }
  7:{ cbn [step] in H. destruct (b_place b) eqn:EP; try discriminate. destruct (b_state b) as [q|p] eqn:ES; [discriminate|]. destruct (sturn p r) as [[p' ps]|] eqn:ER; inv H; [exists p'; split; auto; right; right; right; left; eauto|].
      exists p. split; auto. left. destruct (gone_given b) as (G5 & G6 & G7). unfold gone in *. cbn [snd] in *. rewrite EP in *. cbn [given delivered own app]. rewrite G5, G6, (own_none _ G7). cbn. splits; auto. }
  all: apply step_out in H; inversion H; subst; clear H.
  all: try (destruct (b_state b) as [q1|p1] eqn:ES; [left; exists q1|exists p1; split; [auto|left] ]; cbn; rewrite ?app_nil_r; splits; auto; left; exact Logic.I).
  - match goal with X : b_state b = _ |- _ => rewrite X end. left. exists p. destruct (ret_nothing k w) as (R1 & R2 & R3). cbn. rewrite R1, R3. rewrite R2, app_nil_r. splits; auto; left; exact Logic.I.
  - match goal with X : b_state b = _ |- _ => rewrite X end. exists (spersist p). split; auto. do 4 right. destruct (ret_nothing k w) as (R1 & R2 & R3). cbn. rewrite R1, R3. rewrite R2. auto.
  - destruct (gone_given b) as (G5 & G6 & G7). destruct (b_state b) as [q1|p1] eqn:ES; [left; exists q1|exists p1; split; [auto|left] ]; rewrite ?G5, ?G6, ?(own_none _ G7), ?app_nil_r; unfold gone; cbn; splits; auto.
Qed.

(** ** The pipeline's own history *)
Fixpoint ups (ops : list pop) : list update_cfg := match ops with [] => [] | PUpdate u _ _ :: ops => u :: ups ops | _ :: ops => ups ops end.
Lemma ups_app o2 : forall o1, ups (o1 ++ o2) = ups o1 ++ ups o2.
Proof. induction o1 as [|o o1 IH]; [reflexivity|]. destruct o; simpl; rewrite ?IH; reflexivity. Qed.
Lemma filtering_app o2 : forall o1 on, filtering on (o1 ++ o2) = filtering (filtering on o1) o2.
Proof. induction o1 as [|o o1 IH]; intros on; [reflexivity|]. destruct o; simpl; auto. Qed.
Lemma latest_ups : forall ops u, latest u ops = last (ups ops) u.
Proof.
  induction ops as [|o ops IH]; intros u; [reflexivity|]. destruct o; simpl; auto. rewrite IH. destruct (ups ops) as [|x l]; [reflexivity|]. clear. revert x u0 u.
  induction l as [|y l IH]; intros x u0 u; [reflexivity|]. cbn [last]. exact (IH y u0 u).
Qed.
Lemma last_map {A B} (f : A -> B) : forall l d, last (map f l) (f d) = f (last l d).
Proof. induction l as [|a l IH]; intros d; [reflexivity|]. destruct l as [|b l]; [reflexivity|]. exact (IH d). Qed.
Lemma growing_ups : forall ops cs d, ups ops = map k_update cs -> keeps_buffers d cs -> growing d ops.
Proof.
  induction ops as [|o ops IH]; intros cs d E K; [exact Logic.I|]. destruct o; simpl in *; try (eapply IH; eauto; fail).
  destruct cs as [|c cs]; [discriminate|]. cbn [map] in E. injection E as -> E. destruct K as (K1 & K2 & K3). unfold conts in *. splits; eauto.
Qed.
Lemma coherent_ups ops cs : ups ops = map k_update cs -> Forall (fun c => coherent (k_update c)) cs -> all_coherent ops.
Proof.
  intros E F u on limit H. assert (X : In u (ups ops)) by (clear - H; induction ops as [|o ops IH]; [destruct H|]; destruct H as [->|H]; simpl; [now left|]; destruct o; simpl; auto).
  rewrite E in X. apply in_map_iff in X as (c & <- & Hc). rewrite Forall_forall in F. auto.
Qed.
Lemma off_kept p o p' es f : p_engine p = Off f -> pstep p o = Some (p', es) -> (forall u b n, o <> PUpdate u b n) -> p_engine p' = Off f.
Proof.
  intros E H N. destruct o as [l b v|u b n|d| |a|n|b|b|b]; cbn [Pipeline_Model.pstep] in H; unfold Pipeline_Model.engine_step, Pipeline_Model.process_log in H; rewrite ?E in H; try (inv H; auto; fail).
  - cbv zeta in H. repeat (match type of H with context [let (_, _) := ?x in _] => destruct x | (if ?c then _ else _) = _ => destruct c end); inv H; auto.
  - destruct (N _ _ _ eq_refl).
  - inv H. destruct b; cbn; rewrite ?E; auto.
Qed.
Lemma flag_off p p' es : pstep p (PWorkflowsFlag false) = Some (p', es) -> exists f, p_engine p' = Off f.
Proof. intros H. inv H. cbn. eauto. Qed.
Lemma own_records p r p' ps : sturn p r = Some (p', ps) -> records ps = [].
Proof.
  unfold sdk_turn. destruct r; cbn [pop_of Pipeline_Model.pstep]; intros H; try (destruct (Pipeline_Model.engine_step _ _ _ _ _ _); inv H; reflexivity); try (inv H; reflexivity).
  destruct (p_engine p) as [y|f]; [|inv H; reflexivity]. destruct (e_buffers (y_engine y)) as [|[n ids] r]; [inv H; reflexivity|].
  destruct (Pipeline_Model.engine_step _ _ _ _ _ _); [|discriminate]. destruct (if accepted then _ else _); inv H. reflexivity.
Qed.
Lemma persist_step p : exists o p1 es, (o = PPersist (torn p)) /\ pstep p o = Some (p1, es) /\ spersist p = p1.
Proof.
  unfold sdk_persist. exists (PPersist (torn p)). cbn [Pipeline_Model.pstep]. unfold Pipeline_Model.engine_step. destruct (p_engine p) as [y|f] eqn:E; [|eexists; eexists; splits; auto].
  assert (X : exists y' ev, WorkflowEngine_Model.step re_match to_i32 sha f64 y (Persist (torn p)) = Some (y', ev)). { cbn [WorkflowEngine_Model.step]. repeat (match goal with |- context [let (_, _) := ?x in _] => destruct x | |- context [if ?c then _ else _] => destruct c end); eauto. }
  destruct X as (y' & ev & ->). eexists; eexists; splits; auto.
Qed.

(** How the pipeline came to its state: the first configuration and those after it, the flag of the filters, and whether there is an engine. *)
Definition reached (c0 : conf) (cs : list conf) (fon won : bool) (p : pipe) : Prop := exists ops ess, prun (snew c0) ops = Some (p, ess) /\
  ups ops = map k_update cs /\ fon = filtering (k_filter c0) ops /\ (won = false -> exists f, p_engine p = Off f).
Lemma reached_new c : reached c [] (k_filter c) (k_workflows c) (snew c).
Proof. exists [], []. cbn. splits; auto. intros ->. unfold sdk_new, pipe_new. cbn. eauto. Qed.
Lemma reached_step c0 cs fon won p o p' es : reached c0 cs fon won p -> pstep p o = Some (p', es) -> (forall u b n, o <> PUpdate u b n) ->
  reached c0 cs (filtering fon [o]) (match o with PWorkflowsFlag false => false | _ => won end) p'.
Proof.
  intros (ops & ess & H & U & F & W) S N. exists (ops ++ [o]), (ess ++ [es]). splits.
  - eapply prun_snoc; eauto.
  - rewrite ups_app, U. destruct o; cbn; rewrite ?app_nil_r; auto. destruct (N _ _ _ eq_refl).
  - rewrite filtering_app, F. reflexivity.
  - assert (K : forall f, p_engine p = Off f -> exists f, p_engine p' = Off f) by (intros f X; exists f; eapply off_kept; eauto).
    destruct o; try (intros X; destruct (W X) as (f & Y); eauto; fail). destruct on; [intros X; destruct (W X) as (f & Y); eauto|]. intros _. eapply flag_off; eauto.
Qed.
Lemma reached_log c0 cs fon won p l b v p' es : reached c0 cs fon won p -> slog p l b v = Some (p', es) -> reached c0 cs fon won p'.
Proof. intros R H. apply (reached_step _ _ _ _ _ (PLog l b v) p' es R H). discriminate. Qed.
Lemma reached_update c0 cs fon won p c : reached c0 cs fon won p -> reached c0 (cs ++ [c]) fon (k_workflows c) (sdk_update p c).
Proof.
  intros (ops & ess & H & U & F & W). exists (ops ++ [PUpdate (k_update c) (k_workflows c) (k_limit c)]), (ess ++ [[]]). splits.
  - eapply prun_snoc; eauto.
  - rewrite ups_app, U, map_app. reflexivity.
  - rewrite filtering_app. auto.
  - intros X. unfold sdk_update, pipe_update. rewrite X. cbn. eauto.
Qed.
Lemma reached_replay c : forall l vs p p' e, reached c [] (k_filter c) (k_workflows c) p -> replay pipe env effect slog p l vs = Some (p', e) -> reached c [] (k_filter c) (k_workflows c) p' /\
  forall lg ps, In (lg, ps) (given e) -> exists n p1 p2, reached c [] (k_filter c) (k_workflows c) p1 /\ slog p1 lg false (vs n) = Some (p2, ps).
Proof.
  induction l as [|a l IH]; intros vs p p' e R H; simpl in H; [inv H; split; auto; intros lg ps []|].
  destruct (slog p a false (vs 0)) as [[p1 es]|] eqn:EL; [|discriminate]. destruct (replay _ _ _ _ p1 l _) as [[p2 e2]|] eqn:Er; [|discriminate]. inv H.
  pose proof (reached_log _ _ _ _ _ _ _ _ _ _ R EL) as R1. destruct (IH _ _ _ _ R1 Er) as (A & B). split; auto. intros lg ps. cbn [given]. intros [X|X]; [injection X as <- <-; eauto 6|].
  destruct (B _ _ X) as (n & q1 & q2 & Q). eauto.
Qed.

(** ** The loop and its pipeline *)
Lemma gone_absorbs b x b' es : sstep b x = Some (b', es) -> b_place b = Gone -> b_place b' = Gone.
Proof.
  unfold sdk_step. intros H G. destruct x as [c a|q0|k|k|c vs|t| | |r|]; cbn [step] in H; unfold do_call, configure, take in H; rewrite ?G in H; try discriminate; try (inv H; cbn; auto; fail).
  destruct a; inv H; auto.
Qed.
Definition linv (ls : list slabel) (b : buf) : Prop := b_place b = Gone \/
  match b_state b with
  | Waiting _ => confs ls = [] /\ filters_on None ls = None
  | Ready p => exists c0 cs fon, confs ls = c0 :: cs /\ filters_on None ls = Some fon /\ reached c0 cs fon (workflows_on false ls) p
  end.
Lemma linv_step ls b x b' es : linv ls b -> sstep b x = Some (b', es) -> linv (ls ++ [x]) b'.
Proof.
  intros I H. pose proof (gone_absorbs _ _ _ _ H) as GA. pose proof (step_state _ _ _ _ H) as S. destruct I as [I|I]; [left; auto|]. destruct (b_state b) as [q|p].
  - destruct I as [I1 I2]. destruct S as [(q' & S1 & _ & _ & _ & [S2|S2])|(c & vs & p & -> & _ & S2 & S3)].
    + right. rewrite S1, confs_app, filters_app, I1, I2. destruct x; destruct S2; auto.
    + left. auto.
    + right. rewrite S2, confs_app, filters_app, workflows_app, I1, I2. cbn. exists c, [], (k_filter c). splits; auto. apply (reached_replay _ _ _ _ _ _ (reached_new c) S3).
  - destruct I as (c0 & cs & fon & I1 & I2 & I3). destruct S as (p' & S1 & [S|[S|[S|[S|S]]]]).
    + destruct S as (-> & _ & _ & _ & [S2|S2]); [|left; auto]. right. rewrite S1, confs_app, filters_app, workflows_app, I1, I2. exists c0, cs, fon. destruct x; destruct S2; cbn; rewrite app_nil_r; auto.
    + destruct S as (c & vs & -> & -> & _). right. rewrite S1, confs_app, filters_app, workflows_app, I1, I2. exists c0, (cs ++ [c]), fon. cbn. splits; auto. eapply reached_update; eauto.
    + destruct S as (t & lg & w & ps & -> & S2 & _). right. rewrite S1, confs_app, filters_app, workflows_app, I1, I2. exists c0, cs, fon. cbn. rewrite app_nil_r. splits; auto. eapply reached_log; eauto.
    + destruct S as (r & ps & -> & S2 & _). right. rewrite S1, confs_app, filters_app, workflows_app, I1, I2. unfold sdk_turn in S2. apply (reached_step _ _ _ _ _ _ _ _ I3) in S2; [|destruct r; discriminate].
      cbn. rewrite app_nil_r. destruct r; cbn in *; do 3 eexists; splits; eauto.
    + destruct S as (-> & -> & _). right. rewrite S1, confs_app, filters_app, workflows_app, I1, I2. exists c0, cs, fon. cbn. rewrite app_nil_r. splits; auto.
      destruct (persist_step p) as (o & p1 & es1 & -> & S2 & ->). apply (reached_step _ _ _ _ _ _ _ _ I3) in S2; [exact S2|discriminate].
Qed.
Lemma linv_run mc ms now s0 ls b e : srun (buf_new mc ms now s0) ls = Some (b, e) -> linv ls b.
Proof.
  intros H. revert H. unfold sdk_run. apply (run_ind2 _ _ _ _ _ _ _ _ _ _ _ _ _ _ _ (fun ls b _ => linv ls b)); [right; cbn; auto|]. intros l b1 e1 x b2 es I S. eapply linv_step; eauto.
Qed.

(** Each log that the pipeline was given, with the state of the pipeline then. *)
Lemma given_in (e : list sevent) lg ps : In (lg, ps) (given e) -> exists x, In x e /\ given [x] = [(lg, ps)].
Proof.
  induction e as [|x e IH]; [intros []|]. change (x :: e) with ([x] ++ e). rewrite given_app. intros H. apply in_app_or in H as [H|H].
  - exists x. split; [now left|]. destruct x as [| | | |k l [] |k l [] | | | | | | | | | | | |]; cbn in *; try contradiction; destruct H as [H|[] ]; inv H; auto.
  - destruct (IH H) as (y & Hy & Y). exists y. split; [now right|auto].
Qed.
Lemma in_given (e : list sevent) x lg ps : In x e -> given [x] = [(lg, ps)] -> In (lg, ps) (given e).
Proof. intros H E. apply in_split in H as (e1 & e2 & ->). rewrite given_app. change (x :: e2) with ([x] ++ e2). rewrite given_app, E. apply in_or_app. right. now left. Qed.
Lemma run_cut mc ms now s0 ls b e x : srun (buf_new mc ms now s0) ls = Some (b, e) -> In x e ->
  exists l1 y l2 b1 e1 b2 es, ls = l1 ++ y :: l2 /\ srun (buf_new mc ms now s0) l1 = Some (b1, e1) /\ sstep b1 y = Some (b2, es) /\ In x es /\ linv l1 b1.
Proof.
  intros H Hx. destruct (run_in _ _ _ _ _ _ _ _ _ _ _ _ _ _ _ _ _ _ _ _ H Hx) as (l1 & y & l2 & b1 & e1 & b2 & es & e2 & A & B & C & D & _).
  exists l1, y, l2, b1, e1, b2, es. splits; auto. eapply linv_run; eauto.
Qed.
Lemma given_at mc ms now s0 ls b e lg ps : srun (buf_new mc ms now s0) ls = Some (b, e) -> In (lg, ps) (given e) ->
  exists l1 x l2 c0 cs fon w v p p', ls = l1 ++ x :: l2 /\ told x v /\ confs (l1 ++ [x]) = c0 :: cs /\ filters_on None (l1 ++ [x]) = Some fon /\ reached c0 cs fon (workflows_on false (l1 ++ [x])) p /\ slog p lg w v = Some (p', ps).
Proof.
  intros H Hin. apply given_in in Hin as (ev & Hev & Ev). destruct (run_cut _ _ _ _ _ _ _ _ H Hev) as (l1 & x & l2 & b1 & e1 & b2 & es & -> & R1 & S & Hes & I).
  assert (Hg := in_given _ _ _ _ Hes Ev). pose proof (step_state _ _ _ _ S) as St. exists l1, x, l2. rewrite confs_app, filters_app, workflows_app.
  assert (NG : b_place b1 <> Gone).
  { intros G. assert (Z : es = [] \/ (exists k c a, es = [Called k c a]) \/ exists q, es = [QualitySet q]).
    { unfold sdk_step in S. destruct x as [c a|q0|k|k|c vs|t| | |r|]; cbn [step] in S; unfold do_call, configure, take in S; rewrite ?G in S; try discriminate; try (inv S; eauto; fail). destruct a; inv S; eauto 6. }
    destruct Z as [->|[(k & c & a & ->)|(q & ->)]]; destruct Hg. }
  destruct I as [I|I]; [contradiction|]. destruct (b_state b1) as [q|p].
  - destruct I as (I1 & I2). destruct St as [(q' & _ & G & _)|(c & vs & p & -> & _ & _ & RP)]; [rewrite G in Hg; destruct Hg|]. rewrite I1, I2. cbn.
    destruct (proj2 (reached_replay c _ _ _ _ _ (reached_new c) RP) _ _ Hg) as (n & p1 & p2 & Q1 & Q2). exists c, [], (k_filter c), false, (vs n), p1, p2. splits; auto. eauto.
  - destruct I as (c0 & cs & fon & I1 & I2 & I3). destruct St as (p' & _ & [St|[St|[St|[St|St]]]]).
    + destruct St as (_ & G & _). rewrite G in Hg. destruct Hg.
    + destruct St as (c & vs & _ & _ & ->). destruct Hg.
    + destruct St as (t & lg' & w & ps' & -> & SL & G & _). rewrite G in Hg. destruct Hg as [Hg|[] ]. injection Hg as -> ->. rewrite I1, I2. cbn. rewrite app_nil_r. exists c0, cs, fon, w, (t_pipe t), p, p'. splits; auto.
    + destruct St as (r & ps' & _ & _ & ->). destruct Hg.
    + destruct St as (_ & _ & G & _). rewrite G in Hg. destruct Hg.
Qed.
(** A log taken by the loop when there is a pipeline. *)
Lemma taken_at mc ms now s0 l1 b1 e1 t b2 es lg ps : srun (buf_new mc ms now s0) l1 = Some (b1, e1) -> sstep b1 (Take t) = Some (b2, es) -> In (lg, ps) (given es) ->
  exists c0 cs fon w p p', b_state b1 = Ready p /\ confs l1 = c0 :: cs /\ filters_on None l1 = Some fon /\ reached c0 cs fon (workflows_on false l1) p /\ slog p lg w (t_pipe t) = Some (p', ps).
Proof.
  intros R S Hg. pose proof (linv_run _ _ _ _ _ _ _ R) as I. pose proof (step_state _ _ _ _ S) as St. destruct I as [I|I]; [unfold sdk_step in S; cbn [step] in S; unfold take in S; rewrite I in S; discriminate|].
  destruct (b_state b1) as [q|p].
  - destruct St as [(q' & _ & G & _)|(c & vs & p & X & _)]; [rewrite G in Hg; destruct Hg|discriminate].
  - destruct I as (c0 & cs & fon & I1 & I2 & I3). destruct St as (p' & _ & [St|[St|[St|[St|St]]]]).
    + destruct St as (_ & G & _). rewrite G in Hg. destruct Hg.
    + destruct St as (c & vs & X & _). discriminate.
    + destruct St as (t0 & lg' & w & ps' & X & SL & G & _). injection X as <-. rewrite G in Hg. destruct Hg as [Hg|[] ]. injection Hg as -> ->. exists c0, cs, fon, w, p, p'. splits; auto.
    + destruct St as (r & ps' & X & _). discriminate.
    + destruct St as (X & _). discriminate.
Qed.

(** ** Order *)
Lemma order_inv mc ms now s0 ls b e : srun (buf_new mc ms now s0) ls = Some (b, e) ->
  Forall (fun ps => records ps = []) (own e) /\ match b_state b with Waiting q => given e = [] /\ delivered e = PreConfig_Model.pop_all q | Ready p => map fst (given e) = delivered e end.
Proof.
  intros H. revert H. unfold sdk_run. apply (run_ind2 _ _ _ _ _ _ _ _ _ _ _ _ _ _ _ (fun _ b e => Forall (fun ps => records ps = []) (own e) /\ match b_state b with Waiting q => given e = [] /\ delivered e = PreConfig_Model.pop_all q | Ready p => map fst (given e) = delivered e end)); [cbn; auto|].
  clear. intros l b e x b' es (O & I) S. apply step_state in S. rewrite own_app. destruct (b_state b) as [q|p].
  - destruct I as (I1 & I2). destruct S as [(q' & S1 & S2 & S3 & S4 & _)|(c & vs & p & -> & _ & S2 & S3)].
    + rewrite S1, given_app, delivered_app, I1, I2, S2, S3, S4, app_nil_r. auto.
    + apply replay_shape in S3 as (A & B & C). rewrite S2, given_app, map_app, delivered_app, A, B, C, I1, I2, !app_nil_r. auto.
  - destruct S as (p' & S1 & [S|[S|[S|[S|S]]]]); rewrite S1, given_app, map_app, delivered_app.
    + destruct S as (_ & A & B & C & _). rewrite A, B, C, I, !app_nil_r. auto.
    + destruct S as (c & vs & _ & _ & ->). cbn. rewrite I, !app_nil_r. auto.
    + destruct S as (t & lg & w & ps & _ & _ & A & B & C). rewrite A, B, C, I, app_nil_r. auto.
    + destruct S as (r & ps & _ & S & ->). cbn. rewrite I, !app_nil_r. split; auto. apply Forall_app. split; auto. constructor; auto. eapply own_records; eauto.
    + destruct S as (_ & _ & A & B & C). rewrite A, B, C, I, !app_nil_r. auto.
Qed.

(** ** Where the logs go *)
Notation filt := (fun (fon : bool) (c : conf) (l : log) => if fon then Filter_Model.process re_match re_replace to_i32 (u_filters (k_update c)) l else l).
Lemma reached_config c0 cs fon won p : reached c0 cs fon won p -> p_producers p = u_producers (k_update (last cs c0)) /\ p_selector p = u_selector (k_update (last cs c0)) /\
  forall l, filtered re_match re_replace to_i32 p l = filt fon (last cs c0) l.
Proof.
  intros (ops & ess & H & U & -> & _). unfold sdk_new in H. apply new_config in H. cbv zeta in H. rewrite latest_ups, U, last_map in H. tauto.
Qed.
Lemma last_in {A} : forall (cs : list A) d, In (last cs d) (d :: cs).
Proof.
  induction cs as [|a cs IH]; intros d; [now left|]. destruct cs as [|b cs]; [cbn; auto|]. change (last (a :: b :: cs) d) with (last (b :: cs) d). destruct (IH d) as [E|E]; [left; auto|right; right; auto].
Qed.
Lemma keeps_coherent : forall cs d, keeps_buffers d cs -> Forall (fun c => coherent (k_update c)) cs.
Proof. induction cs as [|c cs IH]; intros d K; [constructor|]. destruct K as (K1 & _ & K3). constructor; eauto. Qed.

(** Without an engine. *)
Lemma plain_log c0 cs fon p lg w v p' ps : reached c0 cs fon false p -> slog p lg w v = Some (p', ps) -> coherent (k_update (last cs c0)) -> buffers_work v ->
  forall re_ok cfg, selector_new re_ok cfg = Some (u_selector (k_update (last cs c0))) -> let l := filt fon (last cs c0) lg in
  exists ids r, records ps = map (fun id => (id, r)) ids /\ NoDup ids /\ carries l [] r /\ forall id, In id ids <-> wants re_match cfg l id.
Proof.
  intros R H C BW re_ok cfg SN. cbv zeta. destruct (reached_config _ _ _ _ _ R) as (P1 & P2 & P3). rewrite <- P3. rewrite <- P2 in SN. destruct R as (ops & ess & _ & _ & _ & W). destruct (W eq_refl) as (f & EF).
  unfold sdk_log in H. destruct (log_effects _ _ _ _ _ _ _ _ _ _ _ H) as (dests & acts & pre & wr & ok & syn & ex & D & WL & PH & _ & ->). pose proof (decides_dests _ _ _ _ _ _ _ _ _ _ _ _ D) as SD.
  unfold decides in D. rewrite EF in D. destruct D as (-> & -> & -> & ->). set (l := filtered re_match re_replace to_i32 p lg) in *.
  destruct (write_loop_spec _ _ _ _ _ _ WL) as (k & -> & K & K2 & K3). assert (OK : ok = true).
  { apply K3; auto. intros d Hd. unfold matching_of, buffers in Hd. apply loop_ids in Hd as [ []|(b & B & <-)]. rewrite P1. rewrite P2 in B. apply (proj1 C). exact B. }
  rewrite (K2 OK). rewrite !records_app, records_harmless, records_map, records_tail by auto. cbn [app records flat_map]. rewrite !app_nil_r. exists (matching_of re_match p l), (make_log l [] []). splits; auto.
  - apply sorted_NoDup. exact SD.
  - apply make_carries.
  - eapply matching_wants; eauto.
Qed.
Lemma reached_run c0 cs fon won p : reached c0 cs fon won p -> exists ops ess, prun (pipe_new (k_update c0) (k_workflows c0) (k_filter c0) has_stats (k_limit c0) file) ops = Some (p, ess) /\
  (keeps_buffers (conts c0) cs -> growing (pr_conts (u_producers (k_update c0))) ops) /\ (Forall (fun c => coherent (k_update c)) cs -> all_coherent ops).
Proof.
  intros (ops & ess & H & U & _ & _). exists ops, ess. splits; [exact H| |].
  - intros K. eapply growing_ups; eauto.
  - intros F. eapply coherent_ups; eauto.
Qed.
Lemma once_log c0 cs fon won p lg w v p' ps : reached c0 cs fon won p -> slog p lg w v = Some (p', ps) -> Forall (fun c => coherent (k_update c)) (c0 :: cs) ->
  let l := filt fon (last cs c0) lg in NoDup (map fst (records ps)) /\ exists acts, forall id r, In (id, r) (records ps) -> In id (pr_ids (u_producers (k_update (last cs c0)))) /\
    (carries l acts r \/ (copies l acts r /\ In id (pr_triggers (u_producers (k_update (last cs c0)))))).
Proof.
  intros R H F. cbv zeta. destruct (reached_config _ _ _ _ _ R) as (P1 & P2 & P3). destruct (reached_run _ _ _ _ _ R) as (ops & ess & A & _ & G). inversion F; subst. rewrite <- P1, <- P3.
  exact (run_once re_match re_replace to_i32 sha f64 _ _ _ _ _ _ _ _ _ A H2 _ _ _ _ _ (G H3) H).
Qed.
Lemma routed_log c0 cs fon won p lg w v p' ps : reached c0 cs fon won p -> slog p lg w v = Some (p', ps) -> coherent (k_update c0) -> file_fits (conts c0) file -> keeps_buffers (conts c0) cs -> buffers_work v ->
  forall re_ok cfg, selector_new re_ok cfg = Some (u_selector (k_update (last cs c0))) -> let l := filt fon (last cs c0) lg in exists acts,
  (forall id, goes re_match cfg p l id -> exists r, In (id, r) (records ps) /\ carries l acts r) /\
  (forall id r, In (id, r) (records ps) -> (goes re_match cfg p l id /\ carries l acts r) \/ (copies l acts r /\ In id (pr_triggers (u_producers (k_update (last cs c0)))) /\ forall d, ~ goes re_match cfg p l d)) /\
  ((exists d, wants re_match cfg l d) -> exists id r, In (id, r) (records ps) /\ carries l acts r).
Proof.
  intros R H C F K BW re_ok cfg SN. cbv zeta. destruct (reached_config _ _ _ _ _ R) as (P1 & P2 & P3). destruct (reached_run _ _ _ _ _ R) as (ops & ess & A & G & _). rewrite <- P1, <- P3. rewrite <- P2 in SN.
  exact (run_delivered re_match re_replace to_i32 sha f64 _ _ _ _ _ _ _ _ _ A C _ _ _ _ _ _ _ F (G K) BW SN H).
Qed.
Lemma blocking_log c0 cs fon won p lg v p' ps : reached c0 cs fon won p -> slog p lg true v = Some (p', ps) -> coherent (k_update c0) -> file_fits (conts c0) file -> keeps_buffers (conts c0) cs -> buffers_work v -> v_flush v = FlushOk ->
  forall re_ok cfg, selector_new re_ok cfg = Some (u_selector (k_update (last cs c0))) -> let l := filt fon (last cs c0) lg in
  In EReturn ps /\ forall id r o, In (EWrite id r o) ps -> settled ps id r o \/ exists a d, in_force p l a /\ wants re_match cfg l d /\ In d (sa_sources a) /\ In id (sa_dests a).
Proof.
  intros R H C F K BW FO re_ok cfg SN. cbv zeta. destruct (reached_config _ _ _ _ _ R) as (P1 & P2 & P3). destruct (reached_run _ _ _ _ _ R) as (ops & ess & A & G & CO). rewrite <- P3. rewrite <- P2 in SN. split.
  - destruct (run_return re_match re_replace to_i32 sha f64 _ _ _ _ _ _ _ _ _ A C _ _ _ _ _ (CO (keeps_coherent _ _ K)) H) as (_ & X). destruct (X eq_refl) as (es1 & -> & _). apply in_or_app. right. now left.
  - intros id r o HW. exact (run_settled re_match re_replace to_i32 sha f64 _ _ _ _ _ _ _ _ _ A C _ _ _ _ _ _ _ _ _ F (G K) BW FO SN H HW).
Qed.
Lemma saved_log c0 cs fon won p lg v p' ps y : reached c0 cs fon won p -> slog p lg true v = Some (p', ps) -> coherent (k_update c0) -> file_fits (conts c0) file -> keeps_buffers (conts c0) cs -> buffers_work v ->
  forall re_ok cfg, selector_new re_ok cfg = Some (u_selector (k_update (last cs c0))) -> p_engine p = On y -> v_torn v = false ->
  exists y', p_engine p' = On y' /\ e_dirty (y_engine y') = false /\ (y_file y' = Some (state_optimized (y_engine y')) \/ y_file y' = y_file y).
Proof.
  intros R H C F K BW re_ok cfg SN EY T. destruct (reached_config _ _ _ _ _ R) as (P1 & P2 & P3). destruct (reached_run _ _ _ _ _ R) as (ops & ess & A & G & CO). rewrite <- P2 in SN.
  destruct (new_saved re_match re_replace to_i32 sha f64 _ _ _ _ _ _ _ _ _ _ _ _ _ _ _ _ A C F (G K) BW SN H EY T) as (y' & Y1 & Y2 & Y3). exists y'. splits; auto. destruct Y3 as [Y3|[Y3 _] ]; auto.
Qed.

(** ** Blocking logs *)
Lemma outcome_in (e : list sevent) k : In k (outcomes e) -> (exists lg h, In (Wrote k lg h) e) \/ (exists lg h, In (WroteInternal k lg h) e) \/ In (Failed k) e.
Proof.
  induction e as [|x e IH]; [intros []|]. assert (M : In k (outcomes e) -> (exists lg h, In (Wrote k lg h) (x :: e)) \/ (exists lg h, In (WroteInternal k lg h) (x :: e)) \/ In (Failed k) (x :: e)).
  { intros H. destruct (IH H) as [(lg & h & A)|[(lg & h & A)|A] ]; [left|right; left|right; right]; try (exists lg, h); now right. }
  destruct x; cbn [outcomes]; auto; intros [<-|H]; auto; [left|right; left|right; right]; try (do 2 eexists); now left.
Qed.
Lemma wrote_in (ie : list sevent) k' internal' lg' h' w k lg h : In (Wrote k lg h) (ie ++ wrote_event env effect k' internal' lg' h' :: ret env effect k' w) -> (forall x, In x ie -> (exists c, x = Guarded c) \/ (exists k w a, x = Called k (CFlush w) a)) ->
  k = k' /\ internal' = false /\ lg = lg' /\ h = h'.
Proof.
  intros H X. apply in_app_or in H as [H|[H|H] ]; [destruct (X _ H) as [(c & E)|(j & b & a & E)]; discriminate| |destruct w; [destruct H as [H|[] ]; discriminate|destruct H] ]. destruct internal'; inv H. auto.
Qed.
Lemma wrote_at mc ms now s0 l1 b1 e1 t b2 es k lg ps ln : srun (buf_new mc ms now s0) l1 = Some (b1, e1) -> sstep b1 (Take t) = Some (b2, es) -> In (Wrote k lg (Piped ps)) es ->
  In (Taken k (CLog ln true) t) es -> exists p p', b_state b1 = Ready p /\ slog p lg true (t_pipe t) = Some (p', ps) /\ b_state b2 = Ready p'.
Proof.
  intros R S HW HT. unfold sdk_step in S. apply step_out in S. inversion S; subst; clear S; try (cbn in HW; intuition discriminate); [|destruct has_stats; cbn in HW; intuition discriminate].
  assert (TW : w = true /\ ms_id m = k).
  { destruct HT as [HT|HT]; [inv HT; auto|]. exfalso. apply in_app_or in HT as [HT|HT]; [destruct shot; [destruct HT as [HT|[] ]; discriminate|destruct HT]|].
    match goal with X : pout _ _ _ _ _ _ _ _ _ _ _ _ _ _ _ |- _ => rename X into PO end. inversion PO; subst.
    all: match goal with X : inner _ _ _ _ _ = (_, ?ee, _) |- _ => apply (inner_shape _ _ _ threshold show_time has_stats) in X as (qq & SH); pose proof (is_events _ _ _ _ _ _ _ _ SH) as EV end.
    all: apply in_app_or in HT as [HT|[HT|HT] ]; [destruct (EV _ HT) as [(c & E)|(j & b & a & E)]; discriminate|try discriminate; try (destruct internal; discriminate)|].
    - apply in_app_or in HT as [HT|HT]; [destruct w; [destruct HT as [HT|[] ]; discriminate|destruct HT]|]. unfold gone in HT. cbn [snd] in HT. apply in_app_or in HT as [HT|HT]; [match type of HT with context [b_place ?z] => destruct (b_place z) as [|? []|? []|] end; cbn in HT; intuition discriminate|].
      unfold release in HT. apply in_map_iff in HT as (mm & E & _). discriminate.
    - destruct w; [destruct HT as [HT|[] ]; discriminate|destruct HT].
    - destruct w; [destruct HT as [HT|[] ]; discriminate|destruct HT]. }
  destruct TW as (-> & <-). destruct HW as [HW|HW]; [discriminate|]. apply in_app_or in HW as [HW|HW]; [destruct shot; [destruct HW as [HW|[] ]; discriminate|destruct HW]|].
  match goal with X : pout _ _ _ _ _ _ _ _ _ _ _ _ _ _ _ |- _ => rename X into PO end. inversion PO; subst.
  all: match goal with X : inner _ _ _ _ _ = (_, ?ee, _) |- _ => assert (IG := inner_given _ _ _ _ _ X); apply (inner_shape _ _ _ threshold show_time has_stats) in X as (qq & SH); pose proof (is_events _ _ _ _ _ _ _ _ SH) as EV end.
  - exfalso. apply in_app_or in HW as [HW|[HW|HW] ]; [destruct (EV _ HW) as [(c & E)|(j & b & a & E)]; discriminate|discriminate|]. apply in_app_or in HW as [HW|HW]; [destruct HW as [HW|[] ]; discriminate|].
    unfold gone in HW. cbn [snd] in HW. apply in_app_or in HW as [HW|HW]; [match type of HW with context [b_place ?z] => destruct (b_place z) as [|? []|? []|] end; cbn in HW; intuition discriminate|]. unfold release in HW. apply in_map_iff in HW as (mm & E & _). discriminate.
  - exfalso. apply in_app_or in HW as [HW|[HW|HW] ]; [destruct (EV _ HW) as [(c & E)|(j & b & a & E)]; discriminate|discriminate|]. destruct HW as [HW|[] ]; discriminate.
  - apply wrote_in in HW; auto. destruct HW as (_ & -> & <- & <-). destruct IG as (_ & _ & G3 & _). cbn [b_state with_icept with_queue] in G3.
    match goal with X : write_log _ _ _ _ _ _ _ _ _ = _ |- _ => unfold write_log in X; cbn [b_state with_session] in X; rewrite G3 in X; rename X into WL end. destruct (b_state b1) as [q1|p]; [destruct (PreConfig_Model.push size q1 lg) as [q2 [] ]; inv WL|].
    cbn [andb negb] in WL. destruct (slog p lg true (t_pipe t)) as [[p' ps']|] eqn:EL; [|discriminate]. inv WL. exists p, p'. auto.
Qed.
Lemma wrote_taken b1 x b2 es k lg h : sstep b1 x = Some (b2, es) -> In (Wrote k lg h) es -> exists t l w, x = Take t /\ In (Taken k (CLog l w) t) es.
Proof.
  intros S HW. unfold sdk_step in S. apply step_out in S.
  assert (GN : forall bb : buf, ~ In (Wrote k lg h) (snd (gone pipe env effect bb))).
  { intros bb H. unfold gone in H. cbn [snd] in H. apply in_app_or in H as [H|H]; [destruct (b_place bb) as [|? []|? []|]; cbn in H; intuition discriminate|]. unfold release in H. apply in_map_iff in H as (mm & E & _). discriminate. }
  inversion S; subst; clear S; try (cbn [In] in HW; intuition discriminate); try (destruct HW as [HW|HW]; [discriminate|destruct (GN _ HW)]); try (destruct (GN _ HW)).
  - match goal with X : forall x, In x es -> _ |- _ => destruct (X _ HW) as (l0 & es0 & E); discriminate end.
  - destruct HW as [HW|HW]; [discriminate|]. apply in_app_or in HW as [HW|HW]; [destruct shot; [destruct HW as [HW|[] ]; discriminate|destruct HW]|].
    match goal with X : pout _ _ _ _ _ _ _ _ _ _ _ _ _ _ _ |- _ => rename X into PO end. inversion PO; subst.
    all: match goal with X : inner _ _ _ _ _ = (_, ?ee, _) |- _ => apply (inner_shape _ _ _ threshold show_time has_stats) in X as (qq & SH); pose proof (is_events _ _ _ _ _ _ _ _ SH) as EV end.
    + exfalso. apply in_app_or in HW as [HW|[HW|HW] ]; [destruct (EV _ HW) as [(c & E)|(j & b & a & E)]; discriminate|discriminate|]. apply in_app_or in HW as [HW|HW]; [destruct w; [destruct HW as [HW|[] ]; discriminate|destruct HW]|destruct (GN _ HW)].
    + exfalso. apply in_app_or in HW as [HW|[HW|HW] ]; [destruct (EV _ HW) as [(c & E)|(j & b & a & E)]; discriminate|discriminate|]. destruct w; [destruct HW as [HW|[] ]; discriminate|destruct HW].
    + apply wrote_in in HW; auto. destruct HW as (-> & _). exists t, l, w. split; auto. now left.
  - destruct has_stats; cbn [In] in HW; intuition discriminate.
  - destruct w; cbn [ret In] in HW; intuition discriminate.
  - destruct w; cbn [ret In] in HW; intuition discriminate.
Qed.
Lemma in_taken (e : list sevent) k c t : In (Taken k c t) e -> In (k, c) (taken e).
Proof. induction e as [|x e IH]; [intros []|]. intros [->|H]; [now left|]. destruct x; cbn [taken]; auto. right. auto. Qed.
Lemma returned_blocking mc ms now s0 ls b e k ln : srun (buf_new mc ms now s0) ls = Some (b, e) -> ~ ended ls e -> In (Called k (CLog ln true) Accepted) e -> In (Returned k) e ->
  In (Failed k) e \/ (exists lg h, In (WroteInternal k lg h) e) \/ exists lg h l1 t l2 b1 e1 b2 es, In (Wrote k lg h) e /\ ls = l1 ++ Take t :: l2 /\ srun (buf_new mc ms now s0) l1 = Some (b1, e1) /\ sstep b1 (Take t) = Some (b2, es) /\ In (Wrote k lg h) es /\ In (Taken k (CLog ln true) t) es.
Proof.
  intros R NE HC HR. destruct (not_before _ _ _ _ _ _ _ _ _ _ _ _ _ _ _ _ _ _ _ _ _ _ _ R HR) as [E|(c & t & HT & HM)]; [contradiction|].
  pose proof (finv_run _ _ _ _ _ _ _ _ _ _ _ _ _ _ _ _ _ _ _ _ _ _ R) as FI. pose proof (fi_sorted _ _ _ _ _ _ FI) as SO. destruct (fi_rest _ _ _ _ _ _ FI) as (rest & R1 & _).
  assert (U : forall c' t', In (Taken k c' t') e -> c' = CLog ln true).
  { intros c' t' H. apply in_taken in H. apply accepted_in in HC. assert (X : In (k, c') (accepted e)) by (rewrite R1; apply in_or_app; auto). eapply sorted_unique; eauto. }
  assert (C := U _ _ HT). subst c. destruct HM as (_ & HO). destruct (outcome_in _ _ HO) as [(lg & h & W)|[W|W] ]; auto. right. right.
  destruct (run_in _ _ _ _ _ _ _ _ _ _ _ _ _ _ _ _ _ _ _ _ R W) as (l1 & y & l2 & b1 & e1 & b2 & es & e2 & -> & A1 & A2 & A3 & _ & ->). destruct (wrote_taken _ _ _ _ _ _ _ A2 A3) as (t0 & l0 & w0 & -> & HT0).
  assert (Y : CLog l0 w0 = CLog ln true) by (apply (U _ t0); apply in_or_app; right; apply in_or_app; auto). rewrite Y in HT0. exists lg, h, l1, t0, l2, b1, e1, b2, es. splits; auto.
Qed.
End Sdk.
