(** Negotiation of flush actions. *)
From Verif Require Import Base Str_Base Log_Model LogMatcher_Model BufferMatcher_Model Workflow_Model Workflow_Spec Workflow_Proofs WorkflowEngine_Model WorkflowEngine_Spec WorkflowEngine_Proofs WorkflowRestore_Proofs WorkflowEqual_Proofs WorkflowActions_Proofs.
Local Open Scope string_scope. Local Open Scope list_scope. Local Open Scope Z_scope.

Lemma NoDup_map_inj {A B} (f : A -> B) l x y : NoDup (map f l) -> In x l -> In y l -> f x = f y -> x = y.
Proof.
  induction l as [|a l IH]; intros N Hx Hy E; [destruct Hx|]. cbn [map] in N. apply NoDup_cons_iff in N as [N1 N2]. destruct Hx as [<-|Hx], Hy as [<-|Hy]; auto.
  - exfalso. apply N1. rewrite E. apply in_map. auto.
  - exfalso. apply N1. rewrite <- E. apply in_map. auto.
Qed.
Lemma NoDup_app_iff {A} (l m : list A) : NoDup (l ++ m) <-> NoDup l /\ NoDup m /\ (forall x, In x l -> ~ In x m).
Proof.
  induction l as [|a l IH]; cbn [app].
  - split; [intros H; splits; auto; constructor|tauto].
  - rewrite !NoDup_cons_iff, IH, in_app_iff. cbn [In]. split.
    + intros (H1 & H2 & H3 & H4). splits; auto. intros x [<-|Hx]; auto.
    + intros ((H1 & H2) & H3 & H4). splits; auto. intros [X|X]; auto. apply (H4 a); auto.
Qed.
Lemma insert_in {A} dec (x y : A) l : In y (insert dec x l) <-> y = x \/ In y l.
Proof. unfold insert. destruct (in_dec dec x l); [split; [auto|intros [->|X]; auto]|]. rewrite in_app_iff. cbn [In]. intuition. Qed.
Lemma fold_insert {A} dec : forall (m l : list A), NoDup (l ++ m) -> fold_left (fun s x => insert dec x s) m l = l ++ m.
Proof.
  induction m as [|x m IH]; intros l N; cbn [fold_left]; [rewrite app_nil_r; auto|].
  unfold insert at 2. destruct (in_dec dec x l) as [I|I]; [exfalso; apply NoDup_app_iff in N as (_ & _ & N); apply (N x I); now left|].
  rewrite IH; rewrite <- app_assoc; auto.
Qed.
Lemma dedup_nodup {A} dec (l : list A) : NoDup l -> dedup dec l = l.
Proof. intros N. unfold dedup. rewrite fold_insert; auto. Qed.
Lemma NoDup_of_map {A B} (f : A -> B) l : NoDup (map f l) -> NoDup l.
Proof. induction l as [|a l IH]; cbn [map]; intros N; [constructor|]. apply NoDup_cons_iff in N as [N1 N2]. constructor; auto. intros X. apply N1. apply in_map. auto. Qed.
Lemma catSomes_ids {A B} (g : A -> B) (f : A -> option A) l : (forall x y, f x = Some y -> g y = g x) -> NoDup (map g l) -> NoDup (map g (catSomes (map f l))) /\ (forall y, In y (catSomes (map f l)) -> exists x, In x l /\ f x = Some y).
Proof.
  intros E. induction l as [|a l IH]; intros N; cbn [map catSomes]; [split; [constructor|intros y []]|]. cbn [map] in N. apply NoDup_cons_iff in N as [N1 N2]. destruct (IH N2) as [I1 I2]. destruct (f a) as [b|] eqn:EF.
  - split.
    + cbn [map]. constructor; auto. intros X. apply N1. apply in_map_iff in X as (y & Y1 & Y2). destruct (I2 y Y2) as (x & X1 & X2). rewrite <- (E _ _ EF), <- Y1, (E _ _ X2). apply in_map. auto.
    + intros y [<-|Hy]; [exists a; split; [now left|auto]|]. destruct (I2 y Hy) as (x & X1 & X2). exists x. split; [now right|auto].
  - split; auto. intros y Hy. destruct (I2 y Hy) as (x & X1 & X2). exists x. split; [now right|auto].
Qed.
Lemma filter_all {A} (f : A -> bool) l : (forall x, In x l -> f x = true) -> filter f l = l.
Proof. induction l as [|a l IH]; intros H; cbn [List.filter]; auto. rewrite (H a) by now left. rewrite IH; auto. intros. apply H. now right. Qed.
Lemma inter_incl a b : incl a b -> inter a b = a.
Proof. intros H. apply filter_all. intros x Hx. apply mem_in. auto. Qed.

Section Negotiation.
Variables (re_match : string -> string -> bool) (to_i32 : string -> option Z) (sha : string -> string) (f64 : string -> option Z).
Notation t_process := (t_process re_match to_i32 sha).
Notation w_process := (w_process re_match to_i32 sha).
Notation all_process := (all_process re_match to_i32 sha).
Notation process_log := (process_log re_match to_i32 sha f64).
Notation step := (step re_match to_i32 sha f64).
Notation run_ops := (run_ops re_match to_i32 sha f64).

(** * The actions that are triggered are actions of the definitions *)
Definition from_config (c : config) (x : triggered) : Prop := match x with TFlush a => In a (flushes c) | _ => True end.
Lemma flushes_in c s tr a : In s (c_states c) -> In tr (s_transitions s) -> In (AFlush a) (tr_actions tr) -> In a (flushes c).
Proof. intros H1 H2 H3. unfold flushes. apply in_flat_map. exists s. split; auto. apply in_flat_map. exists tr. split; auto. apply in_flat_map. exists (AFlush a). split; auto. now left. Qed.
Lemma t_process_from c l t t' res : well_formed c -> fits c t -> t_process c l t = Some (t', res) -> fits c t' /\ Forall (fits c) (res_out res) /\ Forall (from_config c) (res_actions res).
Proof.
  intros W F H. destruct (t_step re_match to_i32 sha c l t W F) as (t2 & res2 & E & F1 & F2 & _). rewrite H in E. injection E as <- <-. splits; auto. clear F1 F2.
  destruct F as (s & Hs & Hl). rewrite (t_process_spec re_match to_i32 sha c l t s W Hs Hl) in H. injection H as <- <-. cbn [res_actions].
  apply Forall_forall. intros x Hx. apply in_flat_map in Hx as (tr & Ht & Hx). assert (T : In tr (s_transitions s)).
  { unfold fired in Ht. apply in_map_iff in Ht as ((tr' & n) & <- & Ht). apply filter_In in Ht as [Ht _]. apply in_combine_l in Ht. exact Ht. }
  destruct x; cbn [from_config]; auto. unfold acts_of in Hx. eapply flushes_in; eauto; [eapply nth_error_In; eauto|]. eapply (triggered_plain sha _ _ (AFlush a) (TFlush a)); eauto.
Qed.
Lemma all_process_from cs l limit : Forall well_formed cs -> forall l1 l2, Forall2 (matched_up cs fits_runs) l1 l2 -> forall cur d ws cur' b acts, all_process l (combine l1 l2) cur limit d = Some (ws, cur', b, acts) ->
  forall a, In (TFlush a) acts -> exists c, In c cs /\ In a (flushes c).
Proof.
  intros W. induction 1 as [|c w l1 l2 (H1 & H2 & H3) _ IH]; intros cur d ws cur' b acts H a Ha; cbn [combine WorkflowEngine_Model.all_process] in H; [inv H; destruct Ha|].
  destruct (w_process c l w cur limit) as [ [ [w' cur1] r]|] eqn:EW; [|discriminate]. cbv zeta in H. destruct (all_process l (combine l1 l2) cur1 limit _) as [ [ [ [ws2 cur2] b2] acts2]|] eqn:EA; [|discriminate]. inv H.
  apply in_app_or in Ha as [Ha|Ha]; [|eapply IH; eauto]. rewrite Forall_forall in W. exists c. split; auto.
  assert (X : Forall (from_config c) (wr_actions r)).
  { eapply (w_process_inv re_match to_i32 sha c l (fits c) (from_config c)); [| |exact H3|exact EW].
    - intros t t' res Ft Hp. eapply t_process_from; eauto.
    - intros t Ht. unfold traversal_new in Ht. destruct (nth_error (c_states c) 0) as [s|] eqn:E; [|discriminate]. destruct (s_transitions s) as [|tr trs] eqn:ET; [discriminate|]. inv Ht. exists s. cbn [t_state t_counts]. split; [auto|rewrite ET; exact (repeat_length _ (List.length (tr :: trs)))]. }
  rewrite Forall_forall in X. exact (X _ Ha).
Qed.

(** * The actions created at a log *)
Lemma pending_new_triggers a s t c p : pending_new a s t c = Some p -> pa_id p = af_id a /\ pa_session p = s /\ incl (pa_triggers p) t /\ pa_triggers p <> [].
Proof.
  unfold pending_new. destruct (af_buffers a) as [|b bs].
  - destruct t; intros H; inv H. cbn. splits; auto; [apply incl_refl|discriminate].
  - destruct (filter (fun x => mem x t) (b :: bs)) as [|x xs] eqn:EF; intros H; inv H. cbn [pa_id pa_triggers pa_session]. splits; auto; [|discriminate]. intros y Hy. rewrite <- EF in Hy. apply filter_In in Hy as [_ Hy]. apply mem_in. auto.
Qed.
Lemma flush_loop_created session triggers conts pend strm : forall acts cr ids bufs cr' ids' bufs' (S : action_flush -> Prop), flush_loop session triggers conts pend strm acts cr ids bufs = (cr', ids', bufs') ->
  (forall a, In a acts -> S a) -> (forall a a', S a -> S a' -> af_id a = af_id a' -> a = a') ->
  let ok l := NoDup (map pa_id l) /\ forall p, In p l -> (exists a, S a /\ pending_new a session triggers conts = Some p) /\ (forall q, In q pend -> pa_id q <> pa_id p) /\ (forall q, In q strm -> sa_id q <> pa_id p) in
  ok cr -> ok cr'.
Proof.
  induction acts as [|a acts IH]; intros cr ids bufs cr' ids' bufs' S H A U; cbv zeta; intros [N F]; cbn [flush_loop] in H; [inv H; auto|].
  assert (A' : forall a, In a acts -> S a) by (intros; apply A; now right). destruct (pending_new a session triggers conts) as [p|] eqn:EP; [|eapply IH; eauto]. destruct (_ || _) eqn:EX; [eapply IH; eauto|].
  eapply IH; [exact H|exact A'|exact U|]. apply orb_false_iff in EX as [EX1 EX2].
  assert (FP : (exists a, S a /\ pending_new a session triggers conts = Some p) /\ (forall q, In q pend -> pa_id q <> pa_id p) /\ (forall q, In q strm -> sa_id q <> pa_id p)).
  { splits; [exists a; split; [apply A; now left|auto]| |]; intros q Hq E.
    - assert (existsb (fun q => String.eqb (pa_id q) (pa_id p)) pend = true) by (apply existsb_exists; exists q; split; [auto|apply String.eqb_eq; auto]). congruence.
    - assert (existsb (fun q => String.eqb (sa_id q) (pa_id p)) strm = true) by (apply existsb_exists; exists q; split; [auto|apply String.eqb_eq; auto]). congruence. }
  unfold insert. destruct (in_dec pending_dec p cr) as [I|I]; [split; auto|]. split.
  - rewrite map_app. apply NoDup_app_iff. splits; auto; [cbn; constructor; [auto|constructor]|]. intros x Hx [<-|[] ]. apply in_map_iff in Hx as (q & E & Hq). destruct (F q Hq) as [(a' & S' & P') _]. destruct FP as [(a2 & S2 & P2) _].
    destruct (pending_new_triggers _ _ _ _ _ P') as [I1 _]. destruct (pending_new_triggers _ _ _ _ _ P2) as [I2 _]. assert (a' = a2) by (apply U; auto; congruence). subst a2. apply I. assert (p = q) by congruence. subst. auto.
  - intros q Hq. apply in_app_or in Hq as [Hq|[<-|[] ] ]; auto.
Qed.

(** * The invariant *)
Record orders (y : system) : Prop := {
  o_nodup : NoDup (map pa_id (e_pending (y_engine y)));
  o_incl : incl (negotiated y) (e_pending (y_engine y));
  o_once : NoDup (map pa_id (negotiated y));
  o_apart : forall p s, In p (e_pending (y_engine y)) -> In s (e_streaming (y_engine y)) -> pa_id p <> sa_id s;
  o_known : forall p, In p (e_pending (y_engine y)) -> incl (pa_triggers p) (e_triggers (y_engine y)) /\ pa_triggers p <> [];
  o_file : match y_file y with Some s => NoDup (map pa_id (sv_pending s)) /\ (forall p q, In p (sv_pending s) -> In q (sv_streaming s) -> pa_id p <> sa_id q) | None => True end }.

Lemma standardize_pending_ok t l : NoDup (map pa_id l) -> let l' := standardize_pending t l in
  NoDup (map pa_id l') /\ (forall p, In p l' -> incl (pa_triggers p) t /\ pa_triggers p <> [] /\ exists q, In q l /\ pa_id q = pa_id p) /\
  ((forall p, In p l -> incl (pa_triggers p) t /\ pa_triggers p <> []) -> l' = l).
Proof.
  intros N. cbv zeta. unfold standardize_pending. set (f := fun p => match inter (pa_triggers p) t with [] => None | t' => Some (mkPending (pa_id p) (pa_session p) t' (pa_streaming p)) end).
  assert (E : forall x y, f x = Some y -> pa_id y = pa_id x) by (intros x y; unfold f; destruct (inter _ _); intros H; inv H; auto).
  destruct (catSomes_ids pa_id f l E N) as [C1 C2]. rewrite dedup_nodup by (eapply NoDup_of_map; eauto). splits; auto.
  - intros p Hp. destruct (C2 p Hp) as (x & X1 & X2). assert (EI := E _ _ X2). unfold f in X2. destruct (inter (pa_triggers x) t) as [|i is] eqn:EX; inv X2. cbn [pa_triggers pa_id] in *. splits; eauto; [|discriminate].
    rewrite <- EX. intros z Hz. apply inter_in in Hz. tauto.
  - intros K. clear C1 C2 E N. induction l as [|a l IH]; cbn [map catSomes]; auto. destruct (K a (or_introl eq_refl)) as [K1 K2]. unfold f at 1. rewrite (inter_incl _ _ K1). destruct a as [i s tr st]. cbn [pa_triggers pa_id pa_session pa_streaming] in *. destruct tr; [congruence|].
    rewrite IH; auto. intros p Hp. apply K. now right.
Qed.
Lemma standardize_streaming_ids t c l s : In s (standardize_streaming t c l) -> exists s0, In s0 l /\ sa_id s0 = sa_id s.
Proof.
  unfold standardize_streaming. intros H. apply catSomes_in in H. apply in_map_iff in H as (s0 & E & H). exists s0. split; auto. destruct (inter (sa_sources s0) t); [discriminate|]. destruct (inter (sa_dests s0) c); [discriminate|]. inv E. reflexivity.
Qed.
Lemma firstn_incl {A} n (l : list A) x : In x (firstn n l) -> In x l.
Proof. intros H. rewrite <- (firstn_skipn n l). apply in_or_app. auto. Qed.
Lemma firstn_nodup {A B} (f : A -> B) n l : NoDup (map f l) -> NoDup (map f (firstn n l)).
Proof. rewrite <- (firstn_skipn n l) at 1. rewrite map_app. intros H. apply NoDup_app_iff in H. tauto. Qed.
Lemma try_send_prefix {A} cap (q l : list A) : exists k, try_send_all cap q l = q ++ firstn k l.
Proof. unfold try_send_all. rewrite firstn_app. exists (Nat.max cap (List.length q) - List.length q)%nat. f_equal. apply firstn_all2. lia. Qed.

Lemma start_orders limit g file : match file with Some s => NoDup (map pa_id (sv_pending s)) /\ (forall p q, In p (sv_pending s) -> In q (sv_streaming s) -> pa_id p <> sa_id q) | None => True end ->
  orders (mkSystem (start (engine_new limit) g file) [] [] [] file).
Proof.
  intros F. destruct (start_actions limit g file) as (S1 & S2 & S3 & S4 & S5). cbv zeta in *.
  assert (X : NoDup (map pa_id (e_pending (start (engine_new limit) g file))) /\ (forall p s, In p (e_pending (start (engine_new limit) g file)) -> In s (e_streaming (start (engine_new limit) g file)) -> pa_id p <> sa_id s) /\
              (forall p, In p (e_pending (start (engine_new limit) g file)) -> incl (pa_triggers p) (g_triggers g) /\ pa_triggers p <> [])).
  { rewrite S3, S4. destruct file as [s|]; [|splits; [constructor|intros p q [] |intros p [] ] ]. destruct F as [F1 F2]. destruct (standardize_pending_ok (g_triggers g) _ F1) as (P1 & P2 & _). cbv zeta in *. splits; auto.
    - intros p q Hp Hq. destruct (P2 p Hp) as (_ & _ & p0 & H1 & <-). destruct (standardize_streaming_ids _ _ _ _ Hq) as (q0 & H2 & <-). auto.
    - intros p Hp. destruct (P2 p Hp) as (Q1 & Q2 & _). auto. }
  destruct X as (X1 & X2 & X3). constructor; cbn [y_engine y_file]; auto.
  - unfold negotiated. cbn [y_engine y_outputs map]. rewrite app_nil_r, S5. intros x Hx. eapply firstn_incl; eauto.
  - unfold negotiated. cbn [y_engine y_outputs map]. rewrite app_nil_r, S5. apply firstn_nodup. auto.
  - rewrite S2. auto.
Qed.

Lemma remove_in_iff p q l : In q (remove pending_dec p l) <-> In q l /\ q <> p.
Proof. split; [apply in_remove|intros [H1 H2]; apply in_in_remove; auto]. Qed.
Lemma remove_nodup p l : NoDup (map pa_id l) -> NoDup (map pa_id (remove pending_dec p l)).
Proof.
  induction l as [|a l IH]; intros N; cbn [remove]; auto. cbn [map] in N. apply NoDup_cons_iff in N as [N1 N2]. destruct (pending_dec p a); auto. cbn [map]. constructor; auto. intros X. apply N1. apply in_map_iff in X as (x & <- & X). apply remove_in_iff in X. apply in_map. tauto.
Qed.

Lemma step_orders cs y o y' ev : Forall well_formed cs -> unique_flushes cs -> good cs fits_runs (y_engine y) -> (forall g, o = Update g -> g_triggers g = e_triggers (y_engine y)) -> orders y -> step y o = Some (y', ev) ->
  orders y' /\ e_triggers (y_engine y') = match o with Restart g _ => g_triggers g | _ => e_triggers (y_engine y) end.
Proof.
  intros W UF G T I H. destruct o; cbn [WorkflowEngine_Model.step] in H.
  - destruct (process_log _ _ _ _) as [[e' r]|] eqn:E; [|discriminate]. inv H. rewrite process_log_finish in E. cbv zeta in E. apply (enter_good cs fits_runs (fun _ _ => Forall_nil _) (y_engine y) l) in G.
    destruct (enter_fixed (y_engine y) l) as (E1 & E2 & E3 & E4 & E5 & E6 & E7 & E8 & E9 & E10). cbv zeta in *. set (e1 := enter_session (y_engine y) l) in *. clearbody e1. destruct I as [I1 I2 I3 I4 I5 I6]. unfold negotiated in I2, I3.
    destruct (e_workflows e1) eqn:EW.
    + inv E. split; [constructor; unfold negotiated; cbn [y_engine y_outputs y_file]; rewrite ?E2, ?E3, ?E4, ?E5; auto|auto].
    + rewrite <- EW in E. destruct (all_process l _ _ _ _) as [ [ [ [ws cur] b] acts]|] eqn:EA; [|discriminate]. injection E as E.
      assert (FA : forall a, In a (flushes_of acts) -> exists c, In c cs /\ In a (flushes c)).
      { intros a Ha. eapply (all_process_from cs l _ W _ _ G); [exact EA|]. unfold flushes_of in Ha. assert (X : forall l s a, In a (fold_left (fun s x => insert action_flush_dec x s) l s) -> In a l \/ In a s).
        { clear. induction l as [|x l IH]; intros s a H; cbn [fold_left] in H; auto. apply IH in H as [H|H]; [left; now right|]. apply insert_in in H as [->|H]; [left; now left|auto]. }
        unfold dedup in Ha. apply X in Ha as [Ha|[] ]. apply in_flat_map in Ha as (x & X1 & X2). destruct x; try destruct X2. subst. auto. destruct H. }
      unfold finish in E. cbv zeta in E. cbn [set_workflows e_configs e_triggers e_conts e_session e_streaming e_pending e_dirty e_input] in E.
      unfold process_streaming in E. destruct (route_loop _ _ _ _ _) as [ [ [strm final] rest] rr] eqn:ER. destruct (process_flush_actions _ _ _ _ _ _) as [ [created ids] bufs] eqn:EF. injection E as <- <-.
      cbn [y_engine set_actions set_workflows e_triggers]. split; [|auto].
      apply route_loop_spec in ER as (R1 & _ & _).
      assert (SI : forall s, In s strm -> exists s0, In s0 (e_streaming (y_engine y)) /\ sa_id s0 = sa_id s).
      { intros s Hs. rewrite R1 in Hs. apply in_map_iff in Hs as (s0 & <- & Hs). apply in_map_iff in Hs as ((s1 & bb) & <- & Hs). apply filter_In in Hs as [Hs _]. apply in_map_iff in Hs as (s2 & E & Hs). injection E as <- <-. rewrite E2 in Hs. exists s2. split; auto. cbn [fst]. destruct (routesb s2 dests); auto. }
      unfold process_flush_actions in EF. eapply flush_loop_created with (S := fun a => exists c, In c cs /\ In a (flushes c)) in EF; [|exact FA| |split; [constructor|intros p [] ] ].
      2: { intros a a' (c & C1 & C2) (c' & C1' & C2'). eauto. }
      cbv zeta in EF. destruct EF as [C1 C2]. rewrite E3, E5 in C2. 
      assert (DJ : forall x, In x (map pa_id (e_pending (y_engine y))) -> ~ In x (map pa_id created)).
      { intros x H1 H2. apply in_map_iff in H1 as (q & <- & Hq). apply in_map_iff in H2 as (p & Ep & Hp). destruct (C2 p Hp) as (_ & D & _). apply (D q Hq). auto. }
      assert (NP : NoDup (map pa_id (e_pending (y_engine y) ++ created))) by (rewrite map_app; apply NoDup_app_iff; auto).
      rewrite E3, E4. rewrite fold_insert by (eapply NoDup_of_map; eauto). destruct (try_send_prefix INPUT_CAPACITY (e_input (y_engine y)) created) as (k & TS). rewrite TS.
      constructor; unfold negotiated; cbn [y_engine y_outputs y_file e_pending e_streaming e_input e_triggers set_actions set_workflows]; auto.
      * intros x Hx. rewrite !in_app_iff in Hx. apply in_or_app. destruct Hx as [ [Hx|Hx]|Hx]; [left; apply I2; apply in_or_app; auto|right; eapply firstn_incl; eauto|left; apply I2; apply in_or_app; auto].
      * rewrite !map_app in *. apply NoDup_app_iff in I3 as (J1 & J2 & J3). apply NoDup_app_iff. splits; auto.
        -- apply NoDup_app_iff. splits; auto; [apply firstn_nodup; auto|]. intros x H1 H2. apply (DJ x); [|apply in_map_iff in H2 as (p & <- & Hp); apply in_map; eapply firstn_incl; eauto].
           apply in_map_iff in H1 as (p & <- & Hp). apply in_map. apply I2. apply in_or_app. auto.
        -- intros x H1 H2. apply in_app_or in H1 as [H1|H1]; [apply (J3 x); auto|]. apply (DJ x); [|apply in_map_iff in H1 as (p & <- & Hp); apply in_map; eapply firstn_incl; eauto].
           apply in_map_iff in H2 as (p & <- & Hp). apply in_map. apply I2. apply in_or_app. auto.
      * intros p s Hp Hs. apply in_app_or in Hp as [Hp|Hp]; [destruct (SI s Hs) as (s0 & S1 & <-); auto|]. destruct (C2 p Hp) as (_ & _ & D). intros X. apply (D s Hs). auto.
      * intros p Hp. rewrite E5. apply in_app_or in Hp as [Hp|Hp]; auto. destruct (C2 p Hp) as ((a & _ & P) & _). apply pending_new_triggers in P. tauto.
  - destruct (e_input (y_engine y)) as [|p rest] eqn:EI; [inv H; auto|]. destruct (_ <? _)%nat; [|inv H; auto]. destruct (negotiate (y_rejected y) p d) as [rej out] eqn:EN. inv H. split; [|auto].
    assert (EO : pending_of out = p) by (unfold negotiate in EN; destruct (mem _ _); [inv EN; auto|]; destruct d; inv EN; auto).
    destruct I as [I1 I2 I3 I4 I5 I6]. unfold negotiated in I2, I3. rewrite EI in I2, I3. constructor; unfold negotiated; cbn [y_engine y_outputs y_file e_pending e_streaming e_input e_triggers set_actions]; auto.
    + rewrite map_app. cbn [map]. rewrite EO. intros x Hx. apply I2. rewrite !in_app_iff in *. cbn [In] in *. tauto.
    + rewrite (map_app pending_of). cbn [map]. rewrite EO. eapply Permutation_NoDup; [|exact I3]. apply Permutation_map. cbn [app]. rewrite app_assoc. apply Permutation_cons_append.
  - destruct (y_outputs y) as [|out rest] eqn:EO; [inv H; auto|]. destruct I as [I1 I2 I3 I4 I5 I6]. unfold negotiated in I2, I3. rewrite EO in I2, I3. cbn [map] in I2, I3.
    assert (PI : In (pending_of out) (e_pending (y_engine y))) by (apply I2; apply in_or_app; right; now left).
    assert (K : forall q, In q (e_input (y_engine y) ++ map pending_of rest) -> In q (remove pending_dec (pending_of out) (e_pending (y_engine y)))).
    { intros q Hq. apply remove_in_iff. split; [apply I2; rewrite in_app_iff in *; cbn [In]; tauto|]. intros ->. rewrite map_app in I3. cbn [map] in I3. apply NoDup_remove_2 in I3. apply I3. rewrite <- map_app. apply in_map. auto. }
    assert (N3 : NoDup (map pa_id (e_input (y_engine y) ++ map pending_of rest))) by (rewrite map_app in *; cbn [map] in I3; apply NoDup_remove_1 in I3; auto).
    assert (N1 := remove_nodup (pending_of out) _ I1).
    destruct out as [p|p]; inv H; cbn [pending_of] in *.
    + destruct (approved_actions (y_engine y) p (is_done (y_done y))) as (A1 & A2 & A3 & A4 & A5). cbv zeta in *. cbn [y_engine]. split; [|auto].
      constructor; unfold negotiated; cbn [y_engine y_outputs y_file]; rewrite ?A2, ?A3, ?A4, ?A5; auto.
      * intros q s Hq Hs. apply remove_in_iff in Hq as [Hq NE]. unfold streaming_action_new in Hs. destruct (pa_streaming p) as [st|]; [|auto]. destruct (inter _ _); [auto|]. apply in_app_or in Hs as [Hs|[<-|[] ] ]; [auto|]. cbn [sa_id]. intros E. apply NE. exact (NoDup_map_inj pa_id _ _ _ I1 Hq PI E).
      * intros q Hq. apply remove_in_iff in Hq as [Hq _]. auto.
    + split; [|auto]. constructor; unfold negotiated; cbn [y_engine y_outputs y_file on_rejected set_actions e_pending e_input e_streaming e_triggers]; auto.
      * intros q s Hq Hs. apply remove_in_iff in Hq as [Hq _]. auto.
      * intros q Hq. apply remove_in_iff in Hq as [Hq _]. auto.
  - inv H. split; [destruct I; constructor; auto|auto].
  - inv H. split; [destruct I; constructor; auto|auto].
  - inv H. cbn [y_engine]. destruct (update_actions (y_engine y) g) as (U1 & U2 & U3 & U4 & U5). cbv zeta in *. specialize (T g eq_refl). split; [|rewrite U2; auto].
    destruct I as [I1 I2 I3 I4 I5 I6]. destruct (standardize_pending_ok (g_triggers g) _ I1) as (_ & _ & P3). cbv zeta in *. rewrite T in P3. specialize (P3 I5).
    constructor; unfold negotiated; cbn [y_engine y_outputs y_file]; rewrite ?U2, ?U3, ?U4, ?U5, ?T, ?P3; auto. intros p s Hp Hs. destruct (standardize_streaming_ids _ _ _ _ Hs) as (s0 & S1 & <-). auto.
  - destruct (e_dirty (y_engine y)); inv H; [|auto]. split; [|auto]. destruct I as [I1 I2 I3 I4 I5 I6]. constructor; auto. cbn [y_file]. destruct torn; auto.
  - inv H. cbn [y_engine]. split; [apply start_orders; apply I|]. destruct (start_actions limit g (y_file y)) as (_ & S2 & _). exact S2.
Qed.

(** * Executions *)
Lemma run_app : forall a b y, run_ops y (a ++ b) = match run_ops y a with Some (y1, e1) => match run_ops y1 b with Some (y2, e2) => Some (y2, e1 ++ e2) | None => None end | None => None end.
Proof.
  induction a as [|o a IH]; intros b y; cbn [app WorkflowEngine_Model.run_ops]; [destruct (run_ops y b) as [[y2 e2]|]; auto|]. destruct (step y o) as [[y1 e1]|]; auto. rewrite IH. destruct (run_ops y1 a) as [[y2 e2]|]; auto. destruct (run_ops y2 b) as [[y3 e3]|]; auto. rewrite app_assoc. auto.
Qed.
Lemma run_orders g limit ops y ev : Forall well_formed (all_given g ops) -> unique_flushes (all_given g ops) -> stable g ops -> same_triggers (g_triggers g) ops -> run_ops (system_new g limit) ops = Some (y, ev) -> orders y.
Proof.
  intros W UF ST TR H. set (cs := all_given g ops) in *.
  assert (X : forall l2 l1 y0 ev0, ops = l1 ++ l2 -> sys_good cs fits_runs (existsb is_restart ops) y0 -> orders y0 -> same_triggers (e_triggers (y_engine y0)) l2 -> run_ops y0 l2 = Some (y, ev0) -> orders y).
  { induction l2 as [|o l2 IH]; intros l1 y0 ev0 E G B T HR; cbn [WorkflowEngine_Model.run_ops] in HR; [inv HR; auto|].
    destruct (step y0 o) as [[y1 ev1]|] eqn:ES; [|discriminate]. destruct (run_ops y1 l2) as [[y2 ev2]|] eqn:ER; [|discriminate]. injection HR as -> <-.
    assert (G1 : sys_good cs fits_runs (existsb is_restart ops) y1).
    { eapply (step_good re_match to_i32 sha f64 cs fits_runs (fun _ _ _ => True)); [constructor|apply fits_prefix|intros; apply fits_filter; auto| |exact ST| | |exact G|exact ES].
      - intros c l w cur lim w' cur' res Hc F Hw. split; [|apply Forall_forall; auto]. eapply fits_step; eauto. rewrite Forall_forall in W. auto.
      - intros x Hx. unfold cs, all_given. apply in_or_app. right. rewrite E, flat_map_app. apply in_or_app. right. cbn [flat_map]. apply in_or_app. auto.
      - intros R. rewrite E, existsb_app. cbn [existsb]. rewrite R. apply orb_true_r. }
    destruct (step_orders cs y0 o y1 ev1 W UF (proj1 G)) as [B1 B2]; auto.
    { intros g0 ->. cbn [same_triggers] in T. tauto. }
    eapply (IH (l1 ++ [o]) y1 ev2); auto; [rewrite <- app_assoc; auto|]. rewrite B2. destruct o; cbn [same_triggers] in T; tauto. }
  eapply (X ops [] (system_new g limit) ev); auto.
  - split; [|cbn; auto]. cbn [system_new y_engine]. apply start_good; auto; [constructor|apply fits_prefix|]. intros x Hx. apply in_or_app. auto.
  - apply start_orders. exact I.
  - cbn [system_new y_engine]. destruct (start_actions limit g None) as (_ & S2 & _). cbv zeta in *. rewrite S2. auto.
Qed.

(** The intent of an action. *)
Lemma intent_step y d y' p : step y (Negotiate d) = Some (y', [Intent p]) ->
  exists rest out, e_input (y_engine y) = p :: rest /\ pending_of out = p /\ y_outputs y' = y_outputs y ++ [out] /\ mem (pa_id p) (y_rejected y) = false /\ e_pending (y_engine y') = e_pending (y_engine y) /\ e_streaming (y_engine y') = e_streaming (y_engine y) /\
  (d = Upload -> out = Approved p) /\ (d <> Upload -> out = Rejected p) /\ (d = Drop -> mem (pa_id p) (y_rejected y') = true).
Proof.
  cbn [WorkflowEngine_Model.step]. destruct (e_input (y_engine y)) as [|q rest]; [discriminate|]. destruct (_ <? _)%nat; [|discriminate]. unfold negotiate. destruct (mem (pa_id q) (y_rejected y)) eqn:EM; [intros H; inv H|].
  assert (M : mem (pa_id q) (set_insert (pa_id q) (y_rejected y)) = true) by (apply mem_in; apply (Matcher_Proofs.set_insert_in (fun _ => true) (fun _ _ => true) (fun _ => None)); auto).
  destruct d; intros H; inv H; exists rest; eexists; cbn [y_outputs y_engine y_rejected set_actions e_pending e_streaming]; splits; try reflexivity; auto; try discriminate; try congruence.
Qed.
Lemma intent_fresh y d y' p : orders y -> step y (Negotiate d) = Some (y', [Intent p]) ->
  In p (e_pending (y_engine y)) /\ (forall q, In q (e_pending (y_engine y)) -> pa_id q = pa_id p -> q = p) /\ (forall o, In o (y_outputs y) -> pa_id (pending_of o) <> pa_id p) /\
  (forall s, In s (e_streaming (y_engine y)) -> sa_id s <> pa_id p).
Proof.
  intros I H. destruct (intent_step _ _ _ _ H) as (rest & out & EI & _). destruct I as [I1 I2 I3 I4 _ _]. unfold negotiated in *. rewrite EI in I2, I3.
  assert (PI : In p (e_pending (y_engine y))) by (apply I2; now left). splits; auto.
  - intros q Hq E. exact (NoDup_map_inj pa_id _ _ _ I1 Hq PI E).
  - intros o Ho E. cbn [map app] in I3. apply NoDup_cons_iff in I3 as [I3 _]. apply I3. rewrite map_app. apply in_or_app. right. rewrite <- E. apply in_map. apply in_map. auto.
  - intros s Hs E. eapply I4; eauto.
Qed.
Lemma outputs_step y o y' ev out : is_restart o = false -> step y o = Some (y', ev) -> In out (y_outputs y) -> In out (y_outputs y') \/ (o = RunOnce /\ hd_error (y_outputs y) = Some out).
Proof.
  intros R H I. destruct o; cbn [WorkflowEngine_Model.step is_restart] in *; try discriminate.
  - destruct (process_log _ _ _ _) as [[e' r]|]; [|discriminate]. inv H. auto.
  - destruct (e_input (y_engine y)); [inv H; auto|]. destruct (_ <? _)%nat; [|inv H; auto]. destruct (negotiate _ _ _). inv H. left. cbn [y_outputs]. apply in_or_app. auto.
  - destruct (y_outputs y) as [|o' rest] eqn:EO; [destruct I|]. destruct I as [<-|I]; [right; auto|]. left. destruct o'; inv H; auto.
  - inv H; auto.
  - inv H; auto.
  - inv H; auto.
  - destruct (e_dirty _); inv H; auto.
Qed.
Lemma outputs_run out : forall ops y y' ev, existsb is_restart ops = false -> run_ops y ops = Some (y', ev) -> In out (y_outputs y) -> In out (y_outputs y') \/
  exists a b y1 ev1, ops = a ++ RunOnce :: b /\ run_ops y a = Some (y1, ev1) /\ hd_error (y_outputs y1) = Some out.
Proof.
  induction ops as [|o ops IH]; intros y y' ev R H I; cbn [WorkflowEngine_Model.run_ops existsb] in *; [inv H; auto|]. apply orb_false_iff in R as [R1 R2].
  destruct (step y o) as [[y1 ev1]|] eqn:ES; [|discriminate]. destruct (run_ops y1 ops) as [[y2 ev2]|] eqn:ER; [|discriminate]. injection H as -> <-.
  destruct (outputs_step _ _ _ _ _ R1 ES I) as [I1|[-> I1] ].
  - destruct (IH _ _ _ R2 ER I1) as [I2|(a & b & y3 & ev3 & -> & E & HD)]; auto. right. exists (o :: a), b, y3, (ev1 ++ ev3). splits; auto. cbn [WorkflowEngine_Model.run_ops]. rewrite ES, E. auto.
  - right. exists [], ops, y, []. splits; auto.
Qed.
Lemma negotiated_once g limit l1 l2 d d' y0 y1 y2 y3 ev0 ev2 p p' : let ops := l1 ++ Negotiate d :: l2 in
  Forall well_formed (all_given g ops) -> unique_flushes (all_given g ops) -> stable g ops -> same_triggers (g_triggers g) ops -> existsb is_restart l2 = false ->
  run_ops (system_new g limit) l1 = Some (y0, ev0) -> step y0 (Negotiate d) = Some (y1, [Intent p]) -> run_ops y1 l2 = Some (y2, ev2) -> step y2 (Negotiate d') = Some (y3, [Intent p']) -> pa_id p' = pa_id p ->
  exists a b y ev out, l2 = a ++ RunOnce :: b /\ run_ops y1 a = Some (y, ev) /\ hd_error (y_outputs y) = Some out /\ pending_of out = p.
Proof.
  cbv zeta. intros W U S T R H0 ES H2 H3 E. 
  assert (HR : run_ops (system_new g limit) (l1 ++ Negotiate d :: l2) = Some (y2, ev0 ++ [Intent p] ++ ev2)) by (rewrite run_app, H0; cbn [WorkflowEngine_Model.run_ops]; rewrite ES, H2; auto).
  assert (O2 := run_orders _ _ _ _ _ W U S T HR).
  destruct (intent_step _ _ _ _ ES) as (rest & out & EI & EO & OO & _).
  assert (IO : In out (y_outputs y1)) by (rewrite OO; apply in_or_app; right; now left).
  destruct (outputs_run out _ _ _ _ R H2 IO) as [I2|(a & b & y & ev & -> & RA & HD)]; [|exists a, b, y, ev, out; auto].
  exfalso. destruct (intent_fresh _ _ _ _ O2 H3) as (_ & _ & F & _). apply (F out I2). congruence.
Qed.
(** An answer that is not an approval drops the action. *)
Lemma rejected_dropped y p rest y' ev : orders y -> y_outputs y = Rejected p :: rest -> step y RunOnce = Some (y', ev) ->
  (forall q, In q (e_pending (y_engine y')) -> pa_id q <> pa_id p) /\ (forall q, In q (negotiated y') -> pa_id q <> pa_id p) /\ (forall s, In s (e_streaming (y_engine y')) -> sa_id s <> pa_id p).
Proof.
  intros I E H. cbn [WorkflowEngine_Model.step] in H. rewrite E in H. inv H. destruct I as [I1 I2 I3 I4 _ _]. unfold negotiated in *. rewrite E in *. cbn [map pending_of] in *. cbn [y_engine y_outputs on_rejected set_actions e_pending e_input e_streaming].
  assert (PI : In p (e_pending (y_engine y))) by (apply I2; apply in_or_app; right; now left). splits.
  - intros q Hq EQ. apply remove_in_iff in Hq as [Hq NE]. apply NE. exact (NoDup_map_inj pa_id _ _ _ I1 Hq PI EQ).
  - intros q Hq EQ. rewrite map_app in I3. cbn [map] in I3. apply NoDup_remove_2 in I3. apply I3. rewrite <- map_app, <- EQ. apply in_map. auto.
  - intros s Hs EQ. eapply I4; eauto.
Qed.
Lemma rejected_step y o y' ev x : is_restart o = false -> step y o = Some (y', ev) -> mem x (y_rejected y) = true -> mem x (y_rejected y') = true.
Proof.
  intros R H M. destruct o; cbn [WorkflowEngine_Model.step is_restart] in *; try discriminate; try (inv H; auto; fail).
  - destruct (process_log _ _ _ _) as [[e' r]|]; [|discriminate]. inv H. auto.
  - destruct (e_input (y_engine y)) as [|p rest]; [inv H; auto|]. destruct (_ <? _)%nat; [|inv H; auto]. unfold negotiate in H. destruct (mem (pa_id p) (y_rejected y)); [inv H; auto|]. destruct d; inv H; auto. cbn [y_rejected].
    apply mem_in. apply (Matcher_Proofs.set_insert_in (fun _ => true) (fun _ _ => true) (fun _ => None)). right. apply mem_in. auto.
  - destruct (y_outputs y) as [|[p|p] rest]; inv H; auto.
  - destruct (e_dirty _); inv H; auto.
Qed.
Lemma rejected_run x : forall ops y y' ev, existsb is_restart ops = false -> run_ops y ops = Some (y', ev) -> mem x (y_rejected y) = true -> mem x (y_rejected y') = true /\ forall p, In (Intent p) ev -> pa_id p <> x.
Proof.
  induction ops as [|o ops IH]; intros y y' ev R H M; cbn [WorkflowEngine_Model.run_ops existsb] in *; [inv H; split; auto; intros p []|]. apply orb_false_iff in R as [R1 R2].
  destruct (step y o) as [[y1 ev1]|] eqn:ES; [|discriminate]. destruct (run_ops y1 ops) as [[y2 ev2]|] eqn:ER; [|discriminate]. injection H as -> <-.
  destruct (IH _ _ _ R2 ER (rejected_step _ _ _ _ _ R1 ES M)) as [I1 I2]. split; auto. intros p Hp. apply in_app_or in Hp as [Hp|Hp]; auto. clear - ES M Hp R1. intros E.
  destruct o; cbn [WorkflowEngine_Model.step is_restart] in *; try discriminate; try (inv ES; destruct Hp; fail).
  - destruct (process_log _ _ _ _) as [[e' r]|]; [|discriminate]. inv ES. destruct Hp as [Hp|[] ]. discriminate.
  - destruct (e_input (y_engine y)) as [|q rest]; [inv ES; destruct Hp|]. destruct (_ <? _)%nat; [|inv ES; destruct Hp]. destruct (negotiate _ _ _). inv ES. destruct (mem (pa_id q) (y_rejected y)) eqn:EM; [destruct Hp|]. destruct Hp as [Hp|[] ]. inv Hp. congruence.
  - destruct (y_outputs y) as [|[q|q] rest]; inv ES; destruct Hp.
  - destruct (e_dirty _); inv ES; destruct Hp.
Qed.
End Negotiation.
