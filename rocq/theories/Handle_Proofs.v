From Verif Require Import Base Str_Base Log_Model Metadata_Model Matcher_Spec Metadata_Spec Metadata_Proofs LogBuffer_Model Handle_Model Handle_Spec KeyValue_Spec.
From Verif Require KeyValue_Model KeyValue_Proofs.
Local Open Scope string_scope. Local Open Scope list_scope.

Section Handle.
Variables (show_ms : Z -> string) (sdk_version : string) (utf8 : list Z -> bool).
Local Notation step := (step show_ms sdk_version utf8).
Local Notation run := (run show_ms sdk_version utf8).
Local Notation do_api := (do_api show_ms sdk_version utf8).

Lemma run_app : forall l1 s l2, run s (l1 ++ l2) = let (s1, e1) := run s l1 in let (s2, e2) := run s1 l2 in (s2, e1 ++ e2).
Proof.
  induction l1 as [|x l1 IH]; intros s l2; cbn [List.app Handle_Model.run].
  - destruct (run s l2); reflexivity.
  - destruct (step s x) as [s1 e1]. rewrite IH. destruct (run s1 l1) as [s2 e2]. destruct (run s2 l2) as [s3 e3]. rewrite app_assoc. reflexivity.
Qed.
Lemma run_snoc : forall l s x, run s (l ++ [x]) = (fst (step (fst (run s l)) x), snd (run s l) ++ snd (step (fst (run s l)) x)).
Proof.
  intros. rewrite run_app. destruct (run s l) as [s1 e1]. cbn. destruct (step s1 x) as [s2 e2]. cbn. rewrite app_nil_r. reflexivity.
Qed.
Lemma inside_snoc : forall t l x, inside t (l ++ [x]) =
  match x with Enter u => if Nat.eqb u t then true else inside t l | Leave u => if Nat.eqb u t then false else inside t l | Api _ _ _ => inside t l end.
Proof. intros. unfold inside. rewrite fold_left_app. reflexivity. Qed.
Lemma version_calls_app : forall a b, version_calls (a ++ b) = version_calls a ++ version_calls b.
Proof. intros. apply flat_map_app. Qed.

Lemma offer_facts : forall s t f c r, let (s', e) := offer s t f c r in
  h_guards s' = h_guards s /\ h_store s' = h_store s /\ h_session s' = h_session s /\ h_observed s' = h_observed s /\
  (forall g q, h_count s' g q = (h_count s g q + if negb (guarded s t) && (family_eqb f g && answer_eqb r q) then 1 else 0)%N) /\
  e = if guarded s t then [Refused t c] else [Sent t c r].
Proof.
  intros. unfold offer. destruct (guarded s t); cbn; repeat split; try reflexivity; intros; [lia|]. destruct (family_eqb f g && answer_eqb r q); lia.
Qed.

(** The guards held are those of the threads inside. *)
Lemma guards_step : forall s t a r, h_guards (fst (do_api s t a r)) = h_guards s.
Proof.
  intros. destruct a; cbn [Handle_Model.do_api]; unfold Handle_Model.observe; try (destruct (KeyValue_Model.has_changed _ _ _ _ _ _); reflexivity);
    try (destruct (KeyValue_Model.record _ _ _ _ _ _) as [st [p|]]; [|reflexivity]); try reflexivity;
    try (match goal with |- context [offer ?s ?t ?f ?c ?r] => pose proof (offer_facts s t f c r) as O; destruct (offer s t f c r) as [s' e]; destruct O as (O & _); exact O end).
  destruct (guarded s t); reflexivity.
Qed.
Lemma guard_inside : forall l st ss t, guarded (fst (run (handle_new st ss) l)) t = inside t l.
Proof.
  intros l st ss t. revert t. induction l as [|x l IH] using rev_ind; intros t; [reflexivity|]. rewrite run_snoc, inside_snoc. cbn [fst].
  unfold guarded in *. set (s := fst (run (handle_new st ss) l)) in *. destruct x as [u|u|u a r]; cbn [Handle_Model.step].
  - unfold guarded. rewrite IH. destruct (inside u l) eqn:E; cbn.
    + rewrite IH. destruct (Nat.eqb_spec u t); [congruence|reflexivity].
    + rewrite IH. rewrite Nat.eqb_sym. destruct (Nat.eqb u t); reflexivity.
  - cbn. rewrite <- IH. destruct (Nat.eqb_spec u t) as [->|N].
    + apply not_true_is_false. intros H. apply existsb_exists in H as (v & H & E). apply filter_In in H as [_ H]. apply Nat.eqb_eq in E. subst v. rewrite Nat.eqb_refl in H. discriminate.
    + clear IH. induction (h_guards s) as [|v g IHg]; [reflexivity|]. cbn. destruct (Nat.eqb_spec u v) as [->|M]; cbn.
      * destruct (Nat.eqb_spec t v); [congruence|exact IHg].
      * rewrite IHg. reflexivity.
  - rewrite guards_step. apply IH.
Qed.

(** The store is that of the version calls. *)
Lemma store_step : forall s x, h_store (fst (step s x)) = fst (KeyValue_Model.a_run utf8 (h_store s) (version_calls [x])).
Proof.
  intros s x. destruct x as [t|t|t a r]; cbn [Handle_Model.step].
  - destruct (guarded s t); reflexivity.
  - reflexivity.
  - destruct a; cbn [Handle_Model.do_api version_calls flat_map List.app]; unfold Handle_Model.observe; try reflexivity;
      try (match goal with |- context [offer ?s ?t ?f ?c ?r] => pose proof (offer_facts s t f c r) as O; destruct (offer s t f c r) as [s' e]; destruct O as (_ & O & _); exact O end).
    + cbn. destruct (KeyValue_Model.has_changed _ _ _ _ _ _); reflexivity.
    + cbn. destruct (KeyValue_Model.record _ _ _ _ _ _) as [st0 [p|]]; [|reflexivity].
      match goal with |- context [offer ?s ?t ?f ?c ?r] => pose proof (offer_facts s t f c r) as O; destruct (offer s t f c r) as [s' e]; destruct O as (_ & O & _) end.
      cbn [fst] in *. rewrite O. reflexivity.
    + destruct (guarded s t); reflexivity.
Qed.
Lemma store_run : forall l st ss, h_store (fst (run (handle_new st ss) l)) = fst (KeyValue_Model.a_run utf8 st (version_calls l)).
Proof.
  induction l as [|x l IH] using rev_ind; intros; [reflexivity|]. rewrite run_snoc, version_calls_app, KeyValue_Proofs.a_run_app. cbn [fst]. rewrite store_step, IH. reflexivity.
Qed.
Lemma recorded : forall l ss v x, sound utf8 (l ++ [Api 0 (AUpdate v None [] 0%Z x) Accepted]) ->
  snd (KeyValue_Model.record utf8 (h_store (fst (run (handle_new (fun _ => None) ss) l))) v (x_read x) (x_delete x) (x_set x)) =
  match on_record (version_calls l) with Some p => if KeyValue_Model.version_eqb v p then None else Some p | None => None end.
Proof.
  intros l ss v x [F V]. rewrite version_calls_app in F, V. cbn in F, V. rewrite store_run. pose proof (KeyValue_Proofs.new_answers utf8 _ _ F V) as H.
  rewrite KeyValue_Proofs.a_run_app in H. cbn [snd] in H. apply app_inv_head in H. cbn in H.
  destruct (KeyValue_Model.record _ _ _ _ _ _) as [st p]. cbn in *. inv H. reflexivity.
Qed.

Lemma sound_pre : forall l l', sound utf8 (l ++ l') -> sound utf8 l.
Proof. intros l l' [F V]. rewrite version_calls_app in F, V. apply Forall_app in F, V. split; tauto. Qed.
Lemma recorded_at : forall l ss t v n fs d x r, sound utf8 (l ++ [Api t (AUpdate v n fs d x) r]) ->
  snd (KeyValue_Model.record utf8 (h_store (fst (run (handle_new (fun _ => None) ss) l))) v (x_read x) (x_delete x) (x_set x)) =
  match on_record (version_calls l) with Some p => if KeyValue_Model.version_eqb v p then None else Some p | None => None end.
Proof. intros l ss t v n fs d x r S. apply recorded. destruct S as [F V]. rewrite version_calls_app in F, V. unfold sound. rewrite version_calls_app. split; assumption. Qed.

(** One call. *)
Lemma call_step : forall l ss t a r, let s := fst (run (handle_new (fun _ => None) ss) l) in let s' := fst (do_api s t a r) in sound utf8 (l ++ [Api t a r]) ->
  (forall g q, h_count s' g q = (h_count s g q + match offers l (Api t a r) with Some f => if family_eqb f g && answer_eqb r q then 1 else 0 | None => 0 end)%N) /\
  h_observed s' = h_observed s ++ captures [Api t a r] /\
  h_session s' = match a with ANewSession k => if inside t l then h_session s else start_new_session (h_session s) k | _ => h_session s end.
Proof.
  intros l ss t a r. cbn zeta. intros S. pose proof (guard_inside l (fun _ => None) ss t) as G. set (s := fst (run (handle_new (fun _ => None) ss) l)) in *.
  destruct a; cbn [Handle_Model.do_api captures flat_map List.app];
    try (match goal with |- context [offer ?s0 ?t0 ?f0 ?c0 ?r0] =>
      lazymatch c0 with update_log _ _ _ _ => fail | _ => idtac end;
      pose proof (offer_facts s0 t0 f0 c0 r0) as O; destruct (offer s0 t0 f0 c0 r0) as [s1 e1]; destruct O as (_ & _ & O1 & O2 & O3 & _) end;
      cbn [fst Handle_Model.observe h_count h_observed h_session] in *; rewrite G in O3; split; [|split; [|exact O1] ];
      [intros g q; rewrite O3; cbn [offers]; destruct (inside t l); cbn [negb andb]; try lia; reflexivity|rewrite O2; try rewrite app_nil_r; reflexivity]; fail).
  - destruct (KeyValue_Model.has_changed _ _ _ _ _ _). cbn. rewrite app_nil_r. split; [|auto]. intros g q. destruct (inside t l); lia.
  - pose proof (recorded_at l ss t v size fs d x r S) as R. fold s in R. cbn [offers]. destruct (KeyValue_Model.record _ _ _ _ _ _) as [st [p|]]; cbn [snd] in R.
    + match goal with |- context [offer ?s0 ?t0 ?f0 ?c0 ?r0] => pose proof (offer_facts s0 t0 f0 c0 r0) as O; destruct (offer s0 t0 f0 c0 r0) as [s1 e1]; destruct O as (_ & _ & O1 & O2 & O3 & _) end.
      cbn [fst Handle_Model.with_store h_count h_observed h_session] in *. unfold guarded in *. cbn [Handle_Model.with_store h_guards] in O3. rewrite G in O3. rewrite app_nil_r. split; [|auto]. intros g q. rewrite O3.
      destruct (inside t l); cbn [negb andb]; [lia|]. destruct (on_record (version_calls l)) as [p'|]; [|discriminate]. destruct (KeyValue_Model.version_eqb v p'); [discriminate|]. reflexivity.
    + cbn. rewrite app_nil_r. split; [|auto]. intros g q. destruct (inside t l); [lia|]. destruct (on_record (version_calls l)) as [p'|]; [|lia]. destruct (KeyValue_Model.version_eqb v p'); [lia|discriminate].
  - cbn. rewrite app_nil_r. split; [|auto]. intros g q. destruct g, r, q; cbn; lia.
  - rewrite G. destruct (inside t l) eqn:E; cbn; rewrite E, app_nil_r; (split; [intros; lia|auto]).
Qed.

(** ** C133 *)
Lemma offered_snoc : forall f r l pre x, offered f r pre (l ++ [x]) =
  (offered f r pre l + match offers (pre ++ l) x, x with Some g, Api _ _ q => if family_eqb g f && answer_eqb q r then 1 else 0 | _, _ => 0 end)%N.
Proof.
  induction l as [|y l IH]; intros pre x; cbn [List.app offered].
  - rewrite app_nil_r. lia.
  - rewrite IH, <- app_assoc. cbn. lia.
Qed.
Lemma counted : forall l ss f r, sound utf8 l -> h_count (fst (run (handle_new (fun _ => None) ss) l)) f r = offered f r [] l.
Proof.
  intros l ss f r. induction l as [|x l IH] using rev_ind; intros S; [reflexivity|]. rewrite offered_snoc, run_snoc, <- (IH (sound_pre _ _ S)). cbn [fst List.app].
  destruct x as [t|t|t a q]; cbn [Handle_Model.step].
  - destruct (guarded _ t); cbn; lia.
  - cbn. lia.
  - destruct (call_step l ss t a q S) as (C & _). rewrite C. reflexivity.
Qed.
Lemma captured : forall l ss, sound utf8 l -> h_observed (fst (run (handle_new (fun _ => None) ss) l)) = captures l.
Proof.
  intros l ss. induction l as [|x l IH] using rev_ind; intros S; [reflexivity|]. unfold captures. rewrite run_snoc, flat_map_app. fold (captures l). rewrite <- (IH (sound_pre _ _ S)). cbn [fst].
  destruct x as [t|t|t a q]; cbn [Handle_Model.step].
  - destruct (guarded _ t); cbn; rewrite app_nil_r; reflexivity.
  - cbn. rewrite app_nil_r. reflexivity.
  - destruct (call_step l ss t a q S) as (_ & C & _). rewrite C. reflexivity.
Qed.
Lemma session_snoc : forall l s pre x, session_after s pre (l ++ [x]) =
  match x with Api t (ANewSession k) _ => if inside t (pre ++ l) then session_after s pre l else start_new_session (session_after s pre l) k | _ => session_after s pre l end.
Proof.
  induction l as [|y l IH]; intros s pre x; cbn [List.app session_after].
  - rewrite app_nil_r. reflexivity.
  - rewrite IH, <- app_assoc. reflexivity.
Qed.
Lemma session_kept : forall l ss, sound utf8 l -> h_session (fst (run (handle_new (fun _ => None) ss) l)) = session_after ss [] l.
Proof.
  intros l ss. induction l as [|x l IH] using rev_ind; intros S; [reflexivity|]. rewrite run_snoc, session_snoc, <- (IH (sound_pre _ _ S)). cbn [fst List.app].
  destruct x as [t|t|t a q]; cbn [Handle_Model.step].
  - destruct (guarded _ t); reflexivity.
  - reflexivity.
  - destruct (call_step l ss t a q S) as (_ & _ & C). rewrite C. reflexivity.
Qed.

(** ** C134 *)
Ltac offer_case := match goal with |- context [offer ?s0 ?t0 ?f0 ?c0 ?r0] => pose proof (offer_facts s0 t0 f0 c0 r0) as O; destruct (offer s0 t0 f0 c0 r0) as [s1 e1]; destruct O as (_ & _ & O1 & O2 & O3 & O4) end.
Lemma held_off : forall l st ss t a r, inside t l = true -> let s := fst (run (handle_new st ss) l) in let (s', e) := step s (Api t a r) in
  (forall u c q, In (Sent u c q) e -> exists b, a = AFlush b) /\ (forall f q, h_count s' f q <> h_count s f q -> exists b, a = AFlush b) /\ h_session s' = h_session s.
Proof.
  intros l st ss t a r I. cbn zeta. pose proof (guard_inside l st ss t) as G. set (s := fst (run (handle_new st ss) l)) in *. rewrite I in G. cbn [Handle_Model.step].
  destruct a; cbn [Handle_Model.do_api];
    try (offer_case; rewrite G in O3, O4; cbn [Handle_Model.observe h_count h_session]; subst e1; split; [intros u c q [H|[]]; discriminate|split; [|exact O1] ];
         intros g q N; exfalso; apply N; rewrite O3; cbn [negb andb]; lia).
  - destruct (KeyValue_Model.has_changed _ _ _ _ _ _). cbn. split; [intros u c q [H|[]]; discriminate|split; [congruence|reflexivity] ].
  - destruct (KeyValue_Model.record _ _ _ _ _ _) as [st0 [p|]]; [|cbn; split; [intros u c q []|split; [congruence|reflexivity] ] ].
    offer_case. unfold guarded in *. cbn [Handle_Model.with_store h_guards h_count h_session] in *. rewrite G in O3, O4. subst e1. split; [intros u c q [H|[]]; discriminate|split; [|exact O1] ].
    intros g q N; exfalso; apply N; rewrite O3; cbn [negb andb]; lia.
  - cbn [fst snd]. split; [|split; [|reflexivity] ]; eauto.
  - rewrite G. cbn. split; [intros u c q [H|[]]; discriminate|split; [congruence|reflexivity] ].
Qed.
Lemma passes : forall l st ss t a r, inside t l = false -> let e := snd (step (fst (run (handle_new st ss) l)) (Api t a r)) in
  match a with
  | ALog x b => e = [Sent t (CLog x b) r]
  | AAdd f => e = [Sent t (CAdd f) r]
  | ARemove k => e = [Sent t (CRemove k) r]
  | AFlush b => e = [Sent t (CFlush b) r]
  | ANewSession _ => e = [SessionStarted t]
  | AShould _ _ => exists b, e = [Changed t b]
  | AUpdate _ _ _ _ _ => True
  | _ => exists x, e = [Sent t (CLog x false) r]
  end.
Proof.
  intros l st ss t a r I. cbn zeta. pose proof (guard_inside l st ss t) as G. set (s := fst (run (handle_new st ss) l)) in *. rewrite I in G. cbn [Handle_Model.step].
  destruct a; cbn [Handle_Model.do_api]; try exact Logic.I; try (offer_case; rewrite G in O4; subst e1; try reflexivity; eexists; reflexivity).
  - destruct (KeyValue_Model.has_changed _ _ _ _ _ _). eexists. reflexivity.
  - reflexivity.
  - rewrite G. reflexivity.
Qed.
Lemma panics : forall l st ss t, snd (step (fst (run (handle_new st ss) l)) (Enter t)) = if inside t l then [Panicked t] else [].
Proof. intros. cbn [Handle_Model.step]. rewrite guard_inside. destruct (inside t l); reflexivity. Qed.

(** ** C132 *)
Lemma update_events : forall l ss t v n fs d x r, sound utf8 (l ++ [Api t (AUpdate v n fs d x) r]) -> inside t l = false ->
  snd (step (fst (run (handle_new (fun _ => None) ss) l)) (Api t (AUpdate v n fs d x) r)) =
  match on_record (version_calls l) with Some p => if KeyValue_Model.version_eqb v p then [] else [Sent t (update_log show_ms p n fs d) r] | None => [] end.
Proof.
  intros l ss t v n fs d x r S I. pose proof (recorded_at l ss t v n fs d x r S) as R. pose proof (guard_inside l (fun _ => None) ss t) as G. rewrite I in G.
  cbn [Handle_Model.step Handle_Model.do_api]. destruct (KeyValue_Model.record _ _ _ _ _ _) as [st [p|]]; cbn [snd] in R.
  - offer_case. unfold guarded in *. cbn [Handle_Model.with_store h_guards] in O4. rewrite G in O4. subst e1. cbn [snd].
    destruct (on_record (version_calls l)) as [p'|]; [|discriminate]. destruct (KeyValue_Model.version_eqb v p'); [discriminate|]. inv R. reflexivity.
  - destruct (on_record (version_calls l)) as [p'|]; [|reflexivity]. destruct (KeyValue_Model.version_eqb v p'); [reflexivity|discriminate].
Qed.
Lemma on_record_same : forall v l, Forall (fun o => version_of o = v) l -> forall l0, on_record (l0 ++ KeyValue_Model.Record_ v false None None :: l) = Some v.
Proof.
  intros v l F l0. unfold on_record. rewrite fold_left_app. cbn [fold_left]. induction F as [|o l H F IH]; [reflexivity|]. cbn [fold_left]. destruct o; cbn in H; subst; exact IH.
Qed.

(** ** C131 *)
Lemma ootb_source : forall l s, source l Ootb s -> s = map a_field (filter (fun a => match a_kind a with Ootb => true | Custom => false end) l).
Proof.
  intros l s H. apply partition_source in H. subst s. induction l as [|[f k] l IH]; [reflexivity|]. cbn. destruct (partition_fields l) as [o c]. cbn in *. subst o.
  destruct k; [reflexivity|]. destruct (verify_custom_field_name f); reflexivity.
Qed.
Lemma free_absent : forall k l s, free k l -> source l Ootb s -> absent k s.
Proof.
  intros k l s F H. apply ootb_source in H. subst s. apply Forall_forall. intros f H. apply in_map_iff in H as ([g kd] & <- & H). apply filter_In in H as [H K]. cbn in *.
  destruct kd; [|discriminate]. apply (F _ H).
Qed.
Lemma first_sdk : forall k v fs ex more s, free k fs -> Forall (fun a => a_kind a = Ootb) ex -> first k (map a_field ex) v -> source (fs ++ ex ++ more) Ootb s -> first k s v.
Proof.
  intros k v fs ex more s F E H S. apply ootb_source in S. subst s. rewrite !filter_app, !map_app. apply first_app. right. split.
  - destruct (source_exists fs Ootb) as (s & Hs). pose proof (ootb_source _ _ Hs) as ->. exact (free_absent _ _ _ F Hs).
  - apply first_app. left. replace (filter _ ex) with ex; [exact H|]. induction E as [|[f kd] ex K E IH]; [reflexivity|]. cbn in *. subst kd. f_equal. inversion H; subst; auto.
    clear -E. induction E as [|[f kd] ex K E IH]; [reflexivity|]. cbn in *. subst kd. f_equal. exact IH.
Qed.
Lemma report_fields_more : forall on r ty msg fs r' fs', report_process on r ty msg fs = (r', fs') -> exists more, fs' = fs ++ more.
Proof.
  intros on r ty msg fs r' fs' H. unfold report_process in H. destruct msg as [m|m]; [destruct ((ty =? 3)%N && String.eqb m "" && on)|]; inv H; eauto; exists []; rewrite app_nil_r; reflexivity.
Qed.
Lemma traffic_fields_more : forall now c q ty msg fs c' q' fs', traffic_process now c q ty msg fs = (c', q', fs') -> exists more, fs' = fs ++ more.
Proof.
  intros now c q ty msg fs c' q' fs' H. unfold traffic_process in H. destruct msg as [m|m]; [|inv H; exists []; rewrite app_nil_r; reflexivity].
  destruct ((ty =? 8)%N && String.eqb m "HTTPResponse"); [inv H; exists []; rewrite app_nil_r; reflexivity|].
  destruct ((ty =? 3)%N && String.eqb m ""); [|inv H; exists []; rewrite app_nil_r; reflexivity]. destruct (Network_Model.process_resource_utilization_log now c). inv H. eauto.
Qed.
Lemma quality_fields_more : forall q ty fs, exists more, quality_process q ty fs = fs ++ more.
Proof.
  intros. unfold quality_process. destruct ((ty =? 3)%N || (ty =? 1)%N || (ty =? 4)%N); [exists []; rewrite app_nil_r; reflexivity|].
  destruct q; eauto; exists []; rewrite app_nil_r; reflexivity.
Qed.
Lemma intercept_fields : forall on now i l i' l' shot, intercept on now i l = (i', l', shot) ->
  ln_level l' = ln_level l /\ ln_type l' = ln_type l /\ ln_message l' = ln_message l /\ ln_matching l' = ln_matching l /\ ln_override l' = ln_override l /\ exists more, ln_fields l' = ln_fields l ++ more.
Proof.
  intros on now i l i' l' shot H. unfold intercept in H. destruct (report_process on (i_report i) (ln_type l) (ln_message l) (ln_fields l)) as [r fs] eqn:R.
  destruct (traffic_process now (i_traffic i) (i_quality i) (ln_type l) (ln_message l) fs) as [[c q] fs1] eqn:T. inv H. cbn. repeat (split; [reflexivity|]).
  apply report_fields_more in R as (m1 & ->). apply traffic_fields_more in T as (m2 & ->). destruct (quality_fields_more q (ln_type l) ((ln_fields l ++ m1) ++ m2)) as (m3 & ->).
  exists (m1 ++ m2 ++ m3). rewrite !app_assoc. reflexivity.
Qed.
Lemma int_text_spec z : int_text z = DecimalString.NilZero.string_of_int (Z.to_int z).
Proof. destruct z; reflexivity. Qed.
Lemma measured_first : forall p a k v, measured show_ms sdk_version p a k v -> forall q, (forall v n fs d x, a = AUpdate v n fs d x -> p = Some q) ->
  match a with
  | AResource fs d | AScreen fs d | AScreenshot fs d => first k (map a_field [duration_field show_ms d]) (VStr v)
  | ASdkStart fs d => first k (map a_field [duration_field show_ms d; sdk_field "_sdk_version" sdk_version]) (VStr v)
  | AUpdate v0 n fs d x => first k (map a_field ([duration_field show_ms d] ++ match n with Some n => [sdk_field "_app_install_size_bytes" (dec_string n)] | None => [] end ++
     [sdk_field "_previous_app_version" (text (KeyValue_Model.av_version q));
      sdk_field ("_previous_" ++ extra_name (KeyValue_Model.av_extra q))%string (extra_text (KeyValue_Model.av_extra q))])) (VStr v)
  | _ => False
  end.
Proof.
  intros p a k v H. destruct H; intros q0 Hq; cbn; try (constructor; fail);
    try (assert (Q : p = Some q0) by (eapply Hq; reflexivity); rewrite H in Q; inv Q).
  - constructor; [discriminate|constructor].
  - constructor; [discriminate|constructor].
  - destruct n; cbn; repeat (constructor; [discriminate|]); constructor.
  - rewrite H0. cbn [extra_name extra_text]. rewrite int_text_spec. destruct n; cbn -[Z.to_int]; repeat (constructor; [discriminate|]); constructor.
  - rewrite H0. destruct n; cbn; repeat (constructor; [discriminate|]); constructor.
Qed.

Lemma sent_measured : forall l ss t a r u ln b q, sound utf8 (l ++ [Api t a r]) -> In (Sent u (CLog ln b) q) (snd (step (fst (run (handle_new (fun _ => None) ss) l)) (Api t a r))) ->
  forall h, header a = Some h -> h = (ln_level ln, ln_type ln, match ln_message ln with VStr m => m | VBytes _ => "" end) /\ (exists m, ln_message ln = VStr m) /\ ln_matching ln = [] /\ ln_override ln = None /\ b = false /\ u = t /\ q = r /\
  exists ex, ln_fields ln = given a ++ ex /\ Forall (fun x => a_kind x = Ootb) ex /\
  forall k v, measured show_ms sdk_version (on_record (version_calls l)) a k v -> first k (map a_field ex) (VStr v).
Proof.
  intros l ss t a r u ln b q S H h Hh. destruct (inside t l) eqn:I.
  { pose proof (held_off l (fun _ => None) ss t a r I) as O. cbn zeta in O. destruct (step (fst (run (handle_new (fun _ => None) ss) l)) (Api t a r)) as [s' e]. destruct O as (O & _).
    cbn in H. destruct (O _ _ _ H) as (f & ->). discriminate. }
  assert (M : forall k v q, measured show_ms sdk_version (on_record (version_calls l)) a k v -> (forall v n fs d x, a = AUpdate v n fs d x -> on_record (version_calls l) = Some q) -> _)
    by (intros k v q0 Hm Hq; exact (measured_first _ _ _ _ Hm q0 Hq)).
  pose (nov := KeyValue_Model.mkVersion [] (KeyValue_Model.VersionCode 0%Z)).
  destruct a; cbn [header] in Hh; try discriminate; inv Hh;
    try (cbn [Handle_Model.step Handle_Model.do_api] in H; unfold offer in H; rewrite guard_inside, I in H; cbn in H; destruct H as [H|[]]; inv H; cbn [ln_level ln_type ln_message ln_matching ln_override ln_fields given];
      repeat (split; [first [reflexivity|eexists; reflexivity]|]); eexists; split; [reflexivity|]; split; [repeat constructor|];
      intros k v0 Hm; specialize (M k v0 nov Hm); apply M; intros; discriminate).
  rewrite (update_events l ss t v size fs d x r S I) in H. destruct (on_record (version_calls l)) as [p|]; [|destruct H]. destruct (KeyValue_Model.version_eqb v p); [destruct H|].
  destruct H as [H|[]]. inv H. cbn [ln_level ln_type ln_message ln_matching ln_override ln_fields given]. repeat (split; [first [reflexivity|eexists; reflexivity]|]). eexists. split; [reflexivity|]. split.
  - repeat constructor. destruct size; repeat constructor.
  - intros k v0 Hm. apply (M k v0 p Hm). reflexivity.
Qed.
Lemma carried : forall l ss t a r u ln b q, sound utf8 (l ++ [Api t a r]) -> In (Sent u (CLog ln b) q) (snd (step (fst (run (handle_new (fun _ => None) ss) l)) (Api t a r))) ->
  forall on now i i' ln' shot globals ts provider m, intercept on now i ln = (i', ln', shot) ->
  normalized_metadata globals (Some ts) (Some provider) (ln_fields ln') (ln_matching ln') (ln_type ln') = Some m ->
  forall k v, measured show_ms sdk_version (on_record (version_calls l)) a k v -> free k (given a) -> (free k provider \/ In (ln_type ln) [1; 3; 4]%N) ->
  forall w, In (mkField k w) (m_fields m) <-> w = VStr v.
Proof.
  intros l ss t a r u ln b q S H on now i i' ln' shot globals ts provider m Hi Hn k v Hm F1 F2 w.
  assert (exists h, header a = Some h) as (h & Hh) by (destruct Hm; eexists; reflexivity).
  destruct (sent_measured _ _ _ _ _ _ _ _ _ S H h Hh) as (_ & _ & Mt & _ & _ & _ & _ & ex & Ef & Eo & Em).
  apply intercept_fields in Hi as (_ & Et & _ & Em' & _ & more & Ef'). rewrite Ef' in Hn. rewrite Ef, <- app_assoc in Hn. rewrite Et in Hn.
  destruct (source_exists provider Ootb) as (po & Po). destruct (source_exists provider Custom) as (pc & Pc). destruct (source_exists (given a ++ ex ++ more) Ootb) as (lo & Lo).
  destruct (source_exists (given a ++ ex ++ more) Custom) as (lc & Lc). destruct (source_exists (ln_matching ln') Ootb) as (mo & Mo). destruct (source_exists (ln_matching ln') Custom) as (mc & Mc).
  destruct (normalized _ _ _ _ _ _ _ Hn _ _ _ _ _ _ Po Pc Lo Lc Mo Mc) as (_ & ND & _ & N1 & N2).
  pose proof (first_sdk _ _ _ _ _ _ F1 Eo (Em k v Hm) Lo) as Fl.
  assert (X : In (mkField k (VStr v)) (m_fields m)).
  { destruct (in_dec N.eq_dec (ln_type ln) [1; 3; 4]%N) as [Y|Y].
    - apply (N2 Y k (VStr v)). apply picks_here. exact Fl.
    - apply (N1 Y k (VStr v)). destruct F2 as [F2|F2]; [|contradiction]. apply picks_later; [exact (free_absent _ _ _ F2 Po)|]. apply picks_here. exact Fl. }
  split; [|intros ->; exact X]. intros W. clear - ND X W. induction (m_fields m) as [|f fs IH]; [destruct X|]. cbn in ND. inversion ND as [|? ? N1 N2]; subst.
  destruct X as [->|X], W as [W|W].
  - congruence.
  - exfalso. apply N1. apply in_map_iff. exists (mkField k w). auto.
  - subst f. exfalso. apply N1. apply in_map_iff. exists (mkField k (VStr v)). auto.
  - exact (IH N2 X W).
Qed.
End Handle.
