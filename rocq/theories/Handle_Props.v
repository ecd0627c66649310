(** C131-C134: the handle of the logger. *)
From Verif Require Import Base Str_Base Log_Model Metadata_Model Matcher_Spec Metadata_Spec LogBuffer_Model Handle_Model Handle_Spec Handle_Proofs KeyValue_Spec.
From Verif Require KeyValue_Model KeyValue_Proofs Session_Model.
Local Open Scope string_scope. Local Open Scope list_scope.

(** Versions and a session for the examples. *)
Definition hv1 := KeyValue_Model.mkVersion [49]%Z (KeyValue_Model.VersionCode 17).
Definition hv2 := KeyValue_Model.mkVersion [50]%Z (KeyValue_Model.BuildNumber [53; 54]%Z).
Definition h_any (l : list Z) : bool := true.
Definition h_ms (d : Z) : string := int_text (d / 1000000).
Definition h_ok := mkFaults false None None.
Definition h_ss := Fixed Session_Model.fixed_new.
Definition h_start := handle_new (fun _ => None) h_ss.
Definition h_run := Handle_Model.run h_ms "1.2.3" h_any.
Definition h_up v r := Api 1 (AUpdate v (Some 9%N) [] 5000000%Z h_ok) r.
Definition h_first := [Api 1 (AShould hv1 h_ok) Accepted; Api 1 (ASdkStart [sdk_field "os" "x"] 7000000%Z) Accepted].
Lemma h_sound : forall r, sound h_any (h_first ++ [h_up hv2 r]).
Proof. intros. unfold sound, version_ok, text_ok, byte. cbn. split; repeat constructor; cbn; try lia; repeat constructor; lia. Qed.

(** C131. The SDK's own logs: level, type and message, nothing else but the caller's fields and out-of-the-box ones. *)
Theorem C131_header : forall show_ms sdk utf8 l ss t a r u ln b q,
  sound utf8 (l ++ [Api t a r]) -> In (Sent u (CLog ln b) q) (snd (Handle_Model.step show_ms sdk utf8 (fst (Handle_Model.run show_ms sdk utf8 (handle_new (fun _ => None) ss) l)) (Api t a r))) ->
  forall lv ty msg, header a = Some (lv, ty, msg) ->
  ln_level ln = lv /\ ln_type ln = ty /\ ln_message ln = VStr msg /\ ln_matching ln = [] /\ ln_override ln = None /\ b = false /\ u = t /\ q = r /\
  exists ex, ln_fields ln = given a ++ ex /\ Forall (fun x => a_kind x = Ootb) ex.
Proof.
  intros show_ms sdk utf8 l ss t a r u ln b q S H lv ty msg Hh. destruct (sent_measured show_ms sdk utf8 l ss t a r u ln b q S H _ Hh) as (E & (m & Em) & H1 & H2 & H3 & H4 & H5 & ex & E1 & E2 & _).
  rewrite Em in E. inv E. repeat (split; [auto|]). eauto.
Qed.
Print Assumptions C131_header.
(** What the SDK measured is in the log after the interceptors and the metadata, once, unless the caller or the platform's provider gave an out-of-the-box field of that name. *)
Theorem C131_measured_partial : forall show_ms sdk utf8 l ss t a r u ln b q, sound utf8 (l ++ [Api t a r]) ->
  In (Sent u (CLog ln b) q) (snd (Handle_Model.step show_ms sdk utf8 (fst (Handle_Model.run show_ms sdk utf8 (handle_new (fun _ => None) ss) l)) (Api t a r))) ->
  forall on now i i' ln' shot globals ts provider m, intercept on now i ln = (i', ln', shot) ->
  normalized_metadata globals (Some ts) (Some provider) (ln_fields ln') (ln_matching ln') (ln_type ln') = Some m ->
  forall k v, measured show_ms sdk (on_record (version_calls l)) a k v -> free k (given a) -> (free k provider \/ In (ln_type ln) [1; 3; 4]%N) ->
  forall w, In (mkField k w) (m_fields m) <-> w = VStr v.
Proof. exact carried. Qed.
Print Assumptions C131_measured_partial.
Example C131_ex : exists ln, In (Sent 1 (CLog ln false) Accepted) (snd (Handle_Model.step h_ms "1.2.3" h_any (fst (h_run h_start h_first)) (h_up hv2 Accepted))) /\
  on_record (version_calls h_first) = Some hv1 /\
  (exists m, normalized_metadata [mkField "g" (VStr "x")] (Some 1%Z) (Some [sdk_field "app_id" "me"]) (ln_fields ln) (ln_matching ln) (ln_type ln) = Some m /\
   m_fields m = [mkField "app_id" (VStr "me"); mkField "_duration_ms" (VStr "5"); mkField "_app_install_size_bytes" (VStr "9"); mkField "_previous_app_version" (VStr "1"); mkField "_previous_app_version_code" (VStr "17"); mkField "g" (VStr "x")]) /\
  measured h_ms "1.2.3" (Some hv1) (AUpdate hv2 (Some 9%N) [] 5000000%Z h_ok) "_previous_app_version_code" "17".
Proof.
  eexists. split; [vm_compute; left; reflexivity|]. split; [reflexivity|]. split; [eexists; split; [reflexivity|vm_compute; reflexivity]|].
  exact (m_code h_ms "1.2.3" (Some hv1) hv2 (Some 9%N) [] 5000000%Z h_ok hv1 17%Z eq_refl eq_refl).
Qed.
(** A field [_duration_ms] the caller gives hides the measured one. *)
Theorem C131_displaced_refuted : exists ln m, let a := AScreen [sdk_field "_duration_ms" "0"] 7000000%Z in
  In (Sent 1 (CLog ln false) Accepted) (snd (Handle_Model.step h_ms "1.2.3" h_any h_start (Api 1 a Accepted))) /\
  normalized_metadata [] (Some 1%Z) (Some []) (ln_fields ln) (ln_matching ln) (ln_type ln) = Some m /\
  measured h_ms "1.2.3" None a "_duration_ms" "7" /\ ~ In (mkField "_duration_ms" (VStr "7")) (m_fields m).
Proof.
  do 2 eexists. split; [vm_compute; left; reflexivity|]. split; [vm_compute; reflexivity|]. split; [exact (m_screen _ _ _ _ _)|]. cbn. intros [H|[]]. discriminate.
Qed.
Print Assumptions C131_displaced_refuted.

(** C132. The call about an update offers a log exactly if another version is on record. It has the version on record. *)
Theorem C132_offered_partial : forall show_ms sdk utf8 l ss t v n fs d x r, sound utf8 (l ++ [Api t (AUpdate v n fs d x) r]) -> inside t l = false ->
  let e := snd (Handle_Model.step show_ms sdk utf8 (fst (Handle_Model.run show_ms sdk utf8 (handle_new (fun _ => None) ss) l)) (Api t (AUpdate v n fs d x) r)) in
  (forall p, on_record (version_calls l) = Some p -> p <> v -> exists ln, e = [Sent t (CLog ln false) r] /\ ln_message ln = VStr "AppUpdated" /\
     In (sdk_field "_previous_app_version" (text (KeyValue_Model.av_version p))) (ln_fields ln)) /\
  (on_record (version_calls l) = Some v \/ on_record (version_calls l) = None -> e = []).
Proof.
  intros show_ms sdk utf8 l ss t v n fs d x r S I. cbn zeta. rewrite (update_events show_ms sdk utf8 l ss t v n fs d x r S I). split.
  - intros p -> N. destruct (KeyValue_Model.version_eqb v p) eqn:E; [exfalso; apply N; symmetry; apply (KeyValue_Proofs.version_eqb_spec utf8); exact E|]. eexists. split; [reflexivity|]. split; [reflexivity|].
    cbn. apply in_app_iff. right. right. apply in_app_iff. right. left. reflexivity.
  - intros [-> | ->]; [|reflexivity]. replace (KeyValue_Model.version_eqb v v) with true; [reflexivity|]. symmetry. apply (KeyValue_Proofs.version_eqb_spec utf8). reflexivity.
Qed.
Print Assumptions C132_offered_partial.
(** Not twice: after the call, with no other version in between, nothing is offered. *)
Theorem C132_once : forall show_ms sdk utf8 l ss t v n fs d r l2 t' n' fs' d' x' r', let l1 := l ++ Api t (AUpdate v n fs d (mkFaults false None None)) r :: l2 in
  sound utf8 (l1 ++ [Api t' (AUpdate v n' fs' d' x') r']) -> inside t' l1 = false -> Forall (fun o => version_of o = v) (version_calls l2) ->
  snd (Handle_Model.step show_ms sdk utf8 (fst (Handle_Model.run show_ms sdk utf8 (handle_new (fun _ => None) ss) l1)) (Api t' (AUpdate v n' fs' d' x') r')) = [].
Proof.
  intros show_ms sdk utf8 l ss t v n fs d r l2 t' n' fs' d' x' r' l1 S I F. apply (C132_offered_partial show_ms sdk utf8 l1 ss t' v n' fs' d' x' r' S I). left.
  unfold l1. rewrite version_calls_app. cbn [version_calls flat_map List.app]. apply on_record_same. exact F.
Qed.
Print Assumptions C132_once.
Example C132_ex : sound h_any (h_first ++ [h_up hv2 Accepted]) /\ inside 1 h_first = false /\ on_record (version_calls h_first) = Some hv1 /\ hv1 <> hv2 /\
  snd (h_run h_start (h_first ++ [h_up hv2 Accepted; h_up hv2 Accepted])) = snd (h_run h_start (h_first ++ [h_up hv2 Accepted])) /\
  List.length (snd (h_run h_start (h_first ++ [h_up hv2 Accepted]))) = 3%nat.
Proof. split; [apply h_sound|]. split; [reflexivity|]. split; [reflexivity|]. split; [discriminate|]. split; vm_compute; reflexivity. Qed.
(** The version is on record before the log is offered: if the channel is full then, the update is never logged, however often the application calls. *)
Theorem C132_full_refuted : forall m t n fs d r, sound h_any (h_first ++ h_up hv2 FullCount :: repeat (Api t (AUpdate hv2 n fs d h_ok) r) m) /\
  snd (h_run h_start (h_first ++ h_up hv2 FullCount :: repeat (Api t (AUpdate hv2 n fs d h_ok) r) m)) = snd (h_run h_start (h_first ++ [h_up hv2 FullCount])) /\
  forall u c q, In (Sent u c q) (skipn 2 (snd (h_run h_start (h_first ++ [h_up hv2 FullCount])))) -> q = FullCount.
Proof.
  intros m t n fs d r.
  assert (S : forall m, sound h_any (h_first ++ h_up hv2 FullCount :: repeat (Api t (AUpdate hv2 n fs d h_ok) r) m)).
  { clear m. intros m. change (h_up hv2 FullCount :: repeat (Api t (AUpdate hv2 n fs d h_ok) r) m) with ([h_up hv2 FullCount] ++ repeat (Api t (AUpdate hv2 n fs d h_ok) r) m). rewrite app_assoc.
    destruct (h_sound FullCount) as [F V]. unfold sound. rewrite version_calls_app. split; apply Forall_app; (split; [assumption|]); induction m; cbn; constructor; auto; cbn; auto.
    unfold version_ok, text_ok, byte. cbn. repeat split; try lia; repeat constructor; lia. }
  split; [apply S|]. split.
  - induction m as [|m IH]; [reflexivity|]. cbn [repeat]. rewrite repeat_cons.
    change (h_up hv2 FullCount :: repeat (Api t (AUpdate hv2 n fs d h_ok) r) m ++ [Api t (AUpdate hv2 n fs d h_ok) r]) with ((h_up hv2 FullCount :: repeat (Api t (AUpdate hv2 n fs d h_ok) r) m) ++ [Api t (AUpdate hv2 n fs d h_ok) r]).
    rewrite app_assoc. unfold h_run at 1. rewrite run_snoc. cbn [snd]. fold h_run. rewrite IH. rewrite <- app_nil_r. f_equal.
    refine (C132_once h_ms "1.2.3" h_any h_first h_ss 1%nat hv2 (Some 9%N) [] 5000000%Z FullCount (repeat (Api t (AUpdate hv2 n fs d h_ok) r) m) t n fs d h_ok r _ _ _).
    + rewrite <- app_assoc. cbn [List.app]. change (Api 1 (AUpdate hv2 (Some 9%N) [] 5000000%Z (mkFaults false None None)) FullCount) with (h_up hv2 FullCount). rewrite <- repeat_cons. apply (S (Datatypes.S m)).
    + unfold inside. rewrite fold_left_app. cbn. clear. induction m; [reflexivity|exact IHm].
    + clear. induction m; cbn; constructor; auto.
  - intros u c q H. vm_compute in H. destruct H as [H|[]]. inv H. reflexivity.
Qed.
Print Assumptions C132_full_refuted.
(** The same if the call comes from inside the guard. *)
Theorem C132_guard_refuted : snd (h_run h_start (h_first ++ [Enter 1; h_up hv2 Accepted; Leave 1; h_up hv2 Accepted])) = snd (h_run h_start (h_first ++ [Enter 1; h_up hv2 Accepted])) /\
  exists c, skipn 2 (snd (h_run h_start (h_first ++ [Enter 1; h_up hv2 Accepted]))) = [Refused 1 c].
Proof. split; [vm_compute; reflexivity|]. eexists. vm_compute. reflexivity. Qed.
Print Assumptions C132_guard_refuted.

(** C133. Every call that offers a message to the channel is counted once, by its kind and the channel's answer; calls from within the guard are not. *)
Theorem C133_counted : forall show_ms sdk utf8 l ss f r, sound utf8 l -> h_count (fst (Handle_Model.run show_ms sdk utf8 (handle_new (fun _ => None) ss) l)) f r = offered f r [] l.
Proof. exact counted. Qed.
Print Assumptions C133_counted.
(** Every capture of the screen is in the histogram once, in order: also if its log was dropped. *)
Theorem C133_captures : forall show_ms sdk utf8 l ss, sound utf8 l -> h_observed (fst (Handle_Model.run show_ms sdk utf8 (handle_new (fun _ => None) ss) l)) = captures l.
Proof. exact captured. Qed.
Print Assumptions C133_captures.
Example C133_ex : let l := h_first ++ [Api 2 (AScreen [] 3%Z) FullSize; Enter 2; Api 2 (AScreenshot [] 4%Z) Accepted; Api 1 (AAdd (mkField "k" (VStr "v"))) Accepted; Api 2 (AFlush false) Closed; Leave 2; h_up hv2 FullCount; h_up hv2 Accepted] in
  sound h_any l /\ map (fun r => offered FLog r [] l) [Accepted; FullCount; FullSize; Closed] = [1; 1; 1; 0]%N /\ map (fun r => offered FFlush r [] l) [Accepted; FullCount; FullSize; Closed] = [0; 0; 0; 1]%N /\
  offered FAdd Accepted [] l = 1%N /\ captures l = [3; 4]%Z.
Proof. split; [|vm_compute; auto]. unfold sound, version_ok, text_ok, byte. cbn. split; repeat constructor; cbn; try lia; repeat constructor; lia. Qed.

(** C134. Inside its guard a thread's calls have no effect, but for the flushes and the version on record. *)
Theorem C134_held_off : forall show_ms sdk utf8 l st ss t a r, inside t l = true ->
  let s := fst (Handle_Model.run show_ms sdk utf8 (handle_new st ss) l) in let (s', e) := Handle_Model.step show_ms sdk utf8 s (Api t a r) in
  (forall u c q, In (Sent u c q) e -> exists b, a = AFlush b) /\ (forall f q, h_count s' f q <> h_count s f q -> exists b, a = AFlush b) /\ h_session s' = h_session s.
Proof. exact held_off. Qed.
Print Assumptions C134_held_off.
(** Outside of it they have, whatever other threads are inside of theirs. *)
Theorem C134_passes : forall show_ms sdk utf8 l st ss t a r, inside t l = false ->
  let e := snd (Handle_Model.step show_ms sdk utf8 (fst (Handle_Model.run show_ms sdk utf8 (handle_new st ss) l)) (Api t a r)) in
  match a with
  | ALog x b => e = [Sent t (CLog x b) r]
  | AAdd f => e = [Sent t (CAdd f) r]
  | ARemove k => e = [Sent t (CRemove k) r]
  | AFlush b => e = [Sent t (CFlush b) r]
  | ANewSession _ => e = [SessionStarted t]
  | AShould _ _ => exists b, e = [Changed t b]
  | AUpdate _ _ _ _ _ => True
  | _ => exists x, e = [Sent t (CLog x false) r]
  end.
Proof. exact passes. Qed.
Print Assumptions C134_passes.
Theorem C134_session : forall show_ms sdk utf8 l ss, sound utf8 l -> h_session (fst (Handle_Model.run show_ms sdk utf8 (handle_new (fun _ => None) ss) l)) = session_after ss [] l.
Proof. exact session_kept. Qed.
Print Assumptions C134_session.
(** Entering it panics exactly if the thread is inside already. *)
Theorem C134_panics : forall show_ms sdk utf8 l st ss t, snd (Handle_Model.step show_ms sdk utf8 (fst (Handle_Model.run show_ms sdk utf8 (handle_new st ss) l)) (Enter t)) = if inside t l then [Panicked t] else [].
Proof. exact panics. Qed.
Print Assumptions C134_panics.
Example C134_ex : inside 2 [Enter 2; Enter 1; Leave 1] = true /\ inside 1 [Enter 2; Enter 1; Leave 1] = false /\
  snd (h_run h_start [Enter 2; Enter 1; Leave 1; Api 2 (ARemove "a") Accepted; Api 1 (ARemove "b") FullCount; Enter 2; Leave 2; Enter 2]) = [Refused 2 (CRemove "a"); Sent 1 (CRemove "b") FullCount; Panicked 2].
Proof. vm_compute. auto. Qed.
