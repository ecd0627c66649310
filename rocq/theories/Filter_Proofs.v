From Verif Require Import Base Str_Base Version_Model Log_Model LogMatcher_Model Filter_Model Filter_Spec Matcher_Spec Matcher_Proofs.
Local Open Scope string_scope.

Section F.
Variables (re_match : string -> string -> bool) (re_replace : string -> string -> string -> string) (to_i32 : string -> option Z).
Notation transform_apply := (transform_apply re_replace).
Notation apply_all := (apply_all re_replace).
Notation filter_apply := (filter_apply re_match re_replace to_i32).
Notation process := (process re_match re_replace to_i32).

Lemma frame_refl l : same_but_fields l l.
Proof. unfold same_but_fields. splits; reflexivity. Qed.
Lemma frame_trans a b c : same_but_fields a b -> same_but_fields b c -> same_but_fields a c.
Proof. unfold same_but_fields. intuition congruence. Qed.
Lemma frame_with l a b : same_but_fields (with_fields (with_matching l a) b) l.
Proof. unfold same_but_fields. cbn. splits; reflexivity. Qed.
Lemma frame_apply t l : same_but_fields (transform_apply t l) l.
Proof.
  unfold same_but_fields. destruct t; cbn [Filter_Model.transform_apply].
  - destruct take_first as [ [f r]|]; cbn; splits; reflexivity.
  - destruct (negb override && _); [splits; reflexivity|]. destruct value; [|destruct log_field_value; [|splits; reflexivity] ]; destruct ft; cbn; splits; reflexivity.
  - cbn; splits; reflexivity.
  - destruct substitute; [cbn; splits; reflexivity|]. destruct substitute; cbn; splits; reflexivity.
Qed.
Lemma frame_all ts : forall l, same_but_fields (apply_all ts l) l.
Proof. induction ts as [|t ts IH]; intros l; [apply frame_refl|]. cbn. eapply frame_trans; [apply IH|apply frame_apply]. Qed.
Lemma frame_process fs : forall l, same_but_fields (process fs l) l.
Proof.
  induction fs as [|f fs IH]; intros l; [apply frame_refl|]. cbn. eapply frame_trans; [apply IH|].
  unfold Filter_Model.filter_apply. destruct do_match; [apply frame_all|apply frame_refl].
Qed.

(** Provenance. *)
Section O.
Variables (ts : list transform) (l0 : log).
Notation origin := (origin re_replace ts l0).
Notation shown := (shown re_replace ts l0).
Definition good (l : log) : Prop := same_but_fields l l0 /\ Forall (origin Captured) (l_fields l) /\ Forall (origin MatchingOnly) (l_matching l).

Lemma find_in k l f : find_field k l = Some f -> In f l /\ f_key f = k.
Proof. unfold find_field. intros E. apply List.find_some in E as [A B]. apply String.eqb_eq in B. auto. Qed.
Lemma good_shown l k s : good l -> log_field_value l k = Some s -> shown k s.
Proof.
  intros ((E1 & E2 & E3 & _) & Fc & Fm). unfold log_field_value.
  destruct (String.eqb_spec k LOG_FIELD_NAME_MESSAGE) as [->|_].
  { rewrite E3. destruct (l_message l0) eqn:Em; cbn; intros E; inv E. constructor. exact Em. }
  destruct (String.eqb_spec k LOG_FIELD_NAME_LEVEL) as [->|_]; [intros E; inv E; rewrite E1; constructor|].
  destruct (String.eqb_spec k LOG_FIELD_NAME_TYPE) as [->|_]; [intros E; inv E; rewrite E2; constructor|].
  destruct find_field as [ [k' v]|] eqn:Ef; [|discriminate]. apply find_in in Ef as [Hin Hk]. cbn in Hk. subst k'. cbn. destruct v; cbn; intros E; inv E.
  rewrite Forall_forall in Fc, Fm. apply in_app_or in Hin as [Hin|Hin]; [apply shown_field with Captured|apply shown_field with MatchingOnly]; auto.
Qed.
Lemma set_field_origin ft fs f : Forall (origin ft) fs -> origin ft f -> Forall (origin ft) (set_field fs f).
Proof.
  intros A B. unfold set_field. apply Forall_app. split; [|auto]. rewrite Forall_forall in *. intros g Hg. apply filter_In in Hg as [Hg _]. auto.
Qed.
Lemma take_first_in k fs f r : take_first k fs = Some (f, r) -> f_key f = k /\ In f fs /\ (forall g, In g r -> In g fs).
Proof.
  revert r. induction fs as [|g fs IH]; intros r; cbn; [discriminate|]. destruct (String.eqb_spec (f_key g) k).
  - intros E. inv E. auto.
  - destruct take_first as [ [h r']|]; [|discriminate]. intros E. inv E. destruct (IH _ eq_refl) as (A & B & C). splits; auto.
    intros x [->|Hx]; cbn; auto.
Qed.
Lemma substitute_origin ft k p s fs fs' : In (RegexMatchAndSubstitute k p s) ts -> Forall (origin ft) fs -> substitute re_replace k p s fs = Some fs' -> Forall (origin ft) fs'.
Proof.
  intros Hin. revert fs'. induction fs as [|[k' v] fs IH]; intros fs' A; cbn; [discriminate|]. apply Forall_cons_iff in A as [A B].
  destruct (String.eqb_spec k' k) as [->|].
  - intros E. inv E. constructor; [|exact B]. destruct v; [|exact A]. apply by_rewrite; assumption.
  - destruct substitute; [|discriminate]. intros E. inv E. constructor; auto.
Qed.
Lemma good_apply t l : In t ts -> good l -> good (transform_apply t l).
Proof.
  intros Hin G. pose proof G as (E & Fc & Fm). split; [eapply frame_trans; [apply frame_apply|exact E]|].
  destruct t as [n|n v ft o|n|n p s]; cbn [Filter_Model.transform_apply].
  - destruct take_first as [ [f r]|] eqn:Et; [|auto]. apply take_first_in in Et as (Hk & Hf & Hr). cbn. rewrite Forall_forall in Fm. split.
    + apply set_field_origin; [exact Fc|]. destruct f as [k v]. cbn in Hk. subst k. apply by_capture; auto.
    + rewrite Forall_forall. auto.
  - destruct (negb o && _); [auto|]. destruct v as [s|k].
    + destruct ft; cbn; (split; [try assumption; apply set_field_origin; auto; eapply by_set_literal; eauto|try assumption; apply set_field_origin; auto; eapply by_set_literal; eauto]).
    + destruct (log_field_value l k) as [s|] eqn:Ev; [|auto]. apply (good_shown _ _ _ G) in Ev.
      destruct ft; cbn; (split; [try assumption; apply set_field_origin; auto; eapply by_set_copy; eauto|try assumption; apply set_field_origin; auto; eapply by_set_copy; eauto]).
  - cbn. rewrite !Forall_forall in *. split; intros f Hf; apply filter_In in Hf as [Hf _]; auto.
  - destruct (substitute re_replace n p s (l_fields l)) as [fs|] eqn:E1.
    + cbn. split; [|exact Fm]. eapply substitute_origin; eauto.
    + destruct (substitute re_replace n p s (l_matching l)) as [fs|] eqn:E2; [|auto]. cbn. split; [exact Fc|]. eapply substitute_origin; eauto.
Qed.
Lemma good_all us : (forall t, In t us -> In t ts) -> forall l, good l -> good (apply_all us l).
Proof. induction us as [|u us IH]; intros H l G; [exact G|]. cbn. apply IH; [intros; apply H; right; assumption|]. apply good_apply; [apply H; left; reflexivity|exact G]. Qed.
Lemma good_process fs : (forall f, In f fs -> forall t, In t (fi_transforms f) -> In t ts) -> forall l, good l -> good (process fs l).
Proof.
  induction fs as [|f fs IH]; intros H l G; [exact G|]. cbn. apply IH; [intros g Hg; apply H; right; assumption|].
  unfold Filter_Model.filter_apply. destruct do_match; [|exact G]. apply good_all; [|exact G]. intros t Ht. apply (H f); [left; reflexivity|exact Ht].
Qed.
End O.

Lemma provenance fs l f : In f (l_fields (process fs l)) -> origin re_replace (concat (map fi_transforms fs)) l Captured f.
Proof.
  intros Hin. assert (G : good (concat (map fi_transforms fs)) l (process fs l)).
  { apply good_process.
    - intros g Hg t Ht. apply in_concat. exists (fi_transforms g). split; [apply in_map; exact Hg|exact Ht].
    - unfold good. splits; [apply frame_refl|rewrite Forall_forall; intros; constructor; assumption..]. }
  destruct G as (_ & G & _). rewrite Forall_forall in G. apply G. exact Hin.
Qed.

(** Names only. *)
Scheme origin_mut := Minimality for Filter_Spec.origin Sort Prop
with shown_mut := Minimality for Filter_Spec.shown Sort Prop.
Lemma origin_name ts l ft f : origin re_replace ts l ft f -> ft = Captured ->
  has_field (f_key f) (l_fields l) \/ In (CaptureField (f_key f)) ts \/ exists v o, In (SetField (f_key f) v Captured o) ts.
Proof.
  revert ft f.
  apply (origin_mut re_replace ts l (fun ft f => ft = Captured -> has_field (f_key f) (l_fields l) \/ In (CaptureField (f_key f)) ts \/ exists v o, In (SetField (f_key f) v Captured o) ts) (fun _ _ => True)); auto; cbn.
  - intros g Hg _. left. exists g. auto.
  - intros g Hg E. discriminate.
  - intros k s ft' o Hin ->. right. right. eauto.
  - intros k k' s ft' o Hin _ _ ->. right. right. eauto.
Qed.
Lemma names fs l f : In f (l_fields (process fs l)) ->
  has_field (f_key f) (l_fields l) \/ In (CaptureField (f_key f)) (concat (map fi_transforms fs)) \/ exists v o, In (SetField (f_key f) v Captured o) (concat (map fi_transforms fs)).
Proof. intros H. eapply origin_name; [apply provenance; exact H|reflexivity]. Qed.

(** Removed fields. *)
Definition gone (k : string) (l : log) : Prop := absent k (l_fields l) /\ absent k (l_matching l).
Lemma absent_filter k p fs : absent k fs -> absent k (List.filter p fs).
Proof. unfold absent. rewrite !Forall_forall. intros H f Hf. apply filter_In in Hf as [Hf _]. auto. Qed.
Lemma substitute_absent k n p s fs fs' : absent k fs -> substitute re_replace n p s fs = Some fs' -> absent k fs'.
Proof.
  revert fs'. induction fs as [|g fs IH]; intros fs' A; cbn; [discriminate|]. apply Forall_cons_iff in A as [A B]. destruct (String.eqb_spec (f_key g) n).
  - intros E. inv E. constructor; [destruct (f_val g); exact A|exact B].
  - destruct substitute; [|discriminate]. intros E. inv E. constructor; auto. apply IH; auto.
Qed.
Lemma gone_apply k t l : ~ sets k t -> gone k l -> gone k (transform_apply t l).
Proof.
  intros NS [A B]. destruct t as [n|n v ft o|n|n p s]; cbn [Filter_Model.transform_apply].
  - destruct take_first as [ [f r]|] eqn:Et; [|split; assumption]. apply take_first_in in Et as (Hk & Hf & Hr).
    unfold gone, absent in *. cbn. rewrite !Forall_forall in *. split.
    + intros g Hg. apply in_app_or in Hg as [Hg|[<- | [] ] ]; [apply filter_In in Hg as [Hg _]|]; auto.
    + intros g Hg. apply B. apply Hr. exact Hg.
  - destruct (negb o && _); [split; assumption|].
    destruct (match v with StringValue s => Some s | ExistingField k' => log_field_value l k' end) as [s|]; [|split; assumption].
    destruct ft; unfold gone; cbn; (split; [try assumption|try assumption]);
      (apply Forall_app; split; [apply absent_filter; assumption|constructor; [exact NS|constructor] ]).
  - unfold gone. cbn. split; apply absent_filter; assumption.
  - destruct (substitute re_replace n p s (l_fields l)) as [fs|] eqn:E1.
    + split; cbn; [exact (substitute_absent _ _ _ _ _ _ A E1)|exact B].
    + destruct (substitute re_replace n p s (l_matching l)) as [fs|] eqn:E2; [|split; assumption]. split; cbn; [exact A|exact (substitute_absent _ _ _ _ _ _ B E2)].
Qed.
Lemma gone_all k ts : Forall (fun t => ~ sets k t) ts -> forall l, gone k l -> gone k (apply_all ts l).
Proof. induction 1 as [|t ts H _ IH]; intros l G; [exact G|]. cbn. apply IH. apply gone_apply; assumption. Qed.
Lemma gone_process k fs : Forall (fun f => Forall (fun t => ~ sets k t) (fi_transforms f)) fs -> forall l, gone k l -> gone k (process fs l).
Proof.
  induction 1 as [|f fs H _ IH]; intros l G; [exact G|]. cbn. apply IH. unfold Filter_Model.filter_apply.
  destruct do_match; [apply gone_all; assumption|exact G].
Qed.
Lemma gone_remove k l : gone k (transform_apply (RemoveField k) l).
Proof.
  unfold gone, absent. cbn. rewrite !Forall_forall. split; intros f Hf; apply filter_In in Hf as [_ Hf]; apply negb_true_iff, String.eqb_neq in Hf; exact Hf.
Qed.
Lemma process_app a b l : process (a ++ b)%list l = process b (process a l).
Proof. unfold Filter_Model.process. apply fold_left_app. Qed.
Lemma removed pre f post ts1 k ts2 l :
  fi_transforms f = (ts1 ++ RemoveField k :: ts2)%list -> selects re_match to_i32 f (process pre l) = true ->
  Forall (fun t => ~ sets k t) (ts2 ++ concat (map fi_transforms post))%list ->
  ~ has_field k (l_fields (process (pre ++ f :: post) l)) /\ ~ has_field k (l_matching (process (pre ++ f :: post) l)).
Proof.
  intros Ef Sel F. assert (G : gone k (process (pre ++ f :: post)%list l)).
  { rewrite process_app. cbn. change (fold_left (fun l f => filter_apply f l) post ?x) with (process post x).
    apply Forall_app in F as [F1 F2]. apply gone_process.
    - rewrite Forall_forall in *. intros g Hg. rewrite Forall_forall. intros t Ht. apply F2. apply in_concat. exists (fi_transforms g). split; [apply in_map; exact Hg|exact Ht].
    - unfold Filter_Model.filter_apply. unfold selects in Sel. rewrite Sel, Ef. unfold Filter_Model.apply_all. rewrite fold_left_app. cbn [fold_left].
      change (gone k (apply_all ts2 (transform_apply (RemoveField k) (apply_all ts1 (process pre l))))).
      apply gone_all; [exact F1|]. apply gone_remove. }
  destruct G as [A B]. unfold absent in *. rewrite Forall_forall in *. split; intros (g & Hg & Hk); [exact (A g Hg Hk)|exact (B g Hg Hk)].
Qed.

Lemma unselected fs l : (forall f, In f fs -> selects re_match to_i32 f l = false) -> process fs l = l.
Proof.
  induction fs as [|f fs IH]; intros H; [reflexivity|]. cbn. unfold Filter_Model.filter_apply at 2.
  pose proof (H f (or_introl eq_refl)) as Hf. unfold selects in Hf. rewrite Hf. apply IH. intros g Hg. apply H. right. exact Hg.
Qed.

(** C28. *)
Lemma no_override n v ft l s : n <> "_message" -> first n (l_fields l ++ l_matching l) (VStr s) ->
  transform_apply (SetField n v ft false) l = l.
Proof.
  intros NM F. cbn [Filter_Model.transform_apply]. unfold log_field_value.
  destruct (String.eqb_spec n LOG_FIELD_NAME_MESSAGE); [contradiction|].
  destruct (String.eqb_spec n LOG_FIELD_NAME_LEVEL); [reflexivity|]. destruct (String.eqb_spec n LOG_FIELD_NAME_TYPE); [reflexivity|].
  destruct (find_first n (l_fields l ++ l_matching l)%list) as [(v' & F' & ->)|(A & _)]; [|destruct (first_absent _ _ _ F A)].
  pose proof (first_fun _ _ _ F _ F') as <-. reflexivity.
Qed.
End F.

(** * The configuration *)
Section Cfg.
Variable re_ok : string -> bool.
Lemma transform_asks c t : transform_new re_ok c = Some t <-> asks re_ok c t.
Proof.
  split.
  - destruct c as [[n|n [[v|]|] ft o|n|n p s]|]; cbn; try discriminate.
    + intros E. inv E. constructor.
    + destruct ft; try discriminate; intros E; inv E; destruct v.
      * exact (asks_literal re_ok n s true o). * exact (asks_copy re_ok n name true o). * exact (asks_literal re_ok n s false o). * exact (asks_copy re_ok n name false o).
    + intros E. inv E. constructor.
    + destruct (re_ok p) eqn:R; [|discriminate]. intros E. inv E. constructor. exact R.
  - intros H. destruct H as [k|k s b o|k k' b o|k|k p r R]; cbn; try reflexivity; [destruct b; reflexivity|destruct b; reflexivity|rewrite R; reflexivity].
Qed.
Lemma transforms_asks cs : forall ts, all_some (map (transform_new re_ok) cs) = Some ts <-> Forall2 (asks re_ok) cs ts.
Proof.
  induction cs as [|c cs IH]; intros ts; cbn.
  - split; [intros E; inv E; constructor|intros E; inv E; reflexivity].
  - split.
    + destruct (transform_new re_ok c) as [t|] eqn:Et; [|discriminate]. destruct (all_some (map (transform_new re_ok) cs)) as [r|] eqn:Er; [|discriminate].
      intros E. inv E. constructor; [apply transform_asks; exact Et|apply IH; reflexivity].
    + intros E. inversion E; subst. apply transform_asks in H1. rewrite H1. apply IH in H3. rewrite H3. reflexivity.
Qed.
Lemma filter_asks c f : filter_new re_ok c = Some f <-> asks_filter re_ok c f.
Proof.
  unfold filter_new, asks_filter. split.
  - destruct (fl_matcher c) as [m|]; [|discriminate]. destruct (tree_new re_ok m) as [t|] eqn:Em; [|discriminate].
    destruct (all_some (map (transform_new re_ok) (fl_transforms c))) as [ts|] eqn:E; [|discriminate]. intros X. inv X. exists m. cbn. splits; auto. apply transforms_asks. exact E.
  - intros (m & -> & -> & H). apply transforms_asks in H. rewrite H. destruct f. reflexivity.
Qed.
Lemma chain_gives cfgs : forall fs n, chain_new re_ok cfgs = (fs, n) <-> gives re_ok cfgs fs n.
Proof.
  induction cfgs as [|c l IH]; intros fs n; cbn.
  - split; [intros E; inv E; constructor|intros E; inv E; reflexivity].
  - split.
    + destruct (chain_new re_ok l) as [fs1 n1] eqn:El. assert (G : gives re_ok l fs1 n1) by (apply IH; reflexivity).
      destruct (filter_new re_ok c) as [f|] eqn:Ef; intros X; inv X.
      * constructor; [apply filter_asks; exact Ef|exact G].
      * apply gives_ignored; [|exact G]. intros f H. apply filter_asks in H. congruence.
    + intros H. inversion H as [|? f ? ? ? A G|? ? ? ? A G]; subst.
      * apply IH in G. rewrite G. apply filter_asks in A. rewrite A. reflexivity.
      * apply IH in G. rewrite G. destruct (filter_new re_ok c) as [f|] eqn:Ef; [|reflexivity]. destruct (A f). apply filter_asks. exact Ef.
Qed.
End Cfg.

(** * What the transforms do *)
Lemma take_first_none k fs : without k fs -> take_first k fs = None.
Proof.
  induction fs as [|f fs IH]; intros H; [reflexivity|]. cbn. destruct (String.eqb_spec (f_key f) k) as [E|_]; [destruct (H f (or_introl eq_refl) E)|].
  rewrite IH; [reflexivity|]. intros g Hg. apply H. right. exact Hg.
Qed.
Lemma take_first_split k a f b : f_key f = k -> without k a -> take_first k (a ++ f :: b) = Some (f, (a ++ b)%list).
Proof.
  intros E. induction a as [|g a IH]; intros H; cbn.
  - rewrite (proj2 (String.eqb_eq _ _) E). reflexivity.
  - destruct (String.eqb_spec (f_key g) k) as [X|_]; [destruct (H g (or_introl eq_refl) X)|]. rewrite IH; [reflexivity|]. intros h Hh. apply H. right. exact Hh.
Qed.
Lemma capture_moves re_replace k l :
  (without k (l_matching l) -> transform_apply re_replace (CaptureField k) l = l) /\
  (forall a f b, l_matching l = (a ++ f :: b)%list -> f_key f = k -> without k a ->
     let r := transform_apply re_replace (CaptureField k) l in l_matching r = (a ++ b)%list /\ l_fields r = (others k (l_fields l) ++ [f])%list).
Proof.
  split.
  - intros H. cbn. rewrite (take_first_none _ _ H). reflexivity.
  - intros a f b E Ek H. cbn. rewrite E, (take_first_split _ _ _ _ Ek H). cbn. split; [reflexivity|]. unfold set_field, others. rewrite Ek. reflexivity.
Qed.
Lemma set_puts re_replace k v ft o l s : o = true \/ log_field_value l k = None ->
  match v with StringValue x => x = s | ExistingField k' => log_field_value l k' = Some s end ->
  let r := transform_apply re_replace (SetField k v ft o) l in
  match ft with
  | Captured => l_fields r = (others k (l_fields l) ++ [mkField k (VStr s)])%list /\ l_matching r = l_matching l
  | MatchingOnly => l_matching r = (others k (l_matching l) ++ [mkField k (VStr s)])%list /\ l_fields r = l_fields l
  end.
Proof.
  intros O V. cbn. assert (C : negb o && match log_field_value l k with Some _ => true | None => false end = false) by (destruct O as [->| ->]; [reflexivity|apply andb_false_r]).
  rewrite C. assert (X : match v with StringValue s => Some s | ExistingField k => log_field_value l k end = Some s) by (destruct v; congruence). rewrite X. destruct ft; cbn; auto.
Qed.
Lemma set_missing re_replace k k' ft o l : log_field_value l k' = None -> transform_apply re_replace (SetField k (ExistingField k') ft o) l = l.
Proof. intros E. cbn. rewrite E. match goal with |- (if ?b then _ else _) = _ => destruct b end; reflexivity. Qed.
Lemma substitute_none re_replace k p r fs : without k fs -> substitute re_replace k p r fs = None.
Proof.
  induction fs as [|f fs IH]; intros H; [reflexivity|]. cbn. destruct (String.eqb_spec (f_key f) k) as [E|_]; [destruct (H f (or_introl eq_refl) E)|].
  rewrite IH; [reflexivity|]. intros g Hg. apply H. right. exact Hg.
Qed.
Lemma substitute_split re_replace k p r a v b : without k a ->
  substitute re_replace k p r (a ++ mkField k v :: b) = Some (a ++ mkField k match v with VStr s => VStr (re_replace p r s) | VBytes x => VBytes x end :: b)%list.
Proof.
  induction a as [|g a IH]; intros H; cbn.
  - rewrite String.eqb_refl. destruct v; reflexivity.
  - destruct (String.eqb_spec (f_key g) k) as [X|_]; [destruct (H g (or_introl eq_refl) X)|]. rewrite IH; [reflexivity|]. intros h Hh. apply H. right. exact Hh.
Qed.
Lemma rewrites re_replace k p r l :
  (forall a v b, l_fields l = (a ++ mkField k v :: b)%list -> without k a ->
     transform_apply re_replace (RegexMatchAndSubstitute k p r) l = with_fields l (a ++ mkField k match v with VStr s => VStr (re_replace p r s) | VBytes x => VBytes x end :: b)%list) /\
  (forall a v b, without k (l_fields l) -> l_matching l = (a ++ mkField k v :: b)%list -> without k a ->
     transform_apply re_replace (RegexMatchAndSubstitute k p r) l = with_matching l (a ++ mkField k match v with VStr s => VStr (re_replace p r s) | VBytes x => VBytes x end :: b)%list) /\
  (without k (l_fields l) -> without k (l_matching l) -> transform_apply re_replace (RegexMatchAndSubstitute k p r) l = l).
Proof.
  splits; cbn [transform_apply].
  - intros a v b E H. rewrite E, substitute_split by exact H. reflexivity.
  - intros a v b N E H. rewrite substitute_none by exact N. rewrite E, substitute_split by exact H. reflexivity.
  - intros N M. rewrite !substitute_none by assumption. reflexivity.
Qed.
