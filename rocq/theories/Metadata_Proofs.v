From Verif Require Import Base Str_Base Log_Model Metadata_Model Metadata_Spec Matcher_Spec Matcher_Proofs.
Local Open Scope string_scope.

Lemma verify_admissible f : verify_custom_field_name f = true <-> admissible (f_key f).
Proof.
  unfold verify_custom_field_name, admissible.
  destruct (existsb (String.eqb (f_key f)) RESERVED_FIELD_NAMES) eqn:E.
  - apply existsb_exists in E as (x & Hin & E). apply String.eqb_eq in E. subst x. split; [discriminate|]. intros [H _]. destruct (H Hin).
  - assert (N : ~ In (f_key f) RESERVED_FIELD_NAMES).
    { intros Hin. assert (existsb (String.eqb (f_key f)) RESERVED_FIELD_NAMES = true); [|congruence].
      apply existsb_exists. exists (f_key f). split; [exact Hin|apply String.eqb_refl]. }
    destruct (starts_with (f_key f) "_") eqn:S.
    + split; [discriminate|]. intros [_ H]. apply starts_with_app in S as (r & Er). destruct (H r Er).
    + split; [|reflexivity]. intros _. split; [exact N|]. intros r Er. assert (starts_with (f_key f) "_" = true); [|congruence].
      apply starts_with_app. eauto.
Qed.
Lemma partition_source l : forall kd s, source l kd s -> s = match kd with Ootb => fst (partition_fields l) | Custom => snd (partition_fields l) end.
Proof.
  induction 1 as [kd|f kd l s A _ IH|f kd kd' l s N _ IH|f l s N _ IH]; cbn.
  - destruct kd; reflexivity.
  - destruct (partition_fields l) as [o c]. destruct kd; cbn in *; [congruence|]. rewrite (proj2 (verify_admissible f) (A eq_refl)). cbn. congruence.
  - destruct (partition_fields l) as [o c]. destruct kd, kd'; cbn in *; try congruence. destruct verify_custom_field_name; cbn; congruence.
  - destruct (partition_fields l) as [o c]. destruct (verify_custom_field_name f) eqn:E; [|exact IH]. apply verify_admissible in E. contradiction.
Qed.
Lemma source_exists l kd : exists s, source l kd s.
Proof.
  induction l as [|[f kd'] l (s & IH)]; [eexists; constructor|].
  destruct kd, kd'; try (eexists; apply source_other; [discriminate|exact IH]).
  - eexists. apply source_use; [discriminate|exact IH].
  - destruct (verify_custom_field_name f) eqn:E.
    + eexists. apply source_use; [|exact IH]. intros _. apply verify_admissible. exact E.
    + eexists. apply source_refused; [|exact IH]. rewrite <- verify_admissible. congruence.
Qed.

Lemma in_seen k seen : existsb (String.eqb k) seen = true <-> In k seen.
Proof.
  rewrite existsb_exists. split.
  - intros (x & H & E). apply String.eqb_eq in E. congruence.
  - intros H. exists k. split; [exact H|apply String.eqb_refl].
Qed.
Lemma unique_seen l : forall seen f, In f (unique_by_key seen l) -> ~ In (f_key f) seen.
Proof.
  induction l as [|g l IH]; intros seen f; cbn; [tauto|]. destruct (existsb (String.eqb (f_key g)) seen) eqn:E.
  - apply IH.
  - intros [<- | Hin] Hs; [apply in_seen in Hs; congruence|]. apply (IH _ _ Hin). right. exact Hs.
Qed.
Lemma unique_nodup l : forall seen, NoDup (map f_key (unique_by_key seen l)).
Proof.
  induction l as [|g l IH]; intros seen; cbn; [constructor|]. destruct existsb; [apply IH|]. cbn. constructor; [|apply IH].
  intros Hin. apply in_map_iff in Hin as (f & Ek & Hf). apply unique_seen in Hf. apply Hf. left. congruence.
Qed.
Lemma unique_first l : forall seen k v, In (mkField k v) (unique_by_key seen l) <-> ~ In k seen /\ first k l v.
Proof.
  induction l as [|[k' v'] l IH]; intros seen k v; cbn.
  - split; [tauto|]. intros [_ F]. inversion F.
  - destruct (existsb (String.eqb k') seen) eqn:E.
    + apply in_seen in E. rewrite IH. split; intros [N F]; (split; [exact N|]).
      * constructor; [congruence|exact F].
      * inversion F; subst; [contradiction|assumption].
    + assert (~ In k' seen) by (rewrite <- in_seen; congruence). cbn. rewrite IH. split.
      * intros [E'|[N F] ]; [inv E'; split; [assumption|constructor]|].
        split; [intros Hs; apply N; right; exact Hs|]. constructor; [intros ->; apply N; left; reflexivity|exact F].
      * intros [N F]. inversion F; subst; [left; reflexivity|right]. split; [|assumption]. intros [->|Hs]; [congruence|contradiction].
Qed.
Lemma first_app k a b v : first k (a ++ b) v <-> first k a v \/ (absent k a /\ first k b v).
Proof.
  induction a as [|[k' v'] a IH]; cbn.
  - split; [right; split; [constructor|assumption]|]. intros [F|[_ F] ]; [inversion F|exact F].
  - split.
    + intros F. inversion F; subst; [left; constructor|]. apply IH in H4 as [G|[A G] ]; [left; constructor; assumption|right].
      split; [constructor; assumption|exact G].
    + intros [F|[A F] ].
      * inversion F; subst; [constructor|constructor; [assumption|apply IH; left; assumption] ].
      * apply Forall_cons_iff in A as [A1 A2]. constructor; [exact A1|]. apply IH. right. split; assumption.
Qed.
Lemma first_concat k ls v : first k (concat ls) v <-> picks k ls v.
Proof.
  induction ls as [|s ls IH]; cbn.
  - split; intros F; inversion F.
  - rewrite first_app, IH. split.
    + intros [F|[A F] ]; [apply picks_here|apply picks_later]; assumption.
    + intros F. inversion F; subst; auto.
Qed.

Lemma normalized globals ts provider fields matching log_type m :
  normalized_metadata globals (Some ts) (Some provider) fields matching log_type = Some m ->
  forall po pc lo lc mo mc, source provider Ootb po -> source provider Custom pc -> source fields Ootb lo -> source fields Custom lc ->
  source matching Ootb mo -> source matching Custom mc ->
  m_time m = ts /\ NoDup (map f_key (m_fields m)) /\ NoDup (map f_key (m_matching m)) /\
  (~ In log_type [1; 3; 4]%N ->
     forall k v, (In (mkField k v) (m_fields m) <-> picks k [po; lo; lc; globals; pc] v) /\
                 (In (mkField k v) (m_matching m) <-> picks k [mo; mc] v)) /\
  (In log_type [1; 3; 4]%N ->
     forall k v, (In (mkField k v) (m_fields m) <-> picks k [lo; lc; globals] v) /\
                 (In (mkField k v) (m_matching m) <-> picks k [po; mo; mc; pc] v)).
Proof.
  intros E po pc lo lc mo mc P1 P2 P3 P4 P5 P6.
  apply partition_source in P1, P2, P3, P4, P5, P6. cbn in *.
  unfold normalized_metadata in E.
  assert (T : is_matching_only_type log_type = true <-> In log_type [1; 3; 4]%N).
  { unfold is_matching_only_type. cbn. rewrite !orb_true_iff, !N.eqb_eq. intuition. }
  destruct (is_matching_only_type log_type) eqn:Et; cbn in E;
    destruct (partition_fields provider) as [po' pc'], (partition_fields fields) as [lo' lc'], (partition_fields matching) as [mo' mc'];
    cbn in *; subst; inv E; cbn [m_time m_fields m_matching].
  - splits; [reflexivity|apply unique_nodup|apply unique_nodup|tauto|]. intros _ k v. rewrite !unique_first. split.
    + change (lo' ++ lc' ++ globals ++ [])%list with (concat [lo'; lc'; globals]). rewrite first_concat. cbn. tauto.
    + change (po' ++ mo' ++ mc' ++ pc' ++ [])%list with (concat [po'; mo'; mc'; pc']). rewrite first_concat. cbn. tauto.
  - splits; [reflexivity|apply unique_nodup|apply unique_nodup| |intros H; apply T in H; discriminate]. intros _ k v. rewrite !unique_first. split.
    + change (po' ++ lo' ++ lc' ++ globals ++ pc' ++ [])%list with (concat [po'; lo'; lc'; globals; pc']). rewrite first_concat. cbn. tauto.
    + change (mo' ++ mc' ++ [])%list with (concat [mo'; mc']). rewrite first_concat. cbn. tauto.
Qed.

(** Globals. *)
Definition ginv (g : list field) : Prop := NoDup (map f_key g) /\ Forall (fun f => admissible (f_key f)) g.
Lemma remove_first_in k g : NoDup (map f_key g) -> forall f, In f (remove_first k g) <-> In f g /\ f_key f <> k.
Proof.
  induction g as [|h g IH]; cbn; intros ND f; [tauto|]. inversion ND; subst. destruct (String.eqb_spec (f_key h) k).
  - subst k. split.
    + intros Hf. split; [auto|]. intros E. apply H1. rewrite <- E. apply in_map. exact Hf.
    + intros [ [->|Hf] N]; [congruence|exact Hf].
  - cbn. rewrite (IH H2). split; [intros [->|[A B] ]; auto|]. intros [ [->|A] B]; auto.
Qed.
Lemma remove_first_nodup k g : NoDup (map f_key g) -> NoDup (map f_key (remove_first k g)).
Proof.
  induction g as [|h g IH]; cbn; intros ND; [constructor|]. inversion ND; subst. destruct String.eqb; [assumption|]. cbn. constructor; [|auto].
  intros Hin. apply H1. apply in_map_iff in Hin as (f & E & Hf). apply remove_first_in in Hf as [Hf _]; [|assumption]. rewrite <- E. apply in_map. exact Hf.
Qed.
Lemma nodup_snoc {A} (l : list A) x : NoDup l -> ~ In x l -> NoDup (l ++ [x]).
Proof. intros ND N. apply NoDup_Add with (a := x) (l := l); [|auto]. rewrite <- (app_nil_r l) at 1. apply Add_app. Qed.
Lemma ginv_step g o : ginv g -> ginv (gstep g o).
Proof.
  intros [ND F]. destruct o as [k v|k]; cbn.
  - unfold add_field. destruct verify_custom_field_name eqn:E; cbn; [|split; assumption]. apply verify_admissible in E. cbn in E. split.
    + rewrite map_app. cbn. apply nodup_snoc; [apply remove_first_nodup; exact ND|]. intros Hin. apply in_map_iff in Hin as (f & Ef & Hf).
      apply remove_first_in in Hf as [_ N]; [congruence|exact ND].
    + apply Forall_app. split; [|auto]. rewrite Forall_forall in *. intros f Hf. apply remove_first_in in Hf as [Hf _]; auto.
  - split; [apply remove_first_nodup; exact ND|]. rewrite Forall_forall in *. intros f Hf. apply remove_first_in in Hf as [Hf _]; auto.
Qed.
Lemma ginv_run ops : ginv (fold_left gstep ops []).
Proof.
  assert (G : forall g, ginv g -> ginv (fold_left gstep ops g)); [|apply G; split; constructor].
  induction ops as [|o ops IH]; intros g I; [exact I|]. cbn. apply IH, ginv_step, I.
Qed.
Lemma step_in g o k v : ginv g -> In (mkField k v) (gstep g o) <->
  match o with
  | Add k' v' => (k' = k /\ v' = v /\ admissible k) \/ (In (mkField k v) g /\ (k' <> k \/ ~ admissible k'))
  | Remove k' => In (mkField k v) g /\ k' <> k
  end.
Proof.
  intros [ND F]. destruct o as [k' v'|k']; cbn.
  - unfold add_field. destruct verify_custom_field_name eqn:E; cbn.
    + apply verify_admissible in E. cbn in E. rewrite in_app_iff, remove_first_in by exact ND. cbn. split.
      * intros [ [A B]|[A|[] ] ]; [right; split; [exact A|left; congruence]|]. inv A. left. auto.
      * intros [(-> & -> & _)|[A [B|B] ] ]; [right; left; reflexivity|left; split; [exact A|congruence]|contradiction].
    + assert (N : ~ admissible k') by (rewrite <- (verify_admissible (mkField k' v')); congruence). split; [auto|].
      intros [(-> & _ & A)|[A _] ]; [contradiction|exact A].
  - unfold remove_field. rewrite remove_first_in by exact ND. cbn. split; intros [A B]; split; auto.
Qed.
Lemma globals_run ops : forall k v, (In (mkField k v) (fold_left gstep ops []) <-> added k v ops) /\ (In (mkField k v) (fold_left gstep ops []) -> admissible k).
Proof.
  intros k v. split; [|intros H; destruct (ginv_run ops) as [_ F]; rewrite Forall_forall in F; apply (F _ H)].
  induction ops as [|o ops IH] using rev_ind.
  - cbn. split; [tauto|]. intros A. inversion A; destruct ops; discriminate.
  - rewrite fold_left_app. cbn [fold_left]. rewrite step_in by apply ginv_run.
    assert (SN : forall p q : list gop, forall x y, (p ++ [x] = q ++ [y])%list -> p = q /\ x = y) by (intros; apply app_inj_tail; assumption).
    destruct o as [k' v'|k']; rewrite IH; split.
    + intros [(-> & -> & A)|[A [N|N] ] ]; [apply added_last; exact A|apply added_other; assumption|].
      apply added_other; [|exact A]. intros ->. apply N. apply IH in A. destruct (ginv_run ops) as [_ F]. rewrite Forall_forall in F. apply (F _ A).
    + intros A. inversion A as [q Ad Eq|q o N Ad Eq]; apply SN in Eq as [Eq1 Eq]; subst q; [inv Eq; auto|subst o; auto].
    + intros [A N]. apply added_other; auto.
    + intros A. inversion A as [q Ad Eq|q o N Ad Eq]; apply SN in Eq as [Eq1 Eq]; subst q; [discriminate|subst o; auto].
Qed.

Lemma provider_needed globals ts provider fields matching log_type :
  normalized_metadata globals ts provider fields matching log_type = None <-> ts = None \/ provider = None.
Proof.
  unfold normalized_metadata. destruct ts as [ts|], provider as [p|]; try tauto.
  split; [|intros [|]; discriminate]. destruct (is_matching_only_type log_type); repeat match goal with |- context [partition_fields ?l] => destruct (partition_fields l) end; discriminate.
Qed.
