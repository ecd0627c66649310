From Coq Require Import Sorted.
From Verif Require Import Base Str_Base Version_Model Version_Spec Version_Proofs Log_Model LogMatcher_Model BufferMatcher_Model Matcher_Spec.
Local Open Scope string_scope.

(** Field lookups. *)
Lemma find_first k l : (exists v, first k l v /\ find_field k l = Some (mkField k v)) \/ (absent k l /\ find_field k l = None).
Proof.
  induction l as [|[k' v'] l IH]; unfold find_field in *; cbn.
  - right. split; [constructor|reflexivity].
  - destruct (String.eqb_spec k' k) as [->|NE].
    + left. exists v'. split; [constructor|reflexivity].
    + destruct IH as [(v & F & ->)|(A & ->)].
      * left. exists v. split; [constructor; assumption|reflexivity].
      * right. split; [constructor; assumption|reflexivity].
Qed.
Lemma first_fun k l v : first k l v -> forall w, first k l w -> v = w.
Proof. induction 1; intros w Hw; inversion Hw; subst; try congruence; auto. Qed.
Lemma first_absent k l v : first k l v -> absent k l -> False.
Proof. induction 1; intros A; apply Forall_cons_iff in A as [A1 A2]; cbn in *; auto. Qed.

Lemma precedence captured matching k s : (forall b, ~ first k captured (VBytes b)) ->
  (fields_ref_value captured matching k = Some s <-> visible captured matching k s).
Proof.
  intros NB. unfold fields_ref_value, visible, matching_field_value.
  destruct (find_first k captured) as [(v & F & ->)|(A & ->)]; cbn.
  - destruct v as [s'|b]; [|destruct (NB b F)]. cbn. split.
    + intros E. inv E. left. exact F.
    + intros [F'|(A & _)]; [|destruct (first_absent _ _ _ F A)]. pose proof (first_fun _ _ _ F _ F') as E. congruence.
  - destruct (find_first k matching) as [(v & F & ->)|(A' & ->)]; cbn.
    + destruct v as [s'|b]; cbn; split.
      * intros E. inv E. right. split; assumption.
      * intros [F'|(_ & F')]; [destruct (first_absent _ _ _ F' A)|]. pose proof (first_fun _ _ _ F _ F') as E. congruence.
      * discriminate.
      * intros [F'|(_ & F')]; [destruct (first_absent _ _ _ F' A)|]. pose proof (first_fun _ _ _ F _ F') as E. congruence.
    + split; [discriminate|]. intros [F'|(_ & F')]; [destruct (first_absent _ _ _ F' A)|destruct (first_absent _ _ _ F' A')].
Qed.

(** Induction over nested lists. *)
Fixpoint cfg_ind' (P : matcher_cfg -> Prop) (Hb : forall b, P (CBase b)) (Ho : forall l, Forall P l -> P (COr l)) (Ha : forall l, Forall P l -> P (CAnd l))
  (Hn : forall c, P c -> P (CNot c)) (Hm : P CMissing) (c : matcher_cfg) : P c :=
  let fix list_ind l : Forall P l := match l with [] => Forall_nil _ | c :: l' => Forall_cons c (cfg_ind' P Hb Ho Ha Hn Hm c) (list_ind l') end in
  match c with
  | CBase b => Hb b
  | COr l => Ho l (list_ind l)
  | CAnd l => Ha l (list_ind l)
  | CNot c => Hn c (cfg_ind' P Hb Ho Ha Hn Hm c)
  | CMissing => Hm
  end.
Fixpoint bcfg_ind' (P : bmatcher_cfg -> Prop) (Hb : forall b, P (BBase b)) (Ho : forall l, Forall P l -> P (BOr l)) (Ha : forall l, Forall P l -> P (BAnd l))
  (Hn : forall c, P c -> P (BNot c)) (Hm : P BMissing) (c : bmatcher_cfg) : P c :=
  let fix list_ind l : Forall P l := match l with [] => Forall_nil _ | c :: l' => Forall_cons c (bcfg_ind' P Hb Ho Ha Hn Hm c) (list_ind l') end in
  match c with
  | BBase b => Hb b
  | BOr l => Ho l (list_ind l)
  | BAnd l => Ha l (list_ind l)
  | BNot c => Hn c (bcfg_ind' P Hb Ho Ha Hn Hm c)
  | BMissing => Hm
  end.
Fixpoint tree_ind' (P : tree -> Prop) (Hb : forall b, P (TBase b)) (Ho : forall l, Forall P l -> P (TOr l)) (Ha : forall l, Forall P l -> P (TAnd l))
  (Hn : forall c, P c -> P (TNot c)) (c : tree) : P c :=
  let fix list_ind l : Forall P l := match l with [] => Forall_nil _ | c :: l' => Forall_cons c (tree_ind' P Hb Ho Ha Hn c) (list_ind l') end in
  match c with
  | TBase b => Hb b
  | TOr l => Ho l (list_ind l)
  | TAnd l => Ha l (list_ind l)
  | TNot c => Hn c (tree_ind' P Hb Ho Ha Hn c)
  end.

Lemma int_holds o v m n : int_match_new o v = Some m -> (int_evaluate m n = true <-> compares o (Z.compare n v)).
Proof.
  unfold int_match_new, int_evaluate. intros E.
  destruct o; inv E; cbn; try (split; [discriminate|tauto]); rewrite ?negb_true_iff, ?Z.ltb_lt, ?Z.leb_le, ?Z.eqb_eq, ?Z.eqb_neq;
    pose proof (Z.compare_spec n v) as C; destruct C; split; intros; try congruence; try lia.
Qed.
Lemma str_eqb_cmp a b : String.eqb a b = match str_cmp a b with Eq => true | _ => false end.
Proof.
  destruct (String.eqb_spec a b) as [->|NE]; [rewrite str_cmp_refl; reflexivity|].
  destruct (str_cmp a b) eqn:E; auto. apply str_cmp_eq in E. congruence.
Qed.
Section M.
Variables (re_ok : string -> bool) (re_match : string -> string -> bool) (to_i32 : string -> option Z).
Lemma string_holds o v m s : string_match_new re_ok o v = Some m -> (string_evaluate re_match m s = true <-> text_holds re_match o s v).
Proof.
  unfold string_match_new, string_evaluate, text_holds. intros E.
  destruct o; try (destruct (re_ok v)); inv E; cbn; rewrite ?str_eqb_cmp; unfold str_lt, str_le;
    rewrite ?(str_cmp_antisym v s); destruct (str_cmp s v); cbn; split; intros; try congruence; auto.
Qed.
Lemma vmatch_holds o v m s : version_match_new re_ok o v = Some m -> (version_evaluate re_match m s = true <-> version_holds re_match o s v).
Proof.
  unfold version_match_new, version_evaluate, version_holds. intros E.
  destruct o; try (destruct (re_ok v)); inv E; cbn; unfold compare_with;
    try destruct (version_cmp (version_new s) (version_new v)); cbn; split; intros; try congruence; auto.
Qed.

Variables (level ltype : N) (message : value) (fields : string -> option string).
Let shows k s := fields k = Some s.

Lemma input_ex (o : option string) (p : string -> bool) (Q : string -> Prop) : (forall s, p s = true <-> Q s) ->
  (match o with Some s => p s | None => false end = true <-> exists s, o = Some s /\ Q s).
Proof.
  intros H. destruct o as [s|]; [rewrite H|]; split; intros E; try discriminate; eauto; destruct E as (s' & E & Hq); congruence.
Qed.
Lemma msg_ex (p : string -> bool) (Q : string -> Prop) : (forall s, p s = true <-> Q s) ->
  (match as_str message with Some s => p s | None => false end = true <-> exists s, message = VStr s /\ Q s).
Proof.
  intros H. destruct message as [s|]; cbn; [rewrite H|]; split; intros E; try discriminate; eauto; destruct E as (s' & E & Hq); congruence.
Qed.

Lemma leaf_holds b l : leaf_new re_ok (Some b) = Some l -> type_by_equality b ->
  (leaf_match re_match to_i32 l level ltype message fields = true <-> base_holds re_match to_i32 level ltype message shows b).
Proof.
  intros E TE. destruct b as [o v|k [vm|] ]; cbn in *; try discriminate.
  - destruct o as [o|]; [|discriminate]. destruct (string_match_new re_ok o v) as [m|] eqn:Em; inv E. cbn.
    apply msg_ex. intros s. apply string_holds. exact Em.
  - destruct vm as [o v|o v|o v|]; cbn in *.
    + destruct (String.eqb_spec k "log_level") as [->|N1]; [|destruct (String.eqb_spec k "log_type") as [->|N2] ].
      * destruct o as [o|]; [|discriminate]. destruct (int_match_new o v) as [m|] eqn:Em; inv E. cbn.
        destruct (N.ltb_spec level 2147483648).
        -- rewrite (int_holds _ _ _ _ Em). split; [left; auto|]. intros [(_ & _ & H')|[(H' & _)|(H' & _)] ]; congruence.
        -- split; [discriminate|]. intros [(_ & H' & _)|[(H' & _)|(H' & _)] ]; try congruence. lia.
      * rewrite (TE eq_refl) in *. destruct (Z.ltb_spec v 0); inv E. cbn. rewrite N.eqb_eq. split.
        -- intros Eq. right. left. split; [reflexivity|]. rewrite <- Eq, Z2N.id by lia. apply Z.compare_refl.
        -- intros [(H' & _)|[(_ & H')|(_ & H' & _)] ]; try congruence. apply Z.compare_eq in H'. lia.
      * destruct o as [o|]; [|discriminate]. destruct (int_match_new o v) as [m|] eqn:Em; inv E. cbn. split.
        -- intros H. right. right. splits; auto. destruct (fields k) as [s|] eqn:Ef; [|discriminate]. destruct (to_i32 s) as [n|] eqn:En; [|discriminate].
           exists s, n. splits; auto. apply (int_holds _ _ _ n Em). exact H.
        -- intros [(H' & _)|[(H' & _)|(_ & _ & s & n & Hs & Hn & H')] ]; try congruence.
           unfold shows in Hs. rewrite Hs, Hn. apply (int_holds _ _ _ n Em). exact H'.
    + destruct o as [o|]; [|discriminate]. destruct (string_match_new re_ok o v) as [m|] eqn:Em; inv E. cbn. unfold shows.
      apply input_ex. intros s. apply string_holds. exact Em.
    + destruct o as [o|]; [|discriminate]. destruct (version_match_new re_ok o v) as [m|] eqn:Em; inv E. cbn. unfold shows.
      apply input_ex. intros s. apply vmatch_holds. exact Em.
    + inv E. cbn. unfold shows. destruct (fields k) as [s|]; split; intros H; eauto; try discriminate. destruct H. discriminate.
Qed.

Lemma formula c : forall t, tree_new re_ok c = Some t -> types_by_equality c ->
  (do_match re_match to_i32 t level ltype message fields = true <-> holds re_match to_i32 level ltype message shows c).
Proof.
  induction c as [b|l IH|l IH|c IH|] using cfg_ind'; intros t E TE; cbn in *.
  - destruct b as [b|]; [|discriminate]. destruct (leaf_new re_ok (Some b)) as [lf|] eqn:El; inv E. cbn. apply leaf_holds; assumption.
  - destruct (all_some (map (tree_new re_ok) l)) as [ts|] eqn:Ea; inv E. cbn. revert ts Ea.
    induction IH as [|c l Hc _ IHl]; intros ts Ea; cbn in *.
    + inv Ea. cbn. split; [discriminate|tauto].
    + destruct (tree_new re_ok c) as [tc|] eqn:Ec; [|discriminate]. destruct (all_some (map (tree_new re_ok) l)) as [ts'|] eqn:Ea'; inv Ea.
      cbn. rewrite orb_true_iff. rewrite (Hc _ eq_refl) by tauto. rewrite (IHl (proj2 TE) _ eq_refl). reflexivity.
  - destruct (all_some (map (tree_new re_ok) l)) as [ts|] eqn:Ea; inv E. cbn. revert ts Ea.
    induction IH as [|c l Hc _ IHl]; intros ts Ea; cbn in *.
    + inv Ea. cbn. tauto.
    + destruct (tree_new re_ok c) as [tc|] eqn:Ec; [|discriminate]. destruct (all_some (map (tree_new re_ok) l)) as [ts'|] eqn:Ea'; inv Ea.
      cbn. rewrite andb_true_iff. rewrite (Hc _ eq_refl) by tauto. rewrite (IHl (proj2 TE) _ eq_refl). reflexivity.
  - destruct (tree_new re_ok c) as [tc|] eqn:Ec; inv E. cbn. rewrite negb_true_iff. rewrite <- (IH _ eq_refl TE).
    destruct (do_match re_match to_i32 tc level ltype message fields); split; congruence.
  - discriminate.
Qed.

End M.
Section B.
Variables (re_ok : string -> bool) (re_match : string -> string -> bool).
Variables (level ltype : N) (message : value) (fields : string -> option string).
Let shows k s := fields k = Some s.
Lemma starts_with_app s p : starts_with s p = true <-> exists r, s = p ++ r.
Proof.
  unfold starts_with. revert s. induction p as [|a p IH]; intros [|b s]; cbn.
  - split; [exists ""; reflexivity|reflexivity].
  - split; [exists (String b s); reflexivity|reflexivity].
  - split; [discriminate|]. intros (r & E). discriminate.
  - destruct (Ascii.ascii_dec a b) as [->|NE].
    + rewrite IH. split; intros (r & E); exists r; [rewrite E; reflexivity|inv E; reflexivity].
    + split; [discriminate|]. intros (r & E). inv E. congruence.
Qed.
Lemma bstr_holds t v m s : str_new re_ok (Some t) v = Some m -> (str_evaluate re_match m s = true <-> str_holds re_match t s v).
Proof.
  destruct t; cbn; intros E; [inv E|inv E|destruct (re_ok v); inv E]; cbn.
  - apply String.eqb_eq.
  - apply starts_with_app.
  - tauto.
Qed.
Lemma bleaf_holds b l : bleaf_new re_ok (Some b) = Some l ->
  (bleaf_match re_match l ltype level message fields = true <-> bbase_holds re_match level ltype message shows b).
Proof.
  intros E. destruct b as [o v|t v|k t v| |t]; cbn [bleaf_new] in E.
  - destruct o as [o|]; [|discriminate]. destruct (Z.ltb_spec v 0); inv E. destruct o; cbn; rewrite ?N.ltb_lt, ?N.leb_le, ?N.eqb_eq; lia.
  - destruct t as [t|]; [|discriminate]. destruct (str_new re_ok (Some t) v) as [m|] eqn:Em; [|discriminate]. cbn in E. inv E.
    cbn. apply msg_ex. intros s. apply bstr_holds. exact Em.
  - destruct t as [t|]; [|discriminate]. destruct (str_new re_ok (Some t) v) as [m|] eqn:Em; [|discriminate]. cbn in E. inv E.
    cbn. apply input_ex. intros s. apply bstr_holds. exact Em.
  - inv E. cbn. tauto.
  - inv E. cbn. apply N.eqb_eq.
Qed.
Lemma bformula c : forall t, btree_new re_ok c = Some t ->
  (bdo_match re_match t ltype level message fields = true <-> bholds re_match level ltype message shows c).
Proof.
  induction c as [b|l IH|l IH|c IH|] using bcfg_ind'; intros t E; cbn -[bleaf_new] in *.
  - destruct b as [b|]; [|discriminate]. destruct (bleaf_new re_ok (Some b)) as [lf|] eqn:El; inv E. cbn. apply bleaf_holds; assumption.
  - destruct (all_some (map (btree_new re_ok) l)) as [ts|] eqn:Ea; inv E. cbn. revert ts Ea.
    induction IH as [|c l Hc _ IHl]; intros ts Ea; cbn in *.
    + inv Ea. cbn. split; [discriminate|tauto].
    + destruct (btree_new re_ok c) as [tc|] eqn:Ec; [|discriminate]. destruct (all_some (map (btree_new re_ok) l)) as [ts'|] eqn:Ea'; inv Ea.
      cbn. rewrite orb_true_iff. rewrite (Hc _ eq_refl). rewrite (IHl _ eq_refl). reflexivity.
  - destruct (all_some (map (btree_new re_ok) l)) as [ts|] eqn:Ea; inv E. cbn. revert ts Ea.
    induction IH as [|c l Hc _ IHl]; intros ts Ea; cbn in *.
    + inv Ea. cbn. tauto.
    + destruct (btree_new re_ok c) as [tc|] eqn:Ec; [|discriminate]. destruct (all_some (map (btree_new re_ok) l)) as [ts'|] eqn:Ea'; inv Ea.
      cbn. rewrite andb_true_iff. rewrite (Hc _ eq_refl). rewrite (IHl _ eq_refl). reflexivity.
  - destruct (btree_new re_ok c) as [tc|] eqn:Ec; inv E. cbn. rewrite negb_true_iff. rewrite <- (IH _ eq_refl).
    destruct (bdo_match re_match tc ltype level message fields); split; congruence.
  - discriminate.
Qed.

(** Buffer selection. *)
Definition sorted (l : list string) : Prop := StronglySorted (fun a b => str_cmp a b = Lt) l.
Lemma set_insert_in x l y : In y (set_insert x l) <-> y = x \/ In y l.
Proof.
  induction l as [|z l IH]; cbn; [intuition|]. destruct (str_cmp x z) eqn:E; cbn.
  - apply str_cmp_eq in E. subst. intuition.
  - intuition.
  - rewrite IH. intuition.
Qed.
Lemma set_insert_sorted x l : sorted l -> sorted (set_insert x l).
Proof.
  unfold sorted. induction l as [|z l IH]; cbn; intros S; [repeat constructor|].
  apply StronglySorted_inv in S as [S F]. destruct (str_cmp x z) eqn:E.
  - constructor; assumption.
  - constructor; [constructor; assumption|]. constructor; [exact E|]. rewrite Forall_forall in *. intros y Hy.
    apply str_cmp_trans with z; auto.
  - constructor; [auto|]. rewrite Forall_forall in *. intros y Hy. apply set_insert_in in Hy as [-> | Hy]; [|auto].
    rewrite str_cmp_antisym, E. reflexivity.
Qed.
Lemma any_matches_ex ms : any_matches re_match ms ltype level message fields = true <->
  exists i t, In (i, t) ms /\ bdo_match re_match t ltype level message fields = true.
Proof.
  induction ms as [|[i t] ms IH]; cbn.
  - split; [discriminate|]. intros (? & ? & [] & _).
  - destruct (bdo_match re_match t ltype level message fields) eqn:E.
    + split; [eauto|reflexivity].
    + rewrite IH. split.
      * intros (j & u & Hin & Hm). eauto.
      * intros (j & u & [H|Hin] & Hm); [inv H; congruence|eauto].
Qed.
Lemma buffers_loop_in l : forall acc id, In id (buffers_loop re_match l ltype level message fields acc) <->
  In id acc \/ exists b, In b l /\ bf_id b = id /\ any_matches re_match (bf_matchers b) ltype level message fields = true.
Proof.
  induction l as [|b l IH]; intros acc id; cbn.
  - split; [auto|]. intros [H|(? & [] & _)]. exact H.
  - rewrite IH. destruct (any_matches re_match (bf_matchers b) ltype level message fields) eqn:E.
    + rewrite set_insert_in. split.
      * intros [[-> | H]|(b' & H & Hi & Hm)]; eauto 6.
      * intros [H|(b' & [-> | H] & Hi & Hm)]; eauto 6.
    + split.
      * intros [H|(b' & H & Hi & Hm)]; eauto 6.
      * intros [H|(b' & [-> | H] & Hi & Hm)]; eauto 6. congruence.
Qed.
Lemma buffers_loop_sorted l : forall acc, sorted acc -> sorted (buffers_loop re_match l ltype level message fields acc).
Proof. induction l as [|b l IH]; intros acc S; cbn; [exact S|]. apply IH. destruct any_matches; [apply set_insert_sorted|]; exact S. Qed.

Lemma filters_in l : forall ms, filters_new re_ok l = Some ms -> forall t,
  (exists i, In (i, t) ms) <-> (exists f m, In f l /\ fc_matcher f = Some m /\ btree_new re_ok m = Some t).
Proof.
  induction l as [|f l IH]; cbn; intros ms E t.
  - inv E. split; [intros (? & [])|intros (? & ? & [] & _)].
  - destruct (fc_matcher f) as [m|] eqn:Em.
    + destruct (btree_new re_ok m) as [u|] eqn:Eu; [|discriminate]. destruct (filters_new re_ok l) as [ms'|]; inv E.
      specialize (IH _ eq_refl t). split.
      * intros (i & [H|H]); [inv H; eauto 6|]. destruct (proj1 IH (ex_intro _ i H)) as (f' & m' & ? & ? & ?). eauto 6.
      * intros (f' & m' & [-> | Hin] & Hm & Ht); [exists (fc_id f'); left; congruence|].
        destruct (proj2 IH) as (i & Hi); eauto 6. exists i. right. exact Hi.
    + rewrite (IH _ E t). split; intros (f' & m' & Hin & Hm & Ht); [eauto 6|]. destruct Hin as [-> | Hin]; [congruence|eauto 6].
Qed.
Lemma filters_some l : forall ms, filters_new re_ok l = Some ms -> forall f m, In f l -> fc_matcher f = Some m -> btree_new re_ok m <> None.
Proof.
  induction l as [|g l IH]; cbn; intros ms E f m Hin Hm; [destruct Hin|].
  destruct Hin as [-> | Hin].
  - rewrite Hm in E. destruct (btree_new re_ok m); congruence.
  - destruct (fc_matcher g) as [mg|]; [|eauto]. destruct (btree_new re_ok mg); [|discriminate]. destruct (filters_new re_ok l); inv E. eauto.
Qed.
Lemma selector_in l : forall sel, selector_new re_ok l = Some sel -> forall bf,
  In bf sel <-> (exists b, In b l /\ bf_id bf = bc_id b /\ filters_new re_ok (bc_filters b) = Some (bf_matchers bf)).
Proof.
  induction l as [|b l IH]; cbn; intros sel E bf.
  - inv E. split; [intros []|intros (? & [] & _)].
  - destruct (filters_new re_ok (bc_filters b)) as [ms|] eqn:Ef; [|discriminate]. destruct (selector_new re_ok l) as [sel'|]; inv E.
    cbn. rewrite (IH _ eq_refl). split.
    + intros [<- | (b' & ? & ? & ?)]; eauto 6.
    + intros (b' & [-> | Hin] & Hi & Hf); [left|right; eauto]. destruct bf; cbn in *. congruence.
Qed.
Lemma selector_some l : forall sel, selector_new re_ok l = Some sel -> forall b, In b l -> exists ms, filters_new re_ok (bc_filters b) = Some ms.
Proof.
  induction l as [|c l IH]; cbn; intros sel E b Hin; [destruct Hin|].
  destruct (filters_new re_ok (bc_filters c)) as [ms|] eqn:Ef; [|discriminate]. destruct (selector_new re_ok l); inv E.
  destruct Hin as [-> | Hin]; eauto.
Qed.

Lemma selection cfg sel : selector_new re_ok cfg = Some sel -> forall id,
  In id (buffers re_match sel ltype level message fields) <-> routed re_match level ltype message shows cfg id.
Proof.
  intros E id. unfold buffers. rewrite buffers_loop_in. unfold routed. split.
  - intros [[]|(bf & Hin & <- & Hm)]. apply any_matches_ex in Hm as (i & t & Hit & Hm).
    apply (selector_in _ _ E) in Hin as (b & Hb & Hid & Hf).
    destruct (proj1 (filters_in _ _ Hf t) (ex_intro _ i Hit)) as (f & m & Hfi & Hfm & Ht).
    exists b, f, m. splits; auto. apply (bformula m t Ht). exact Hm.
  - intros (b & f & m & Hb & <- & Hf & Hm & Hh). right.
    destruct (selector_some _ _ E _ Hb) as (ms & Hms).
    destruct (btree_new re_ok m) as [t|] eqn:Et; [|destruct (filters_some _ _ Hms _ _ Hf Hm Et)].
    exists (mkBufferFilter (bc_id b) ms). splits; auto.
    + apply (selector_in _ _ E). exists b. auto.
    + cbn. apply any_matches_ex. destruct (proj2 (filters_in _ _ Hms t)) as (i & Hi); [eauto 6|].
      exists i, t. split; [exact Hi|]. apply (bformula m t Et). exact Hh.
Qed.
Lemma sorted_ext l : forall m, sorted l -> sorted m -> (forall x, In x l <-> In x m) -> l = m.
Proof.
  unfold sorted. induction l as [|x l IH]; intros [|y m] S1 S2 H; auto.
  - exfalso. apply (proj2 (H y)). left. reflexivity.
  - exfalso. apply (proj1 (H x)). left. reflexivity.
  - apply StronglySorted_inv in S1 as [S1 F1]. apply StronglySorted_inv in S2 as [S2 F2]. rewrite Forall_forall in F1, F2.
    assert (x = y).
    { destruct (proj1 (H x) (or_introl eq_refl)) as [|Hx]; [auto|]. destruct (proj2 (H y) (or_introl eq_refl)) as [|Hy]; [auto|].
      pose proof (F2 _ Hx) as A. pose proof (F1 _ Hy) as B. rewrite str_cmp_antisym, B in A. discriminate. }
    subst y. f_equal. apply IH; auto. intros z. specialize (H z). cbn in H. split; intros Hz.
    + destruct (proj1 H (or_intror Hz)) as [<- | ?]; [|assumption]. specialize (F1 _ Hz). rewrite str_cmp_refl in F1. discriminate.
    + destruct (proj2 H (or_intror Hz)) as [<- | ?]; [|assumption]. specialize (F2 _ Hz). rewrite str_cmp_refl in F2. discriminate.
Qed.
Lemma order_independent cfg cfg' sel sel' : selector_new re_ok cfg = Some sel -> selector_new re_ok cfg' = Some sel' ->
  (forall b, In b cfg <-> In b cfg') -> buffers re_match sel ltype level message fields = buffers re_match sel' ltype level message fields.
Proof.
  intros E E' H. apply sorted_ext.
  - apply buffers_loop_sorted. constructor.
  - apply buffers_loop_sorted. constructor.
  - intros id. rewrite (selection _ _ E), (selection _ _ E'). unfold routed. split; intros (b & f & m & Hb & R); exists b, f, m; (split; [apply H; exact Hb|exact R]).
Qed.
Lemma selection_sorted sel : NoDup (buffers re_match sel ltype level message fields).
Proof.
  assert (S : sorted (buffers re_match sel ltype level message fields)) by (apply buffers_loop_sorted; constructor).
  unfold sorted in S. induction S as [|x l S IH F]; constructor; auto.
  intros Hin. rewrite Forall_forall in F. specialize (F _ Hin). rewrite str_cmp_refl in F. discriminate.
Qed.
End B.

(** Equal trees. *)
Lemma operator_eqb_eq a b : operator_eqb a b = true -> a = b.
Proof. destruct a, b; cbn; congruence. Qed.
Lemma input_eqb_eq a b : input_eqb a b = true -> a = b.
Proof. destruct a, b; cbn; try congruence. intros E. apply String.eqb_eq in E. congruence. Qed.
Lemma equal_trees re_ok re_match to_i32 c1 : forall c2 t1 t2, tree_new re_ok c1 = Some t1 -> tree_new re_ok c2 = Some t2 -> tree_eqb t1 t2 = true ->
  forall level ltype message fields, do_match re_match to_i32 t1 level ltype message fields = do_match re_match to_i32 t2 level ltype message fields.
Proof.
  assert (LS : forall o v m, string_match_new re_ok o v = Some m -> sm_op m <> OpUnspecified) by (intros [] v m; cbn; try destruct (re_ok v); intros E; inv E; discriminate).
  induction c1 as [b|l IH|l IH|c IH|] using cfg_ind'; intros c2 t1 t2 E1 E2 Eq level ltype message fields; cbn in E1.
  - destruct (leaf_new re_ok b) as [l1|] eqn:El1; inv E1. destruct t2 as [l2|?|?|?]; try discriminate. cbn in Eq |- *.
    destruct c2 as [b2|k|k|k|]; cbn in E2; try discriminate;
      [|destruct (all_some (map (tree_new re_ok) k)); discriminate|destruct (all_some (map (tree_new re_ok) k)); discriminate|destruct (tree_new re_ok k); discriminate].
    destruct (leaf_new re_ok b2) as [l2'|] eqn:El2; inv E2.
    destruct l1 as [m1|i1 m1|i1 m1|i1 m1|t1|i1], l2 as [m2|i2 m2|i2 m2|i2 m2|t2|i2]; cbn in Eq; try discriminate; cbn.
    + apply andb_prop in Eq as [A B]. apply operator_eqb_eq in A. apply Z.eqb_eq in B. destruct m1, m2; cbn in *. subst. reflexivity.
    + apply andb_prop in Eq as [I Eq]. apply input_eqb_eq in I. apply andb_prop in Eq as [A B]. apply operator_eqb_eq in A. apply Z.eqb_eq in B. destruct m1, m2; cbn in *. subst. reflexivity.
    + apply andb_prop in Eq as [I Eq]. apply input_eqb_eq in I. apply andb_prop in Eq as [A B]. apply operator_eqb_eq in A. apply String.eqb_eq in B. destruct m1, m2; cbn in *. subst. reflexivity.
    + apply andb_prop in Eq as [I Eq]. apply input_eqb_eq in I. subst i2.
      assert (V : forall b i m, leaf_new re_ok b = Some (LVersionValue i m) -> exists o v, version_match_new re_ok o v = Some m).
      { clear. intros b i m E. destruct b as [ [o v|k [ [o v|o v|o v|]|] ]|]; cbn in E; try discriminate.
        - destruct o as [o|]; [|discriminate]. destruct string_match_new; discriminate.
        - destruct (k =? "log_level"); [|destruct (k =? "log_type")].
          + destruct o as [o|]; [|discriminate]. destruct int_match_new; discriminate.
          + destruct (v <? 0)%Z; discriminate.
          + destruct o as [o|]; [|discriminate]. destruct int_match_new; discriminate.
        - destruct o as [o|]; [|discriminate]. destruct string_match_new; discriminate.
        - destruct o as [o|]; [|discriminate]. destruct (version_match_new re_ok o v) eqn:Ev; inv E. eauto. }
      destruct (V _ _ _ El1) as (o1 & v1 & V1). destruct (V _ _ _ El2) as (o2 & v2 & V2).
      destruct (input_get i1 message fields); [|reflexivity]. exact (equal_matchers re_ok re_match o1 v1 o2 v2 m1 m2 V1 V2 Eq s).
    + apply N.eqb_eq in Eq. subst. reflexivity.
    + apply input_eqb_eq in Eq. subst. reflexivity.
  - destruct (all_some (map (tree_new re_ok) l)) as [ts|] eqn:Ea; inv E1. destruct t2 as [?|l2|?|?]; cbn in Eq; try discriminate.
    destruct c2 as [b2|k|k|k|]; cbn in E2; try discriminate; [destruct (leaf_new re_ok b2); discriminate| |destruct (all_some (map (tree_new re_ok) k)); discriminate|destruct (tree_new re_ok k); discriminate].
    destruct (all_some (map (tree_new re_ok) k)) as [us|] eqn:Eb; inv E2. cbn. revert ts l2 k Ea Eb Eq.
    induction IH as [|c l Hc _ IHl]; intros ts us k Ea Eb Eq.
    + cbn in Ea. inv Ea. destruct us; [reflexivity|discriminate].
    + cbn in Ea. destruct (tree_new re_ok c) as [tc|] eqn:Ec; [|discriminate]. destruct (all_some (map (tree_new re_ok) l)) as [ts'|] eqn:Ea'; inv Ea.
      destruct us as [|u us]; [discriminate|]. destruct k as [|c' k]; [discriminate|]. cbn in Eb.
      destruct (tree_new re_ok c') as [uc|] eqn:Ec'; [|discriminate]. destruct (all_some (map (tree_new re_ok) k)) as [us'|] eqn:Eb'; inv Eb.
      apply andb_prop in Eq as [A B]. cbn. rewrite (Hc _ _ _ eq_refl Ec' A). rewrite (IHl _ _ _ eq_refl Eb' B). reflexivity.
  - destruct (all_some (map (tree_new re_ok) l)) as [ts|] eqn:Ea; inv E1. destruct t2 as [?|?|l2|?]; cbn in Eq; try discriminate.
    destruct c2 as [b2|k|k|k|]; cbn in E2; try discriminate; [destruct (leaf_new re_ok b2); discriminate|destruct (all_some (map (tree_new re_ok) k)); discriminate| |destruct (tree_new re_ok k); discriminate].
    destruct (all_some (map (tree_new re_ok) k)) as [us|] eqn:Eb; inv E2. cbn. revert ts l2 k Ea Eb Eq.
    induction IH as [|c l Hc _ IHl]; intros ts us k Ea Eb Eq.
    + cbn in Ea. inv Ea. destruct us; [reflexivity|discriminate].
    + cbn in Ea. destruct (tree_new re_ok c) as [tc|] eqn:Ec; [|discriminate]. destruct (all_some (map (tree_new re_ok) l)) as [ts'|] eqn:Ea'; inv Ea.
      destruct us as [|u us]; [discriminate|]. destruct k as [|c' k]; [discriminate|]. cbn in Eb.
      destruct (tree_new re_ok c') as [uc|] eqn:Ec'; [|discriminate]. destruct (all_some (map (tree_new re_ok) k)) as [us'|] eqn:Eb'; inv Eb.
      apply andb_prop in Eq as [A B]. cbn. rewrite (Hc _ _ _ eq_refl Ec' A). rewrite (IHl _ _ _ eq_refl Eb' B). reflexivity.
  - destruct (tree_new re_ok c) as [tc|] eqn:Ec; inv E1. destruct t2 as [?|?|?|u]; cbn in Eq; try discriminate.
    destruct c2 as [b2|k|k|k|]; cbn in E2; try discriminate; [destruct (leaf_new re_ok b2); discriminate|destruct (all_some (map (tree_new re_ok) k)); discriminate|destruct (all_some (map (tree_new re_ok) k)); discriminate|].
    destruct (tree_new re_ok k) as [uk|] eqn:Ek; inv E2. cbn. f_equal. eapply IH; eauto.
  - discriminate.
Qed.

Lemma base_holds_ext re_match to_i32 level ltype message (P Q : string -> string -> Prop) b : (forall k s, P k s <-> Q k s) ->
  (base_holds re_match to_i32 level ltype message P b <-> base_holds re_match to_i32 level ltype message Q b).
Proof.
  intros H. destruct b as [ [o|] v|k [ [ [o|] v|[o|] v|[o|] v|]|] ]; cbn; try tauto.
  - split; (intros [A|[A|(A & B & s & n & C & D)] ]; [tauto|tauto|right; right; splits; auto; exists s, n; split; [apply H; exact C|exact D] ]).
  - split; intros (s & A & B); exists s; (split; [apply H; exact A|exact B]).
  - split; intros (s & A & B); exists s; (split; [apply H; exact A|exact B]).
  - split; intros (s & A); exists s; apply H; exact A.
Qed.
Lemma holds_ext re_match to_i32 level ltype message (P Q : string -> string -> Prop) c : (forall k s, P k s <-> Q k s) ->
  (holds re_match to_i32 level ltype message P c <-> holds re_match to_i32 level ltype message Q c).
Proof.
  intros H. induction c as [ [b|]|l IH|l IH|c IH|] using cfg_ind'; cbn; try tauto.
  - apply base_holds_ext. exact H.
  - induction IH as [|c l Hc _ IHl]; cbn; tauto.
  - induction IH as [|c l Hc _ IHl]; cbn; tauto.
Qed.
Lemma bholds_ext re_match level ltype message (P Q : string -> string -> Prop) c : (forall k s, P k s <-> Q k s) ->
  (bholds re_match level ltype message P c <-> bholds re_match level ltype message Q c).
Proof.
  intros H. induction c as [ [b|]|l IH|l IH|c IH|] using bcfg_ind'; cbn; try tauto.
  - destruct b as [ [o|] v|[t|] v|k [t|] v| |t]; cbn; try tauto.
    split; intros (s & A & B); exists s; (split; [apply H; exact A|exact B]).
  - induction IH as [|c l Hc _ IHl]; cbn; tauto.
  - induction IH as [|c l Hc _ IHl]; cbn; tauto.
Qed.
Lemma tree_formula re_ok re_match to_i32 c t level ltype message captured matching :
  tree_new re_ok c = Some t -> types_by_equality c -> (forall k b, ~ first k captured (VBytes b)) ->
  (do_match re_match to_i32 t level ltype message (fields_ref_value captured matching) = true <->
   holds re_match to_i32 level ltype message (visible captured matching) c).
Proof.
  intros E T N. rewrite (formula re_ok re_match to_i32 level ltype message _ c t E T).
  apply holds_ext. intros k s. apply precedence. apply N.
Qed.
Lemma btree_formula re_ok re_match c t level ltype message captured matching :
  btree_new re_ok c = Some t -> (forall k b, ~ first k captured (VBytes b)) ->
  (bdo_match re_match t ltype level message (fields_ref_value captured matching) = true <->
   bholds re_match level ltype message (visible captured matching) c).
Proof.
  intros E N. rewrite (bformula re_ok re_match level ltype message _ c t E).
  apply bholds_ext. intros k s. apply precedence. apply N.
Qed.
