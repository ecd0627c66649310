From Verif Require Import Base Str_Base Collector_Model Collector_Spec.

(** Labels. *)
Lemma lookup_app : forall a b k, lookup (a ++ b) k = match lookup b k with Some v => Some v | None => lookup a k end.
Proof. induction a as [|[k' v] a IH]; intros b k; cbn [app lookup]; [destruct (lookup b k); reflexivity|]. rewrite IH. destruct (lookup b k); reflexivity. Qed.
Lemma lookup_none : forall l k, lookup l k = None <-> ~ In k (map fst l).
Proof.
  induction l as [|[k' v] l IH]; intros k; cbn; [tauto|]. destruct (lookup l k) eqn:E.
  - split; [discriminate|]. intros H. exfalso. apply H. right. destruct (in_dec string_dec k (map fst l)); auto. apply IH in n. congruence.
  - destruct (String.eqb_spec k' k) as [->|Hn]; [split; [discriminate|intros H; exfalso; auto]|]. split; auto. intros _ [H|H]; [auto|]. apply IH in E. auto.
Qed.
Lemma lookup_some : forall l k, lookup l k <> None <-> In k (map fst l).
Proof. intros l k. rewrite lookup_none. destruct (in_dec string_dec k (map fst l)); tauto. Qed.
Lemma lookup_bound : forall l k v, lookup l k = Some v <-> bound l k v.
Proof.
  intros l k v. split.
  - induction l as [|[k' w] l IH]; cbn; [discriminate|]. destruct (lookup l k) eqn:E.
    + intros H. destruct (IH H) as [l1 [l2 [-> Hn]]]. exists ((k', w) :: l1), l2. auto.
    + destruct (String.eqb_spec k' k) as [->|]; [|discriminate]. intros H. inv H. exists [], l. split; auto. apply lookup_none. auto.
  - intros [l1 [l2 [-> Hn]]]. rewrite lookup_app. cbn. apply lookup_none in Hn. rewrite Hn, String.eqb_refl. reflexivity.
Qed.
Lemma opt_eqb_spec : forall a b, opt_eqb a b = true <-> a = b.
Proof. intros [a|] [b|]; cbn; try (split; congruence). rewrite String.eqb_eq. split; congruence. Qed.
Lemma labels_eqb_spec : forall a b, labels_eqb a b = true <-> forall k, lookup a k = lookup b k.
Proof.
  intros a b. unfold labels_eqb. rewrite forallb_forall. split.
  - intros H k. destruct (in_dec string_dec k (map fst (a ++ b))) as [Hi|Hn].
    + apply in_map_iff in Hi. destruct Hi as [p [<- Hi]]. apply opt_eqb_spec. auto.
    + rewrite map_app, in_app_iff in Hn. rewrite (proj2 (lookup_none a k)), (proj2 (lookup_none b k)); tauto.
  - intros H p _. apply opt_eqb_spec. auto.
Qed.
Lemma mem_spec : forall k l, mem k l = true <-> In k l.
Proof. intros k l. unfold mem. rewrite existsb_exists. split; [intros [x [H1 H2]]; apply String.eqb_eq in H2; congruence|intros H; exists k; split; auto; apply String.eqb_refl]. Qed.
Lemma names_eqb_spec : forall a b, names_eqb a b = true <-> forall k, In k a <-> In k b.
Proof.
  intros a b. unfold names_eqb. rewrite andb_true_iff, !forallb_forall. split.
  - intros [H1 H2] k. split; intros H; [apply mem_spec, H1|apply mem_spec, H2]; auto.
  - intros H. split; intros k Hk; apply mem_spec, H; auto.
Qed.
Lemma names_differ : forall a b, names_eqb a b = false -> (exists k, In k a /\ ~ In k b) \/ (exists k, ~ In k a /\ In k b).
Proof.
  intros a b H. unfold names_eqb in H. apply andb_false_iff in H.
  assert (G : forall a b, forallb (fun k => mem k b) a = false -> exists k, In k a /\ ~ In k b).
  { clear. induction a as [|k a IH]; intros b H; cbn in H; [discriminate|]. destruct (mem k b) eqn:E.
    - destruct (IH b H) as [k' [H1 H2]]. exists k'. split; auto. right. auto.
    - exists k. split; [left; auto|]. intros Hi. apply mem_spec in Hi. congruence. }
  destruct H as [H|H]; apply G in H; destruct H as [k [H1 H2]]; [left|right]; exists k; auto.
Qed.
Lemma kind_eqb_spec : forall a b, kind_eqb a b = true <-> a = b.
Proof. intros [] []; cbn; split; congruence. Qed.

Lemma cached_spec : forall r m, r_vec r = false -> cached r m = true <-> m_vec m = false /\ m_kind m = r_kind r /\ m_name m = r_name r /\ forall k, lookup (m_labels m) k = lookup (r_labels r) k.
Proof. intros r m Hv. unfold cached. rewrite !andb_true_iff, negb_true_iff, kind_eqb_spec, String.eqb_eq, labels_eqb_spec. tauto. Qed.
Lemma clash_spec : forall r m, clash r m = true <-> conflict (m_name m) (m_labels m) (m_vars m) (r_name r) (r_labels r) (r_vars r).
Proof.
  intros r m. unfold clash, conflict. rewrite andb_true_iff, String.eqb_eq, orb_true_iff, negb_true_iff, labels_eqb_spec. split.
  - intros [H1 H2]; split; auto. destruct H2 as [H2|H2]; [|tauto]. apply andb_false_iff in H2. destruct H2 as [H2|H2]; apply names_differ in H2; destruct H2 as [[k [Ha Hb]]|[k [Ha Hb]]].
    + right. left. exists k. split; [apply lookup_some; auto|apply lookup_none; auto].
    + left. exists k. split; [apply lookup_none; auto|apply lookup_some; auto].
    + right. right. left. exists k. auto.
    + right. right. right. left. exists k. auto.
  - intros [H1 H2]. split; auto. destruct (names_eqb (map fst (m_labels m)) (map fst (r_labels r)) && names_eqb (m_vars m) (r_vars r)) eqn:E; [|auto]. right.
    apply andb_true_iff in E. destruct E as [E1 E2]. rewrite names_eqb_spec in E1, E2.
    destruct H2 as [[k [Ha Hb]]|[[k [Ha Hb]]|[[k [Ha Hb]]|[[k [Ha Hb]]|H2]]]]; auto; exfalso.
    + apply lookup_none in Ha. apply lookup_some in Hb. apply Ha, E1, Hb.
    + apply lookup_some in Ha. apply lookup_none in Hb. apply Hb, E1, Ha.
    + apply Hb, E2, Ha.
    + apply Ha, E2, Hb.
Qed.
Lemma find_from_some : forall p l i j, find_from p l i = Some j -> exists m, nth_error l (j - i) = Some m /\ p m = true /\ i <= j.
Proof.
  induction l as [|m l IH]; intros i j H; cbn in H; [discriminate|]. destruct (p m) eqn:E; [inv H; exists m; rewrite Nat.sub_diag; auto|].
  apply IH in H. destruct H as [m' [H1 [H2 H3]]]. exists m'. replace (j - i) with (S (j - S i)) by lia. repeat split; auto. lia.
Qed.
Lemma find_from_none : forall p l i, find_from p l i = None <-> forall m, In m l -> p m = false.
Proof.
  induction l as [|m l IH]; intros i; cbn; [split; intros; [contradiction|reflexivity]|]. destruct (p m) eqn:E.
  - split; [discriminate|]. intros H. rewrite H in E by auto. discriminate.
  - rewrite IH. split; [intros H m' [<-|Hm]; auto|auto].
Qed.

(** The registry under operations. *)
Definition core (m : metric) := (m_kind m, m_name m, m_labels m, m_vars m, m_vec m, m_buckets m).
Lemma use_at_nth : forall l i u j, nth_error (use_at l i u) j = if Nat.eqb i j then option_map (fun m => mkMetric (m_kind m) (m_name m) (m_labels m) (m_vars m) (m_vec m) (m_buckets m) (m_uses m ++ [u])) (nth_error l j) else nth_error l j.
Proof.
  induction l as [|m l IH]; intros i u j; [destruct i, j; cbn; try reflexivity; destruct (Nat.eqb i j); reflexivity|].
  destruct i, j; cbn [use_at nth_error Nat.eqb option_map]; auto.
Qed.

Section Collector.
Variable valid : kind -> string -> labels -> list string -> bool.
Notation step := (step valid).
Notation exec := (exec valid).
Lemma exec_snoc : forall ls a s s', exec s (ls ++ [a]) = Some s' -> exists s0, exec s ls = Some s0 /\ step s0 a = Some s'.
Proof.
  induction ls as [|b ls IH]; intros a s s' H; cbn [app Collector_Model.exec] in *.
  - exists s. split; [reflexivity|]. destruct (step s a); [exact H|discriminate].
  - destruct (step s b); [eapply IH; eauto|discriminate].
Qed.

Record inv (ls : list action) (s : st) : Prop := {
  i_len : length (given s) = length (requests ls);
  i_got : forall i r a, got ls s i r a -> exists m, nth_error (reg s) a = Some m /\ serves m r;
  i_made : forall a m, nth_error (reg s) a = Some m -> a = 0 \/ exists i r, got ls s i r a /\ serves m r /\ (m_buckets m = r_buckets r) /\ (forall j r', got ls s j r' a -> i <= j);
  i_zero : exists m, nth_error (reg s) 0 = Some m /\ core m = core overflow_metric /\ m_uses m = [];
  i_dist : forall a b m m', nth_error (reg s) a = Some m -> nth_error (reg s) b = Some m' -> conflict (m_name m) (m_labels m) (m_vars m) (m_name m') (m_labels m') (m_vars m') -> a = b;
  i_uses : forall a m, nth_error (reg s) a = Some m -> m_uses m = uses_of (given s) a ls;
  i_old : forall j u, In (AUse j u) ls -> j < length (given s) }.

Lemma requests_app : forall l1 l2, requests (l1 ++ l2) = requests l1 ++ requests l2.
Proof. intros. apply flat_map_app. Qed.
Lemma uses_grow : forall g x a ls, (forall j u, In (AUse j u) ls -> j < length g) -> uses_of (g ++ [x]) a ls = uses_of g a ls.
Proof.
  intros g x a ls H. unfold uses_of. induction ls as [|b ls IH]; [reflexivity|]. cbn [flat_map]. rewrite IH by (intros; eapply H; right; eauto). f_equal.
  destruct b; auto. rewrite nth_error_app1; auto. eapply H. left. reflexivity.
Qed.
Lemma uses_app : forall g a l1 l2, uses_of g a (l1 ++ l2) = uses_of g a l1 ++ uses_of g a l2.
Proof. intros. apply flat_map_app. Qed.
Lemma uses_none : forall g a ls, (forall j b, nth_error g j = Some (Some b) -> b <> a) -> uses_of g a ls = [].
Proof.
  intros g a ls H. unfold uses_of. induction ls as [|b ls IH]; [reflexivity|]. cbn [flat_map]. rewrite IH, app_nil_r. destruct b; auto.
  destruct (nth_error g r) as [[b|]|] eqn:E; auto. apply H in E. destruct (Nat.eqb_spec b a); [congruence|reflexivity].
Qed.
Lemma nth_snoc : forall A (l : list A) x i y, nth_error (l ++ [x]) i = Some y -> (i < length l /\ nth_error l i = Some y) \/ (i = length l /\ y = x).
Proof.
  intros A l x i y H. destruct (lt_dec i (length l)); [left; rewrite nth_error_app1 in H; auto|right].
  rewrite nth_error_app2 in H by lia. destruct (i - length l) eqn:E; cbn in H; [inv H; split; auto; lia|destruct n0; discriminate].
Qed.
Lemma got_snoc : forall ls s r o i r' a g, length (given s) = length (requests ls) -> got (ls ++ [AMake r]) (mkSt g (given s ++ [o])) i r' a ->
  got ls s i r' a \/ (i = length (given s) /\ r' = r /\ o = Some a).
Proof.
  intros ls s r o i r' a g Hl [H1 H2]. rewrite requests_app in H1. cbn in H1, H2. apply nth_snoc in H1. apply nth_snoc in H2. unfold got.
  destruct H1 as [[H1 H1']|[H1 H1']], H2 as [[H2 H2']|[H2 H2']]; [left; auto|exfalso; lia|exfalso; lia|right; auto].
Qed.
Lemma got_old : forall ls s r o i r' a g, length (given s) = length (requests ls) -> got ls s i r' a -> got (ls ++ [AMake r]) (mkSt g (given s ++ [o])) i r' a.
Proof.
  intros ls s r o i r' a g Hl [H1 H2]. unfold got. rewrite requests_app. cbn. split; rewrite nth_error_app1; auto; apply nth_error_Some; congruence.
Qed.
Lemma got_new : forall ls s r a g, length (given s) = length (requests ls) -> got (ls ++ [AMake r]) (mkSt g (given s ++ [Some a])) (length (given s)) r a.
Proof.
  intros ls s r a g Hl. unfold got. rewrite requests_app. cbn. split; rewrite nth_error_app2 by lia; [rewrite Hl, Nat.sub_diag|rewrite Nat.sub_diag]; reflexivity.
Qed.
Lemma got_place : forall ls s i r a, got ls s i r a -> i < length (given s).
Proof. intros ls s i r a [_ H]. apply nth_error_Some. congruence. Qed.

Lemma conflict_sym : forall n l v n' l' v', conflict n l v n' l' v' -> conflict n' l' v' n l v.
Proof.
  intros n l v n' l' v' [H1 H2]. split; auto. destruct H2 as [[k [Ha Hb]]|[[k [Ha Hb]]|[[k [Ha Hb]]|[[k [Ha Hb]]|H2]]]].
  - right. left. exists k. auto.
  - left. exists k. auto.
  - right. right. right. left. exists k. auto.
  - right. right. left. exists k. auto.
  - right. right. right. right. auto.
Qed.
Lemma conflict_self : forall n l v, conflict n l v n l v.
Proof. intros. split; [reflexivity|]. do 4 right. reflexivity. Qed.

(** Where a request leads. *)
Lemma make_cases : forall s r s', step s (AMake r) = Some s' ->
  (exists a m, r_vec r = false /\ nth_error (reg s) a = Some m /\ cached r m = true /\ s' = mkSt (reg s) (given s ++ [Some a]))
  \/ ((r_vec r = true \/ forall m, In m (reg s) -> cached r m = false) /\
      ((valid (r_kind r) (r_name r) (r_labels r) (r_vars r) = true /\ (forall m, In m (reg s) -> clash r m = false)
        /\ s' = mkSt (reg s ++ [mkMetric (r_kind r) (r_name r) (r_labels r) (r_vars r) (r_vec r) (r_buckets r) []]) (given s ++ [Some (length (reg s))]))
       \/ ((valid (r_kind r) (r_name r) (r_labels r) (r_vars r) = false \/ exists m, In m (reg s) /\ clash r m = true) /\ s' = mkSt (reg s) (given s ++ [None])))).
Proof.
  intros s r s' H. cbn [Collector_Model.step] in H. inv H. unfold make.
  assert (G : (valid (r_kind r) (r_name r) (r_labels r) (r_vars r) = true /\ (forall m, In m (reg s) -> clash r m = false)
        /\ match register valid s r with Some g => mkSt g (given s ++ [Some (length (reg s))]) | None => mkSt (reg s) (given s ++ [None]) end
           = mkSt (reg s ++ [mkMetric (r_kind r) (r_name r) (r_labels r) (r_vars r) (r_vec r) (r_buckets r) []]) (given s ++ [Some (length (reg s))]))
       \/ ((valid (r_kind r) (r_name r) (r_labels r) (r_vars r) = false \/ exists m, In m (reg s) /\ clash r m = true) /\
          match register valid s r with Some g => mkSt g (given s ++ [Some (length (reg s))]) | None => mkSt (reg s) (given s ++ [None]) end = mkSt (reg s) (given s ++ [None]))).
  { unfold register. destruct (valid _ _ _ _) eqn:Ev; cbn [andb]; [|right; auto]. destruct (existsb (clash r) (reg s)) eqn:Ec; cbn [negb].
    - right. apply existsb_exists in Ec. split; auto.
    - left. split; auto. split; auto. intros m Hm. destruct (clash r m) eqn:E; auto. assert (existsb (clash r) (reg s) = true) by (apply existsb_exists; eauto). congruence. }
  destruct (r_vec r) eqn:Ev.
  - right. split; auto.
  - destruct (find_from (cached r) (reg s) 0) as [a|] eqn:Ef.
    + left. apply find_from_some in Ef. rewrite Nat.sub_0_r in Ef. destruct Ef as [m [H1 [H2 _]]]. exists a, m. auto.
    + right. split; auto. right. intros m. apply (proj1 (find_from_none _ _ _) Ef).
Qed.

Lemma serves_cached : forall r m, r_vec r = false -> cached r m = true -> m_vars m = [] -> serves m r.
Proof.
  intros r m Hv Hc Hm. apply cached_spec in Hc; auto. destruct Hc as [H1 [H2 [H3 H4]]]. unfold serves. repeat split; auto; [congruence| |].
  - rewrite Hm. intros [].
  - destruct r; cbn in *; try discriminate; intros [].
Qed.
Lemma serves_novars : forall m r, serves m r -> m_vec m = false -> forall k, ~ In k (m_vars m).
Proof. intros m r [H1 [_ [_ [_ H]]]] Hv k Hk. apply H in Hk. rewrite H1 in Hv. destruct r; cbn in *; try discriminate; destruct Hk. Qed.

Theorem inv_exec : forall ls s, exec init ls = Some s -> inv ls s.
Proof.
  induction ls as [|x ls IH] using rev_ind; intros s H.
  - inv H. constructor; cbn.
    + reflexivity.
    + intros i r a [H _]. destruct i; discriminate.
    + intros a m Hm. left. destruct a; auto. destruct a; discriminate.
    + eexists. split; [reflexivity|]. split; reflexivity.
    + intros a b m m' Ha Hb _. destruct a as [|[|a]], b as [|[|b]]; try discriminate; reflexivity.
    + intros a m Hm. destruct a as [|[|a]]; try discriminate. inv Hm. reflexivity.
    + intros j u [].
  - apply exec_snoc in H. destruct H as [s0 [H0 H]]. pose proof (IH _ H0) as I. clear IH. destruct x as [r|j u].
    + assert (HL : length (given s0) = length (requests ls)) by (apply i_len; auto).
      assert (Hold : forall j u, In (AUse j u) (ls ++ [AMake r]) -> j < length (given s0)).
      { intros j u Hj. apply in_app_or in Hj. destruct Hj as [Hj|[Hj|[]]]; [eapply i_old; eauto|discriminate]. }
      apply make_cases in H. destruct H as [[a [m [Hv [Ha [Hc ->]]]]]|[Hnc H]].
      * (* known *)
        assert (Hs : serves m r).
        { destruct (i_made _ _ I _ _ Ha) as [->|[i [r0 [_ [Hs _]]]]].
          - destruct (i_zero _ _ I) as [m0 [Hm0 [Hcore _]]]. rewrite Ha in Hm0. inv Hm0. apply cached_spec in Hc; auto. destruct Hc as [Hc _].
            assert (m_vec m0 = true) by (unfold core in Hcore; inv Hcore; auto). congruence.
          - destruct (cached_spec r m Hv) as [Hc' _]. pose proof (Hc' Hc) as [C1 [C2 [C3 C4]]]. unfold serves. repeat split; auto; [congruence| |].
            + intros Hk. exfalso. exact (serves_novars _ _ Hs C1 _ Hk).
            + intros Hk. exfalso. destruct r; cbn in *; try discriminate; destruct Hk. }
        constructor; cbn [reg given].
        -- rewrite requests_app, !app_length. cbn. lia.
        -- intros i r' b Hg. apply got_snoc in Hg; auto. destruct Hg as [Hg|[_ [-> Hb]]]; [eapply i_got; eauto|]. inv Hb. eauto.
        -- intros b m' Hb. destruct (i_made _ _ I _ _ Hb) as [->|[i [r0 [Hg [Hs0 [Hbk Hmin]]]]]]; [auto|right]. exists i, r0. split; [apply got_old; auto|]. split; auto. split; auto.
           intros j r' Hj. apply got_snoc in Hj; auto. destruct Hj as [Hj|[-> _]]; [eauto|]. apply got_place in Hg. lia.
        -- apply i_zero with (1 := I).
        -- apply i_dist with (1 := I).
        -- intros b m' Hb. rewrite (i_uses _ _ I _ _ Hb), uses_app, uses_grow; [|intros; eapply i_old; eauto]. cbn. rewrite app_nil_r. reflexivity.
        -- intros j u Hj. apply Hold in Hj. rewrite app_length. cbn. lia.
      * destruct H as [[Hval [Hncl ->]]|[Hbad ->]].
        -- (* new *)
           constructor; cbn [reg given].
           ++ rewrite requests_app, !app_length. cbn. lia.
           ++ intros i r' b Hg. apply got_snoc in Hg; auto. destruct Hg as [Hg|[_ [-> Hb]]].
              ** destruct (i_got _ _ I _ _ _ Hg) as [m [H1 H2]]. exists m. split; auto. rewrite nth_error_app1; auto. apply nth_error_Some. congruence.
              ** inv Hb. eexists. split; [rewrite nth_error_app2, Nat.sub_diag by lia; reflexivity|]. unfold serves. cbn. repeat split; auto.
           ++ intros b m' Hb. apply nth_snoc in Hb. destruct Hb as [[Hlt Hb]|[-> ->]].
              ** destruct (i_made _ _ I _ _ Hb) as [->|[i [r0 [Hg [Hs0 [Hbk Hmin]]]]]]; [auto|right]. exists i, r0. split; [apply got_old; auto|]. split; auto. split; auto.
                 intros j r' Hj. apply got_snoc in Hj; auto. destruct Hj as [Hj|[-> [_ Hj]]]; [eauto|]. apply got_place in Hg. lia.
              ** right. exists (length (given s0)), r. split; [apply got_new; auto|]. split; [unfold serves; cbn; repeat split; auto|]. split; [reflexivity|].
                 intros j r' Hj. apply got_snoc in Hj; auto. destruct Hj as [Hj|[-> _]]; [|lia]. exfalso. destruct (i_got _ _ I _ _ _ Hj) as [m [Hm _]].
                 assert (length (reg s0) < length (reg s0)) by (apply nth_error_Some; congruence). lia.
           ++ destruct (i_zero _ _ I) as [m [Hm Hm']]. exists m. split; auto. rewrite nth_error_app1; auto. apply nth_error_Some. congruence.
           ++ intros a b m m' Ha Hb Hc. apply nth_snoc in Ha. apply nth_snoc in Hb. destruct Ha as [[La Ha]|[-> ->]], Hb as [[Lb Hb]|[-> ->]]; auto.
              ** eapply i_dist; eauto.
              ** exfalso. cbn in Hc. apply (proj2 (clash_spec r m)) in Hc. rewrite Hncl in Hc; [discriminate|]. eapply nth_error_In; eauto.
              ** exfalso. cbn in Hc. apply conflict_sym in Hc. apply (proj2 (clash_spec r m')) in Hc. rewrite Hncl in Hc; [discriminate|]. eapply nth_error_In; eauto.
           ++ intros b m' Hb. rewrite uses_app, uses_grow by (intros; eapply i_old; eauto). cbn. rewrite app_nil_r. apply nth_snoc in Hb. destruct Hb as [[Hlt Hb]|[-> ->]].
              ** apply (i_uses _ _ I _ _ Hb).
              ** cbn. symmetry. apply uses_none. intros j b Hj ->.
                 assert (Hr : exists r0, nth_error (requests ls) j = Some r0). { destruct (nth_error (requests ls) j) eqn:E; eauto. apply nth_error_None in E. assert (j < length (given s0)) by (apply nth_error_Some; congruence). lia. }
                 destruct Hr as [r0 Hr]. destruct (i_got _ _ I j r0 _ (conj Hr Hj)) as [m [Hm _]]. assert (length (reg s0) < length (reg s0)) by (apply nth_error_Some; congruence). lia.
           ++ intros j u Hj. apply Hold in Hj. rewrite app_length. cbn. lia.
        -- (* a panic *)
           constructor; cbn [reg given].
           ++ rewrite requests_app, !app_length. cbn. lia.
           ++ intros i r' b Hg. apply got_snoc in Hg; auto. destruct Hg as [Hg|[_ [_ Hb]]]; [eapply i_got; eauto|discriminate].
           ++ intros b m' Hb. destruct (i_made _ _ I _ _ Hb) as [->|[i [r0 [Hg [Hs0 [Hbk Hmin]]]]]]; [auto|right]. exists i, r0. split; [apply got_old; auto|]. split; auto. split; auto.
              intros j r' Hj. apply got_snoc in Hj; auto. destruct Hj as [Hj|[-> [_ Hj]]]; [eauto|discriminate].
           ++ apply i_zero with (1 := I).
           ++ apply i_dist with (1 := I).
           ++ intros b m' Hb. rewrite (i_uses _ _ I _ _ Hb), uses_app, uses_grow; [|intros; eapply i_old; eauto]. cbn. rewrite app_nil_r. reflexivity.
           ++ intros j u Hj. apply Hold in Hj. rewrite app_length. cbn. lia.
    + cbn [Collector_Model.step] in H. destruct (nth_error (given s0) j) as [[a|]|] eqn:Ej; try discriminate. destruct (nth_error (reg s0) a) as [m|] eqn:Em; [|discriminate].
      destruct (m_vec m) eqn:Ev; [discriminate|]. inv H.
      assert (Rq : requests (ls ++ [AUse j u]) = requests ls) by (rewrite requests_app; cbn; apply app_nil_r).
      assert (G : forall i r b, got (ls ++ [AUse j u]) (mkSt (use_at (reg s0) a u) (given s0)) i r b <-> got ls s0 i r b) by (intros; unfold got; cbn; rewrite Rq; tauto).
      assert (U : forall b m', nth_error (use_at (reg s0) a u) b = Some m' -> exists m0, nth_error (reg s0) b = Some m0 /\ core m' = core m0 /\ m_uses m' = m_uses m0 ++ (if Nat.eqb a b then [u] else [])).
      { intros b m' Hb. rewrite use_at_nth in Hb. destruct (Nat.eqb_spec a b) as [->|].
        - rewrite Em in Hb. inv Hb. exists m. split; auto.
        - exists m'. rewrite app_nil_r. auto. }
      assert (U' : forall b m0, nth_error (reg s0) b = Some m0 -> exists m', nth_error (use_at (reg s0) a u) b = Some m' /\ core m' = core m0 /\ m_uses m' = m_uses m0 ++ (if Nat.eqb a b then [u] else [])).
      { intros b m0 Hb. rewrite use_at_nth. destruct (Nat.eqb_spec a b) as [->|]; rewrite Hb; eexists; split; try reflexivity; auto. rewrite app_nil_r. auto. }
      assert (Sv : forall m0 m' r, core m' = core m0 -> serves m0 r -> serves m' r) by (unfold core, serves; intros m0 m' r Hc; inv Hc; congruence).
      constructor; cbn [reg given].
      * rewrite Rq. apply i_len. auto.
      * intros i r b Hg. apply G in Hg. destruct (i_got _ _ I _ _ _ Hg) as [m0 [H1 H2]]. destruct (U' _ _ H1) as [m' [H3 [H4 _]]]. exists m'. split; auto. eapply Sv; eauto.
      * intros b m' Hb. destruct (U _ _ Hb) as [m0 [H1 [H2 _]]]. destruct (i_made _ _ I _ _ H1) as [->|[i [r0 [Hg [Hs0 [Hbk Hmin]]]]]]; [auto|right]. exists i, r0. rewrite G. split; auto. split; [eapply Sv; eauto|].
        split; [unfold core in H2; inv H2; congruence|]. intros k r' Hk. apply G in Hk. eauto.
      * destruct (i_zero _ _ I) as [m0 [Hm0 [Hc Hu]]]. destruct (U' _ _ Hm0) as [m' [H3 [H4 H5]]]. exists m'. split; auto. split; [congruence|]. rewrite H5, Hu.
        destruct (Nat.eqb_spec a 0) as [->|]; [|reflexivity]. rewrite Em in Hm0. inv Hm0. unfold core in Hc. inv Hc. congruence.
      * intros b c m1 m2 Hb Hc Hcf. destruct (U _ _ Hb) as [m3 [H1 [H2 _]]]. destruct (U _ _ Hc) as [m4 [H3 [H4 _]]]. eapply i_dist; eauto. unfold core in H2, H4. inv H2. inv H4. congruence.
      * intros b m' Hb. destruct (U _ _ Hb) as [m0 [H1 [H2 H3]]]. rewrite H3, uses_app, (i_uses _ _ I _ _ H1). f_equal. cbn. rewrite Ej. destruct (Nat.eqb a b); reflexivity.
      * intros k v Hk. apply in_app_or in Hk. destruct Hk as [Hk|[Hk|[]]]; [eapply i_old; eauto|]. inv Hk. apply nth_error_Some. congruence.
Qed.

Theorem identity : forall ls s i j r r' a b, exec init ls = Some s -> got ls s i r a -> got ls s j r' b -> r_vec r = false -> r_vec r' = false -> (a = b <-> same r r').
Proof.
  intros ls s i j r r' a b H Hi Hj Hv Hv'. apply inv_exec in H. destruct (i_got _ _ H _ _ _ Hi) as [m [Hm [V1 [K1 [N1 [L1 X1]]]]]]. destruct (i_got _ _ H _ _ _ Hj) as [m' [Hm' [V2 [K2 [N2 [L2 X2]]]]]].
  unfold same. split.
  - intros ->. rewrite Hm in Hm'. inv Hm'. repeat split; try congruence.
  - intros [A [B C]]. apply (i_dist _ _ H _ _ _ _ Hm Hm'). split; [congruence|]. right. right. right. right. intros k. rewrite L1, L2. auto.
Qed.
Theorem vec_own : forall ls s i j r r' a, exec init ls = Some s -> got ls s i r a -> got ls s j r' a -> r_vec r = true -> i = j.
Proof.
  induction ls as [|x ls IH] using rev_ind; intros s i j r r' a H Hi Hj Hv; [destruct Hi as [Hi _]; destruct i; discriminate|].
  apply exec_snoc in H. destruct H as [s0 [H0 H]]. pose proof (inv_exec _ _ H0) as I. destruct x as [q|q u].
  - pose proof (i_len _ _ I) as HL. apply make_cases in H. destruct H as [[b [m [Hqv [Hb [Hc ->]]]]]|[_ H]].
    + apply got_snoc in Hi; auto. apply got_snoc in Hj; auto. destruct Hi as [Hi|[-> [-> Hi]]], Hj as [Hj|[-> [-> Hj]]]; auto; [eapply IH; eauto| |congruence].
      inv Hj. destruct (i_got _ _ I _ _ _ Hi) as [m' [Hm' [V1 _]]]. rewrite Hb in Hm'. inv Hm'. apply cached_spec in Hc; auto. destruct Hc as [Hc _]. congruence.
    + assert (G : exists g o, s = mkSt g (given s0 ++ [o]) /\ (o = None \/ o = Some (length (reg s0)))) by (destruct H as [[_ [_ ->]]|[_ ->]]; eauto).
      destruct G as [g [o [-> Ho]]]. apply got_snoc in Hi; auto. apply got_snoc in Hj; auto.
      assert (F : forall k r0, got ls s0 k r0 (length (reg s0)) -> False). { intros k r0 Hk. destruct (i_got _ _ I _ _ _ Hk) as [m [Hm _]]. assert (length (reg s0) < length (reg s0)) by (apply nth_error_Some; congruence). lia. }
      destruct Hi as [Hi|[-> [-> Hi]]], Hj as [Hj|[-> [-> Hj]]]; auto; [eapply IH; eauto| |].
      * destruct Ho as [Ho|Ho]; rewrite Ho in Hj; inv Hj. exfalso. eapply F; eauto.
      * destruct Ho as [Ho|Ho]; rewrite Ho in Hi; inv Hi. exfalso. eapply F; eauto.
  - assert (Rq : requests (ls ++ [AUse q u]) = requests ls) by (rewrite requests_app; cbn; apply app_nil_r). cbn [Collector_Model.step] in H.
    destruct (nth_error (given s0) q) as [[c|]|]; try discriminate. destruct (nth_error (reg s0) c) as [m|]; [|discriminate]. destruct (m_vec m); [discriminate|]. inv H.
    unfold got in *. cbn [given] in *. rewrite Rq in *. eapply (IH s0); eauto; unfold got; eauto.
Qed.
Theorem values : forall ls s i r a, exec init ls = Some s -> got ls s i r a -> r_vec r = false ->
  exists m, nth_error (reg s) a = Some m /\ In m (gather s) /\ serves m r /\ m_uses m = uses_of (given s) a ls.
Proof.
  intros ls s i r a H Hg Hv. apply inv_exec in H. destruct (i_got _ _ H _ _ _ Hg) as [m [Hm Hs]]. exists m. split; auto. split; [|split; auto; apply (i_uses _ _ H _ _ Hm)].
  unfold gather. apply filter_In. split; [eapply nth_error_In; eauto|]. destruct Hs as [-> _]. rewrite Hv. reflexivity.
Qed.
Theorem gathered : forall ls s m, exec init ls = Some s -> In m (gather s) -> exists i r a, got ls s i r a /\ r_vec r = false /\ serves m r /\ nth_error (reg s) a = Some m.
Proof.
  intros ls s m H Hm. apply inv_exec in H. unfold gather in Hm. apply filter_In in Hm. destruct Hm as [Hm Hv]. apply negb_true_iff in Hv. apply In_nth_error in Hm. destruct Hm as [a Ha].
  destruct (i_made _ _ H _ _ Ha) as [->|[i [r [Hg [Hs _]]]]].
  - destruct (i_zero _ _ H) as [m0 [Hm0 [Hc _]]]. rewrite Ha in Hm0. inv Hm0. unfold core in Hc. inv Hc. congruence.
  - exists i, r, a. repeat match goal with |- _ /\ _ => split end; auto; [|apply Hs..]. destruct Hs as [Hs _]. congruence.
Qed.
Theorem panics : forall ls r s, exec init (ls ++ [AMake r]) = Some s ->
  nth_error (given s) (length (requests ls)) = Some None <->
  (r_vec r = true \/ ~ exists i r' a, got ls s i r' a /\ r_vec r' = false /\ same r' r)
  /\ (valid (r_kind r) (r_name r) (r_labels r) (r_vars r) = false
      \/ conflict "stats:label_tracker:label_overflow" [] [] (r_name r) (r_labels r) (r_vars r)
      \/ exists i r' a, got ls s i r' a /\ conflict (r_name r') (r_labels r') (r_vars r') (r_name r) (r_labels r) (r_vars r)).
Proof.
  intros ls r s H. apply exec_snoc in H. destruct H as [s0 [H0 H]]. pose proof (inv_exec _ _ H0) as I. pose proof (i_len _ _ I) as HL.
  assert (Last : forall g o, s = mkSt g (given s0 ++ [o]) -> nth_error (given s) (length (requests ls)) = Some o).
  { intros g o ->. cbn. rewrite nth_error_app2, HL, Nat.sub_diag by lia. reflexivity. }
  assert (GG : forall g o, s = mkSt g (given s0 ++ [o]) -> forall i r' a, got ls s i r' a <-> got ls s0 i r' a).
  { intros g o -> i r' a. unfold got. cbn. split; intros [A B]; split; auto.
    - rewrite nth_error_app1 in B; auto. rewrite HL. apply nth_error_Some. congruence.
    - rewrite nth_error_app1; auto. apply nth_error_Some. congruence. }
  assert (Known : r_vec r = false -> (exists m, In m (reg s0) /\ cached r m = true) <-> exists i r' a, got ls s0 i r' a /\ r_vec r' = false /\ same r' r).
  { intros Hv. split.
    - intros [m [Hm Hc]]. apply cached_spec in Hc; auto. destruct Hc as [C1 [C2 [C3 C4]]]. apply In_nth_error in Hm. destruct Hm as [a Ha].
      destruct (i_made _ _ I _ _ Ha) as [->|[i [r' [Hg [[S1 [S2 [S3 [S4 S5]]]] _]]]]].
      + destruct (i_zero _ _ I) as [m0 [Hm0 [Hc _]]]. rewrite Ha in Hm0. inv Hm0. unfold core in Hc. inv Hc. congruence.
      + exists i, r', a. split; auto. split; [congruence|]. unfold same. repeat split; try congruence.
    - intros [i [r' [a [Hg [Hv' [S1 [S2 S3]]]]]]]. destruct (i_got _ _ I _ _ _ Hg) as [m [Hm [V1 [V2 [V3 [V4 _]]]]]]. exists m. split; [eapply nth_error_In; eauto|].
      apply cached_spec; auto. repeat split; try congruence. }
  assert (Clash : (exists m, In m (reg s0) /\ clash r m = true) <-> conflict "stats:label_tracker:label_overflow" [] [] (r_name r) (r_labels r) (r_vars r)
      \/ exists i r' a, got ls s0 i r' a /\ conflict (r_name r') (r_labels r') (r_vars r') (r_name r) (r_labels r) (r_vars r)).
  { assert (Tr : forall m r', serves m r' -> conflict (m_name m) (m_labels m) (m_vars m) (r_name r) (r_labels r) (r_vars r) <-> conflict (r_name r') (r_labels r') (r_vars r') (r_name r) (r_labels r) (r_vars r)).
    { intros m r' [_ [_ [N [L X]]]]. unfold conflict. rewrite N. split; intros [A B]; split; auto.
      all: destruct B as [[k [Ha Hb]]|[[k [Ha Hb]]|[[k [Ha Hb]]|[[k [Ha Hb]]|B]]]].
      all: try (left; exists k; split; congruence).
      all: try (right; left; exists k; split; congruence).
      all: try (right; right; left; exists k; split; [apply X; auto|auto]; fail).
      all: try (right; right; right; left; exists k; split; [intros Hx; apply Ha, X; auto|auto]; fail).
      all: right; right; right; right; intros k; congruence. }
    destruct (i_zero _ _ I) as [m0 [Hm0 [Hc _]]]. assert (C2 : m_name m0 = "stats:label_tracker:label_overflow"%string) by (unfold core in Hc; inv Hc; auto).
    assert (C3 : m_labels m0 = []) by (unfold core in Hc; inv Hc; auto). assert (C4 : m_vars m0 = []) by (unfold core in Hc; inv Hc; auto). clear Hc.
    split.
    - intros [m [Hm Hcl]]. apply clash_spec in Hcl. apply In_nth_error in Hm. destruct Hm as [a Ha]. destruct (i_made _ _ I _ _ Ha) as [->|[i [r' [Hg [Hs _]]]]].
      + left. rewrite Ha in Hm0. inv Hm0. rewrite C2, C3, C4 in Hcl. exact Hcl.
      + right. exists i, r', a. split; auto. apply (Tr m r' Hs). auto.
    - intros [Hcl|[i [r' [a [Hg Hcl]]]]].
      + exists m0. split; [eapply nth_error_In; eauto|]. apply clash_spec. rewrite C2, C3, C4. exact Hcl.
      + destruct (i_got _ _ I _ _ _ Hg) as [m [Hm Hs]]. exists m. split; [eapply nth_error_In; eauto|]. apply clash_spec. apply (Tr m r' Hs). auto. }
  apply make_cases in H. destruct H as [[a [m [Hv [Ha [Hc E]]]]]|[Hnc [[Hval [Hncl E]]|[Hbad E]]]]; rewrite (Last _ _ E).
  - split; [discriminate|]. intros [[B|B] _]; [congruence|]. exfalso. apply B. destruct (proj1 (Known Hv)) as [i [r' [b [Hg Hs]]]]; [exists m; split; auto; eapply nth_error_In; eauto|].
    exists i, r', b. rewrite (GG _ _ E). auto.
  - split; [discriminate|]. intros [_ B]. exfalso. assert (C : exists m, In m (reg s0) /\ clash r m = true).
    { apply Clash. destruct B as [B|[B|[i [r' [a [Hg B]]]]]]; [congruence|auto|]. right. exists i, r', a. rewrite <- (GG _ _ E). auto. }
    destruct C as [m [Hm Hcl]]. rewrite Hncl in Hcl by auto. discriminate.
  - split; [|reflexivity]. intros _. split.
    + destruct Hnc as [Hnc|Hnc]; [auto|]. destruct (r_vec r) eqn:Hv; [auto|right]. intros [i [r' [a [Hg Hs]]]]. rewrite (GG _ _ E) in Hg.
      destruct (proj2 (Known eq_refl)) as [m [Hm Hc]]; [exists i, r', a; auto|]. rewrite Hnc in Hc by auto. discriminate.
    + destruct Hbad as [Hbad|Hbad]; [auto|right]. apply Clash in Hbad. destruct Hbad as [Hbad|[i [r' [a [Hg Hs]]]]]; [auto|right]. exists i, r', a. rewrite (GG _ _ E). auto.
Qed.
Theorem first_buckets : forall ls s i r a, exec init ls = Some s -> got ls s i r a -> (forall j r', got ls s j r' a -> i <= j) ->
  exists m, nth_error (reg s) a = Some m /\ m_buckets m = r_buckets r.
Proof.
  intros ls s i r a H Hg Hmin. apply inv_exec in H. destruct (i_got _ _ H _ _ _ Hg) as [m [Hm Hs]]. exists m. split; auto.
  destruct (i_made _ _ H _ _ Hm) as [->|[j [r' [Hg' [_ [Hb Hmin']]]]]].
  - destruct (i_zero _ _ H) as [m0 [Hm0 [Hc _]]]. rewrite Hm in Hm0. inv Hm0. unfold core in Hc. inv Hc. destruct Hs as [Hs _].
    destruct r; cbn in *; try congruence.
  - assert (i = j) by (apply Nat.le_antisymm; eauto). subst j. destruct Hg as [G1 _], Hg' as [G2 _]. congruence.
Qed.
End Collector.

(** Names and labels of scopes. *)
Lemma append_assoc : forall a b c : string, ((a ++ b) ++ c)%string = (a ++ (b ++ c))%string.
Proof. induction a; intros; cbn; [reflexivity|]. rewrite IHa. reflexivity. Qed.
Lemma join_app : forall l1 l2 n, join (l1 ++ l2) n = join l1 (join l2 n).
Proof. induction l1 as [|p l1 IH]; intros; cbn; [reflexivity|]. destruct (String.eqb p ""); [auto|]. rewrite IH. reflexivity. Qed.
Definition prefix (s : scope) (l : list string) : Prop := forall n, metric_name s n = join l n.
Lemma name_inv : forall path s l, prefix s l -> (sc_name s = ""%string -> forall p, In p l -> p = ""%string) ->
  prefix (fold_left (fun s p => scope_with_labels s (fst p) (snd p)) path s) (l ++ map fst path).
Proof.
  induction path as [|[e lb] path IH]; intros s l Hp He; cbn [fold_left map]; [rewrite app_nil_r; auto|].
  replace (l ++ fst (e, lb) :: map fst path) with ((l ++ [e]) ++ map fst path) by (rewrite <- app_assoc; reflexivity). cbn [fst snd].
  apply IH.
  - intros n. rewrite join_app. cbn [join]. unfold scope_with_labels, metric_name at 1. cbn [sc_name]. destruct (String.eqb_spec e "") as [->|Hne].
    + rewrite <- Hp. unfold metric_name. reflexivity.
    + rewrite <- Hp. unfold metric_name. destruct (String.eqb_spec (sc_name s) "") as [H0|H0].
      * destruct (String.eqb_spec e ""); [congruence|reflexivity].
      * destruct (String.eqb_spec (sc_name s ++ ":" ++ e) "") as [H1|H1]; [destruct (sc_name s); discriminate|]. rewrite !append_assoc. reflexivity.
  - unfold scope_with_labels. cbn [sc_name]. destruct (String.eqb_spec e "") as [->|Hne].
    + intros H p Hi. apply in_app_or in Hi. destruct Hi as [Hi|[<-|[]]]; auto.
    + unfold metric_name. destruct (String.eqb_spec (sc_name s) "") as [H0|H0]; intros H; [congruence|]. destruct (sc_name s); discriminate.
Qed.
Theorem scope_name : forall n path m, metric_name (scope_of n path) m = join (n :: map fst path) m.
Proof.
  intros n path m. apply (name_inv path (root n) [n]).
  - intros x. unfold metric_name, root. cbn. destruct (String.eqb n ""); reflexivity.
  - cbn. intros -> p [<-|[]]. reflexivity.
Qed.
Theorem scope_labels : forall n path, sc_labels (scope_of n path) = flat_map snd path.
Proof.
  intros n path. unfold scope_of. replace (flat_map snd path) with (sc_labels (root n) ++ flat_map snd path) by reflexivity. generalize (root n).
  induction path as [|[e l] path IH]; intros s; cbn [fold_left flat_map]; [rewrite app_nil_r; reflexivity|]. rewrite IH. cbn. unfold final_labels. rewrite <- app_assoc. reflexivity.
Qed.
