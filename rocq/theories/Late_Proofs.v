From Verif Require Import Base Str_Base Labels_Model Late_Model Late_Spec.
Local Open Scope string_scope. Local Open Scope list_scope.

Lemma eqb_labels_spec a : forall b, eqb_labels a b = true <-> a = b.
Proof.
  induction a as [|x a IH]; intros [|y b]; cbn; try (split; congruence). rewrite andb_true_iff, String.eqb_eq, IH. split; [intros [-> ->]; reflexivity|]. intros H. inv H. auto.
Qed.
Lemma same_spec a b : same a b = true <-> a = b.
Proof. destruct a as [v l], b as [v' l']. unfold same. cbn [fst snd]. rewrite andb_true_iff, Nat.eqb_eq, eqb_labels_spec. split; [intros [-> ->]; reflexivity|]. intros H. inv H. auto. Qed.
Lemma same_refl a : same a a = true. Proof. apply same_spec. reflexivity. Qed.
Lemma value_bump k k' n l : value k (bump k' n l) = (value k l + if same k k' then n else 0)%N.
Proof.
  induction l as [|[i m] l IH]; cbn [bump value].
  - destruct (same k k'); lia.
  - destruct (same k' i) eqn:E; cbn [value].
    + apply same_spec in E. subst i. destruct (same k k') eqn:F; cbn [value]; [lia|lia].
    + rewrite IH. destruct (same k i) eqn:F; [|reflexivity]. apply same_spec in F. subst i. destruct (same k k') eqn:G; [|lia]. apply same_spec in G. subst k'. rewrite same_refl in E. discriminate.
Qed.
Lemma total_bump v v' l' n l : total v (bump (v', l') n l) = (total v l + if Nat.eqb v v' then n else 0)%N.
Proof.
  induction l as [|[[i li] m] l IH]; cbn [bump total]; [destruct (Nat.eqb v v'); lia|]. destruct (same (v', l') (i, li)) eqn:E; cbn [total].
  - apply same_spec in E. inv E. destruct (Nat.eqb v i); lia.
  - rewrite IH. lia.
Qed.

(** The tracker. *)
Definition knows (t : tracker) (ks : list string) : Prop := forall k, In k ks -> known k (lt_labels t) = true.
Definition stuck (max : nat) (t : tracker) (ks : list string) : Prop := max <= lt_count t /\ exists k, In k ks /\ known k (lt_labels t) = false.
Lemma track_knows max ks : forall t k, known k (lt_labels t) = true -> known k (lt_labels (fst (track max t ks))) = true.
Proof.
  induction ks as [|x ks IH]; intros t k H; cbn [track]; [exact H|]. destruct (known x (lt_labels t)); [apply IH; exact H|]. destruct (Nat.ltb (lt_count t) max); [|exact H]. apply IH. cbn [lt_labels known existsb]. unfold known in H. rewrite H. apply orb_true_r.
Qed.
Lemma track_full max ks : forall t, max <= lt_count t -> fst (track max t ks) = t.
Proof.
  induction ks as [|x ks IH]; intros t H; cbn [track]; [reflexivity|]. destruct (known x (lt_labels t)); [apply IH; exact H|]. destruct (Nat.ltb_spec (lt_count t) max); [lia|reflexivity].
Qed.
Lemma track_result max ks : forall t, (snd (track max t ks) = true /\ knows (fst (track max t ks)) ks) \/ (snd (track max t ks) = false /\ stuck max (fst (track max t ks)) ks).
Proof.
  induction ks as [|x ks IH]; intros t; cbn [track]; [left; split; [reflexivity|intros k []]|].
  assert (K : forall t', known x (lt_labels t') = true -> (snd (track max t' ks) = true /\ knows (fst (track max t' ks)) (x :: ks)) \/ (snd (track max t' ks) = false /\ stuck max (fst (track max t' ks)) (x :: ks))).
  { intros t' E. destruct (IH t') as [[A B]|[A (B & k & C & D)]]; [left|right]; (split; [exact A|]).
    - intros k [<-|H]; [apply track_knows; exact E|apply B; exact H].
    - split; [exact B|]. exists k. split; [right; exact C|exact D]. }
  destruct (known x (lt_labels t)) eqn:E; [apply K; exact E|]. destruct (Nat.ltb_spec (lt_count t) max) as [L|L].
  - apply K. cbn. rewrite String.eqb_refl. reflexivity.
  - right. split; [reflexivity|]. split; [exact L|]. exists x. split; [left; reflexivity|exact E].
Qed.
Lemma knows_mono max ks t ks' : knows t ks -> knows (fst (track max t ks')) ks.
Proof. intros H k I. apply track_knows, H, I. Qed.
Lemma stuck_mono max ks t ks' : stuck max t ks -> stuck max (fst (track max t ks')) ks.
Proof. intros [H I]. rewrite track_full by exact H. split; assumption. Qed.
Lemma repeat_overflow l : repeat "label_overflow" (List.length l) = overflow l.
Proof. unfold overflow. induction l; cbn; congruence. Qed.

Section Late.
Variables (max : nat) (names : nat -> list string).
Notation step := (step max names). Notation run := (run max names).
Lemma nth_set {A} n (x y : A) l m : nth_error l n = Some y -> nth_error (set_nth n x l) m = if Nat.eqb m n then Some x else nth_error l m.
Proof. revert l m. induction n as [|n IH]; intros [|z l] [|m] H; cbn in *; try discriminate; try reflexivity. apply IH. exact H. Qed.
Lemma step_metrics w o w' m v l : step w o = Some w' -> nth_error (w_metrics w) m = Some (v, l) -> exists l', nth_error (w_metrics w') m = Some (v, l') /\ (l <> None -> l' = l).
Proof.
  intros S E. destruct o as [v'|m' n labels]; cbn [Late_Model.step] in S.
  - inv S. cbn [w_metrics]. exists l. split; [|auto]. rewrite nth_error_app1; [exact E|]. apply nth_error_Some. congruence.
  - destruct (nth_error (w_metrics w) m') as [[v' [l'|]]|] eqn:F; [|destruct (track_labels max (w_tracker w) (names v') labels) as [t [l2|]]; [|discriminate]; destruct (Nat.eqb (length l2) (length (names v'))); [|discriminate]|discriminate]; inv S; cbn [w_metrics].
    + exists l. auto.
    + rewrite (nth_set m' (v', Some l2) _ _ m F). destruct (Nat.eqb_spec m m') as [->|N]; [|exists l; auto]. rewrite F in E. inv E. eexists. split; [reflexivity|]. congruence.
Qed.
Lemma run_metrics ops : forall w w' m v l, run w ops = Some w' -> nth_error (w_metrics w) m = Some (v, l) -> exists l', nth_error (w_metrics w') m = Some (v, l') /\ (l <> None -> l' = l).
Proof.
  induction ops as [|o ops IH]; intros w w' m v l R E; cbn [Late_Model.run] in R; [inv R; exists l; auto|]. destruct (step w o) as [w1|] eqn:S; [|discriminate]. destruct (step_metrics w o w1 m v l S E) as (l1 & E1 & K1).
  destruct (IH w1 w' m v l1 R E1) as (l2 & E2 & K2). exists l2. split; [exact E2|]. intros H. rewrite K2; [auto|]. rewrite K1; auto.
Qed.
(** A use counts for the series that the metric has from then on. *)
Lemma step_use w m n labels w' : step w (Inc m n labels) = Some w' -> exists v l, nth_error (w_metrics w') m = Some (v, Some l) /\ w_values w' = bump (v, l) n (w_values w).
Proof.
  cbn [Late_Model.step]. destruct (nth_error (w_metrics w) m) as [[v' [l'|]]|] eqn:F; [|destruct (track_labels max (w_tracker w) (names v') labels) as [t [l2|]]; [|discriminate]; destruct (Nat.eqb (length l2) (length (names v'))); [|discriminate]|discriminate]; intros S; inv S; cbn [w_metrics w_values].
  - exists v', l'. auto.
  - exists v', l2. rewrite (nth_set m (v', Some l2) _ _ m F), Nat.eqb_refl. auto.
Qed.
Definition of_series (w : world) (v : nat) (l : list string) (m : nat) : bool := match nth_error (w_metrics w) m with Some (v', Some l') => same (v, l) (v', l') | _ => false end.
Definition of_vector (w : world) (v : nat) (m : nat) : bool := match nth_error (w_metrics w) m with Some (v', _) => Nat.eqb v v' | None => false end.
Lemma run_value v l ops : forall w w', run w ops = Some w' -> value (v, l) (w_values w') = (value (v, l) (w_values w) + counted (of_series w' v l) ops)%N.
Proof.
  induction ops as [|o ops IH]; intros w w' R; cbn [Late_Model.run] in R; [inv R; cbn; lia|]. destruct (step w o) as [w1|] eqn:S; [|discriminate]. rewrite (IH w1 w' R). destruct o as [v'|m n labels]; cbn [counted].
  - cbn in S. inv S. reflexivity.
  - destruct (step_use w m n labels w1 S) as (v1 & l1 & E & ->). destruct (run_metrics ops w1 w' m v1 (Some l1) R E) as (l2 & E2 & K). rewrite K in E2 by discriminate. rewrite value_bump. unfold of_series at 2. rewrite E2. lia.
Qed.
Lemma run_total v ops : forall w w', run w ops = Some w' -> total v (w_values w') = (total v (w_values w) + counted (of_vector w' v) ops)%N.
Proof.
  induction ops as [|o ops IH]; intros w w' R; cbn [Late_Model.run] in R; [inv R; cbn; lia|]. destruct (step w o) as [w1|] eqn:S; [|discriminate]. rewrite (IH w1 w' R). destruct o as [v'|m n labels]; cbn [counted].
  - cbn in S. inv S. reflexivity.
  - destruct (step_use w m n labels w1 S) as (v1 & l1 & E & ->). destruct (run_metrics ops w1 w' m v1 (Some l1) R E) as (l2 & E2 & _). rewrite total_bump. unfold of_vector at 2. rewrite E2. lia.
Qed.
Lemma run_vectors ops : forall w w', run w ops = Some w' -> map fst (w_metrics w') = map fst (w_metrics w) ++ vectors ops.
Proof.
  assert (SN : forall m (x y : nat * option (list string)) l, nth_error l m = Some y -> fst x = fst y -> map fst (set_nth m x l) = map fst l).
  { induction m as [|m IH]; intros x y [|z l] H F; cbn in *; try discriminate; [inv H; congruence|]. f_equal. eapply IH; eauto. }
  induction ops as [|o ops IH]; intros w w' R; cbn [Late_Model.run] in R; [inv R; cbn; rewrite app_nil_r; reflexivity|]. destruct (step w o) as [w1|] eqn:S; [|discriminate]. rewrite (IH w1 w' R). destruct o as [v'|m n labels]; cbn [vectors].
  - cbn in S. inv S. cbn [w_metrics]. rewrite map_app, <- app_assoc. reflexivity.
  - f_equal. cbn [Late_Model.step] in S. destruct (nth_error (w_metrics w) m) as [[v' [l'|]]|] eqn:F; [|destruct (track_labels max (w_tracker w) (names v') labels) as [t [l2|]]; [|discriminate]; destruct (Nat.eqb (length l2) (length (names v'))); [|discriminate]|discriminate]; inv S; cbn [w_metrics]; [reflexivity|]. eapply SN; [exact F|reflexivity].
Qed.

(** Which series a metric has. *)
Definition resolved (w : world) (v : nat) (given l : list string) : Prop :=
  exists ks, keys_of (names v) given = Some ks /\ ((l = given /\ knows (w_tracker w) ks) \/ (l = overflow given /\ stuck max (w_tracker w) ks)).
Definition inv (w : world) (ops : list op) : Prop :=
  forall m v l, nth_error (w_metrics w) m = Some (v, l) -> match l with None => first_use m ops = None | Some l => exists given, first_use m ops = Some given /\ resolved w v given l end.
Lemma first_use_app m a b : first_use m (a ++ b) = match first_use m a with Some l => Some l | None => first_use m b end.
Proof. induction a as [|[v|m' n l] a IH]; cbn [app first_use]; [reflexivity|exact IH|]. destruct (Nat.eqb m m'); [reflexivity|exact IH]. Qed.
Lemma track_labels_cases t v given t' l : track_labels max t (names v) given = (t', Some l) -> exists ks, keys_of (names v) given = Some ks /\ t' = fst (track max t ks) /\ ((l = given /\ knows t' ks) \/ (l = overflow given /\ stuck max t' ks)).
Proof.
  unfold track_labels. destruct (keys_of (names v) given) as [ks|]; [|discriminate]. intros H. exists ks. split; [reflexivity|]. pose proof (track_result max ks t) as X. destruct (track max t ks) as [t1 []]; cbn [fst snd] in *; inversion H; subst; (split; [reflexivity|]).
  - left. split; [reflexivity|]. destruct X as [[_ X]|[X _]]; [exact X|discriminate].
  - right. rewrite repeat_overflow. split; [reflexivity|]. destruct X as [[X _]|[_ X]]; [discriminate|exact X].
Qed.
Lemma resolved_mono w t' vs ms v given l ks' : resolved w v given l -> t' = fst (track max (w_tracker w) ks') -> resolved (mkWorld t' vs ms) v given l.
Proof. intros (ks & K & H) ->. exists ks. split; [exact K|]. cbn [w_tracker]. destruct H as [[A B]|[A B]]; [left|right]; (split; [exact A|]); [apply knows_mono; exact B|apply stuck_mono; exact B]. Qed.
Lemma step_inv w ops o w' : inv w ops -> (forall m, length (w_metrics w) <= m -> first_use m ops = None) -> step w o = Some w' -> inv w' (ops ++ [o]) /\ (forall m, length (w_metrics w') <= m -> first_use m (ops ++ [o]) = None).
Proof.
  intros I B S. destruct o as [v'|m' n labels]; cbn [Late_Model.step] in S.
  - inversion S; subst; clear S. split.
    + intros m v l E. rewrite first_use_app. cbn [first_use]. cbn [w_metrics] in E. destruct (Nat.lt_ge_cases m (length (w_metrics w))) as [L|L].
      * rewrite nth_error_app1 in E by exact L. specialize (I m v l E). destruct l as [l|]; [|rewrite I; reflexivity]. destruct I as (g & G & R). exists g. rewrite G. split; [reflexivity|exact R].
      * rewrite nth_error_app2 in E by exact L. rewrite (B m L). destruct (m - length (w_metrics w)) as [|[|?]]; cbn in E; inversion E; subst; reflexivity.
    + intros m L. rewrite first_use_app. cbn [first_use w_metrics] in *. rewrite app_length in L. rewrite B by lia. reflexivity.
  - destruct (nth_error (w_metrics w) m') as [[v' [l'|]]|] eqn:F; [| |discriminate].
    + inversion S; subst; clear S. pose proof (I m' v' (Some l') F) as (g & G & R). split.
      * intros m v l E. cbn [w_metrics] in E. specialize (I m v l E). rewrite first_use_app. destruct l as [l|].
        -- destruct I as (g2 & G2 & R2). exists g2. rewrite G2. split; [reflexivity|exact R2].
        -- rewrite I. cbn [first_use]. destruct (Nat.eqb_spec m m') as [->|N]; [congruence|reflexivity].
      * intros m L. cbn [w_metrics] in L. rewrite first_use_app, (B m L). cbn [first_use]. destruct (Nat.eqb_spec m m') as [->|N]; [|reflexivity]. apply nth_error_None in L. congruence.
    + destruct (track_labels max (w_tracker w) (names v') labels) as [t [l2|]] eqn:T; [|discriminate]. destruct (Nat.eqb (length l2) (length (names v'))); [|discriminate]. inversion S; subst; clear S.
      destruct (track_labels_cases _ _ _ _ _ T) as (ks & K & Et & H). split.
      * intros m v l E. cbn [w_metrics] in E. rewrite (nth_set m' (v', Some l2) _ _ m F) in E. rewrite first_use_app. destruct (Nat.eqb_spec m m') as [->|N].
        -- inversion E; subst. rewrite (I m' _ None F). cbn [first_use]. rewrite Nat.eqb_refl. exists labels. split; [reflexivity|]. exists ks. split; [exact K|exact H].
        -- specialize (I m v l E). destruct l as [l|].
           ++ destruct I as (g & G & R). exists g. rewrite G. split; [reflexivity|]. eapply resolved_mono; [exact R|exact Et].
           ++ rewrite I. cbn [first_use]. destruct (Nat.eqb_spec m m'); [contradiction|reflexivity].
      * assert (LN : length (set_nth m' (v', Some l2) (w_metrics w)) = length (w_metrics w)).
        { clear. generalize (w_metrics w). induction m' as [|m IH]; intros [|z l]; cbn; auto. }
        intros m L. cbn [w_metrics] in L. rewrite LN in L. rewrite first_use_app, (B m L). cbn [first_use]. destruct (Nat.eqb_spec m m') as [->|N]; [|reflexivity]. apply nth_error_None in L. congruence.
Qed.
Lemma run_app a b w : run w (a ++ b) = match run w a with Some w1 => run w1 b | None => None end.
Proof. revert w. induction a as [|o a IH]; intros w; cbn [app Late_Model.run]; [reflexivity|]. destruct (step w o); [apply IH|reflexivity]. Qed.
Lemma run_inv ops : forall w, run world_new ops = Some w -> inv w ops /\ (forall m, length (w_metrics w) <= m -> first_use m ops = None).
Proof.
  induction ops as [|o ops IH] using rev_ind; intros w R.
  - cbn in R. inversion R; subst. split; [|reflexivity]. intros [|m] v l E; discriminate.
  - rewrite run_app in R. destruct (run world_new ops) as [w1|]; [|discriminate]. cbn [Late_Model.run] in R. destruct (step w1 o) as [w2|] eqn:S; inversion R; subst. destruct (IH w1 eq_refl) as [I B]. eapply step_inv; eauto.
Qed.
(** Metrics of one vector that were first used with equal labels have one series. *)
Lemma agree ops w m1 m2 v l1 l2 given : run world_new ops = Some w -> nth_error (w_metrics w) m1 = Some (v, Some l1) -> nth_error (w_metrics w) m2 = Some (v, Some l2) ->
  first_use m1 ops = Some given -> first_use m2 ops = Some given -> l1 = l2 /\ (l1 = given \/ l1 = overflow given).
Proof.
  intros R E1 E2 F1 F2. destruct (run_inv ops w R) as [I _]. destruct (I _ _ _ E1) as (g1 & G1 & k1 & K1 & H1). destruct (I _ _ _ E2) as (g2 & G2 & k2 & K2 & H2).
  rewrite F1 in G1. rewrite F2 in G2. inversion G1; inversion G2; subst. rewrite K1 in K2. inversion K2; subst.
  destruct H1 as [[-> A]|[-> (A & k & A1 & A2)]], H2 as [[-> B]|[-> (B & k' & B1 & B2)]]; split; auto.
  - exfalso. specialize (A _ B1). congruence.
  - exfalso. specialize (B _ A1). congruence.
Qed.
Lemma used_resolved ops w m v l : run world_new ops = Some w -> nth_error (w_metrics w) m = Some (v, l) -> first_use m ops <> None -> exists l', l = Some l'.
Proof. intros R E F. destruct (run_inv ops w R) as [I _]. specialize (I m v l E). destruct l as [l|]; [eexists; reflexivity|congruence]. Qed.
(** Panics only for a wrong number of labels at the first use. *)
Lemma keys_some n : forall l, length l = length n -> exists ks, keys_of n l = Some ks.
Proof. induction n as [|x n IH]; intros [|y l] H; cbn in *; try discriminate; [eexists; reflexivity|]. destruct (IH l) as [ks ->]; [lia|]. eexists. reflexivity. Qed.
Lemma no_panic ops w m v l n labels : run world_new ops = Some w -> nth_error (w_metrics w) m = Some (v, l) -> (first_use m ops = None -> length labels = length (names v)) -> step w (Inc m n labels) <> None.
Proof.
  intros R E L. destruct (run_inv ops w R) as [I _]. specialize (I m v l E). cbn [Late_Model.step]. rewrite E. destruct l as [l|]; [discriminate|]. specialize (L I). unfold track_labels. destruct (keys_some (names v) labels L) as [ks ->].
  destruct (track max (w_tracker w) ks) as [t []]; [rewrite L, Nat.eqb_refl; discriminate|]. rewrite repeat_length, L, Nat.eqb_refl. discriminate.
Qed.
End Late.
