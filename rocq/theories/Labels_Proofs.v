(** Proofs about the label tracker. *)
From Verif Require Import Base Str_Base Labels_Model.
Local Open Scope string_scope.
Local Open Scope list_scope.

Lemma known_in : forall k l, known k l = true <-> In k l.
Proof.
  intros k l. unfold known. rewrite existsb_exists. split.
  - intros (x & H & E). apply String.eqb_eq in E. congruence.
  - intros H. exists k. split; [assumption|apply String.eqb_refl].
Qed.
Lemma known_not : forall k l, known k l = false <-> ~ In k l.
Proof. intros. rewrite <- known_in. destruct (known k l); split; congruence. Qed.

Definition good (max : nat) (t : tracker) : Prop := NoDup (lt_labels t) /\ List.length (lt_labels t) = lt_count t /\ lt_count t <= max.

Lemma track_good : forall max keys t, good max t ->
  good max (fst (track max t keys)) /\ incl (lt_labels t) (lt_labels (fst (track max t keys))) /\
  (snd (track max t keys) = true -> incl keys (lt_labels (fst (track max t keys)))) /\
  (snd (track max t keys) = false -> lt_count (fst (track max t keys)) = max /\ ~ incl keys (lt_labels (fst (track max t keys)))) /\
  (incl keys (lt_labels t) -> track max t keys = (t, true)).
Proof.
  intros max. induction keys as [|k keys IH]; intros t G; cbn [track].
  - cbn [fst snd]; splits; auto; [apply incl_refl|intros _; apply incl_nil_l|discriminate].
  - destruct (known k (lt_labels t)) eqn:K.
    + destruct (IH t G) as (A & B & C & D & E). apply known_in in K. splits; auto.
      * intros H x [<-|Hx]; [apply B; assumption|apply C; assumption].
      * intros H. destruct (D H) as [D1 D2]. split; [assumption|]. intros I0. apply D2. intros x Hx. apply I0. right. assumption.
      * intros H. apply E. intros x Hx. apply H. right. assumption.
    + apply known_not in K. destruct G as (G1 & G2 & G3). destruct (Nat.ltb_spec (lt_count t) max).
      * destruct (IH (mkTracker (k :: lt_labels t) (S (lt_count t)))) as (A & B & C & D & E); [unfold good; cbn; splits; [constructor; auto|auto|lia]|]. cbn in B. splits; auto.
        -- intros x Hx. apply B. right. assumption.
        -- intros H0 x [<-|Hx]; [apply B; left; reflexivity|apply C; assumption].
        -- intros H0. destruct (D H0) as [D1 D2]. split; [assumption|]. intros I0. apply D2. intros x Hx. apply I0. right. assumption.
        -- intros H0. exfalso. apply K, H0. left. reflexivity.
      * cbn. splits; auto; try (unfold good; auto).
        -- intros x Hx. assumption. -- discriminate. -- intros _. split; [lia|]. intros I0. apply K, I0. left. reflexivity. -- intros H0. exfalso. apply K, H0. left. reflexivity.
Qed.

Definition used (r : list string * list string) (o : option (list string)) : Prop := o = Some (snd r) /\ snd r <> repeat "label_overflow" (List.length (snd r)).

Lemma labels_good : forall max t n v, good max t -> good max (fst (track_labels max t n v)) /\ incl (lt_labels t) (lt_labels (fst (track_labels max t n v))) /\
  (used (n, v) (snd (track_labels max t n v)) -> exists ks, keys_of n v = Some ks /\ incl ks (lt_labels (fst (track_labels max t n v)))).
Proof.
  intros max t n v G. unfold track_labels. destruct (keys_of n v) as [ks|]; [|cbn; splits; auto; [intros x H; exact H|intros (H & _); discriminate]].
  destruct (track_good max ks t G) as (A & B & C & _). destruct (track max t ks) as [t' [|] ] eqn:E; cbn in *; splits; auto.
  - intros _. exists ks. auto.
  - intros (H & N). inv H. exfalso. cbn in N. congruence.
Qed.
Lemma all_good : forall max l t, good max t -> good max (fst (track_all max t l)) /\ incl (lt_labels t) (lt_labels (fst (track_all max t l))) /\
  (forall i r o, nth_error l i = Some r -> nth_error (snd (track_all max t l)) i = Some o -> used r o -> exists ks, keys_of (fst r) (snd r) = Some ks /\ incl ks (lt_labels (fst (track_all max t l)))).
Proof.
  intros max. induction l as [|[n v] l IH]; intros t G; cbn.
  - splits; auto; [intros x H; exact H|]. intros [|i] r o H; discriminate.
  - destruct (labels_good max t n v G) as (A & B & C). destruct (track_labels max t n v) as [t1 o1]. cbn in *. destruct (IH t1 A) as (A' & B' & C'). destruct (track_all max t1 l) as [t2 os]. cbn in *.
    splits; auto; [intros x H; auto|]. intros [|i] r o H1 H2 U; cbn in *; [|eapply C'; eassumption]. inv H1. inv H2. destruct (C U) as (ks & E & I0). exists ks. split; [assumption|]. intros x Hx. auto.
Qed.
Lemma good_new : forall max, good max lt_new.
Proof. intros. unfold good, lt_new. cbn. splits; [constructor|reflexivity|lia]. Qed.

Lemma keys_in : forall n v ks a b, keys_of n v = Some ks -> In (a, b) (combine n v) -> In (key_of a b) ks.
Proof.
  induction n as [|x n IH]; intros [|y v] ks a b H1 H2; cbn in *; try contradiction; try discriminate. destruct (keys_of n v) as [ks'|] eqn:E; [|discriminate]. inv H1. destruct H2 as [H2|H2]; [inv H2; left; reflexivity|right; eapply IH; eassumption].
Qed.

Lemma sequential_bound : forall max l ks, NoDup ks ->
  (forall k, In k ks -> exists i n v o a b, nth_error l i = Some (n, v) /\ nth_error (snd (track_all max lt_new l)) i = Some o /\ used (n, v) o /\ In (a, b) (combine n v) /\ k = key_of a b) ->
  List.length ks <= max.
Proof.
  intros max l ks N H. destruct (all_good max l lt_new (good_new max)) as ((A1 & A2 & A3) & _ & C).
  assert (I0 : incl ks (lt_labels (fst (track_all max lt_new l)))).
  { intros k Hk. destruct (H k Hk) as (i & n & v & o & a & b & H1 & H2 & H3 & H4 & ->). destruct (C _ _ _ H1 H2 H3) as (ks' & E & I0). apply I0. eapply keys_in; eassumption. }
  pose proof (NoDup_incl_length N I0). lia.
Qed.

Lemma key_inj : forall a b c d, has "_" a = false -> has "_" c = false -> key_of a b = key_of c d -> a = c /\ b = d.
Proof.
  unfold key_of. induction a as [|x a IH]; intros b c d Ha Hc H; destruct c as [|y c]; cbn in *.
  - inv H. auto.
  - inv H. discriminate.
  - inv H. discriminate.
  - inv H. apply orb_false_iff in Ha, Hc. destruct (IH b c d) as [-> ->]; tauto.
Qed.
Lemma nodup_keys : forall ps, (forall a b, In (a, b) ps -> has "_" a = false) -> NoDup ps -> NoDup (map (fun p => key_of (fst p) (snd p)) ps).
Proof.
  induction ps as [|[a b] ps IH]; intros H N; [constructor|]. inv N. cbn. constructor.
  - intros Hin. apply in_map_iff in Hin. destruct Hin as ([c d] & E & Hin). cbn in E. apply key_inj in E; [destruct E; subst; contradiction|eapply H; right; eassumption|eapply H; left; reflexivity].
  - apply IH; [|assumption]. intros x y Hxy. eapply H. right. eassumption.
Qed.
Lemma pairs_bound : forall max l ps, NoDup ps ->
  (forall a b, In (a, b) ps -> has "_" a = false /\ exists i n v o, nth_error l i = Some (n, v) /\ nth_error (snd (track_all max lt_new l)) i = Some o /\ used (n, v) o /\ In (a, b) (combine n v)) ->
  List.length ps <= max.
Proof.
  intros max l ps N H. rewrite <- (map_length (fun p => key_of (fst p) (snd p)) ps). apply sequential_bound with l.
  - apply nodup_keys; [intros a b Hab; destruct (H a b Hab); assumption|assumption].
  - intros k Hk. apply in_map_iff in Hk. destruct Hk as ([a b] & <- & Hab). destruct (H a b Hab) as (_ & i & n & v & o & H1 & H2 & H3 & H4). exists i, n, v, o, a, b. auto.
Qed.

Lemma track_app : forall max l1 l2 t, track_all max t (l1 ++ l2) = (fst (track_all max (fst (track_all max t l1)) l2), snd (track_all max t l1) ++ snd (track_all max (fst (track_all max t l1)) l2)).
Proof. induction l1 as [|[n v] l1 IH]; intros l2 t; cbn; [destruct (track_all max t l2); reflexivity|]. destruct (track_labels max t n v) as [t1 o]. rewrite IH. destruct (track_all max t1 l1). reflexivity. Qed.
Lemma track_all_length : forall max l t, List.length (snd (track_all max t l)) = List.length l.
Proof. induction l as [|[n v] l IH]; intros t; cbn; [reflexivity|]. destruct (track_labels max t n v) as [t1 o]. specialize (IH t1). destruct (track_all max t1 l). cbn in *. congruence. Qed.
Lemma keys_inv : forall n v ks k, keys_of n v = Some ks -> In k ks -> exists a b, In (a, b) (combine n v) /\ k = key_of a b.
Proof.
  induction n as [|x n IH]; intros [|y v] ks k H1 H2; cbn in *; try (inv H1; contradiction); try discriminate. destruct (keys_of n v) as [ks'|] eqn:E; [|discriminate]. inv H1. destruct H2 as [<-|H2]; [exists x, y; auto|]. destruct (IH v ks' k E H2) as (a & b & ? & ?). exists a, b. auto.
Qed.
Lemma keys_total : forall n v, List.length n = List.length v -> exists ks, keys_of n v = Some ks.
Proof. induction n as [|x n IH]; intros [|y v] H; try discriminate; cbn; [eauto|]. destruct (IH v) as (ks & E); [cbn in H; congruence|]. rewrite E. cbn. eauto. Qed.

(** A set of labels all of which were used before is passed through, and nothing new is tracked. *)
Lemma known_passes : forall max l n v, List.length n = List.length v ->
  (forall a b, In (a, b) (combine n v) -> exists i n' v' o, nth_error l i = Some (n', v') /\ nth_error (snd (track_all max lt_new l)) i = Some o /\ used (n', v') o /\ In (a, b) (combine n' v')) ->
  track_all max lt_new (l ++ [(n, v)]) = (fst (track_all max lt_new l), snd (track_all max lt_new l) ++ [Some v]).
Proof.
  intros max l n v L H. rewrite track_app. destruct (all_good max l lt_new (good_new max)) as (A & _ & C). destruct (keys_total n v L) as (ks & E). cbn. unfold track_labels. rewrite E.
  destruct (track_good max ks _ A) as (_ & _ & _ & _ & P). rewrite P; [reflexivity|]. intros k Hk. destruct (keys_inv n v ks k E Hk) as (a & b & Hab & ->). destruct (H a b Hab) as (i & n' & v' & o & H1 & H2 & H3 & H4).
  destruct (C _ _ _ H1 H2 H3) as (ks' & E' & I0). apply I0. cbn in E'. eapply keys_in; eassumption.
Qed.
(** Any result is the labels themselves, or overflow labels; the latter only for labels not seen while the tracker is full. *)
Lemma all_or_nothing : forall max l n v, List.length n = List.length v ->
  exists o, snd (track_all max lt_new (l ++ [(n, v)])) = snd (track_all max lt_new l) ++ [Some o] /\
  (o = v \/ o = repeat "label_overflow" (List.length v) /\ exists ks a b, NoDup ks /\ List.length ks = max /\ In (a, b) (combine n v) /\ ~ In (key_of a b) ks /\
     forall k, In k ks -> exists n' v' c d, In (n', v') (l ++ [(n, v)]) /\ In (c, d) (combine n' v') /\ k = key_of c d).
Proof.
  intros max l n v L. rewrite track_app. destruct (all_good max l lt_new (good_new max)) as (A & _ & _). cbn. unfold track_labels. destruct (keys_total n v L) as (ks & E). rewrite E.
  destruct (track_good max ks _ A) as (A' & _ & _ & D & _).
  assert (S1 : forall l k, In k (lt_labels (fst (track_all max lt_new l))) -> exists n' v' c d, In (n', v') l /\ In (c, d) (combine n' v') /\ k = key_of c d).
  { clear. intros l k. assert (G : forall l t, In k (lt_labels (fst (track_all max t l))) -> In k (lt_labels t) \/ exists n' v' c d, In (n', v') l /\ In (c, d) (combine n' v') /\ k = key_of c d).
    { clear. induction l as [|[n v] l IH]; intros t H; cbn in *; [auto|]. destruct (track_labels max t n v) as [t1 o] eqn:E1. specialize (IH t1). destruct (track_all max t1 l) as [t2 os]. cbn in *.
      destruct (IH H) as [K|(n' & v' & c & d & K1 & K2 & K3)]; [|right; exists n', v', c, d; auto].
      unfold track_labels in E1. destruct (keys_of n v) as [ks|] eqn:E; [|inv E1; auto].
      assert (T : forall ks t, In k (lt_labels (fst (track max t ks))) -> In k (lt_labels t) \/ In k ks).
      { clear. induction ks as [|x ks IH]; intros t H; cbn [track] in *; [auto|]. destruct (known x (lt_labels t)).
        - destruct (IH t H); cbn; auto. - destruct (Nat.ltb (lt_count t) max); [|auto]. destruct (IH _ H) as [ [->|K]|K]; cbn; auto. }
      assert (K' : In k (lt_labels (fst (track max t ks)))) by (destruct (track max t ks) as [t' [|] ]; inv E1; assumption).
      destruct (T ks t K') as [K2|K2]; [auto|]. right. destruct (keys_inv n v ks k E K2) as (a & b & ? & ?). exists n, v, a, b. auto. }
    intros H. destruct (G l lt_new H) as [ []|K]; exact K. }
  destruct (track max (fst (track_all max lt_new l)) ks) as [t' [|] ] eqn:Et.
  - exists v. split; [cbn; reflexivity|]. left. reflexivity.
  - exists (repeat "label_overflow" (List.length v)). split; [cbn; reflexivity|]. right. split; [reflexivity|]. cbn in D, A'. destruct (D eq_refl) as [D1 D2]. destruct A' as (N & Ln & _).
    assert (X : exists k, In k ks /\ ~ In k (lt_labels t')).
    { clear - D2. induction ks as [|k ks IH]; [exfalso; apply D2; intros x []|]. destruct (known k (lt_labels t')) eqn:K.
      - apply known_in in K. destruct IH as (x & H1 & H2); [intros I0; apply D2; intros x [<-|Hx]; auto|]. exists x. split; [right|]; assumption.
      - apply known_not in K. exists k. split; [left; reflexivity|assumption]. }
    destruct X as (k & K1 & K2). destruct (keys_inv n v ks k E K1) as (a & b & Hab & ->). exists (lt_labels t'), a, b. splits; auto; [congruence|].
    intros x Hx. apply S1. rewrite track_app. cbn. unfold track_labels. rewrite E, Et. exact Hx.
Qed.

(** * Several threads *)
Fixpoint count (f : thread -> nat) (l : list thread) : nat := match l with [] => 0 | t :: l => f t + count f l end.
Definition holding (t : thread) : nat := match th_cur t, th_pc t with Some (_, _ :: _), Hold => 1 | _, _ => 0 end.
Definition adding (t : thread) : nat := match th_cur t, th_pc t with Some (_, _ :: _), Added => 1 | _, _ => 0 end.
Definition busy (t : thread) : nat := holding t + adding t.

Lemma count_set : forall f l i x y, nth_error l i = Some y -> count f (set_nth i x l) + f y = count f l + f x.
Proof. induction l as [|z l IH]; intros [|i] x y H; try discriminate; cbn in *; [inv H; lia|]. specialize (IH i x y H). lia. Qed.
Lemma count_le : forall f l, (forall t, f t <= 1) -> count f l <= List.length l.
Proof. induction l; intros H; cbn; [lia|]. specialize (IHl H). specialize (H a). lia. Qed.
Lemma count_less : forall f l i y, (forall t, f t <= 1) -> nth_error l i = Some y -> f y = 0 -> count f l < List.length l.
Proof.
  induction l as [|z l IH]; intros [|i] y F H Z; try discriminate; cbn in *.
  - inv H. pose proof (count_le f l F). lia. - specialize (IH i y F H Z). specialize (F z). lia.
Qed.
Lemma set_nth_length : forall A (l : list A) i x, List.length (set_nth i x l) = List.length l.
Proof. induction l; intros [|i] x; cbn; auto. Qed.
Lemma set_nth_error : forall A (l : list A) i j x, nth_error (set_nth i x l) j = (if Nat.eqb i j then match nth_error l j with Some _ => Some x | None => None end else nth_error l j).
Proof.
  induction l as [|y l IH]; intros [|i] [|j] x; cbn; auto.
  - destruct (Nat.eqb i j); reflexivity.
Qed.

Record inv_ (max T : nat) (s : shared) : Prop := {
  i_len : List.length (sh_threads s) = T;
  i_nodup : NoDup (lt_labels (sh_t s));
  i_count : List.length (lt_labels (sh_t s)) = lt_count (sh_t s) + count adding (sh_threads s);
  i_bound : lt_count (sh_t s) + count busy (sh_threads s) <= max + T - 1;
  i_lock : forall i t k, nth_error (sh_threads s) i = Some t -> holds_lock k t = true -> ~ In k (lt_labels (sh_t s));
  i_excl : forall i j t t' k, nth_error (sh_threads s) i = Some t -> nth_error (sh_threads s) j = Some t' -> holds_lock k t = true -> holds_lock k t' = true -> i = j;
  i_cur : forall i t r rest k, nth_error (sh_threads s) i = Some t -> th_cur t = Some (r, rest) -> In k r -> In k rest \/ In k (lt_labels (sh_t s));
  i_added : forall i t r k rest, nth_error (sh_threads s) i = Some t -> th_cur t = Some (r, k :: rest) -> th_pc t = Added -> In k (lt_labels (sh_t s));
  i_done : forall i t r k, nth_error (sh_threads s) i = Some t -> In (r, true) (th_done t) -> In k r -> In k (lt_labels (sh_t s)) }.

Lemma busy_le : forall t, busy t <= 1.
Proof. intros t. unfold busy, holding, adding. destruct (th_cur t) as [ [r [|k rest] ]|]; try lia. destruct (th_pc t); lia. Qed.
Lemma exists_lock : forall k l, existsb (holds_lock k) l = false -> forall i t, nth_error l i = Some t -> holds_lock k t = false.
Proof. intros k l H i t E. apply nth_error_In in E. destruct (holds_lock k t) eqn:K; [|reflexivity]. exfalso. assert (existsb (holds_lock k) l = true) by (apply existsb_exists; eauto). congruence. Qed.

Lemma step_inv : forall max T s i, inv_ max T s -> inv_ max T (th_step max s i).
Proof.
  intros max T s i G. unfold th_step. destruct (nth_error (sh_threads s) i) as [th|] eqn:Ei; [|exact G].
  assert (Len : T > 0). { rewrite <- (i_len _ _ _ G). assert (i < List.length (sh_threads s)) by (apply nth_error_Some; congruence). lia. }
  assert (Keep : forall th', (forall k, holds_lock k th' = false) -> adding th' = adding th -> busy th' <= busy th ->
     (forall r rest k, th_cur th' = Some (r, rest) -> In k r -> In k rest \/ In k (lt_labels (sh_t s))) ->
     (forall r k rest, th_cur th' = Some (r, k :: rest) -> th_pc th' = Added -> In k (lt_labels (sh_t s))) ->
     (forall r k, In (r, true) (th_done th') -> In k r -> In k (lt_labels (sh_t s))) ->
     inv_ max T (mkShared (sh_t s) (set_nth i th' (sh_threads s)))).
  { intros th' H1 H2 H3 H4 H5 H6. destruct G as [gl gn gc gb gk ge gu ga gd].
    pose proof (count_set adding _ i th' th Ei). pose proof (count_set busy _ i th' th Ei).
    split; cbn [sh_t sh_threads]; try assumption; try lia.
    - rewrite set_nth_length. exact gl.
    - intros j t k. rewrite set_nth_error. destruct (Nat.eqb_spec i j) as [<-|].
      + rewrite Ei. intros E. inv E. intros K. rewrite H1 in K. discriminate. + apply gk.
    - intros j j' t t' k. rewrite !set_nth_error. destruct (Nat.eqb_spec i j) as [<-|]; destruct (Nat.eqb_spec i j') as [<-|]; try reflexivity; rewrite ?Ei.
      + intros E _ K. inv E. rewrite H1 in K. discriminate. + intros _ E _ K. inv E. rewrite H1 in K. discriminate. + apply ge.
    - intros j t r rest k. rewrite set_nth_error. destruct (Nat.eqb_spec i j) as [<-|]; [rewrite Ei; intros E; inv E; apply H4|apply gu].
    - intros j t r k rest. rewrite set_nth_error. destruct (Nat.eqb_spec i j) as [<-|]; [rewrite Ei; intros E; inv E; apply H5|apply ga].
    - intros j t r k. rewrite set_nth_error. destruct (Nat.eqb_spec i j) as [<-|]; [rewrite Ei; intros E; inv E; apply H6|apply gd]. }
  destruct (th_cur th) as [ [r rest]|] eqn:Ec.
  - destruct rest as [|k rest].
    + apply Keep; cbn; auto.
      * unfold adding. cbn. rewrite Ec. reflexivity. * unfold busy, holding, adding. cbn. lia. * discriminate. * discriminate.
      * intros r' k H K. apply in_app_iff in H. destruct H as [H|[H|[] ] ]; [eapply (i_done _ _ _ G); eassumption|]. inv H. destruct (i_cur _ _ _ G _ _ _ _ _ Ei Ec K) as [ []|]; assumption.
    + destruct (th_pc th) eqn:Ep.
      * destruct (existsb (holds_lock k) (sh_threads s)) eqn:Ex; [exact G|]. destruct (known k (lt_labels (sh_t s))) eqn:Ek.
        -- apply known_in in Ek. apply Keep; cbn; auto.
           ++ intros k'. unfold holds_lock. cbn. destruct rest; reflexivity. ++ unfold adding. cbn. rewrite Ec, Ep. destruct rest; reflexivity. ++ unfold busy, holding, adding. cbn. destruct rest; lia.
           ++ intros r' rest' k' E K. inv E. destruct (i_cur _ _ _ G _ _ _ _ _ Ei Ec K) as [ [<-|]|]; auto. ++ discriminate. ++ intros r' k' H K. eapply (i_done _ _ _ G); eassumption.
        -- apply known_not in Ek. destruct (Nat.ltb_spec (lt_count (sh_t s)) max) as [Hl|Hl].
           ++ set (th' := mkThread (th_todo th) (Some (r, k :: rest)) Hold (th_done th)). pose proof (count_set adding _ i th' th Ei) as Ca. pose proof (count_set busy _ i th' th Ei) as Cb.
              assert (Z : busy th = 0) by (unfold busy, holding, adding; rewrite Ec, Ep; reflexivity). pose proof (count_less busy _ i th busy_le Ei Z) as Cl.
              assert (Za : adding th = 0) by (unfold busy in Z; lia). change (busy th') with 1 in Cb. change (adding th') with 0 in Ca. destruct G as [gl gn gc gb gk ge gu ga gd].
              split; cbn [sh_t sh_threads]; try assumption; try lia.
              ** rewrite set_nth_length. exact gl.
              ** intros j t k'. rewrite set_nth_error. destruct (Nat.eqb_spec i j) as [<-|]; [|apply gk]. rewrite Ei. intros E. inv E. unfold holds_lock. cbn. intros K. apply String.eqb_eq in K. subst. exact Ek.
              ** intros j j' t t' k'. rewrite !set_nth_error. destruct (Nat.eqb_spec i j) as [<-|]; destruct (Nat.eqb_spec i j') as [<-|]; try reflexivity; rewrite ?Ei.
                 --- intros E E' K K'. inv E. unfold holds_lock in K. cbn in K. apply String.eqb_eq in K. subst. rewrite (exists_lock _ _ Ex _ _ E') in K'. discriminate.
                 --- intros E' E K' K. inv E. unfold holds_lock in K. cbn in K. apply String.eqb_eq in K. subst. rewrite (exists_lock _ _ Ex _ _ E') in K'. discriminate.
                 --- apply ge.
              ** intros j t r' rest' k'. rewrite set_nth_error. destruct (Nat.eqb_spec i j) as [<-|]; [rewrite Ei; intros E; inv E; cbn; intros E; inv E; eapply gu; eassumption|apply gu].
              ** intros j t r' k' rest'. rewrite set_nth_error. destruct (Nat.eqb_spec i j) as [<-|]; [rewrite Ei; intros E; inv E; cbn; discriminate|apply ga].
              ** intros j t r' k'. rewrite set_nth_error. destruct (Nat.eqb_spec i j) as [<-|]; [rewrite Ei; intros E; inv E; cbn; eapply gd; eassumption|apply gd].
           ++ apply Keep; cbn; auto.
              ** unfold adding. cbn. rewrite Ec, Ep. reflexivity. ** unfold busy, holding, adding. cbn. lia. ** discriminate. ** discriminate.
              ** intros r' k' H K. apply in_app_iff in H. destruct H as [H|[H|[] ] ]; [eapply (i_done _ _ _ G); eassumption|discriminate].
      * set (th' := mkThread (th_todo th) (Some (r, k :: rest)) Added (th_done th)). pose proof (count_set adding _ i th' th Ei) as Ca. pose proof (count_set busy _ i th' th Ei) as Cb.
        assert (Hk : holds_lock k th = true) by (unfold holds_lock; rewrite Ec, Ep; apply String.eqb_refl).
        assert (Z : busy th = 1) by (unfold busy, holding, adding; rewrite Ec, Ep; reflexivity). assert (Za : adding th = 0) by (unfold adding; rewrite Ec, Ep; reflexivity).
        change (busy th') with 1 in Cb. change (adding th') with 1 in Ca. destruct G as [gl gn gc gb gk ge gu ga gd].
        split; cbn [sh_t sh_threads lt_labels lt_count List.length]; try lia.
        -- rewrite set_nth_length. exact gl.
        -- constructor; [|exact gn]. eapply gk; eassumption.
        -- intros j t k'. rewrite set_nth_error. destruct (Nat.eqb_spec i j) as [<-|N]; [rewrite Ei; intros E; inv E; cbn; discriminate|]. intros E K [<-|Hin]; [apply N; eapply ge; eassumption|eapply gk; eassumption].
        -- intros j j' t t' k'. rewrite !set_nth_error. destruct (Nat.eqb_spec i j) as [<-|]; destruct (Nat.eqb_spec i j') as [<-|]; try reflexivity; rewrite ?Ei.
           ++ intros E _ K. inv E. discriminate. ++ intros _ E _ K. inv E. discriminate. ++ apply ge.
        -- intros j t r' rest' k'. rewrite set_nth_error. destruct (Nat.eqb_spec i j) as [<-|].
           ++ rewrite Ei. intros E. inv E. cbn. intros E. inv E. intros K. destruct (gu _ _ _ _ _ Ei Ec K); auto.
           ++ intros E E' K. destruct (gu _ _ _ _ _ E E' K); cbn; auto.
        -- intros j t r' k' rest'. rewrite set_nth_error. destruct (Nat.eqb_spec i j) as [<-|]; [rewrite Ei; intros E; inv E; cbn; intros E; inv E; auto|]. intros E E' K. right. eapply ga; eassumption.
        -- intros j t r' k'. rewrite set_nth_error. destruct (Nat.eqb_spec i j) as [<-|]; [rewrite Ei; intros E; inv E; cbn; intros; right; eapply gd; eassumption|]. intros. right. eapply gd; eassumption.
      * set (th' := mkThread (th_todo th) (Some (r, rest)) Look (th_done th)). pose proof (count_set adding _ i th' th Ei) as Ca. pose proof (count_set busy _ i th' th Ei) as Cb.
        assert (Z : busy th = 1) by (unfold busy, holding, adding; rewrite Ec, Ep; reflexivity). assert (Za : adding th = 1) by (unfold adding; rewrite Ec, Ep; reflexivity).
        assert (Z' : busy th' = 0) by (unfold busy, holding, adding; cbn; destruct rest; reflexivity). assert (Za' : adding th' = 0) by (unfold adding; cbn; destruct rest; reflexivity).
        destruct G as [gl gn gc gb gk ge gu ga gd].
        assert (Hl : forall k', holds_lock k' th' = false) by (intros; unfold holds_lock; cbn; destruct rest; reflexivity).
        split; cbn [sh_t sh_threads lt_labels lt_count]; try assumption; try lia.
        -- rewrite set_nth_length. exact gl.
        -- intros j t k'. rewrite set_nth_error. destruct (Nat.eqb_spec i j) as [<-|]; [rewrite Ei; intros E; inv E; rewrite Hl; discriminate|apply gk].
        -- intros j j' t t' k'. rewrite !set_nth_error. destruct (Nat.eqb_spec i j) as [<-|]; destruct (Nat.eqb_spec i j') as [<-|]; try reflexivity; rewrite ?Ei.
           ++ intros E _ K. inv E. rewrite Hl in K. discriminate. ++ intros _ E _ K. inv E. rewrite Hl in K. discriminate. ++ apply ge.
        -- intros j t r' rest' k'. rewrite set_nth_error. destruct (Nat.eqb_spec i j) as [<-|]; [|apply gu]. rewrite Ei. intros E. inv E. cbn. intros E. inv E. intros K.
           destruct (gu _ _ _ _ _ Ei Ec K) as [ [<-|]|]; auto. right. eapply ga; eassumption.
        -- intros j t r' k' rest'. rewrite set_nth_error. destruct (Nat.eqb_spec i j) as [<-|]; [rewrite Ei; intros E; inv E; cbn; discriminate|apply ga].
        -- intros j t r' k'. rewrite set_nth_error. destruct (Nat.eqb_spec i j) as [<-|]; [rewrite Ei; intros E; inv E; cbn; eapply gd; eassumption|apply gd].
  - destruct (th_todo th) as [|r todo]; [exact G|]. apply Keep; cbn; auto.
    + intros k. unfold holds_lock. cbn. destruct r; reflexivity. + unfold adding. cbn. rewrite Ec. destruct r; reflexivity. + unfold busy, holding, adding. cbn. destruct r; lia.
    + intros r' rest k E K. inv E. auto. + discriminate. + intros r' k H K. eapply (i_done _ _ _ G); eassumption.
Qed.

Lemma count_zero : forall f l, Forall (fun t => f t = 0) l -> count f l = 0.
Proof. intros f l H. induction H; cbn; lia. Qed.
Lemma new_inv : forall max programs, programs <> [] -> inv_ max (List.length programs) (sh_new programs).
Proof.
  intros max ps N. assert (F : forall i t, nth_error (map (fun p => mkThread p None Look []) ps) i = Some t -> exists p, t = mkThread p None Look []).
  { intros i t H. apply nth_error_In, in_map_iff in H. destruct H as (p & <- & _). eauto. }
  split; cbn; try (intros i t; intros; destruct (F _ _ H) as (p & ->); try discriminate; cbn in *; try contradiction; discriminate).
  - apply map_length. - constructor.
  - rewrite count_zero; [reflexivity|]. apply Forall_map. apply Forall_forall. reflexivity.
  - rewrite count_zero; [destruct ps; [congruence|cbn; lia]|]. apply Forall_map. apply Forall_forall. reflexivity.
Qed.
Lemma concurrent_bound : forall max programs schedule ks, NoDup ks ->
  (forall k, In k ks -> exists t r, In t (sh_threads (sh_run max (sh_new programs) schedule)) /\ In (r, true) (th_done t) /\ In k r) ->
  List.length ks <= max + List.length programs - 1.
Proof.
  intros max ps sch ks N H. destruct ps as [|p ps'].
  - destruct ks as [|k ks]; [cbn; lia|]. exfalso. destruct (H k (or_introl eq_refl)) as (t & r & Ht & _). assert (Z : sh_run max (sh_new []) sch = sh_new []).
    { clear. induction sch as [|i sch IH]; [reflexivity|]. change (sh_run max (sh_new []) (i :: sch)) with (sh_run max (th_step max (sh_new []) i) sch).
      replace (th_step max (sh_new []) i) with (sh_new []) by (unfold th_step; destruct i; reflexivity). exact IH. }
    rewrite Z in Ht. destruct Ht.
  - remember (p :: ps') as ps. assert (G : inv_ max (List.length ps) (sh_run max (sh_new ps) sch)).
    { assert (G0 : inv_ max (List.length ps) (sh_new ps)) by (apply new_inv; subst; discriminate). clear - G0. revert G0. generalize (sh_new ps). induction sch as [|i sch IH]; intros s G; [exact G|]. change (sh_run max s (i :: sch)) with (sh_run max (th_step max s i) sch). apply IH, step_inv, G. }
    destruct G as [gl gn gc gb gk ge gu ga gd]. assert (I0 : incl ks (lt_labels (sh_t (sh_run max (sh_new ps) sch)))).
    { intros k Hk. destruct (H k Hk) as (t & r & Ht & Hd & Hr). apply In_nth_error in Ht. destruct Ht as (i & Ht). eapply gd; eassumption. }
    pose proof (NoDup_incl_length N I0). assert (count adding (sh_threads (sh_run max (sh_new ps) sch)) <= count busy (sh_threads (sh_run max (sh_new ps) sch))); [|lia].
    generalize (sh_threads (sh_run max (sh_new ps) sch)). clear. induction l as [|t l IH]; cbn; [lia|]. unfold busy at 1. lia.
Qed.
