From Verif Require Import Base Ring_Model Ring_Layout Ring_Proofs IntrusiveQueue_Model IntrusiveQueue_Proofs Volatile_Model Volatile_Spec.
Open Scope Z_scope.

(** * Small list facts *)
Lemma Forall2_app_inv_l' : forall (A B : Type) (P : A -> B -> Prop) a1 a2 b, Forall2 P (a1 ++ a2) b ->
  exists b1 b2, b = b1 ++ b2 /\ Forall2 P a1 b1 /\ Forall2 P a2 b2.
Proof. intros. apply Forall2_app_inv_l in H. destruct H as (b1 & b2 & H1 & H2 & H3). exists b1, b2. auto. Qed.

Lemma Forall2_impl : forall (A B : Type) (P Q : A -> B -> Prop) l l', (forall a b, In a l -> In b l' -> P a b -> Q a b) -> Forall2 P l l' -> Forall2 Q l l'.
Proof.
  intros A B P Q l l' H F. induction F; constructor.
  - apply H; [left; reflexivity|left; reflexivity|assumption].
  - apply IHF. intros a b Ha Hb. apply H; right; assumption.
Qed.

Lemma Forall2_length : forall (A B : Type) (P : A -> B -> Prop) l l', Forall2 P l l' -> length l = length l'.
Proof. intros A B P l l' F. induction F; cbn; congruence. Qed.

Lemma in_fst_split : forall (T : Type) (l : list (addr * T)) a, In a (map fst l) -> exists l1 x l2, l = l1 ++ (a, x) :: l2.
Proof.
  intros T l a H. apply in_map_iff in H. destruct H as ([b x] & E & H). cbn in E. subst b.
  apply in_split in H. destruct H as (l1 & l2 & ->). exists l1, x, l2. reflexivity.
Qed.

Lemma upd_split : forall (T : Type) f (l1 : list (addr * T)) a x l2, ~ In a (map fst l1) ->
  upd a f (l1 ++ (a, x) :: l2) = l1 ++ (a, f x) :: l2 /\ deref a (l1 ++ (a, x) :: l2) = Some x.
Proof.
  intros T f l1 a x l2. induction l1 as [|[b y] l1 IH]; intros H; cbn.
  - rewrite Nat.eqb_refl. auto.
  - cbn in H. destruct (Nat.eqb b a) eqn:E; [apply Nat.eqb_eq in E; subst; exfalso; auto|].
    destruct IH as [I1 I2]; [auto|]. rewrite I1, I2. auto.
Qed.

Lemma NoDup_mid : forall (A : Type) (l1 l2 : list A) x, NoDup (l1 ++ x :: l2) -> ~ In x l1 /\ ~ In x l2.
Proof.
  intros A l1 l2 x H. apply NoDup_remove_2 in H. split; intro; apply H; apply in_or_app; auto.
Qed.

Lemma map_mut_split : forall (T : Type) (q : iq T) a f, iq_wf T q -> In a (map fst (iq_queue q)) ->
  exists l1 x l2, iq_queue q = l1 ++ (a, x) :: l2 /\ ~ In a (map fst l1) /\ ~ In a (map fst l2) /\
    iq_map_mut q a f = (mkIq (l1 ++ (a, f x) :: l2) (iq_free q) (iq_fresh q), Some x).
Proof.
  intros T q a f [W1 W2] Hin. destruct (in_fst_split _ _ _ Hin) as (l1 & x & l2 & E).
  rewrite E, map_app in W1. cbn [map fst] in W1. rewrite <- app_assoc in W1. cbn [app] in W1.
  apply NoDup_mid in W1. destruct W1 as [N1 N2].
  assert (N3: ~ In a (map fst l2)) by (intro; apply N2; apply in_or_app; auto).
  assert (N4: ~ In a (map fst (iq_free q))) by (intro; apply N2; apply in_or_app; auto).
  exists l1, x, l2. splits; auto. unfold iq_map_mut. rewrite E.
  destruct (upd_split T f l1 a x l2 N1) as [E1 E2]. rewrite E1, E2, (upd_absent T) by assumption. reflexivity.
Qed.


(** * Histories *)
Lemma increasing_app : forall a b, increasing (a ++ b) -> increasing a /\ increasing b.
Proof.
  intros a b H. split.
  - intros u x v y w E. apply (H u x v y (w ++ b)). rewrite E, <- !app_assoc. cbn. rewrite <- app_assoc. reflexivity.
  - intros u x v y w E. apply (H (a ++ u) x v y w). rewrite E, <- !app_assoc. reflexivity.
Qed.

Lemma increasing_lt : forall a b x y, increasing (a ++ b) -> In x a -> In y b -> (x < y)%nat.
Proof.
  intros a b x y H Hx Hy. apply in_split in Hx. apply in_split in Hy. destruct Hx as (a1 & a2 & ->). destruct Hy as (b1 & b2 & ->).
  apply (H a1 x (a2 ++ b1) y b2). rewrite <- !app_assoc. reflexivity.
Qed.

Lemma increasing_glue : forall a b, increasing a -> increasing b -> (forall x y, In x a -> In y b -> (x < y)%nat) -> increasing (a ++ b).
Proof.
  induction a as [|z a IH]; intros b Ha Hb Hab; [exact Hb|].
  intros u x v y w E. destruct u as [|z' u]; cbn in E; injection E as -> E.
  - assert (Hin: In y (a ++ b)) by (rewrite E; apply in_or_app; right; left; reflexivity).
    apply in_app_or in Hin. destruct Hin as [Hin|Hin].
    + apply in_split in Hin. destruct Hin as (a1 & a2 & ->). apply (Ha [] x a1 y a2). reflexivity.
    + apply Hab; [left; reflexivity|exact Hin].
  - apply (IH b) with (a := u) (b := v) (c := w); auto.
    + intros u0 x0 v0 y0 w0 E0. apply (Ha (z' :: u0) x0 v0 y0 w0). rewrite E0. reflexivity.
    + intros x0 y0 Hx0 Hy0. apply Hab; [right; exact Hx0|exact Hy0].
Qed.

Lemma increasing_nil : increasing [].
Proof. intros a x b y c E. destruct a; discriminate. Qed.

Lemma increasing_one : forall n, increasing [n].
Proof. intros n a x b y c E. destruct a as [|? [|]]; cbn in E; try discriminate. injection E as _ E. destruct b; discriminate. Qed.

Lemma increasing_mid : forall a b c, increasing (a ++ b ++ c) -> increasing (a ++ c).
Proof.
  intros a b c H. destruct (increasing_app _ _ H) as [H1 H2]. destruct (increasing_app _ _ H2) as [H3 H4].
  apply increasing_glue; auto. intros x y Hx Hy. apply (increasing_lt a (b ++ c)); auto. apply in_or_app. auto.
Qed.

Lemma publish_ids : forall l v r, publish l = (v, r) -> ids v ++ slot_ids r = slot_ids l.
Proof.
  induction l as [|s l IH]; intros v r E; cbn in E; [inv E; reflexivity|].
  destruct (sl_done s); [|inv E; reflexivity]. destruct (publish l) as [v1 r1]. inv E. cbn. f_equal. apply IH. reflexivity.
Qed.

Lemma publish_head : forall l v r, publish l = (v, r) -> forall sl l', r = sl :: l' -> sl_done sl = false.
Proof.
  induction l as [|s l IH]; intros v r E sl l' Er; cbn in E; [inv E; discriminate|].
  destruct (sl_done s) eqn:Ed; [|inv E; injection H1 as -> ->; exact Ed]. destruct (publish l) as [v1 r1]. inv E. eapply IH; reflexivity.
Qed.

Lemma on_slot_ids : forall p f l, (forall s, rec_id (sl_rec (f s)) = rec_id (sl_rec s)) -> slot_ids (on_slot p f l) = slot_ids l.
Proof.
  intros p f l H. unfold slot_ids, on_slot. rewrite map_map. apply map_ext. intros s. destruct (sl_owner s) as [q|]; [|reflexivity].
  destruct (Nat.eqb q p); [apply H|reflexivity].
Qed.

Lemma on_slot_head : forall p f l, (forall s, sl_done (f s) = sl_done s) ->
  (forall sl l', l = sl :: l' -> sl_done sl = false) -> forall sl l', on_slot p f l = sl :: l' -> sl_done sl = false.
Proof.
  intros p f l Hf H sl l' E. destruct l as [|s l]; [discriminate|]. cbn in E. injection E as <- _. specialize (H s l eq_refl).
  destruct (sl_owner s) as [q|]; [|exact H]. destruct (Nat.eqb q p); [rewrite Hf|]; exact H.
Qed.

Lemma history_init : history fifo_init.
Proof. constructor; cbn; try constructor; try apply increasing_nil. discriminate. Qed.

(** Only the identifiers matter. *)
Lemma history_ids : forall s s', history s -> ids (f_consumed s') = ids (f_consumed s) -> ids (f_lost s') = ids (f_lost s) ->
  ids (f_unread s') = ids (f_unread s) -> slot_ids (f_slots s') = slot_ids (f_slots s) -> f_next s' = f_next s ->
  (forall sl l, f_slots s' = sl :: l -> sl_done sl = false) -> history s'.
Proof. intros s s' [] E1 E2 E3 E4 E5 H. constructor; rewrite ?E1, ?E2, ?E3, ?E4, ?E5; auto. Qed.

Lemma slot_ids_app : forall a b, slot_ids (a ++ b) = slot_ids a ++ slot_ids b.
Proof. intros. apply map_app. Qed.
Lemma ids_app : forall a b, ids (a ++ b) = ids a ++ ids b.
Proof. intros. apply map_app. Qed.

Lemma history_step : forall cap s o out s', history s -> step cap s o out s' -> history s'.
Proof.
  intros cap s o out s' Hy St. destruct St; auto.
  - (* reserve *) match goal with E : f_unread s = _ |- _ => rename E into EU end.
    destruct Hy as [A1 A2 A3 A4 A5]. rewrite EU, !ids_app in *.
    assert (Hlt: forall x, In x (ids (f_consumed s) ++ ids (f_lost s) ++ (ids lost ++ ids kept) ++ slot_ids (f_slots s)) -> (x < f_next s)%nat).
    { intros x Hx. eapply Permutation_in in Hx; [|exact A1]. apply in_seq in Hx. lia. }
    assert (Hperm: Permutation (ids (f_consumed s) ++ (ids (f_lost s) ++ ids lost) ++ ids kept ++ slot_ids (f_slots s) ++ [f_next s])
              (f_next s :: ids (f_consumed s) ++ ids (f_lost s) ++ (ids lost ++ ids kept) ++ slot_ids (f_slots s))).
    { etransitivity; [|apply Permutation_app_comm with (l := _ ++ _) (l' := [f_next s])].
      rewrite <- !app_assoc. reflexivity. }
    constructor; cbn [f_consumed f_lost f_unread f_slots f_next]; rewrite ?ids_app, ?slot_ids_app; cbn [slot_ids map sl_rec rec_id].
    + rewrite Hperm. rewrite seq_S. cbn. etransitivity; [apply perm_skip; exact A1|]. apply Permutation_cons_append.
    + eapply Permutation_NoDup; [apply Permutation_sym; exact Hperm|]. constructor; [|exact A2].
      intros Hx. apply Hlt in Hx. lia.
    + rewrite !app_assoc. apply increasing_glue; [|apply increasing_one|].
      * rewrite <- app_assoc. apply (increasing_mid _ (ids lost)). rewrite <- app_assoc in A3. exact A3.
      * intros x y Hx [<-|[]]. apply Hlt. rewrite !in_app_iff in *. tauto.
    + rewrite !app_assoc. apply increasing_glue; [|apply increasing_one|].
      * rewrite <- !app_assoc in *. exact A4.
      * intros x y Hx [<-|[]]. apply Hlt. rewrite !in_app_iff in *. tauto.
    + intros sl l0 E. destruct (f_slots s) as [|s0 sl0]; cbn in E.
      * injection E as <- _. reflexivity.
      * injection E as <- _. eapply A5. reflexivity.
  - (* write *) eapply history_ids; [exact Hy|reflexivity|reflexivity|reflexivity| |reflexivity|].
    + cbn. apply on_slot_ids. intros sl. cbn zeta. dmatch; reflexivity.
    + cbn. apply on_slot_head; [|apply Hy]. intros sl. cbn zeta. dmatch; reflexivity.
  - (* commit *) match goal with E : publish _ = _ |- _ => rename E into EP end.
    pose proof (publish_ids _ _ _ EP) as Hi. rewrite on_slot_ids in Hi by reflexivity. destruct Hy as [A1 A2 A3 A4 A5].
    constructor; cbn [f_consumed f_lost f_unread f_slots f_next]; rewrite ?ids_app, <- ?app_assoc, ?Hi; auto.
    eapply publish_head. exact EP.
  - (* drop producer *) eapply history_ids; [exact Hy|reflexivity|reflexivity|reflexivity| |reflexivity|].
    + cbn. apply on_slot_ids. reflexivity.
    + cbn. apply on_slot_head; [|apply Hy]. reflexivity.
  - destruct Hy; constructor; auto.
  - destruct Hy; constructor; auto.
  - destruct Hy; constructor; auto.
  - (* finish *) match goal with E : f_unread s = _ |- _ => rename E into EU end.
    destruct Hy as [A1 A2 A3 A4 A5]. rewrite EU in *. cbn [ids map] in *. change (map rec_id l) with (ids l) in *.
    assert (Hperm: Permutation ((ids (f_consumed s) ++ [rec_id x]) ++ ids (f_lost s) ++ ids l ++ slot_ids (f_slots s))
              (ids (f_consumed s) ++ ids (f_lost s) ++ (rec_id x :: ids l) ++ slot_ids (f_slots s))).
    { rewrite <- app_assoc. apply Permutation_app_head. cbn. apply Permutation_middle. }
    constructor; cbn [f_consumed f_lost f_unread f_slots f_next]; rewrite ?ids_app; cbn [ids map]; change (map rec_id l) with (ids l); auto.
    + rewrite Hperm. exact A1.
    + eapply Permutation_NoDup; [apply Permutation_sym; exact Hperm|exact A2].
    + rewrite <- app_assoc. exact A3.
    + change (rec_id x :: ids l) with ([rec_id x] ++ ids l) in A4. rewrite <- app_assoc in A4.
      apply (increasing_mid _ [rec_id x]). exact A4.
  - destruct Hy; constructor; auto.
  - destruct Hy; constructor; auto.
  - destruct Hy; constructor; auto.
  - destruct Hy; constructor; auto.
Qed.

(** Flushes: when the record starting at [w] is finished, no record numbered below [k] remains. *)
Fixpoint wok (w : Z) (k : nat) (U : list range) (X : list rec) : Prop :=
  match U, X with
  | u :: U', x :: X' => (r_start u = w -> Forall (fun y => (k <= rec_id y)%nat) X') /\ wok w k U' X'
  | _, _ => True
  end.

Lemma wok_skip : forall w k A B U X, length A = length B -> wok w k (A ++ U) (B ++ X) -> wok w k U X.
Proof.
  induction A as [|a A IH]; intros B U X E H; destruct B as [|b B]; cbn in *; try discriminate; auto.
  destruct H as [_ H]. apply (IH B); auto.
Qed.

Lemma wok_new : forall w k V Y, Forall (fun y => (k <= rec_id y)%nat) Y -> wok w k V Y.
Proof. induction V as [|v V IH]; intros Y F; destruct Y as [|y Y]; cbn; auto. inv F. auto. Qed.

Lemma wok_app : forall w k U X V Y, length U = length X -> wok w k U X -> Forall (fun y => (k <= rec_id y)%nat) Y -> wok w k (U ++ V) (X ++ Y).
Proof.
  induction U as [|u U IH]; intros X V Y E H F; destruct X as [|x X]; cbn in *; try discriminate.
  - apply wok_new. exact F.
  - destruct H as [H1 H2]. split; [|apply IH; auto]. intros Hu. apply Forall_app. auto.
Qed.

Lemma wok_target : forall k U X w, length U = length X -> (forall a u b, U = a ++ u :: b -> r_start u = w -> b = []) -> wok w k U X.
Proof.
  induction U as [|u U IH]; intros X w E H; destruct X as [|x X]; cbn in *; try discriminate; auto. split.
  - intros Hu. specialize (H [] u U eq_refl Hu). subst U. destruct X; [constructor|discriminate].
  - apply IH; [lia|]. intros a u' b E' Hu'. apply (H (u :: a) u' b); [rewrite E'; reflexivity|exact Hu'].
Qed.

Definition waits_ok (c : common) (s : fifo) (U : list range) : Prop :=
  Forall (fun k => Forall (fun i => (k <= i)%nat) (slot_ids (f_slots s)) /\ (k <= f_next s)%nat /\ exists w, c_wait c = Some (Some w) /\ wok w k U (f_unread s)) (f_waits s).

(** * Relation between the buffer and the lossy FIFO *)
Definition holds (c : common) (r : range) (d : list Z) : Prop :=
  r_size r = Z.of_nat (length d) + c_extra c /\ mem_get (c_mem c) (r_start r + c_extra c) (r_size r - c_extra c) = d.

Definition qranges (q : iq reservation) : list range := map (fun e => rv_range (snd e)) (iq_queue q).

Definition slot_rel (c : common) (prod : nat -> option addr) (e : addr * reservation) (sl : slot) : Prop :=
  holds c (rv_range (snd e)) (rec_data (sl_rec sl)) /\ rv_committed (snd e) = sl_done sl /\
  (forall p, sl_owner sl = Some p <-> prod p = Some (fst e)).

(** The byte counters; [total] ones include the four bytes of the size of each record. *)
Definition bytes_ok (st : stats) (consumed lost unread : list rec) : Prop :=
  s_bytes_written st = bytes consumed + bytes lost + bytes unread /\ s_bytes_overwritten st = bytes lost /\ s_bytes_read st = bytes consumed /\
  s_total_bytes_written st = s_bytes_written st + 4 * s_records_written st /\ s_total_bytes_read st = s_bytes_read st + 4 * s_records_read st.
Lemma bytes_app : forall a b, bytes (a ++ b) = bytes a + bytes b.
Proof. induction a as [|x a IH]; intros b; [reflexivity|]. cbn [app bytes fold_right]. fold (bytes (a ++ b)). fold (bytes a). rewrite IH. lia. Qed.
Lemma bytes_one : forall x, bytes [x] = Z.of_nat (length (rec_data x)).
Proof. intros x. cbn. lia. Qed.
Lemma data_sum_bytes : forall c U X, Forall2 (fun r x => holds c r (rec_data x)) U X -> data_sum (c_extra c) U = bytes X.
Proof. intros c U X F. induction F as [|u x U X [H _] _ IH]; [reflexivity|]. cbn [data_sum bytes fold_right]. unfold data_sum, bytes in IH. rewrite IH. lia. Qed.

Record rel (cap : Z) (v : vbuf) (s : fifo) (U : list range) : Prop := {
  r_ci : cinv (v_c v) U (qranges (v_res v));
  r_len : c_len (v_c v) = cap;
  r_ex : c_extra (v_c v) = 4;
  r_ow : c_ow (v_c v) = OYes;
  r_wf : iq_wf _ (v_res v);
  r_unread : Forall2 (fun r x => holds (v_c v) r (rec_data x)) U (f_unread s);
  r_slots : Forall2 (slot_rel (v_c v) (v_prod v)) (iq_queue (v_res v)) (f_slots s);
  r_prod : forall p a, v_prod v p = Some a -> In a (map fst (iq_queue (v_res v)));
  r_owned : Forall (fun sl => sl_done sl = true -> sl_owner sl = None) (f_slots s);
  r_head : match f_slots s with sl :: _ => sl_done sl = false | [] => True end;
  r_reader : match v_cons v with
             | None => f_reader s = None
             | Some None => f_reader s = Some false
             | Some (Some r) => f_reader s = Some true /\ hd_error U = Some r
             end;
  r_locks : c_locks (v_c v) = f_locks s;
  r_shut : c_shutdown (v_c v) = f_shut s;
  r_st1 : s_records_written (c_stats (v_c v)) = Z.of_nat (length (f_consumed s) + length (f_lost s) + length (f_unread s));
  r_st2 : s_records_overwritten (c_stats (v_c v)) = Z.of_nat (length (f_lost s));
  r_st3 : s_records_read (c_stats (v_c v)) = Z.of_nat (length (f_consumed s));
  r_by : bytes_ok (c_stats (v_c v)) (f_consumed s) (f_lost s) (f_unread s);
  r_waits : waits_ok (v_c v) s U }.

Ltac rl R := first [exact (r_ci _ _ _ _ R) | exact (r_len _ _ _ _ R) | exact (r_ex _ _ _ _ R) | exact (r_ow _ _ _ _ R) | exact (r_wf _ _ _ _ R) | exact (r_unread _ _ _ _ R) | exact (r_slots _ _ _ _ R) | exact (r_prod _ _ _ _ R) | exact (r_owned _ _ _ _ R) | exact (r_head _ _ _ _ R) | exact (r_reader _ _ _ _ R) | exact (r_locks _ _ _ _ R) | exact (r_shut _ _ _ _ R) | exact (r_st1 _ _ _ _ R) | exact (r_st2 _ _ _ _ R) | exact (r_st3 _ _ _ _ R) | exact (r_by _ _ _ _ R) | exact (r_waits _ _ _ _ R)].

(** Memory changes that leave some records alone. *)
Lemma holds_mem : forall c m r d, holds c r d ->
  (forall i, r_start r + c_extra c <= i < r_start r + r_size r -> m i = c_mem c i) -> holds (set_mem m c) r d.
Proof.
  intros c m r d [H1 H2] H. split; [exact H1|]. cbn. rewrite <- H2. apply mem_get_ext. intros i Hi. apply H. lia.
Qed.

Lemma holds_same : forall c c' r d, c_mem c' = c_mem c -> c_extra c' = c_extra c -> holds c r d -> holds c' r d.
Proof. intros c c' r d E1 E2 [H1 H2]. unfold holds. rewrite E1, E2. auto. Qed.

Lemma owns_prod : forall cap v s U p, rel cap v s U -> (owns p s <-> exists a, v_prod v p = Some a).
Proof.
  intros cap v s U p R. pose proof (r_slots _ _ _ _ R) as F. split.
  - intros (sl & Hin & Ho). apply in_split in Hin. destruct Hin as (s1 & s2 & E). rewrite E in F.
    apply Forall2_app_inv_r in F. destruct F as (q1 & q2 & F1 & F2 & Eq). inversion F2; subst.
    match goal with H : slot_rel _ _ _ _ |- _ => destruct H as (_ & _ & Hp) end. apply Hp in Ho. eexists. exact Ho.
  - intros (a & Ha). pose proof (r_prod _ _ _ _ R _ _ Ha) as Hin. apply in_fst_split in Hin.
    destruct Hin as (l1 & x & l2 & E). rewrite E in F.
    apply Forall2_app_inv_l in F. destruct F as (s1 & s2 & F1 & F2 & Es). inversion F2; subst.
    match goal with H : slot_rel _ _ _ _ |- _ => destruct H as (_ & _ & Hp) end.
    exists y. split; [rewrite Es; apply in_or_app; right; left; reflexivity|]. apply Hp. exact Ha.
Qed.

(** The slot of producer [p]. *)
Lemma slot_of : forall cap v s U p a, rel cap v s U -> v_prod v p = Some a ->
  exists l1 x l2 s1 sl s2, iq_queue (v_res v) = l1 ++ (a, x) :: l2 /\ f_slots s = s1 ++ sl :: s2 /\
    Forall2 (slot_rel (v_c v) (v_prod v)) l1 s1 /\ slot_rel (v_c v) (v_prod v) (a, x) sl /\ Forall2 (slot_rel (v_c v) (v_prod v)) l2 s2 /\
    ~ In a (map fst l1) /\ ~ In a (map fst l2) /\ sl_owner sl = Some p /\ sl_done sl = false /\
    (forall f, on_slot p f (f_slots s) = s1 ++ f sl :: s2) /\
    (forall f, iq_map_mut (v_res v) a f = (mkIq (l1 ++ (a, f x) :: l2) (iq_free (v_res v)) (iq_fresh (v_res v)), Some x)).
Proof.
  intros cap v s U p a R Ha. pose proof (r_prod _ _ _ _ R _ _ Ha) as Hin.
  destruct (map_mut_split _ _ a (fun r => r) (r_wf _ _ _ _ R) Hin) as (l1 & x & l2 & E & N1 & N2 & _).
  pose proof (r_slots _ _ _ _ R) as F. rewrite E in F.
  apply Forall2_app_inv_l' in F. destruct F as (s1 & s' & Es & F1 & F2). inversion F2 as [|? sl ? s2 Hsl F3]; subst.
  exists l1, x, l2, s1, sl, s2.
  assert (Ho: sl_owner sl = Some p) by (apply (proj2 (proj2 Hsl)); exact Ha).
  assert (Hother: forall l sl', Forall2 (slot_rel (v_c v) (v_prod v)) l sl' -> ~ In a (map fst l) ->
     forall f, on_slot p f sl' = sl').
  { intros l sl' F Hn f. induction F as [|e y l sl' He F IH]; [reflexivity|]. cbn [on_slot map]. cbn in Hn.
    unfold on_slot in IH. rewrite IH by auto. f_equal.
    destruct (sl_owner y) as [q|] eqn:Eq; [|reflexivity]. destruct (Nat.eqb q p) eqn:Eqp; [|reflexivity].
    apply Nat.eqb_eq in Eqp. subst q. apply (proj2 (proj2 He)) in Eq. exfalso. apply Hn. left. congruence. }
  splits; auto.
  - destruct (sl_done sl) eqn:Ed; [|reflexivity]. pose proof (r_owned _ _ _ _ R) as Fo. rewrite Forall_forall in Fo.
    assert (sl_owner sl = None) by (apply Fo; [rewrite Es; apply in_or_app; right; left; reflexivity|exact Ed]). congruence.
  - intros f. rewrite Es. unfold on_slot. rewrite map_app. cbn [map]. rewrite Ho, Nat.eqb_refl.
    pose proof (Hother _ _ F1 N1 f) as H1. pose proof (Hother _ _ F3 N2 f) as H2. unfold on_slot in H1, H2. rewrite H1, H2. reflexivity.
  - intros f. destruct (map_mut_split _ _ a f (r_wf _ _ _ _ R) Hin) as (l1' & x' & l2' & E' & N1' & N2' & Em). rewrite Em.
    rewrite E in E'. clear -E' N1 N1'.
    assert (l1 = l1' /\ x = x' /\ l2 = l2').
    { revert l1' E' N1'. induction l1 as [|[b y] l1 IH]; intros l1' E' N1'; destruct l1' as [|[b' y'] l1']; cbn in *.
      - injection E' as -> ->. auto.
      - injection E' as -> _ _. exfalso. auto.
      - injection E' as -> _ _. exfalso. auto.
      - injection E' as -> -> E'. destruct (IH ltac:(auto) l1' E' ltac:(auto)) as (-> & -> & ->). auto. }
    destruct H as (-> & -> & ->). reflexivity.
Qed.

Lemma on_slot_none : forall cap v s U p f, rel cap v s U -> v_prod v p = None -> on_slot p f (f_slots s) = f_slots s.
Proof.
  intros cap v s U p f R Hp. pose proof (r_slots _ _ _ _ R) as F. induction F as [|e y l sl' He F IH]; [reflexivity|].
  unfold on_slot in *. cbn [map]. rewrite IH. f_equal.
  destruct (sl_owner y) as [q|] eqn:Eq; [|reflexivity]. destruct (Nat.eqb q p) eqn:Eqp; [|reflexivity].
  apply Nat.eqb_eq in Eqp. subst q. apply (proj2 (proj2 He)) in Eq. congruence.
Qed.

(** Sizes. *)
Lemma holds_need : forall c r d, c_extra c = 4 -> holds c r d -> r_size r = need d.
Proof. intros c r d E [H _]. unfold need. lia. Qed.

Lemma room_eq : forall c R D n, c_extra c = 4 -> Forall2 (holds c) R D -> size_sum R = total D /\ size_max n R = largest n D.
Proof.
  intros c R D n E F. induction F as [|r d R D H F IH]; [split; reflexivity|]. destruct IH as [I1 I2].
  cbn. unfold size_sum, size_max, total, largest in *. rewrite (holds_need _ _ _ E H), I1, I2. auto.
Qed.

Lemma rel_contents : forall cap v s U u U', rel cap v s U -> Forall2 (fun r x => holds (v_c v) r (rec_data x)) U' u ->
  Forall2 (holds (v_c v)) (U' ++ qranges (v_res v)) (contents u (f_slots s)).
Proof.
  intros cap v s U u U' R F. unfold contents. apply Forall2_app.
  - induction F; cbn; constructor; auto.
  - pose proof (r_slots _ _ _ _ R) as G. unfold qranges. induction G as [|e y l sl He G IH]; cbn; constructor; auto. apply He.
Qed.

Lemma app_inj_len : forall (A : Type) (a b c d : list A), length a = length c -> a ++ b = c ++ d -> a = c /\ b = d.
Proof.
  induction a as [|x a IH]; intros b c d H E; destruct c as [|y c]; cbn in *; try discriminate; auto.
  injection E as -> E. destruct (IH b c d) as [-> ->]; auto.
Qed.

(** * Each operation *)
Lemma sim_reserve : forall cap v s U p size block v' out, rel cap v s U -> 0 <= size < 4294967296 ->
  v_step v (VReserve p size block) = (v', out) -> exists s' U', step cap s (VReserve p size block) out s' /\ rel cap v' s' U'.
Proof.
  intros cap v s U p size block v' out R Hsize E. cbn [v_step] in E.
  destruct (v_reserve v p size block) as [v1 r] eqn:Ev. inv E.
  unfold v_reserve in Ev. destruct (v_prod v p) as [a|] eqn:Hp.
  - inv Ev. exists s, U. split; [|exact R]. apply S_reserve_twice. apply (owns_prod _ _ _ _ _ R). eauto.
  - assert (Hno: ~ owns p s) by (rewrite (owns_prod _ _ _ _ _ R); intros [a Ha]; congruence).
    pose proof (r_ci _ _ _ _ R) as I. pose proof (r_len _ _ _ _ R) as HL. pose proof (r_ex _ _ _ _ R) as HX.
    assert (Rref: forall n, rel cap (v_set_c (count_refused n (v_c v)) v) s U).
    { intros n. constructor; cbn; try rl R. apply cinv_stats. exact I. }
    unfold start_reserve_common in Ev. rewrite (r_locks _ _ _ _ R) in Ev.
    destruct (0 <? f_locks s) eqn:El.
    { inv Ev. exists s, U. split; [apply S_reserve_locked; [exact Hno|lia]|apply Rref]. }
    rewrite (ci_pending _ _ _ I) in Ev. rewrite HX in Ev.
    destruct (add32 size 4) as [actual|] eqn:Ea.
    2:{ inv Ev. exists s, U. split; [|apply Rref]. apply S_reserve_size; [exact Hno|lia|]. right.
        apply add32_none in Ea. pose proof (ci_len _ _ _ I). lia. }
    assert (Hact: actual = size + 4) by (apply add32_some in Ea; exact Ea). subst actual.
    destruct ((size =? 0) || (c_len (v_c v) <? size + 4)) eqn:Es.
    { inv Ev. exists s, U. split; [|apply Rref]. apply S_reserve_size; [exact Hno|lia|]. lia. }
    apply orb_false_iff in Es. destruct Es as [Es1 Es2].
    pose proof (layout_nws _ _ _ _ (ci_layout _ _ _ I)) as HW. pose proof (ci_len _ _ _ I) as HLb.
    destruct (calculate_some (v_c v) (size + 4) HW ltac:(lia) ltac:(lia)) as [t Et]. rewrite Et in Ev.
    pose proof (calculate_is_temp (v_c v) (size + 4) t HW ltac:(lia) ltac:(lia) Et) as Ht.
    pose proof (rel_contents _ _ _ _ _ _ R (r_unread _ _ _ _ R)) as Hc.
    assert (Hfull: (reading s \/ f_slots s <> []) -> (exists r0, In r0 (U ++ qranges (v_res v)) /\ hits (c_len (v_c v)) t r0 = true) ->
              step cap s (VReserve p size block) (ORange (Err ResourceExhausted)) s).
    { intros Hrs (r0 & Hr0 & Hh0). apply S_reserve_full; auto; try lia. unfold short_of_room.
      destruct (room_eq _ _ _ (size + 4) HX Hc) as [Q1 Q2]. rewrite <- Q1, <- Q2, <- HL.
      destruct (U ++ qranges (v_res v)) as [|h E0] eqn:EU; [contradiction|].
      assert (L: layout (h :: E0) (c_nws (v_c v)) (c_lwe (v_c v)) (c_len (v_c v))) by (rewrite <- EU; apply I).
      destruct (hits (c_len (v_c v)) t h) eqn:Hh.
      - exact (hit_no_room _ _ _ _ _ _ _ L Ht Hh).
      - exfalso. rewrite (head_not_hit_none _ _ _ _ _ _ _ _ L Ht Hh Hr0) in Hh0. discriminate. }
    destruct (match v_read_reservation v with Some r0 => intersect_reservation (v_c v) t r0 | None => false end) eqn:Er.
    { inv Ev. exists s, U. split; [|apply Rref]. unfold v_read_reservation in Er. pose proof (r_reader _ _ _ _ R) as Hr.
      destruct (v_cons v) as [[r0|]|]; try discriminate. destruct Hr as [Hr1 Hr2].
      rewrite intersect_reservation_hits in Er. apply Hfull; [left; exact Hr1|]. exists r0. split; [|exact Er].
      destruct U; [discriminate|]. injection Hr2 as ->. left. reflexivity. }
    destruct (match iq_front (v_res v) with Some r0 => intersect_reservation (v_c v) t (rv_range r0) | None => false end) eqn:Eq.
    { inv Ev. exists s, U. split; [|apply Rref]. unfold iq_front in Eq. pose proof (r_slots _ _ _ _ R) as F. unfold qranges in Hfull.
      destruct (iq_queue (v_res v)) as [|[a0 r0] q'] eqn:Eqq; [discriminate|]. inv F.
      rewrite intersect_reservation_hits in Eq. apply Hfull; [right; congruence|].
      exists (rv_range r0). split; [|exact Eq]. apply in_or_app. right. left. reflexivity. }
    destruct (evict_loop U (loop_fuel (v_c v)) v_cb (v_busy v) (v_c v) (qranges (v_res v)) t (size + 4) block) as
      (ev & U' & m & w & l & n & EU & Eadv & I' & Hhd & Hmem & Hhit & Hroom).
    { pose proof (cinv_sum _ _ _ I). unfold loop_fuel. lia. } { exact I. } { exact Ht. } { apply R. }
    rewrite Eadv in Ev.
    set (c' := evicted m w l n (Z.of_nat (length ev)) (data_sum (c_extra (v_c v)) ev) (v_c v)) in *.
    assert (Hnone: forall r0, In r0 (U' ++ qranges (v_res v)) -> hits (c_len c') t r0 = false).
    { apply (hd_not_hit_all c' U' (qranges (v_res v)) (size + 4) t I' Ht).
      destruct U' as [|h U']; [|exact Hhd]. cbn [app].
      unfold iq_front, qranges in *. destruct (iq_queue (v_res v)) as [|[a0 r0] q']; [exact Logic.I|]. exact Eq. }
    assert (Ht': is_temp (c_nws c') (c_len c') (size + c_extra c') t) by (unfold c'; cbn; rewrite HX; exact Ht).
    destruct (reserved_ok c' U' (qranges (v_res v)) t size I' Ht' ltac:(lia) Hnone) as (m2 & Eres & I2 & Hm2 & _).
    unfold reserved in Eres. cbn zeta in Ev. rewrite Eres in Ev. clear Eres.
    destruct (iq_emplace_back (v_res v) (mkRes (t_range t) false)) as [q' a] eqn:Eemp.
    set (c2 := set_mem m2 (set_lwe (lwe_after (c_lwe c') t) (set_nws (t_nws t) c'))) in *.
    assert (HX2: c_extra c' = 4) by exact HX.
    assert (Hdisj: forall r0, In r0 (U' ++ qranges (v_res v)) -> forall i, r_start r0 <= i < r_start r0 + r_size r0 -> m2 i = c_mem (v_c v) i).
    { intros r0 Hr0 i Hi. rewrite Hm2.
      - cbn. apply Hmem. intros r1 Hr1. rewrite HX. destruct (Z_lt_le_dec i (r_start r1)); [left|right]; lia.
      - pose proof (not_hit_disjoint _ _ _ (Hnone _ Hr0)) as D. unfold disjoint in D.
        pose proof (is_temp_bounds _ _ _ _ (layout_nws _ _ _ _ (ci_layout _ _ _ I')) Ht') as (B1 & B2 & B3). lia. }
    assert (Hholds: forall r0 d, In r0 (U' ++ qranges (v_res v)) -> holds (v_c v) r0 d -> holds c2 r0 d).
    { intros r0 d Hr0 H0. change c2 with (set_mem m2 (set_lwe (lwe_after (c_lwe c') t) (set_nws (t_nws t) c'))).
      apply (holds_same (set_mem m2 (v_c v))); [reflexivity|reflexivity|]. apply holds_mem; [exact H0|].
      intros i Hi. apply (Hdisj r0 Hr0). lia. }
    pose proof (r_unread _ _ _ _ R) as FU. rewrite EU in FU. apply Forall2_app_inv_l' in FU.
    destruct FU as (lost & kept & Eun & FU1 & FU2).
    assert (Hread: reading s -> ev = []).
    { intros Hr. destruct ev as [|e0 ev0]; [reflexivity|]. exfalso.
      pose proof (r_reader _ _ _ _ R) as Hrr. unfold reading in Hr. unfold v_read_reservation in Er.
      destruct (v_cons v) as [[r0|]|]; try congruence. destruct Hrr as [_ Hrr]. rewrite EU in Hrr. cbn in Hrr. injection Hrr as ->.
      rewrite intersect_reservation_hits in Er. rewrite (Hhit r0 (or_introl eq_refl)) in Er. discriminate. }
    set (d0 := mem_get m2 (r_start (t_range t) + 4) size).
    pose proof (is_temp_bounds _ _ _ _ HW Ht) as (B1 & B2 & B3).
    inv Ev. exists (mkFifo kept (f_slots s ++ [mkSlot (mkRec (f_next s) d0) (Some p) false]) (S (f_next s)) (f_reader s)
              (f_locks s) (f_shut s) (f_consumed s) (f_lost s ++ lost) (f_waits s)), U'.
    assert (Hqq: iq_queue q' = iq_queue (v_res v) ++ [(a, mkRes (t_range t) false)]).
    { unfold iq_emplace_back in Eemp. destruct (iq_free (v_res v)) as [|[b w0] fr]; inv Eemp; reflexivity. }
    assert (Hfresh: ~ In a (map fst (iq_queue (v_res v)))).
    { pose proof (emplace_wf _ _ (mkRes (t_range t) false) (r_wf _ _ _ _ R)) as W. rewrite Eemp in W. destruct W as [W _].
      cbn [fst] in W. rewrite Hqq, map_app in W. apply NoDup_app_l in W. cbn [map fst] in W. apply NoDup_mid in W. apply W. }
    assert (Hqr: qranges q' = qranges (v_res v) ++ [t_range t]) by (unfold qranges; rewrite Hqq, map_app; reflexivity).
    split.
    + apply S_reserve; auto; try lia.
      * unfold d0. rewrite mem_get_length. lia.
      * intros Hr. specialize (Hread Hr). subst ev. inv FU1. reflexivity.
      * intros pre x El2. subst lost. apply Forall2_app_inv_r in FU1. destruct FU1 as (ev1 & ev2 & F1 & F2 & Eev).
        inversion F2 as [|x0 y0 ? ? Hx0 F3]; subst. inversion F3; subst. specialize (Hroom ev1 x0 eq_refl). unfold short_of_room.
        assert (Hc3: Forall2 (holds (v_c v)) (x0 :: U' ++ qranges (v_res v)) (contents (x :: kept) (f_slots s))).
        { apply (rel_contents _ _ _ _ (x :: kept) (x0 :: U') R). constructor; assumption. }
        destruct (room_eq _ _ _ (size + 4) HX Hc3) as [Q1 Q2]. rewrite <- Q1, <- Q2. exact Hroom.
    + constructor; cbn [v_set_prod v_c v_res v_cons v_prod f_unread f_slots f_next f_reader f_locks f_shut f_consumed f_lost]; try rl R.
      * rewrite Hqr. exact I2.
      * pose proof (emplace_wf _ _ (mkRes (t_range t) false) (r_wf _ _ _ _ R)) as W. rewrite Eemp in W. exact W.
      * eapply Forall2_impl; [|exact FU2]. intros r0 x Hr0 _ H0. apply Hholds; [apply in_or_app; auto|exact H0].
      * rewrite Hqq. apply Forall2_app.
        -- eapply Forall2_impl; [|apply (r_slots _ _ _ _ R)]. intros e sl He _ (H1 & H2 & H3). unfold slot_rel. cbn beta. splits.
           ++ apply Hholds; [|exact H1]. apply in_or_app. right. unfold qranges. apply in_map_iff. exists e. auto.
           ++ exact H2.
           ++ intros p0. rewrite H3. destruct (Nat.eqb p0 p) eqn:Ep; [|reflexivity].
              apply Nat.eqb_eq in Ep. subst p0. rewrite Hp. split; [discriminate|]. intros H. injection H as ->.
              exfalso. apply Hfresh. apply in_map. exact He.
        -- constructor; [|constructor]. unfold slot_rel. cbn beta. splits; cbn [snd fst rv_range rv_committed sl_rec sl_done sl_owner rec_data].
           ++ split; [unfold d0; rewrite mem_get_length; unfold c2; cbn; rewrite HX; lia|].
              unfold c2. cbn. rewrite HX, B3. unfold d0. f_equal. lia.
           ++ reflexivity.
           ++ intros p0. destruct (Nat.eqb p0 p) eqn:Ep.
              ** apply Nat.eqb_eq in Ep. subst. split; reflexivity.
              ** apply Nat.eqb_neq in Ep. split; [intros H; congruence|]. intros H.
                 apply (r_prod _ _ _ _ R) in H. contradiction.
      * intros p0 a0 H. rewrite Hqq, map_app. apply in_or_app. destruct (Nat.eqb p0 p).
        -- injection H as ->. right. left. reflexivity.
        -- left. apply (r_prod _ _ _ _ R) in H. exact H.
      * apply Forall_app. split; [apply R|]. constructor; [|constructor]. cbn. discriminate.
      * pose proof (r_head _ _ _ _ R) as Hh. destruct (f_slots s); [reflexivity|exact Hh].
      * pose proof (r_reader _ _ _ _ R) as Hr. destruct (v_cons v) as [[r0|]|] eqn:Ec; try exact Hr.
        destruct Hr as [Hr1 Hr2]. split; [exact Hr1|]. specialize (Hread Hr1). subst ev. exact Hr2.
      * unfold c2, c'. cbn. rewrite (r_st1 _ _ _ _ R). rewrite Eun. rewrite !app_length. lia.
      * unfold c2, c'. cbn. rewrite (r_st2 _ _ _ _ R). rewrite app_length. apply Forall2_length in FU1. lia.
      * pose proof (r_by _ _ _ _ R) as (Y1 & Y2 & Y3 & Y4 & Y5). unfold bytes_ok, c2, c'. cbn. rewrite (data_sum_bytes _ _ _ FU1). rewrite Eun in Y1. rewrite bytes_app in *.
        splits; try assumption; lia.
      * pose proof (r_waits _ _ _ _ R) as Hw. unfold waits_ok in *. cbn [f_slots f_next f_waits f_unread].
        eapply Forall_impl; [|exact Hw]. intros k (W1 & W2 & w0 & W3 & W4). splits.
        -- rewrite slot_ids_app. apply Forall_app. split; [exact W1|]. constructor; [exact W2|constructor].
        -- lia.
        -- exists w0. split; [exact W3|]. rewrite Eun in W4. eapply wok_skip; [|exact W4]. eapply Forall2_length. exact FU1.
Qed.

Lemma sim_write : forall cap v s U p off bs v' out, rel cap v s U ->
  v_step v (VWrite p off bs) = (v', out) -> exists s' U', step cap s (VWrite p off bs) out s' /\ rel cap v' s' U'.
Proof.
  intros cap v s U p off bs v' out R E. cbn [v_step] in E. inv E.
  eexists. exists U. split; [apply S_write|]. unfold v_write.
  destruct (v_prod v p) as [a|] eqn:Hp.
  2:{ rewrite (on_slot_none _ _ _ _ _ _ R Hp). constructor; cbn; rl R. }
  destruct (slot_of _ _ _ _ _ _ R Hp) as (l1 & x & l2 & s1 & sl & s2 & Eq & Es & F1 & Hsl & F2 & N1 & N2 & Ho & Hd & Hon & Hmap).
  rewrite Hmap, Hon.
  destruct Hsl as (Hh & Hcm & Hown).
  pose proof (r_ex _ _ _ _ R) as HX. pose proof (r_ci _ _ _ _ R) as I.
  assert (Hlen: r_size (rv_range x) - c_extra (v_c v) = Z.of_nat (length (rec_data (sl_rec sl)))) by (destruct Hh as [H1 _]; cbn in H1; lia).
  cbn zeta. rewrite Hlen.
  destruct ((0 <=? off) && (off + Z.of_nat (length bs) <=? Z.of_nat (length (rec_data (sl_rec sl))))) eqn:Eo.
  2:{ constructor; cbn; try rl R. all: try (rewrite <- Es; rl R). }
  apply andb_true_iff in Eo. destruct Eo as [Eo1 Eo2].
  set (m := mem_set (c_mem (v_c v)) (r_start (rv_range x) + c_extra (v_c v) + off) bs).
  assert (Hm: forall i, i < r_start (rv_range x) + c_extra (v_c v) \/ r_start (rv_range x) + r_size (rv_range x) <= i -> m i = c_mem (v_c v) i).
  { intros i Hi. unfold m. apply mem_set_out. lia. }
  assert (Hq: qranges (v_res v) = map (fun e => rv_range (snd e)) l1 ++ rv_range x :: map (fun e => rv_range (snd e)) l2).
  { unfold qranges. rewrite Eq, map_app. reflexivity. }
  pose proof (ci_layout _ _ _ I) as L. rewrite Hq in L.
  assert (Hoth: forall r0, In r0 (U ++ map (fun e => rv_range (snd e)) l1) \/ In r0 (map (fun e => rv_range (snd e)) l2) -> disjoint r0 (rv_range x)).
  { intros r0 [H0|H0].
    - apply in_split in H0. destruct H0 as (y1 & y2 & E0). rewrite app_assoc, E0, <- app_assoc in L. cbn [app] in L.
      eapply layout_disjoint. exact L.
    - apply in_split in H0. destruct H0 as (y1 & y2 & E0). rewrite E0, app_assoc in L. apply layout_disjoint in L.
      unfold disjoint in *. tauto. }
  assert (Hkeep: forall r0 d, In r0 (U ++ map (fun e => rv_range (snd e)) l1) \/ In r0 (map (fun e => rv_range (snd e)) l2) ->
     holds (v_c v) r0 d -> holds (set_mem m (v_c v)) r0 d).
  { intros r0 d Hr0 H0. apply holds_mem; [exact H0|]. intros i Hi. apply Hm. apply Hoth in Hr0. unfold disjoint in Hr0. rewrite HX in *. lia. }
  constructor; cbn [v_set_c v_c v_res v_cons v_prod set_slots f_unread f_slots f_next f_reader f_locks f_shut f_consumed f_lost]; try rl R.
  - apply cinv_mem; [exact I|]. intros r0 i Hr0 Hi. apply Hm. rewrite Hq in Hr0. rewrite HX in *.
    assert (Hcase: r0 = rv_range x \/ disjoint r0 (rv_range x)).
    { rewrite app_assoc in Hr0. apply in_app_or in Hr0. destruct Hr0 as [H0|[H0|H0]]; [right|left|right]; auto. }
    destruct Hcase as [->|D]; [lia|]. pose proof (ci_sizes _ _ _ I) as S. rewrite Forall_forall in S.
    assert (In r0 (U ++ qranges (v_res v))) by (rewrite Hq; exact Hr0). apply S in H. destruct H as [H _]. rewrite HX in H.
    unfold disjoint in D. lia.
  - eapply Forall2_impl; [|apply (r_unread _ _ _ _ R)]. intros r0 y Hr0 _ H0. apply Hkeep; [left; apply in_or_app; auto|exact H0].
  - rewrite Eq. apply Forall2_app; [|constructor].
    + eapply Forall2_impl; [|exact F1]. intros e y He _ (H1 & H2 & H3). unfold slot_rel. splits; auto. apply Hkeep; [|exact H1].
      left. apply in_or_app. right. apply in_map_iff. exists e. auto.
    + unfold slot_rel. cbn [snd fst]. splits; cbn [sl_rec sl_done sl_owner rec_data]; auto. split.
      * destruct Hh as [H1 _]. cbn [snd] in H1. cbn. unfold overwrite_bytes.
        change (firstn (Z.to_nat off) (rec_data (sl_rec sl)) ++ bs ++ skipn (Z.to_nat off + length bs) (rec_data (sl_rec sl))) with (splice (rec_data (sl_rec sl)) off bs).
        rewrite splice_length by lia. exact H1.
      * cbn [set_mem c_mem c_extra snd]. unfold m. rewrite mem_get_splice by lia.
        destruct Hh as [_ H2]. cbn [snd] in H2. rewrite H2. reflexivity.
    + eapply Forall2_impl; [|exact F2]. intros e y He _ (H1 & H2 & H3). unfold slot_rel. splits; auto. apply Hkeep; [|exact H1].
      right. apply in_map_iff. exists e. auto.
  - pose proof (r_owned _ _ _ _ R) as Fo. rewrite Es in Fo. apply Forall_app in Fo. destruct Fo as [Fo1 Fo2]. inv Fo2.
    apply Forall_app. split; [assumption|]. constructor; auto.
  - pose proof (r_head _ _ _ _ R) as Hh2. rewrite Es in Hh2. destruct s1; exact Hh2.
  - pose proof (r_waits _ _ _ _ R) as Hw. unfold waits_ok in *. cbn [set_slots f_slots f_next f_waits f_unread].
    rewrite Es, slot_ids_app in Hw. rewrite slot_ids_app. exact Hw.
Qed.

(** Popping the committed prefix. *)
Lemma advance_committed_frame : forall c r, let c' := advance_committed c r in
  c_mem c' = c_mem c /\ c_len c' = c_len c /\ c_extra c' = c_extra c /\ c_ow c' = c_ow c /\ c_locks c' = c_locks c /\ c_shutdown c' = c_shutdown c /\
  c_wait c' = c_wait c /\
  s_records_written (c_stats c') = s_records_written (c_stats c) + 1 /\
  s_records_overwritten (c_stats c') = s_records_overwritten (c_stats c) /\
  s_records_read (c_stats c') = s_records_read (c_stats c) /\
  (forall a b u x, bytes_ok (c_stats c) a b u -> c_extra c = 4 -> holds c r (rec_data x) -> bytes_ok (c_stats c') a b (u ++ [x])).
Proof.
  assert (BO: forall c r st a b u x, st = mkStats (s_records_written (c_stats c) + 1) (s_bytes_written (c_stats c) + (r_size r - c_extra c)) (s_total_bytes_written (c_stats c) + r_size r)
                     (s_records_read (c_stats c)) (s_bytes_read (c_stats c)) (s_total_bytes_read (c_stats c))
                     (s_records_overwritten (c_stats c)) (s_bytes_overwritten (c_stats c))
                     (s_records_refused (c_stats c)) (s_bytes_refused (c_stats c))
                     (s_total_data_loss (c_stats c)) (s_records_corrupted (c_stats c)) ->
    bytes_ok (c_stats c) a b u -> c_extra c = 4 -> holds c r (rec_data x) -> bytes_ok st a b (u ++ [x])).
  { intros c r st a b u x -> (B1 & B2 & B3 & B4 & B5) Ex [H _]. unfold bytes_ok. cbn -[Z.mul]. rewrite bytes_app, bytes_one. splits; try assumption; lia. }
  intros c r. specialize (BO c r). unfold advance_committed. destruct c as [mem len nws cws lwe nrs cur wt pd lk sh ex ow rb hc st].
  cbn. destruct nrs, cur; cbn; splits; try reflexivity; intros a b u x; apply BO; reflexivity.
Qed.

Lemma pop_sim : forall prod fuel c q U slots unread v r c' q', (length (iq_queue q) < fuel)%nat ->
  cinv c U (qranges q) -> iq_wf _ q ->
  Forall2 (fun r x => holds c r (rec_data x)) U unread ->
  Forall2 (slot_rel c prod) (iq_queue q) slots ->
  (forall p a, prod p = Some a -> In a (map fst (iq_queue q))) ->
  Forall (fun sl => sl_done sl = true -> sl_owner sl = None) slots ->
  publish slots = (v, r) -> v_pop_committed fuel c q = (c', q') ->
  exists U', cinv c' U' (qranges q') /\ iq_wf _ q' /\
    Forall2 (fun r x => holds c' r (rec_data x)) U' (unread ++ v) /\
    Forall2 (slot_rel c' prod) (iq_queue q') r /\
    (forall p a, prod p = Some a -> In a (map fst (iq_queue q'))) /\
    Forall (fun sl => sl_done sl = true -> sl_owner sl = None) r /\
    match r with sl :: _ => sl_done sl = false | [] => True end /\
    (exists V, U' = U ++ V) /\ c_wait c' = c_wait c /\
    c_len c' = c_len c /\ c_extra c' = c_extra c /\ c_ow c' = c_ow c /\ c_locks c' = c_locks c /\ c_shutdown c' = c_shutdown c /\
    s_records_written (c_stats c') = s_records_written (c_stats c) + Z.of_nat (length v) /\
    s_records_overwritten (c_stats c') = s_records_overwritten (c_stats c) /\
    s_records_read (c_stats c') = s_records_read (c_stats c) /\
    (forall a b, c_extra c = 4 -> bytes_ok (c_stats c) a b unread -> bytes_ok (c_stats c') a b (unread ++ v)).
Proof.
  induction fuel as [|fuel IH]; intros c q U slots unread v r c' q' Hf I W FU FS HP HO Epub Epop; [lia|].
  cbn [v_pop_committed] in Epop. unfold iq_front in Epop.
  destruct (iq_queue q) as [|[a x] rest] eqn:Eq.
  - inversion FS; subst. cbn in Epub. inv Epub. inv Epop. exists U. rewrite app_nil_r. rewrite Eq. splits; auto; cbn; try lia. exists []. symmetry. apply app_nil_r.
  - inversion FS as [|e sl l s2 Hsl FS2]; subst. cbn [publish] in Epub.
    pose proof Hsl as (Hh & Hcm & Hown). cbn [snd fst] in *.
    rewrite Hcm in Epop. destruct (sl_done sl) eqn:Ed; cbn [negb] in Epop.
    + destruct (publish s2) as [v2 r2] eqn:Ep2. inv Epub.
      inversion HO as [|? ? Ho1 HO2]; subst. specialize (Ho1 Ed).
      assert (Eq2: iq_queue (iq_pop_front q) = rest) by (unfold iq_pop_front; rewrite Eq; reflexivity).
      assert (Hqr: qranges q = rv_range x :: qranges (iq_pop_front q)) by (unfold qranges; rewrite Eq, Eq2; reflexivity).
      rewrite Hqr in I. apply cinv_commit in I.
      pose proof (advance_committed_frame c (rv_range x)) as (M1 & M2 & M3 & M4 & M5 & M6 & M10 & M7 & M8 & M9 & M11).
      destruct (IH (advance_committed c (rv_range x)) (iq_pop_front q) (U ++ [rv_range x]) s2 (unread ++ [sl_rec sl]) v2 r c' q') as
        (U' & J1 & J2 & J3 & J4 & J5 & J6 & J7 & J8 & J17 & J9 & J10 & J11 & J12 & J13 & J14 & J15 & J16 & J18); auto.
      * rewrite Eq2. cbn in Hf. lia.
      * apply pop_wf. exact W.
      * apply Forall2_app.
        -- eapply Forall2_impl; [|exact FU]. intros r0 y _ _ H. eapply holds_same; [| |exact H]; assumption.
        -- constructor; [|constructor]. eapply holds_same; [| |exact Hh]; assumption.
      * rewrite Eq2. eapply Forall2_impl; [|exact FS2]. intros e y _ _ (H1 & H2 & H3). unfold slot_rel. splits; auto.
        eapply holds_same; [| |exact H1]; assumption.
      * intros p a0 Hp. rewrite Eq2. destruct (HP p a0 Hp) as [E|Hin]; [|exact Hin].
        cbn in E. subst a0. apply Hown in Hp. congruence.
      * exists U'. rewrite <- app_assoc in J3. cbn [app] in J3. splits; auto; try congruence.
        -- destruct J8 as [V ->]. exists (rv_range x :: V). rewrite <- app_assoc. reflexivity.
        -- rewrite J14, M7. cbn [length]. lia.
        -- intros a1 b1 Ex B. rewrite M3 in J18. specialize (J18 a1 b1 Ex). rewrite <- app_assoc in J18. apply J18. apply M11; assumption.
    + inv Epub. inv Epop. exists U. rewrite app_nil_r. rewrite Eq. splits; auto; cbn; try lia. exists []. symmetry. apply app_nil_r.
Qed.

Lemma sim_commit : forall cap v s U p v' out, rel cap v s U ->
  v_step v (VCommit p) = (v', out) -> exists s' U', step cap s (VCommit p) out s' /\ rel cap v' s' U'.
Proof.
  intros cap v s U p v' out R E. cbn [v_step] in E.
  destruct (v_commit v p) as [v1 r] eqn:Ev. inv E. unfold v_commit in Ev.
  destruct (v_prod v p) as [a|] eqn:Hp.
  2:{ inv Ev. exists s, U. split; [|exact R]. apply S_commit_none. rewrite (owns_prod _ _ _ _ _ R). intros [a Ha]. congruence. }
  destruct (slot_of _ _ _ _ _ _ R Hp) as (l1 & x & l2 & s1 & sl & s2 & Eq & Es & F1 & Hsl & F2 & N1 & N2 & Ho & Hd & Hon & Hmap).
  rewrite Hmap in Ev.
  set (q1 := mkIq (l1 ++ (a, mkRes (rv_range x) true) :: l2) (iq_free (v_res v)) (iq_fresh (v_res v))) in *.
  set (c1 := finish_commit_common (v_c v) (rv_range x)) in *.
  set (prod' := fun q => if Nat.eqb q p then None else v_prod v q).
  set (sl' := mkSlot (sl_rec sl) None true).
  destruct (v_pop_committed (S (length (iq_queue q1))) c1 q1) as [c2 q2] eqn:Epop. inv Ev.
  assert (Hqr: qranges q1 = qranges (v_res v)).
  { unfold qranges, q1. cbn [iq_queue]. rewrite Eq, !map_app. reflexivity. }
  assert (Hfst: map fst (iq_queue q1) = map fst (iq_queue (v_res v))).
  { unfold q1. cbn [iq_queue]. rewrite Eq, !map_app. reflexivity. }
  destruct Hsl as (Hh & Hcm & Hown). cbn [snd fst] in *.
  assert (Hother: forall l sl0, Forall2 (slot_rel (v_c v) (v_prod v)) l sl0 -> ~ In a (map fst l) -> Forall2 (slot_rel c1 prod') l sl0).
  { intros l sl0 F Hn. eapply Forall2_impl; [|exact F]. intros e y He _ (H1 & H2 & H3). unfold slot_rel. splits; auto.
    intros p0. rewrite H3. unfold prod'. destruct (Nat.eqb p0 p) eqn:Ep; [|reflexivity].
    apply Nat.eqb_eq in Ep. subst p0. rewrite Hp. split; [|discriminate]. intros H. injection H as ->. exfalso. apply Hn. apply in_map. exact He. }
  destruct (publish (on_slot p (fun sl => mkSlot (sl_rec sl) None true) (f_slots s))) as [vis rst] eqn:Epub.
  destruct (pop_sim prod' (S (length (iq_queue q1))) c1 q1 U (s1 ++ sl' :: s2) (f_unread s) vis rst c2 q2) as
     (U' & J1 & J2 & J3 & J4 & J5 & J6 & J7 & J8 & J17 & J9 & J10 & J11 & J12 & J13 & J14 & J15 & J16 & J18); auto.
  - rewrite Hqr. pose proof (r_ci _ _ _ _ R) as I. constructor; cbn; ci I.
  - pose proof (map_mut_wf _ _ a (fun r => mkRes (rv_range r) true) (r_wf _ _ _ _ R)) as W. rewrite Hmap in W. exact W.
  - exact (r_unread _ _ _ _ R).
  - unfold q1. cbn [iq_queue]. apply Forall2_app; [apply Hother; assumption|]. constructor; [|apply Hother; assumption].
    unfold slot_rel, sl'. cbn [snd fst rv_range rv_committed sl_rec sl_done sl_owner]. splits; auto.
    intros p0. split; [discriminate|]. unfold prod'. destruct (Nat.eqb p0 p) eqn:Ep; [discriminate|].
    intros H. apply Hown in H. rewrite Ho in H. injection H as ->. rewrite Nat.eqb_refl in Ep. discriminate.
  - intros p0 a0 H. rewrite Hfst. unfold prod' in H. destruct (Nat.eqb p0 p); [discriminate|]. exact (r_prod _ _ _ _ R _ _ H).
  - pose proof (r_owned _ _ _ _ R) as Fo. rewrite Es in Fo. apply Forall_app in Fo. destruct Fo as [Fo1 Fo2]. inv Fo2.
    apply Forall_app. split; [assumption|]. constructor; auto.
  - rewrite <- Epub. f_equal. rewrite Hon. reflexivity.
  - exists (mkFifo (f_unread s ++ vis) rst (f_next s) (f_reader s) (f_locks s) (f_shut s) (f_consumed s) (f_lost s) (f_waits s)), U'. split.
    + apply S_commit; [|exact Epub]. apply (owns_prod _ _ _ _ _ R). eauto.
    + constructor; cbn [v_set_prod v_c v_res v_cons v_prod f_unread f_slots f_next f_reader f_locks f_shut f_consumed f_lost]; auto.
      * rewrite J9. exact (r_len _ _ _ _ R).
      * rewrite J10. exact (r_ex _ _ _ _ R).
      * rewrite J11. exact (r_ow _ _ _ _ R).
      * pose proof (r_reader _ _ _ _ R) as Hr. destruct (v_cons v) as [[r0|]|]; auto. destruct Hr as [Hr1 Hr2]. split; auto. destruct J8 as [V ->]. destruct U; [discriminate|exact Hr2].
      * rewrite J12. exact (r_locks _ _ _ _ R).
      * rewrite J13. exact (r_shut _ _ _ _ R).
      * rewrite J14. cbn. rewrite (r_st1 _ _ _ _ R), app_length. lia.
      * rewrite J15. exact (r_st2 _ _ _ _ R).
      * rewrite J16. exact (r_st3 _ _ _ _ R).
      * apply J18; [exact (r_ex _ _ _ _ R)|exact (r_by _ _ _ _ R)].
      * pose proof (r_waits _ _ _ _ R) as Hw. unfold waits_ok in *. cbn [f_slots f_next f_waits f_unread].
        pose proof (publish_ids _ _ _ Epub) as Hi. rewrite on_slot_ids in Hi by reflexivity.
        eapply Forall_impl; [|exact Hw]. intros k (W1 & W2 & w0 & W3 & W4). rewrite <- Hi in W1. apply Forall_app in W1. destruct W1 as [W0 W1].
        splits; auto. exists w0. split; [rewrite J17; exact W3|]. destruct J8 as [V ->]. apply wok_app; [|exact W4|].
        -- eapply Forall2_length. exact (r_unread _ _ _ _ R).
        -- unfold ids in W0. rewrite Forall_map in W0. exact W0.
Qed.

Lemma sim_drop_producer : forall cap v s U p v' out, rel cap v s U ->
  v_step v (VDropProducer p) = (v', out) -> exists s' U', step cap s (VDropProducer p) out s' /\ rel cap v' s' U'.
Proof.
  intros cap v s U p v' out R E. cbn [v_step] in E. inv E.
  eexists. exists U. split; [apply S_drop_producer|]. unfold v_drop_producer.
  destruct (v_prod v p) as [a|] eqn:Hp.
  - destruct (slot_of _ _ _ _ _ _ R Hp) as (l1 & x & l2 & s1 & sl & s2 & Eq & Es & F1 & Hsl & F2 & N1 & N2 & Ho & Hd & Hon & Hmap).
    rewrite Hon.
    set (prod' := fun q => if Nat.eqb q p then None else v_prod v q).
    assert (Hother: forall l sl0, Forall2 (slot_rel (v_c v) (v_prod v)) l sl0 -> ~ In a (map fst l) -> Forall2 (slot_rel (v_c v) prod') l sl0).
    { intros l sl0 F Hn. eapply Forall2_impl; [|exact F]. intros e y He _ (H1 & H2 & H3). unfold slot_rel. splits; auto.
      intros p0. rewrite H3. unfold prod'. destruct (Nat.eqb p0 p) eqn:Ep; [|reflexivity].
      apply Nat.eqb_eq in Ep. subst p0. rewrite Hp. split; [|discriminate]. intros H. injection H as ->. exfalso. apply Hn. apply in_map. exact He. }
    destruct Hsl as (Hh & Hcm & Hown). cbn [snd fst] in *.
    constructor; cbn [v_set_prod v_c v_res v_cons v_prod set_slots f_unread f_slots f_next f_reader f_locks f_shut f_consumed f_lost]; try rl R.
    + rewrite Eq. apply Forall2_app; [apply Hother; assumption|]. constructor; [|apply Hother; assumption].
      unfold slot_rel. cbn [snd fst sl_rec sl_done sl_owner]. splits; auto.
      intros p0. split; [discriminate|]. destruct (Nat.eqb p0 p) eqn:Ep; [discriminate|].
      intros H. apply Hown in H. rewrite Ho in H. injection H as ->. rewrite Nat.eqb_refl in Ep. discriminate.
    + intros p0 a0 H. destruct (Nat.eqb p0 p); [discriminate|]. exact (r_prod _ _ _ _ R _ _ H).
    + pose proof (r_owned _ _ _ _ R) as Fo. rewrite Es in Fo. apply Forall_app in Fo. destruct Fo as [Fo1 Fo2]. inv Fo2.
      apply Forall_app. split; [assumption|]. constructor; auto.
    + pose proof (r_head _ _ _ _ R) as Hh2. rewrite Es in Hh2. destruct s1; exact Hh2.
    + pose proof (r_waits _ _ _ _ R) as Hw. unfold waits_ok in *. cbn [set_slots f_slots f_next f_waits f_unread].
      rewrite Es, slot_ids_app in Hw. rewrite slot_ids_app. exact Hw.
  - rewrite (on_slot_none _ _ _ _ _ _ R Hp).
    constructor; cbn [v_set_prod v_c v_res v_cons v_prod set_slots f_unread f_slots f_next f_reader f_locks f_shut f_consumed f_lost]; try rl R.
    + eapply Forall2_impl; [|exact (r_slots _ _ _ _ R)]. intros e y He _ (H1 & H2 & H3). unfold slot_rel. splits; auto.
      intros p0. rewrite H3. destruct (Nat.eqb p0 p) eqn:Ep; [|reflexivity]. apply Nat.eqb_eq in Ep. subst. rewrite Hp. split; discriminate.
    + intros p0 a0 H. destruct (Nat.eqb p0 p); [discriminate|]. exact (r_prod _ _ _ _ R _ _ H).
Qed.

(** Changes of the shared state that no record depends on. *)
Lemma rel_frame : forall cap v s U c', rel cap v s U ->
  c_mem c' = c_mem (v_c v) -> c_len c' = c_len (v_c v) -> c_nws c' = c_nws (v_c v) -> c_cws c' = c_cws (v_c v) ->
  c_lwe c' = c_lwe (v_c v) -> c_nrs c' = c_nrs (v_c v) -> c_pending c' = c_pending (v_c v) -> c_extra c' = c_extra (v_c v) ->
  c_ow c' = c_ow (v_c v) -> c_stats c' = c_stats (v_c v) -> c_locks c' = c_locks (v_c v) -> c_shutdown c' = c_shutdown (v_c v) ->
  c_wait c' = c_wait (v_c v) -> rel cap (v_set_c c' v) s U.
Proof.
  intros cap v s U c' R E1 E2 E3 E4 E5 E6 E7 E8 E9 E10 E11 E12 E13.
  constructor; cbn; rewrite ?E2, ?E8, ?E9, ?E10, ?E11, ?E12; try rl R.
  - pose proof (r_ci _ _ _ _ R) as I. constructor; rewrite ?E2, ?E3, ?E4, ?E5, ?E6, ?E7, ?E8; try ci I.
    eapply Forall_impl; [|exact (ci_sizes _ _ _ I)]. intros r. unfold size_ok. rewrite E1, E8. auto.
  - eapply Forall2_impl; [|exact (r_unread _ _ _ _ R)]. intros r x _ _ H. eapply holds_same; eassumption.
  - eapply Forall2_impl; [|exact (r_slots _ _ _ _ R)]. intros e x _ _ (H1 & H2 & H3). unfold slot_rel. splits; auto. eapply holds_same; eassumption.
  - unfold waits_ok. rewrite E13. exact (r_waits _ _ _ _ R).
Qed.

Lemma rel_reader : forall cap v s U k b, rel cap v s U ->
  match k with
  | None => b = None
  | Some None => b = Some false
  | Some (Some r) => b = Some true /\ hd_error U = Some r
  end -> rel cap (v_set_cons k v) (set_reader b s) U.
Proof. intros cap v s U k b R H. constructor; cbn; try rl R. exact H. Qed.

Lemma sim_register : forall cap v s U v' out, rel cap v s U ->
  v_step v VRegisterConsumer = (v', out) -> exists s' U', step cap s VRegisterConsumer out s' /\ rel cap v' s' U'.
Proof.
  intros cap v s U v' out R E. cbn [v_step] in E. unfold v_register_consumer in E. pose proof (r_reader _ _ _ _ R) as Hr.
  destruct (v_cons v) as [k|] eqn:Ek; inv E.
  - exists s, U. split; [|exact R]. destruct k as [r|].
    + apply (S_register_twice _ _ true). apply Hr.
    + apply (S_register_twice _ _ false). exact Hr.
  - eexists. exists U. split; [apply S_register; exact Hr|]. apply rel_reader; [exact R|reflexivity].
Qed.

Lemma sim_drop_consumer : forall cap v s U v' out, rel cap v s U ->
  v_step v VDropConsumer = (v', out) -> exists s' U', step cap s VDropConsumer out s' /\ rel cap v' s' U'.
Proof.
  intros cap v s U v' out R E. cbn [v_step] in E. inv E. eexists. exists U. split; [apply S_drop_consumer|].
  apply rel_reader; [exact R|reflexivity].
Qed.

Lemma sim_start_read : forall cap v s U block v' out, rel cap v s U ->
  v_step v (VStartRead block) = (v', out) -> exists s' U', step cap s (VStartRead block) out s' /\ rel cap v' s' U'.
Proof.
  intros cap v s U block v' out R E. cbn [v_step] in E. destruct (v_start_read v block) as [v1 r] eqn:Ev. inv E.
  unfold v_start_read in Ev. pose proof (r_reader _ _ _ _ R) as Hr. pose proof (r_ci _ _ _ _ R) as I. pose proof (r_ex _ _ _ _ R) as HX.
  destruct (v_cons v) as [k|] eqn:Ek.
  2:{ inv Ev. exists s, U. split; [apply S_read_unregistered; exact Hr|exact R]. }
  unfold start_read in Ev. destruct k as [r0|].
  { inv Ev. exists s, U. split; [apply S_read_twice; apply Hr|]. destruct v. exact R. }
  rewrite (ci_pending _ _ _ I) in Ev. cbn [rd_start] in Ev. rewrite (ci_nrs _ _ _ I) in Ev.
  destruct U as [|h U].
  - cbn [hd_start hd_error option_map] in Ev. pose proof (r_unread _ _ _ _ R) as FU.
    assert (Hun: f_unread s = []) by (inversion FU; reflexivity).
    unfold no_data in Ev. destruct block.
    + exists s, []. pose proof (S_read_empty cap s true Hr Hun) as Hst. cbn iota in Hst. rewrite <- (r_shut _ _ _ _ R) in Hst.
      destruct (c_shutdown (v_c v)) eqn:Esh; inv Ev; (split; [exact Hst|apply rel_frame; auto]).
    + inv Ev. exists s, []. split; [exact (S_read_empty cap s false Hr Hun)|].
      apply rel_frame; auto.
  - cbn [hd_start hd_error option_map] in Ev.
    assert (Hin: In h ((h :: U) ++ qranges (v_res v))) by (left; reflexivity).
    assert (Hn: c_nrs (v_c v) = Some (r_start h)) by (rewrite (ci_nrs _ _ _ I); reflexivity).
    rewrite (load_ok _ _ _ CursorNo h I Hin Hn) in Ev. cbn [r_size] in Ev.
    pose proof (layout_bounds _ _ _ _ _ (ci_layout _ _ _ I) Hin) as (Hb1 & Hb2 & Hb3).
    pose proof (ci_sizes _ _ _ I) as Hs. rewrite Forall_forall in Hs. destruct (Hs _ Hin) as [Hs1 _].
    assert (Hsl: slice_ok (v_c v) (r_start h) (r_start h + c_extra (v_c v) - 4) &&
                 slice_ok (v_c v) (r_start h + c_extra (v_c v)) (r_start h + c_extra (v_c v) + (r_size h - c_extra (v_c v))) = true).
    { unfold slice_ok. rewrite HX in *. rewrite !andb_true_iff, !Z.leb_le. lia. }
    rewrite Hsl in Ev. inv Ev.
    pose proof (r_unread _ _ _ _ R) as FU. inversion FU as [|? x ? u Hx FU2]; subst.
    cbn [r_start r_size].
    replace (r_size h - c_extra (v_c v) + c_extra (v_c v) - c_extra (v_c v)) with (Z.of_nat (length (rec_data x))) by (destruct Hx as [Hx1 _]; lia).
    eexists. exists (h :: U). split; [eapply S_read; [exact Hr|symmetry; eassumption]|].
    apply (rel_reader cap (v_set_c (v_c v) v) s); [destruct v; exact R|]. split; [reflexivity|]. cbn. f_equal.
    destruct h as [hs hz]. cbn. f_equal. lia.
Qed.

Lemma sim_peek : forall cap v s U v' out, rel cap v s U ->
  v_step v VPeek = (v', out) -> exists s' U', step cap s VPeek out s' /\ rel cap v' s' U'.
Proof.
  intros cap v s U v' out R E. cbn [v_step] in E. inv E. exists s, U. split; [|exact R].
  pose proof (r_reader _ _ _ _ R) as Hr. unfold v_peek, v_read_reservation. destruct (v_cons v') as [[r|]|] eqn:Ek.
  - destruct Hr as [Hr1 Hr2]. destruct U as [|h U]; [discriminate|]. injection Hr2 as ->.
    pose proof (r_unread _ _ _ _ R) as FU. inversion FU as [|? x ? u Hx FU2]; subst.
    destruct Hx as [_ Hx]. rewrite Hx. eapply S_peek; [exact Hr1|symmetry; eassumption].
  - apply S_peek_none. unfold reading. congruence.
  - apply S_peek_none. unfold reading. congruence.
Qed.

Lemma sim_finish : forall cap v s U v' out, rel cap v s U ->
  v_step v VFinishRead = (v', out) -> exists s' U', step cap s VFinishRead out s' /\ rel cap v' s' U'.
Proof.
  intros cap v s U v' out R E. cbn [v_step] in E. destruct (v_finish_read v) as [v1 r] eqn:Ev. inv E.
  unfold v_finish_read in Ev. pose proof (r_reader _ _ _ _ R) as Hr. pose proof (r_ci _ _ _ _ R) as I.
  destruct (v_cons v) as [[r0|]|] eqn:Ek.
  - destruct Hr as [Hr1 Hr2]. destruct U as [|h U]; [discriminate|]. injection Hr2 as ->.
    pose proof (r_unread _ _ _ _ R) as FU. inversion FU as [|? x ? u Hx FU2]; subst.
    unfold finish_read_common in Ev. cbn [v_set_cons v_c] in Ev.
    destruct (advance_ok _ _ _ _ I) as (w & l & n & Ea & I2). rewrite Ea in Ev. cbn zeta in Ev.
    set (st := mkStats _ _ _ _ _ _ _ _ _ _ _ _) in Ev.
    set (c1 := set_stats st (set3 w l n (v_c v))) in *.
    assert (Hp: forall c, c_pending c = false -> maybe_do_total_data_loss_reset v_cb (v_busy (v_set_cons (Some None) v)) c = c).
    { intros c Hc. unfold maybe_do_total_data_loss_reset. rewrite Hc. reflexivity. }
    set (drained := match c_wait c1 with None => false | Some None => true | Some (Some w0) => w0 =? r_start r0 end) in *.
    rewrite Hp in Ev by (destruct drained; exact (ci_pending _ _ _ I)). inv Ev.
    
    assert (Hwt: drained = true -> forall k y, In k (f_waits s) -> In y u -> (k <= rec_id y)%nat).
    { intros Hdr k y Hk Hy. pose proof (r_waits _ _ _ _ R) as Hw. unfold waits_ok in Hw. rewrite Forall_forall in Hw.
      destruct (Hw k Hk) as (_ & _ & w0 & W3 & W4). unfold drained, c1 in Hdr. cbn in Hdr. rewrite W3 in Hdr. apply Z.eqb_eq in Hdr.
      match goal with H : _ :: _ = f_unread s |- _ => rewrite <- H in W4 end. cbn in W4. destruct W4 as [W4 _].
      specialize (W4 (eq_sym Hdr)). rewrite Forall_forall in W4. apply W4. exact Hy. }
    assert (Hwk: waits_ok (if drained then set_wait None c1 else c1) (mkFifo u (f_slots s) (f_next s) (Some false) (f_locks s) (f_shut s) (f_consumed s ++ [x]) (f_lost s) (if drained then [] else f_waits s)) U).
    { unfold waits_ok. cbn [f_slots f_next f_waits f_unread]. destruct drained; [constructor|].
      eapply Forall_impl; [|exact (r_waits _ _ _ _ R)]. intros k (W1 & W2 & w0 & W3 & W4). splits; auto. exists w0. split; [exact W3|].
      match goal with H : _ :: _ = f_unread s |- _ => rewrite <- H in W4 end. apply W4. }
    eexists. exists U. split; [eapply S_finish; [exact Hr1|symmetry; eassumption|exact Hwt]|].
    assert (HC: exists wt, (if drained then set_wait None c1 else c1) = set_wait wt c1).
    { destruct drained; [exists None; reflexivity|exists (c_wait c1)]. unfold c1. destruct (v_c v); reflexivity. }
    destruct HC as [wt HC]. rewrite HC in *. clear HC.
    assert (F: forall r0 d, holds (v_c v) r0 d -> holds (set_wait wt c1) r0 d) by (intros r1 d H; exact H).
    pose proof (r_st1 _ _ _ _ R) as S1. pose proof (r_st2 _ _ _ _ R) as S2. pose proof (r_st3 _ _ _ _ R) as S3.
    match goal with H : _ :: _ = f_unread s |- _ => rewrite <- H in S1 end.
    constructor; cbn [v_set_c v_set_cons v_c v_res v_cons v_prod f_unread f_slots f_next f_reader f_locks f_shut f_consumed f_lost]; try rl R; try reflexivity.
    + constructor; cbn; ci I2.
    + exact FU2.
    + unfold c1, st. cbn. rewrite S1, app_length. cbn [length]. lia.
    + unfold c1, st. cbn. rewrite S3, app_length. cbn [length]. lia.
    + pose proof (r_by _ _ _ _ R) as (B1 & B2 & B3 & B4 & B5). match goal with H : _ :: _ = f_unread s |- _ => rewrite <- H in B1 end.
      pose proof (r_ex _ _ _ _ R) as Hex. destruct Hx as [Hx _].
      change (bytes (x :: u)) with (Z.of_nat (length (rec_data x)) + bytes u) in B1.
      unfold bytes_ok, c1, st. cbn -[Z.mul]. rewrite bytes_app, bytes_one. splits; try assumption; lia.
    + exact Hwk.
  - inv Ev. exists s, U. split; [apply S_finish_none; exact Hr|exact R].
  - inv Ev. exists s, U. split; [apply S_finish_unregistered; exact Hr|exact R].
Qed.

Lemma last_last : forall (A : Type) (l : list A), l <> [] -> exists l' x, l = l' ++ [x].
Proof. intros A l H. destruct (exists_last H) as (l' & x & ->). eauto. Qed.

Lemma sim_drain : forall cap v s U v' out, rel cap v s U -> history s ->
  v_step v VWaitForDrain = (v', out) -> exists s' U', step cap s VWaitForDrain out s' /\ rel cap v' s' U'.
Proof.
  intros cap v s U v' out R Hist E. cbn [v_step] in E. unfold v_wait_for_drain, wait_for_drain in E.
  pose proof (r_reader _ _ _ _ R) as Hr. pose proof (r_ci _ _ _ _ R) as I. rewrite (ci_nrs _ _ _ I) in E.
  pose proof (r_unread _ _ _ _ R) as FU. unfold v_read_reservation in E.
  destruct U as [|h U].
  - assert (Hun: f_unread s = []) by (inversion FU; reflexivity).
    destruct (v_cons v) as [[r|]|] eqn:Ek; [destruct Hr; discriminate| |]; cbn in E; inv E;
      (exists s, []; split; [apply S_drain_idle; exact Hun|apply rel_frame; auto]).
  - cbn [hd_start hd_error option_map] in E. rewrite orb_true_r in E. inv E.
    remember (h :: U) as U0 eqn:EU0. assert (HU0: U0 <> []) by (subst; discriminate).
    destruct (last_last _ _ HU0) as (A & u & EA). clear EU0. subst U0.
    assert (FA := FU). apply Forall2_app_inv_l' in FA. destruct FA as (X & x1 & EX & FA1 & FA2).
    inversion FA2 as [|? x ? ? Hx FA3]; subst x1. inversion FA3; subst.
    assert (Hinc: increasing (ids X ++ [rec_id x] ++ slot_ids (f_slots s))).
    { pose proof (h_order _ Hist) as Hi. rewrite EX, ids_app in Hi. apply increasing_app in Hi. destruct Hi as [_ Hi].
      rewrite <- app_assoc in Hi. exact Hi. }
    assert (Hall: forall y, In y (f_unread s) -> (rec_id y < S (rec_id x))%nat).
    { intros y Hy. rewrite EX in Hy. apply in_app_or in Hy. destruct Hy as [Hy|[<-|[]]]; [|lia].
      assert (rec_id y < rec_id x)%nat; [|lia]. eapply increasing_lt; [exact Hinc|apply in_map; exact Hy|left; reflexivity]. }
    assert (Hslots: Forall (fun i => (S (rec_id x) <= i)%nat) (slot_ids (f_slots s))).
    { apply Forall_forall. intros i Hi. apply increasing_app in Hinc. destruct Hinc as [_ Hinc].
      apply (increasing_lt [rec_id x] (slot_ids (f_slots s))); [exact Hinc|left; reflexivity|exact Hi]. }
    assert (Hnext: (S (rec_id x) <= f_next s)%nat).
    { assert (Hin: In (rec_id x) (seq 0 (f_next s))).
      { eapply Permutation_in; [exact (h_all _ Hist)|]. rewrite EX, ids_app. cbn. rewrite !in_app_iff. cbn. tauto. }
      apply in_seq in Hin. lia. }
    assert (Htgt: forall k, wok (r_start u) k (A ++ [u]) (f_unread s)).
    { intros k. apply wok_target; [eapply Forall2_length; exact FU|]. intros a u' b Eab Hu'.
      destruct b as [|b0 b]; [reflexivity|]. exfalso. destruct (last_last _ (b0 :: b) ltac:(discriminate)) as (b' & z & Eb). rewrite Eb in Eab.
      assert (Ez: z = u) by (change (a ++ u' :: b' ++ [z]) with (a ++ (u' :: b') ++ [z]) in Eab; rewrite app_assoc in Eab; apply app_inj_tail in Eab; symmetry; apply Eab).
      subst z. pose proof (ci_layout _ _ _ I) as L. rewrite Eab in L.
      assert (L2 := L). rewrite <- app_assoc in L2. cbn [app] in L2. rewrite <- app_assoc in L2. cbn [app] in L2. apply layout_disjoint in L2.
      pose proof (ci_sizes _ _ _ I) as Hs. rewrite Forall_forall in Hs.
      assert (Hin1: In u' ((A ++ [u]) ++ qranges (v_res v))) by (rewrite Eab; rewrite !in_app_iff; cbn; tauto).
      assert (Hin2: In u ((A ++ [u]) ++ qranges (v_res v))) by (rewrite !in_app_iff; cbn; tauto).
      apply Hs in Hin1. apply Hs in Hin2. destruct Hin1 as [Q1 _]. destruct Hin2 as [Q2 _]. pose proof (r_ex _ _ _ _ R). unfold disjoint in L2. lia. }
    exists (add_wait (S (rec_id x)) s), (A ++ [u]). split.
    + apply S_drain; [rewrite EX; destruct X; discriminate|exact Hall].
    + assert (Hcws: c_cws (v_c v) = Some (r_start u)).
      { rewrite (ci_cws _ _ _ I). apply last_start_snoc. }
      constructor; cbn; try rl R.
      * constructor; cbn; ci I.
      * unfold waits_ok. cbn [add_wait f_slots f_next f_waits f_unread set_wait c_wait]. rewrite Hcws.
        constructor; [splits; auto; exists (r_start u); auto|].
        eapply Forall_impl; [|exact (r_waits _ _ _ _ R)]. intros k (W1 & W2 & w0 & W3 & W4). splits; auto. exists (r_start u). auto.
Qed.

Lemma sim_locks : forall cap v s U n b, rel cap v s U ->
  rel cap (v_set_c (set_shutdown b (set_locks n (v_c v))) v) (set_flocks n b s) U.
Proof.
  intros cap v s U n b R. constructor; cbn; try rl R; try reflexivity.
  pose proof (r_ci _ _ _ _ R) as I. constructor; cbn; ci I.
Qed.

Lemma sim_lock : forall cap v s U o v' out, rel cap v s U -> o = VLock \/ o = VUnlock \/ o = VShutdown ->
  v_step v o = (v', out) -> exists s' U', step cap s o out s' /\ rel cap v' s' U'.
Proof.
  intros cap v s U o v' out R Ho E. pose proof (r_locks _ _ _ _ R) as HL. pose proof (r_shut _ _ _ _ R) as HS.
  destruct Ho as [-> | [-> | ->] ]; cbn [v_step] in E; inv E.
  - eexists. exists U. split; [apply S_lock|]. unfold v_lock, lock_common. rewrite HL, <- HS.
    replace (set_locks (f_locks s + 1) (v_c v)) with (set_shutdown (c_shutdown (v_c v)) (set_locks (f_locks s + 1) (v_c v))) by (destruct (v_c v); reflexivity).
    apply sim_locks. exact R.
  - eexists. exists U. split; [apply S_unlock|]. unfold v_unlock, unlock_common. rewrite HL, <- HS.
    replace (set_locks (f_locks s - 1) (v_c v)) with (set_shutdown (c_shutdown (v_c v)) (set_locks (f_locks s - 1) (v_c v))) by (destruct (v_c v); reflexivity).
    apply sim_locks. exact R.
  - eexists. exists U. split; [apply S_shutdown|]. unfold v_shutdown, shutdown_common, lock_common. rewrite HS.
    destruct (f_shut s) eqn:Es.
    + replace (v_c v) with (set_shutdown true (set_locks (f_locks s) (v_c v))) by (rewrite <- HL; destruct (v_c v); cbn in *; subst; reflexivity).
      apply sim_locks. exact R.
    + rewrite HL. apply sim_locks. exact R.
Qed.

Lemma sim_step : forall cap v s U o v' out, rel cap v s U -> history s -> vop_ok o ->
  v_step v o = (v', out) -> exists s' U', step cap s o out s' /\ rel cap v' s' U'.
Proof.
  intros cap v s U o v' out R Hi Ho E. destruct o.
  - eapply sim_reserve; eassumption.
  - eapply sim_write; eassumption.
  - eapply sim_commit; eassumption.
  - eapply sim_drop_producer; eassumption.
  - eapply sim_register; eassumption.
  - eapply sim_drop_consumer; eassumption.
  - eapply sim_start_read; eassumption.
  - eapply sim_peek; eassumption.
  - eapply sim_finish; eassumption.
  - eapply sim_drain; eassumption.
  - eapply sim_lock; [eassumption| |eassumption]; auto.
  - eapply sim_lock; [eassumption| |eassumption]; auto.
  - eapply sim_lock; [eassumption| |eassumption]; auto.
Qed.

Lemma rel_init : forall mem cap, 0 <= cap < 2147483648 -> rel cap (v_new mem cap) fifo_init [].
Proof.
  intros mem cap H.
  assert (I: cinv (v_c (v_new mem cap)) [] (qranges (v_res (v_new mem cap)))).
  { constructor; cbn; auto; try lia. apply layout_empty. lia. }
  constructor; cbn; auto; try exact I; try discriminate.
  - apply iq_empty_wf.
  - repeat split; reflexivity.
  - constructor.
Qed.

Lemma sim_run : forall cap l v s U v' outs, rel cap v s U -> history s -> Forall vop_ok l -> v_run v l = (v', outs) ->
  exists s' U', run cap s l outs s' /\ rel cap v' s' U' /\ history s'.
Proof.
  induction l as [|o l IH]; intros v s U v' outs R Hi F E; cbn [v_run] in E.
  - inv E. exists s, U. splits; auto. constructor.
  - inv F. destruct (v_step v o) as [v1 out] eqn:E1. destruct (v_run v1 l) as [v2 outs2] eqn:E2. inv E.
    destruct (sim_step _ _ _ _ _ _ _ R Hi H1 E1) as (s1 & U1 & S1 & R1).
    destruct (IH _ _ _ _ _ R1 (history_step _ _ _ _ _ Hi S1) H2 E2) as (s2 & U2 & S2 & R2 & Hi2).
    exists s2, U2. splits; auto. econstructor; eassumption.
Qed.

(** * Memory handed out *)
Definition data_of (r : range) : range := mkRange (r_start r + 4) (r_size r - 4).

Definition led (v : vbuf) (L : ledger) : Prop :=
  (forall p, match v_prod v p with
             | Some a => exists x, In (a, x) (iq_queue (v_res v)) /\ l_prod L p = Some (data_of (rv_range x))
             | None => l_prod L p = None
             end) /\
  l_cons L = option_map data_of (v_read_reservation v).

Lemma finish_reservation_start : forall c r size c' ds, finish_reservation c r size = Some (c', ds) ->
  ds = r_start r + c_extra c /\ c_extra c' = c_extra c.
Proof.
  intros c r size c' ds E. unfold finish_reservation in E.
  destruct (record_size_offset c (r_start r)) as [o|]; [|discriminate].
  destruct (negb (slice_ok c o (o + 4))); [discriminate|]. cbn zeta in E. unfold zero_extra_data in E.
  cbn [set_mem c_extra c_mem] in E. destruct (slice_ok _ _ _) in E; [|discriminate].
  destruct (c_lwe _) as [l|] in E; [destruct (_ <? _) in E|];
  (destruct (slice_ok _ _ _) in E; [|discriminate]; injection E as <- <-; cbn; split; reflexivity).
Qed.

Lemma start_reserve_extra : forall c size c' actual, start_reserve_common c size = (c', Ok actual) -> c' = c /\ actual = size + c_extra c.
Proof.
  intros c size c' actual E. unfold start_reserve_common in E.
  destruct (0 <? c_locks c); [discriminate|]. destruct (c_pending c); [discriminate|].
  destruct (add32 size (c_extra c)) as [z|] eqn:Ea; [|discriminate]. destruct (_ || _); [discriminate|].
  injection E as <- <-. apply add32_some in Ea. auto.
Qed.

Lemma calculate_size : forall c n t, calculate_next_write_start c n = Some t -> r_size (t_range t) = n.
Proof.
  intros c n t E. unfold calculate_next_write_start in E. destruct (add32 _ _) as [e|]; [|discriminate].
  destruct (e <=? c_len c); [inv E; reflexivity|]. destruct (sub32 _ _); [|discriminate]. inv E. reflexivity.
Qed.

Lemma led_frame : forall v L c, led v L -> led (v_set_c c v) L.
Proof. intros v L c H. exact H. Qed.

Lemma led_reserve : forall v L p size block v' out, led v L -> c_extra (v_c v) = 4 -> c_extra (v_c v') = 4 ->
  v_step v (VReserve p size block) = (v', out) -> led v' (ledger_step L (VReserve p size block) out).
Proof.
  intros v L p size block v' out H HX HX' E. cbn [v_step] in E. destruct (v_reserve v p size block) as [v1 r] eqn:Ev. inv E.
  unfold v_reserve in Ev. destruct (v_prod v p) as [a|] eqn:Hp; [inv Ev; exact H|].
  destruct (start_reserve_common (v_c v) size) as [c1 [actual|e|]] eqn:Es; try (inv Ev; apply led_frame; exact H).
  apply start_reserve_extra in Es. destruct Es as [-> ->].
  destruct (calculate_next_write_start (v_c v) (size + c_extra (v_c v))) as [t|] eqn:Et; [|inv Ev; apply led_frame; exact H].
  apply calculate_size in Et.
  destruct (match v_read_reservation v with Some _ => _ | None => _ end); [inv Ev; apply led_frame; exact H|].
  destruct (match iq_front (v_res v) with Some _ => _ | None => _ end); [inv Ev; apply led_frame; exact H|].
  destruct (advance_due_to_write _ _ _ _ _ _) as [c2 [u|e|]]; try (inv Ev; apply led_frame; exact H).
  cbn zeta in Ev. destruct (finish_reservation _ _ _) as [[c3 ds]|] eqn:Ef; [|inv Ev; apply led_frame; exact H].
  apply finish_reservation_start in Ef. destruct Ef as [Eds Ex].
  destruct (iq_emplace_back (v_res v) (mkRes (t_range t) false)) as [q' a] eqn:Eemp. inv Ev. cbn [v_set_prod v_c] in HX'.
  assert (Hqq: iq_queue q' = iq_queue (v_res v) ++ [(a, mkRes (t_range t) false)]).
  { unfold iq_emplace_back in Eemp. destruct (iq_free (v_res v)) as [|[b w0] fr]; inv Eemp; reflexivity. }
  destruct H as [H1 H2]. cbn [ledger_step]. split; [|exact H2]. intros p0. cbn [v_set_prod v_prod v_res l_prod].
  destruct (Nat.eqb p0 p).
  - eexists. split; [rewrite Hqq; apply in_or_app; right; left; reflexivity|]. cbn. unfold data_of. f_equal. f_equal; lia.
  - specialize (H1 p0). destruct (v_prod v p0) as [a0|]; [|exact H1]. destruct H1 as (x & Hx & Hl). exists x. split; [|exact Hl].
    rewrite Hqq. apply in_or_app. auto.
Qed.

Lemma pop_suffix : forall fuel c q c' q', v_pop_committed fuel c q = (c', q') -> exists pre, iq_queue q = pre ++ iq_queue q'.
Proof.
  induction fuel as [|fuel IH]; intros c q c' q' E; cbn [v_pop_committed] in E; [inv E; exists []; reflexivity|].
  destruct (iq_front q) as [f|] eqn:Ef; [|inv E; exists []; reflexivity].
  destruct (negb (rv_committed f)); [inv E; exists []; reflexivity|]. apply IH in E. destruct E as [pre E].
  unfold iq_front in Ef. unfold iq_pop_front in E. destruct (iq_queue q) as [|[a y] l] eqn:Eq; [discriminate|].
  cbn [iq_queue] in E. exists ((a, y) :: pre). cbn. congruence.
Qed.

Lemma NoDup_assoc : forall (T : Type) (l : list (addr * T)) a x y, NoDup (map fst l) -> In (a, x) l -> In (a, y) l -> x = y.
Proof.
  induction l as [|[b z] l IH]; intros a x y N Hx Hy; [contradiction|]. cbn in N. inv N.
  destruct Hx as [Hx|Hx]; destruct Hy as [Hy|Hy]; try congruence.
  - exfalso. apply H1. replace b with a by congruence. change a with (fst (a, y)). apply in_map. exact Hy.
  - exfalso. apply H1. replace b with a by congruence. change a with (fst (a, x)). apply in_map. exact Hx.
  - eapply IH; eassumption.
Qed.

Lemma led_commit : forall cap v s U L p v' out s' U', led v L -> rel cap v s U -> rel cap v' s' U' ->
  v_step v (VCommit p) = (v', out) -> led v' (ledger_step L (VCommit p) out).
Proof.
  intros cap v s U L p v' out s' U' [H1 H2] R R' E. cbn [v_step] in E. destruct (v_commit v p) as [v1 r] eqn:Ev. inv E.
  unfold v_commit in Ev. destruct (v_prod v p) as [a|] eqn:Hp; [|inv Ev; split; assumption].
  destruct (slot_of _ _ _ _ _ _ R Hp) as (l1 & x & l2 & s1 & sl & s2 & Eq & _ & _ & _ & _ & N1 & N2 & _ & _ & _ & Hmap).
  rewrite Hmap in Ev. destruct (v_pop_committed _ _ _) as [c2 q2] eqn:Epop. inv Ev.
  apply pop_suffix in Epop. destruct Epop as [pre Epop]. cbn [iq_queue] in Epop.
  cbn [ledger_step]. split; [|exact H2]. intros p0. pose proof (r_prod _ _ _ _ R' p0) as Hin. cbn [v_set_prod v_prod v_res l_prod] in *.
  destruct (Nat.eqb p0 p) eqn:Ep; [reflexivity|]. specialize (H1 p0). destruct (v_prod v p0) as [a0|] eqn:Ha0; [|exact H1].
  specialize (Hin a0 eq_refl). apply in_map_iff in Hin. destruct Hin as ([a1 y] & Ey & Hy). cbn in Ey. subst a1.
  exists y. split; [exact Hy|]. destruct H1 as (x0 & Hx0 & ->). f_equal. f_equal.
  assert (Hy2: In (a0, y) (l1 ++ (a, mkRes (rv_range x) true) :: l2)) by (rewrite Epop; apply in_or_app; auto).
  destruct (r_wf _ _ _ _ R) as [W _]. apply NoDup_app_l in W. rewrite Eq in Hx0, W.
  apply in_app_or in Hy2. destruct Hy2 as [Hy2|[Hy2|Hy2]].
  - f_equal. eapply NoDup_assoc; [exact W|exact Hx0|apply in_or_app; auto].
  - injection Hy2 as <- <-. cbn. f_equal. eapply NoDup_assoc; [exact W|exact Hx0|]. apply in_or_app. right. left. reflexivity.
  - f_equal. eapply NoDup_assoc; [exact W|exact Hx0|apply in_or_app; right; right; exact Hy2].
Qed.

Lemma led_step : forall cap v s U L o v' out s' U', led v L -> rel cap v s U -> rel cap v' s' U' ->
  v_step v o = (v', out) -> led v' (ledger_step L o out).
Proof.
  intros cap v s U L o v' out s' U' H R R' E. destruct o.
  - eapply led_reserve; [exact H| | |exact E]; [exact (r_ex _ _ _ _ R)|exact (r_ex _ _ _ _ R')].
  - cbn in E. inv E. cbn. unfold v_write. dmatch; try exact H. dmatch. dmatch; try exact H. dmatch; exact H.
  - eapply led_commit; eassumption.
  - cbn in E. inv E. cbn. destruct H as [H1 H2]. split; [|exact H2]. intros p0. cbn. destruct (Nat.eqb p0 p); [reflexivity|exact (H1 p0)].
  - cbn in E. unfold v_register_consumer in E. destruct (v_cons v) eqn:Ec; inv E; [exact H|].
    destruct H as [H1 H2]. cbn. split; [exact H1|]. unfold v_read_reservation in *. cbn. rewrite Ec in H2. exact H2.
  - cbn in E. inv E. destruct H as [H1 H2]. split; [exact H1|reflexivity].
  - cbn in E. destruct (v_start_read v block) as [v1 r] eqn:Ev. inv E. unfold v_start_read in Ev.
    destruct (v_cons v) as [k|] eqn:Ec; [|inv Ev; exact H].
    destruct (start_read _ _ _ _ _ _) as [c [r0|e|]]; inv Ev; try (apply led_frame; exact H).
    destruct H as [H1 H2]. split; [exact H1|]. cbn [ledger_step l_cons v_read_reservation v_set_cons v_cons option_map].
    pose proof (r_ex _ _ _ _ R') as HX. cbn in HX. unfold data_of. rewrite HX. reflexivity.
  - cbn in E. inv E. exact H.
  - cbn in E. destruct (v_finish_read v) as [v1 r] eqn:Ev. inv E. unfold v_finish_read in Ev. destruct (v_cons v) as [[k|]|] eqn:Ec.
    + destruct (finish_read_common _ _ _ _) as [[c b]|] eqn:Ef; inv Ev.
      * destruct H as [H1 H2]. split; [exact H1|reflexivity].
      * exfalso. pose proof (r_reader _ _ _ _ R') as Hr. cbn in Hr.
        pose proof (r_ci _ _ _ _ R) as I. pose proof (r_reader _ _ _ _ R) as Hr2. rewrite Ec in Hr2. destruct Hr2 as [_ Hr2].
        destruct U as [|h U]; [discriminate|]. injection Hr2 as ->. unfold finish_read_common in Ef. cbn [v_set_cons v_c] in Ef.
        destruct (advance_ok _ _ _ _ I) as (w & l & n & Ea & _). rewrite Ea in Ef. discriminate.
    + inv Ev. exact H.
    + inv Ev. exact H.
  - cbn in E. unfold v_wait_for_drain in E. destruct (wait_for_drain _ _) as [c b]. inv E. apply led_frame. exact H.
  - cbn in E. inv E. apply led_frame. exact H.
  - cbn in E. inv E. apply led_frame. exact H.
  - cbn in E. inv E. apply led_frame. exact H.
Qed.

Lemma led_run : forall cap l v s U L v' outs, led v L -> rel cap v s U -> history s -> Forall vop_ok l -> v_run v l = (v', outs) ->
  exists s' U', rel cap v' s' U' /\ led v' (ledger_run L l outs).
Proof.
  induction l as [|o l IH]; intros v s U L v' outs HL R Hi F E; cbn [v_run] in E.
  - inv E. exists s, U. splits; auto.
  - inv F. destruct (v_step v o) as [v1 out] eqn:E1. destruct (v_run v1 l) as [v2 outs2] eqn:E2. inv E.
    destruct (sim_step _ _ _ _ _ _ _ R Hi H1 E1) as (s1 & U1 & S1 & R1). cbn [ledger_run].
    eapply IH; [|exact R1|eapply history_step; eassumption|assumption|exact E2]. eapply led_step; eassumption.
Qed.

Lemma two_in : forall (A : Type) (l : list A) x y, In x l -> In y l -> x <> y ->
  (exists a b c, l = a ++ x :: b ++ y :: c) \/ (exists a b c, l = a ++ y :: b ++ x :: c).
Proof.
  intros A l x y Hx Hy N. apply in_split in Hx. destruct Hx as (l1 & l2 & ->). apply in_app_or in Hy. destruct Hy as [Hy|[Hy|Hy]].
  - right. apply in_split in Hy. destruct Hy as (a & b & ->). exists a, b, l2. rewrite <- app_assoc. reflexivity.
  - contradiction.
  - left. apply in_split in Hy. destruct Hy as (a & b & ->). exists l1, a, b. reflexivity.
Qed.

Lemma disjoint_apart : forall a b, disjoint a b -> apart (data_of a) (data_of b).
Proof. intros a b H. unfold disjoint in H. unfold apart, data_of. cbn. lia. Qed.

Lemma led_disjoint : forall cap v s U L, rel cap v s U -> led v L -> handed_out_ok cap L.
Proof.
  intros cap v s U L R [H1 H2]. pose proof (r_ci _ _ _ _ R) as I. pose proof (ci_layout _ _ _ I) as Lay.
  pose proof (ci_sizes _ _ _ I) as Hs. rewrite Forall_forall in Hs. pose proof (r_ex _ _ _ _ R) as HX.
  assert (Hb: forall r, In r (U ++ qranges (v_res v)) -> inside cap (data_of r)).
  { intros r Hr. pose proof (layout_bounds _ _ _ _ _ Lay Hr) as (B1 & B2 & B3). destruct (Hs _ Hr) as [B4 _].
    pose proof (r_len _ _ _ _ R) as HL. unfold inside, data_of. cbn. lia. }
  assert (Hp: forall p r, l_prod L p = Some r -> exists a x, v_prod v p = Some a /\ In (a, x) (iq_queue (v_res v)) /\ r = data_of (rv_range x)).
  { intros p r Hr. specialize (H1 p). destruct (v_prod v p) as [a|]; [|congruence]. destruct H1 as (x & Hx & E). exists a, x. splits; auto. congruence. }
  assert (Hq: forall a x, In (a, x) (iq_queue (v_res v)) -> In (rv_range x) (qranges (v_res v))).
  { intros a x Hx. unfold qranges. apply in_map_iff. exists (a, x). auto. }
  assert (Hc: forall r, l_cons L = Some r -> exists U2 r0, U = r0 :: U2 /\ r = data_of r0).
  { intros r Hr. rewrite H2 in Hr. pose proof (r_reader _ _ _ _ R) as Hrd. unfold v_read_reservation in Hr.
    destruct (v_cons v) as [[r0|]|]; try discriminate. injection Hr as <-. destruct Hrd as [_ Hh]. destruct U as [|u U2]; [discriminate|].
    injection Hh as ->. exists U2, r0. auto. }
  constructor.
  - intros p r Hr. destruct (Hp _ _ Hr) as (a & x & _ & Hx & ->). apply Hb. apply in_or_app. right. eapply Hq. exact Hx.
  - intros r Hr. destruct (Hc _ Hr) as (U2 & r0 & -> & ->). apply Hb. left. reflexivity.
  - intros p q r r' Hpq Hr Hr'. destruct (Hp _ _ Hr) as (a & x & Ha & Hx & ->). destruct (Hp _ _ Hr') as (b & y & Hbq & Hy & ->).
    assert (Hab: a <> b).
    { intros ->. destruct (slot_of _ _ _ _ _ _ R Ha) as (l1 & x1 & l2 & s1 & sl & s2 & _ & _ & _ & Hsl & _ & _ & _ & Ho & _).
      destruct Hsl as (_ & _ & Hown). cbn in Hown. apply Hown in Hbq. congruence. }
    apply disjoint_apart.
    assert (Hne: (a, x) <> (b, y)) by congruence.
    destruct (two_in _ _ _ _ Hx Hy Hne) as [(u & w & z & E)|(u & w & z & E)].
    + unfold qranges in Lay. rewrite E, map_app in Lay. cbn [map snd] in Lay. rewrite map_app in Lay. cbn [map snd] in Lay. rewrite app_assoc in Lay.
      apply layout_disjoint in Lay. exact Lay.
    + unfold qranges in Lay. rewrite E, map_app in Lay. cbn [map snd] in Lay. rewrite map_app in Lay. cbn [map snd] in Lay. rewrite app_assoc in Lay.
      apply layout_disjoint in Lay. unfold disjoint in *. tauto.
  - intros p r r' Hr Hr'. destruct (Hp _ _ Hr) as (a & x & Ha & Hx & ->). destruct (Hc _ Hr') as (U2 & r0 & -> & ->).
    apply disjoint_apart. apply Hq in Hx. apply in_split in Hx. destruct Hx as (y1 & y2 & E). rewrite E in Lay.
    change ((r0 :: U2) ++ y1 ++ rv_range x :: y2) with ([] ++ r0 :: U2 ++ y1 ++ rv_range x :: y2) in Lay.
    rewrite (app_assoc U2) in Lay. apply layout_disjoint in Lay. unfold disjoint in *. tauto.
Qed.

Lemma led0 : forall mem cap, led (v_new mem cap) ledger0.
Proof. intros. split; [intros p|]; reflexivity. Qed.

(** * Consequences for whole histories *)
Lemma v_refines : forall mem cap ops v outs, 0 <= cap < 2147483648 -> Forall vop_ok ops -> v_run (v_new mem cap) ops = (v, outs) ->
  exists s U, run cap fifo_init ops outs s /\ rel cap v s U /\ history s.
Proof. intros mem cap ops v outs Hc Ho E. eapply sim_run; eauto. - apply rel_init. exact Hc. - apply history_init. Qed.

Lemma v_fifo : forall mem cap ops v outs, 0 <= cap < 2147483648 -> Forall vop_ok ops -> v_run (v_new mem cap) ops = (v, outs) ->
  exists s, run cap fifo_init ops outs s /\ history s.
Proof. intros. destruct (v_refines mem cap ops v outs) as (s & U & H2 & _ & H3); eauto. Qed.

Lemma v_handed_out : forall mem cap ops v outs, 0 <= cap < 2147483648 -> Forall vop_ok ops -> v_run (v_new mem cap) ops = (v, outs) ->
  handed_out_ok cap (ledger_run ledger0 ops outs).
Proof.
  intros mem cap ops v outs Hc Ho E.
  destruct (led_run cap ops (v_new mem cap) fifo_init [] ledger0 v outs) as (s & U & R & L); auto.
  - apply led0.
  - apply rel_init. exact Hc.
  - apply history_init.
  - eapply led_disjoint; eassumption.
Qed.

Lemma slot_ids_in : forall sl l, In sl l -> In (rec_id (sl_rec sl)) (slot_ids l).
Proof. intros sl l H. unfold slot_ids. apply in_map_iff. exists sl. auto. Qed.

Lemma history_prefix : forall s, history s ->
  (forall x i, In x (f_consumed s ++ f_lost s ++ f_unread s) -> In i (slot_ids (f_slots s)) -> (rec_id x < i)%nat) /\
  (forall i, (i < f_next s)%nat -> (forall sl, In sl (f_slots s) -> sl_done sl = false -> (i < rec_id (sl_rec sl))%nat) ->
     In i (ids (f_consumed s ++ f_lost s ++ f_unread s))).
Proof.
  intros s H. split.
  - intros x i Hx Hi. rewrite !in_app_iff in Hx. destruct Hx as [Hx|[Hx|Hx]].
    + pose proof (h_order _ H) as O. rewrite app_assoc in O. eapply increasing_lt; [exact O| |exact Hi]. apply in_or_app. left. apply in_map. exact Hx.
    + pose proof (h_lost_order _ H) as O. rewrite app_assoc in O. eapply increasing_lt; [exact O| |exact Hi]. apply in_or_app. left. apply in_map. exact Hx.
    + pose proof (h_order _ H) as O. rewrite app_assoc in O. eapply increasing_lt; [exact O| |exact Hi]. apply in_or_app. right. apply in_map. exact Hx.
  - intros i Hi Hopen.
    assert (Hin: In i (seq 0 (f_next s))) by (apply in_seq; lia).
    eapply Permutation_in in Hin; [|apply Permutation_sym; exact (h_all _ H)].
    rewrite !ids_app. rewrite !in_app_iff in *. destruct Hin as [Hin|[Hin|[Hin|Hin]]]; auto. exfalso.
    destruct (f_slots s) as [|h l] eqn:Es; [contradiction|].
    pose proof (h_head _ H h l Es) as Hd. specialize (Hopen h (or_introl eq_refl) Hd).
    cbn in Hin. destruct Hin as [Hin|Hin]; [lia|].
    pose proof (h_order _ H) as O. apply increasing_app in O. destruct O as [_ O]. apply increasing_app in O. destruct O as [_ O].
    rewrite Es in O. change (slot_ids (h :: l)) with ([rec_id (sl_rec h)] ++ slot_ids l) in O.
    pose proof (increasing_lt _ _ (rec_id (sl_rec h)) i O (or_introl eq_refl) Hin). lia.
Qed.

Lemma v_prefix : forall mem cap ops v outs, 0 <= cap < 2147483648 -> Forall vop_ok ops -> v_run (v_new mem cap) ops = (v, outs) ->
  exists s, run cap fifo_init ops outs s /\
  (forall x i, In x (f_consumed s ++ f_lost s ++ f_unread s) -> In i (slot_ids (f_slots s)) -> (rec_id x < i)%nat) /\
  (forall i, (i < f_next s)%nat -> (forall sl, In sl (f_slots s) -> sl_done sl = false -> (i < rec_id (sl_rec sl))%nat) ->
     In i (ids (f_consumed s ++ f_lost s ++ f_unread s))).
Proof.
  intros. destruct (v_fifo mem cap ops v outs) as (s & H2 & H3); auto. exists s. split; [exact H2|]. apply history_prefix. exact H3.
Qed.

Lemma lost_step : forall cap s o out s', step cap s o out s' -> incl (f_lost s) (f_lost s').
Proof. intros cap s o out s' St. destruct St; cbn; try apply incl_refl. apply incl_appl. apply incl_refl. Qed.

Lemma lost_run : forall cap s ops outs s', run cap s ops outs s' -> incl (f_lost s) (f_lost s').
Proof. intros cap s ops outs s' R. induction R; [apply incl_refl|]. eapply incl_tran; [|exact IHR]. eapply lost_step. eassumption. Qed.

Lemma run_history : forall cap s ops outs s', history s -> run cap s ops outs s' -> history s'.
Proof. intros cap s ops outs s' H R. induction R; [exact H|]. apply IHR. eapply history_step; eassumption. Qed.

Lemma NoDup_app_disj : forall (A : Type) (a b : list A) x, NoDup (a ++ b) -> In x a -> ~ In x b.
Proof.
  induction a as [|y a IH]; intros b x N Hx; [contradiction|]. cbn in N. inv N. destruct Hx as [->|Hx].
  - intros Hb. apply H1. apply in_or_app. auto.
  - apply IH; auto.
Qed.

Lemma NoDup_app_r : forall (A : Type) (a b : list A), NoDup (a ++ b) -> NoDup b.
Proof. induction a as [|x a IH]; intros b H; [exact H|]. inv H. apply IH. assumption. Qed.

Lemma v_accounting : forall mem cap ops v outs, 0 <= cap < 2147483648 -> Forall vop_ok ops -> v_run (v_new mem cap) ops = (v, outs) ->
  exists s, run cap fifo_init ops outs s /\
  s_records_overwritten (c_stats (v_c v)) = Z.of_nat (length (f_lost s)) /\
  s_records_read (c_stats (v_c v)) = Z.of_nat (length (f_consumed s)) /\
  s_records_written (c_stats (v_c v)) = Z.of_nat (length (f_consumed s) + length (f_lost s) + length (f_unread s)) /\
  s_bytes_overwritten (c_stats (v_c v)) = bytes (f_lost s) /\
  s_bytes_read (c_stats (v_c v)) = bytes (f_consumed s) /\
  s_bytes_written (c_stats (v_c v)) = bytes (f_consumed s) + bytes (f_lost s) + bytes (f_unread s) /\
  s_total_bytes_read (c_stats (v_c v)) = s_bytes_read (c_stats (v_c v)) + 4 * s_records_read (c_stats (v_c v)) /\
  s_total_bytes_written (c_stats (v_c v)) = s_bytes_written (c_stats (v_c v)) + 4 * s_records_written (c_stats (v_c v)) /\
  NoDup (ids (f_consumed s) ++ ids (f_lost s) ++ ids (f_unread s)) /\
  (forall ops2 outs2 s2 x, run cap s ops2 outs2 s2 -> In x (f_lost s) -> ~ In (rec_id x) (ids (f_consumed s2 ++ f_unread s2))).
Proof.
  intros mem cap ops v outs Hc Ho E. destruct (v_refines _ _ _ _ _ Hc Ho E) as (s & U & Hr & R & Hi). exists s. splits.
  - exact Hr.
  - exact (r_st2 _ _ _ _ R).
  - exact (r_st3 _ _ _ _ R).
  - exact (r_st1 _ _ _ _ R).
  - apply (r_by _ _ _ _ R).
  - apply (r_by _ _ _ _ R).
  - apply (r_by _ _ _ _ R).
  - apply (r_by _ _ _ _ R).
  - apply (r_by _ _ _ _ R).
  - pose proof (h_once _ Hi) as N. rewrite !app_assoc in N. apply NoDup_app_l in N. rewrite <- !app_assoc in N. exact N.
  - intros ops2 outs2 s2 x R2 Hx Hin. pose proof (run_history _ _ _ _ _ Hi R2) as H2. apply (lost_run _ _ _ _ _ R2) in Hx.
    pose proof (h_once _ H2) as N. apply (in_map rec_id) in Hx. rewrite ids_app, in_app_iff in Hin. destruct Hin as [Hin|Hin].
    + eapply NoDup_app_disj; [exact N|exact Hin|]. apply in_or_app. left. exact Hx.
    + apply NoDup_app_r in N. eapply NoDup_app_disj; [exact N|exact Hx|]. apply in_or_app. left. exact Hin.
Qed.

Lemma locks_step : forall cap s o out s' l, step cap s o out s' ->
  locks_held (f_locks s) (f_shut s) (o :: l) = locks_held (f_locks s') (f_shut s') l.
Proof. intros cap s o out s' l St. destruct St; reflexivity. Qed.

Lemma locks_run : forall cap s ops outs s', run cap s ops outs s' -> locks_held (f_locks s) (f_shut s) ops = f_locks s'.
Proof. intros cap s ops outs s' R. induction R as [|s o out s' l outs s'' St R IH]; [reflexivity|]. rewrite (locks_step _ _ _ _ _ _ St). exact IH. Qed.

Lemma v_run_snoc : forall ops v o v2 outs, v_run v (ops ++ [o]) = (v2, outs) ->
  exists v1 outs1 out, v_run v ops = (v1, outs1) /\ v_step v1 o = (v2, out) /\ outs = outs1 ++ [out].
Proof.
  induction ops as [|o1 ops IH]; intros v o v2 outs E; cbn in E.
  - destruct (v_step v o) as [v1 out] eqn:E1. inv E. exists v, [], out. auto.
  - destruct (v_step v o1) as [v1 out] eqn:E1. destruct (v_run v1 (ops ++ [o])) as [v3 outs3] eqn:E2. inv E.
    destruct (IH _ _ _ _ E2) as (v4 & outs4 & out4 & H1 & H2 & ->). cbn. rewrite E1, H1. exists v4, (out :: outs4), out4. auto.
Qed.

(** One more call after any history. *)
Lemma v_next : forall mem cap ops v outs o v' out, 0 <= cap < 2147483648 -> Forall vop_ok ops -> vop_ok o ->
  v_run (v_new mem cap) ops = (v, outs) -> v_step v o = (v', out) ->
  exists s s', run cap fifo_init ops outs s /\ history s /\ step cap s o out s' /\ locks_held 0 false ops = f_locks s.
Proof.
  intros mem cap ops v outs o v' out Hc Ho Ho1 E E1. destruct (v_refines _ _ _ _ _ Hc Ho E) as (s & U & Hr & R & Hi).
  destruct (sim_step _ _ _ _ _ _ _ R Hi Ho1 E1) as (s' & U' & St & _). exists s, s'. splits; auto.
  exact (locks_run _ _ _ _ _ Hr).
Qed.

Lemma v_locked : forall mem cap ops v outs p size block v' out, 0 <= cap < 2147483648 -> Forall vop_ok ops -> 0 <= size < 4294967296 ->
  v_run (v_new mem cap) ops = (v, outs) -> 0 < locks_held 0 false ops -> v_step v (VReserve p size block) = (v', out) ->
  failed out /\ exists s, run cap fifo_init (ops ++ [VReserve p size block]) (outs ++ [out]) s /\ run cap fifo_init ops outs s.
Proof.
  intros mem cap ops v outs p size block v' out Hc Ho Hs E HL E1.
  destruct (v_next mem cap ops v outs (VReserve p size block) v' out) as (s & s' & R & Hi & St & HL2); auto.
  rewrite HL2 in HL.
  assert (s' = s /\ failed out) as [-> Hf] by (inversion St; subst; try lia; split; cbn; auto).
  split; [exact Hf|]. exists s. split; [|exact R]. clear -R St. revert St. induction R; intros St; cbn.
  - econstructor; [exact St|constructor].
  - econstructor; [eassumption|]. apply IHR. exact St.
Qed.

Lemma v_unlocked : forall mem cap ops v outs p size block v' out, 0 <= cap < 2147483648 -> Forall vop_ok ops -> 0 <= size < 4294967296 ->
  v_run (v_new mem cap) ops = (v, outs) -> locks_held 0 false ops <= 0 -> v_step v (VReserve p size block) = (v', out) ->
  exists s, run cap fifo_init ops outs s /\
  (~ owns p s -> 0 < size -> size + 4 <= cap -> (~ reading s /\ f_slots s = [] \/ ~ short_of_room cap (contents (f_unread s) (f_slots s)) size) ->
   exists a, out = ORange (Ok (mkRange a size))).
Proof.
  intros mem cap ops v outs p size block v' out Hc Ho Hs E HL E1.
  destruct (v_next mem cap ops v outs (VReserve p size block) v' out) as (s & s' & R & Hi & St & HL2); auto.
  exists s. split; [exact R|]. intros H1 H2 H3 H4. inversion St; subst; try contradiction; try lia; eauto.
  exfalso. destruct H4 as [[Ha Hb]|H4]; [|contradiction]. intuition congruence.
Qed.

Lemma v_read_any_lock : forall mem cap ops v outs block v' out, 0 <= cap < 2147483648 -> Forall vop_ok ops ->
  v_run (v_new mem cap) ops = (v, outs) -> v_step v (VStartRead block) = (v', out) ->
  exists s, run cap fifo_init ops outs s /\
  forall x l, f_reader s = Some false -> f_unread s = x :: l -> exists a, out = ORange (Ok (mkRange a (Z.of_nat (length (rec_data x))))).
Proof.
  intros mem cap ops v outs block v' out Hc Ho E E1.
  destruct (v_next mem cap ops v outs (VStartRead block) v' out) as (s & s' & R & Hi & St & HL2); cbn; auto.
  exists s. split; [exact R|]. intros x l H1 H2. unfold reading in *. inversion St; subst; unfold reading in *; try congruence.
  eexists. do 3 f_equal. congruence.
Qed.

Lemma v_failed : forall mem cap ops v outs o v' out, 0 <= cap < 2147483648 -> Forall vop_ok ops -> vop_ok o ->
  v_run (v_new mem cap) ops = (v, outs) -> v_step v o = (v', out) -> failed out ->
  exists s, run cap fifo_init ops outs s /\ step cap s o out s.
Proof.
  intros mem cap ops v outs o v' out Hc Ho Ho1 E E1 Hf.
  destruct (v_next mem cap ops v outs o v' out) as (s & s' & R & Hi & St & HL2); auto.
  exists s. split; [exact R|]. assert (s' = s); [|subst; exact St]. inversion St; subst; try reflexivity; cbn in Hf; contradiction.
Qed.

Lemma run_app : forall cap s1 a outs1 s2 b outs2 s3, run cap s1 a outs1 s2 -> run cap s2 b outs2 s3 -> run cap s1 (a ++ b) (outs1 ++ outs2) s3.
Proof. intros cap s1 a outs1 s2 b outs2 s3 R. induction R; intros R2; cbn; [exact R2|]. econstructor; eauto. Qed.

Lemma sim_split : forall cap a b v s U v' outs, rel cap v s U -> history s -> Forall vop_ok (a ++ b) -> v_run v (a ++ b) = (v', outs) ->
  exists oa ob s1 s2, outs = oa ++ ob /\ length oa = length a /\ run cap s a oa s1 /\ run cap s1 b ob s2 /\ history s1.
Proof.
  induction a as [|o a IH]; intros b v s U v' outs R Hi F E.
  - destruct (sim_run _ _ _ _ _ _ _ R Hi F E) as (s2 & U2 & S2 & _). exists [], outs, s, s2. splits; auto. constructor.
  - cbn in F, E. inv F. destruct (v_step v o) as [v1 out] eqn:E1. destruct (v_run v1 (a ++ b)) as [v2 outs2] eqn:E2. inv E.
    destruct (sim_step _ _ _ _ _ _ _ R Hi H1 E1) as (s1 & U1 & S1 & R1).
    destruct (IH b _ _ _ _ _ R1 (history_step _ _ _ _ _ Hi S1) H2 E2) as (oa & ob & s2 & s3 & -> & HL & Ra & Rb & Hh).
    exists (out :: oa), ob, s2, s3. splits; auto. { cbn. congruence. } econstructor; eassumption.
Qed.

(** A flush that has to wait is not released while a record visible at its start is still unread. *)
Lemma waits_step : forall cap s o out s' k, step cap s o out s' -> In k (f_waits s) ->
  In k (f_waits s') \/ (o = VFinishRead /\ out = OFin (Ok true) /\ forall y, In y (f_unread s') -> (k <= rec_id y)%nat).
Proof.
  intros cap s o out s' k St Hk. destruct St; cbn; auto.
  destruct b; [|auto]. right. splits; auto.
Qed.

Lemma waits_run : forall cap s ops outs s' k, run cap s ops outs s' -> In k (f_waits s) -> ~ In (OFin (Ok true)) outs -> In k (f_waits s').
Proof.
  intros cap s ops outs s' k R. induction R as [|s o out s' l outs s'' St R IH]; intros Hk Hn; [exact Hk|].
  apply IH; [|intro; apply Hn; right; assumption]. destruct (waits_step _ _ _ _ _ _ St Hk) as [H|(_ & -> & _)]; [exact H|].
  exfalso. apply Hn. left. reflexivity.
Qed.

Lemma v_flush : forall mem cap ops1 ops2 v outs, 0 <= cap < 2147483648 ->
  Forall vop_ok (ops1 ++ VWaitForDrain :: ops2 ++ [VFinishRead]) ->
  v_run (v_new mem cap) (ops1 ++ VWaitForDrain :: ops2 ++ [VFinishRead]) = (v, outs) ->
  exists outs1 w outs2 f s1 s2,
    outs = outs1 ++ OWait w :: outs2 ++ [f] /\ length outs1 = length ops1 /\ length outs2 = length ops2 /\
    run cap fifo_init ops1 outs1 s1 /\ run cap fifo_init (ops1 ++ VWaitForDrain :: ops2 ++ [VFinishRead]) outs s2 /\
    (w = false -> f_unread s1 = []) /\
    (w = true -> ~ In (OFin (Ok true)) outs2 -> f = OFin (Ok true) ->
     forall x, In x (f_unread s1) -> In (rec_id x) (ids (f_consumed s2) ++ ids (f_lost s2))).
Proof.
  intros mem cap ops1 ops2 v outs Hc Ho E.
  destruct (sim_split cap ops1 (VWaitForDrain :: ops2 ++ [VFinishRead]) (v_new mem cap) fifo_init [] v outs) as
    (oa & ob & s1 & s2 & -> & HL & Ra & Rb & Hi); auto.
  { apply rel_init. exact Hc. } { apply history_init. }
  assert (Rall := run_app _ _ _ _ _ _ _ _ Ra Rb).
  inversion Rb as [|? ? outd sd ? od ? Sd Rc]; subst.
  assert (exists oc f sc, od = oc ++ [f] /\ length oc = length ops2 /\ run cap sd ops2 oc sc /\ step cap sc VFinishRead f s2) as
    (oc & f & sc & -> & HLc & Rc1 & Sf).
  { clear -Rc. revert sd od Rc. induction ops2 as [|o l IH]; intros sd od Rc; cbn in Rc.
    - inversion Rc as [|? ? f sf ? ? ? Sf Rn]; subst. inversion Rn; subst. exists [], f, sd. splits; auto. constructor.
    - inversion Rc as [|? ? f sf ? ? ? Sf Rn]; subst. destruct (IH _ _ Rn) as (oc & f0 & sc & -> & HL & R1 & S1).
      exists (f :: oc), f0, sc. splits; auto. { cbn. congruence. } econstructor; eassumption. }
  assert (exists w, outd = OWait w) as [w ->] by (inversion Sd; subst; eauto).
  exists oa, w, oc, f, s1, s2. splits; auto.
  - intros ->. inversion Sd; subst; assumption.
  - intros -> Hn -> x Hx.
    assert (exists k, (forall x, In x (f_unread s1) -> (rec_id x < k)%nat) /\ sd = add_wait k s1) as (k & Hlt & ->) by (inversion Sd; subst; eauto).
    assert (Hk: In k (f_waits sc)) by (eapply waits_run; [exact Rc1|left; reflexivity|exact Hn]).
    assert (Hle: forall y, In y (f_unread s2) -> (k <= rec_id y)%nat).
    { destruct (waits_step _ _ _ _ _ _ Sf Hk) as [H|(_ & _ & H)]; [|exact H]. inversion Sf; subst. cbn in H. contradiction. }
    pose proof (run_history _ _ _ _ _ history_init Rall) as H2.
    pose proof (run_history _ _ _ _ _ history_init Ra) as H1.
    assert (Hslots: forall i, In i (slot_ids (f_slots s2)) -> In i (slot_ids (f_slots s1)) \/ (f_next s1 <= i)%nat).
    { clear -Rb. assert (G: forall s l outs s', run cap s l outs s' -> (f_next s <= f_next s')%nat /\
          forall i, In i (slot_ids (f_slots s')) -> In i (slot_ids (f_slots s)) \/ (f_next s <= i)%nat); [|exact (proj2 (G _ _ _ _ Rb))].
      intros s l outs s' R. induction R as [|s o out s' l outs s'' St R [IH1 IH2]]; [auto|].
      assert ((f_next s <= f_next s')%nat /\ forall i, In i (slot_ids (f_slots s')) -> In i (slot_ids (f_slots s)) \/ (f_next s <= i)%nat) as [A1 A2].
      { destruct St; cbn [set_slots set_reader set_flocks add_wait f_next f_slots]; auto.
        - split; [lia|]. intros i Hi. rewrite slot_ids_app in Hi. apply in_app_or in Hi. destruct Hi as [Hi|[<-|[]]]; [auto|]. right. cbn. lia.
        - split; [lia|]. intros i Hi. rewrite on_slot_ids in Hi; auto. intros sl. cbn zeta. dmatch; reflexivity.
        - split; [lia|]. intros i Hi. match goal with H : publish _ = _ |- _ => apply publish_ids in H; rewrite on_slot_ids in H by reflexivity; rewrite <- H end.
          left. apply in_or_app. auto.
        - split; [lia|]. intros i Hi. rewrite on_slot_ids in Hi; auto. }
      split; [lia|]. intros i Hi. destruct (IH2 i Hi) as [H|H]; [apply A2; exact H|right; lia]. }
    assert (Hnext: (f_next s1 <= f_next s2)%nat).
    { clear -Rb. induction Rb as [|s o out s' l outs s'' St R IH]; [lia|]. destruct St; cbn in *; lia. }
    assert (Hx1: (rec_id x < f_next s1)%nat).
    { assert (Hin: In (rec_id x) (seq 0 (f_next s1))).
      { eapply Permutation_in; [exact (h_all _ H1)|]. rewrite !in_app_iff. right. right. left. apply in_map. exact Hx. }
      apply in_seq in Hin. lia. }
    assert (Hin2: In (rec_id x) (seq 0 (f_next s2))) by (apply in_seq; lia).
    eapply Permutation_in in Hin2; [|apply Permutation_sym; exact (h_all _ H2)]. rewrite !in_app_iff in *.
    destruct Hin2 as [Hin2|[Hin2|[Hin2|Hin2]]]; auto; exfalso.
    + apply in_map_iff in Hin2. destruct Hin2 as (y & Ey & Hy). apply Hle in Hy. specialize (Hlt x Hx). lia.
    + apply Hslots in Hin2. destruct Hin2 as [Hin2|Hin2]; [|lia].
      pose proof (h_order _ H1) as O. apply increasing_app in O. destruct O as [_ O].
      pose proof (increasing_lt _ _ _ _ O (in_map rec_id _ _ Hx) Hin2). lia.
Qed.
