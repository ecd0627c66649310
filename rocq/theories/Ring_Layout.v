(** Where records lie in the ring: the geometric part of the ring buffer invariant. *)
From Verif Require Import Base Ring_Model.
Open Scope Z_scope.

(** [l] lies contiguously from [s] to [e]. *)
Fixpoint chain (s : Z) (l : list range) (e : Z) : Prop :=
  match l with
  | [] => s = e
  | r :: l' => r_start r = s /\ 0 < r_size r /\ chain (s + r_size r) l' e
  end.

(** Records [E], oldest first, in a ring of length [N] with write position [W]: contiguous up to [W], or wrapped into an old part that ends
    at the recorded end-before-wrap and a new part that starts at 0. A recorded end-before-wrap may also be left over
    at or beyond the end of a contiguous layout. In the wrapped case the first record after the wrap did not fit before the end. *)
Definition layout (E : list range) (W : Z) (lwe : option Z) (N : Z) : Prop :=
  (exists s, 0 <= s /\ chain s E W /\ W <= N /\ (forall k, lwe = Some k -> W - 1 <= k)) \/
  (exists A b B sA eA, E = A ++ b :: B /\ A <> [] /\ 0 <= sA /\ chain sA A eA /\ chain 0 (b :: B) W /\ W <= sA /\ eA <= N /\
     lwe = Some (eA - 1) /\ N < eA + r_size b).

Lemma chain_app : forall a b s e, chain s (a ++ b) e <-> exists m, chain s a m /\ chain m b e.
Proof.
  induction a as [|x a IH]; intros b s e; cbn.
  - split; [intros; exists s; auto|intros (m & -> & H); exact H].
  - split.
    + intros (H1 & H2 & H3). apply IH in H3. destruct H3 as (m & Ha & Hb). exists m. auto.
    + intros (m & (H1 & H2 & H3) & Hb). splits; auto. apply IH. exists m. auto.
Qed.

Lemma chain_le : forall l s e, chain s l e -> s <= e.
Proof.
  induction l as [|x l IH]; intros s e H; cbn in H; [lia|]. destruct H as (_ & H2 & H3). apply IH in H3. lia.
Qed.

Lemma chain_in : forall l s e r, chain s l e -> In r l -> s <= r_start r /\ r_start r + r_size r <= e /\ 0 < r_size r.
Proof.
  induction l as [|x l IH]; intros s e r H Hin; [contradiction|]. cbn in H. destruct H as (H1 & H2 & H3).
  destruct Hin as [->|Hin].
  - apply chain_le in H3. lia.
  - pose proof (IH _ _ _ H3 Hin). lia.
Qed.

Lemma chain_lt : forall l s e, chain s l e -> l <> [] -> s < e.
Proof. intros [|x l] s e H Hn; [congruence|]. cbn in H. destruct H as (_ & H2 & H3). apply chain_le in H3. lia. Qed.

Lemma chain_det : forall l s e e', chain s l e -> chain s l e' -> e = e'.
Proof.
  induction l as [|x l IH]; intros s e e' H H'; cbn in *; [congruence|].
  destruct H as (_ & _ & H), H' as (_ & _ & H'). eapply IH; eassumption.
Qed.

Definition size_sum (l : list range) : Z := fold_right (fun r a => r_size r + a) 0 l.

Lemma size_sum_app : forall a b, size_sum (a ++ b) = size_sum a + size_sum b.
Proof. induction a as [|x a IH]; intros b; cbn; [reflexivity|]. fold (size_sum (a ++ b)). rewrite IH. unfold size_sum. lia. Qed.

Lemma chain_sum : forall l s e, chain s l e -> size_sum l = e - s.
Proof.
  induction l as [|x l IH]; intros s e H; cbn in *; [lia|]. destruct H as (_ & _ & H). apply IH in H.
  unfold size_sum in H. lia.
Qed.

Lemma chain_length : forall l s e, chain s l e -> Z.of_nat (length l) <= e - s.
Proof.
  induction l as [|x l IH]; intros s e H; cbn [chain length] in *; [lia|]. destruct H as (_ & ? & H). apply IH in H. lia.
Qed.

(** Disjointness of two ranges. *)
Definition disjoint (a b : range) : Prop := r_start a + r_size a <= r_start b \/ r_start b + r_size b <= r_start a.

Lemma intersect_false : forall a b, intersect a b = false -> disjoint a b.
Proof. intros a b H. unfold intersect in H. unfold disjoint. lia. Qed.

Lemma layout_nws : forall E W lwe N, layout E W lwe N -> 0 <= W <= N.
Proof.
  intros E W lwe N [(s & H1 & H2 & H3 & _)|(A & b & B & sA & eA & -> & HA & H0 & H1 & H2 & H3 & H4 & _)].
  - apply chain_le in H2. lia.
  - apply chain_le in H1. apply chain_le in H2. lia.
Qed.

Lemma layout_empty : forall W N, 0 <= W <= N -> layout [] W None N.
Proof. intros W N H. left. exists W. cbn. splits; try lia. discriminate. Qed.

Lemma layout_bounds : forall E W lwe N r, layout E W lwe N -> In r E -> 0 <= r_start r /\ r_start r + r_size r <= N /\ 0 < r_size r.
Proof.
  intros E W lwe N r [(s & H1 & H2 & H3 & _)|(A & b & B & sA & eA & -> & HA & H0 & H1 & H2 & H3 & H4 & _)] Hin.
  - pose proof (chain_in _ _ _ _ H2 Hin). lia.
  - apply in_app_or in Hin. destruct Hin as [Hin|Hin].
    + pose proof (chain_in _ _ _ _ H1 Hin). lia.
    + pose proof (chain_in _ _ _ _ H2 Hin). apply chain_le in H1. lia.
Qed.

Lemma layout_sum : forall E W lwe N, layout E W lwe N -> 0 <= size_sum E <= N /\ Z.of_nat (length E) <= N.
Proof.
  intros E W lwe N [(s & H1 & H2 & H3 & _)|(A & b & B & sA & eA & -> & HA & H0 & H1 & H2 & H3 & H4 & _)].
  - pose proof (chain_sum _ _ _ H2). pose proof (chain_length _ _ _ H2). pose proof (chain_le _ _ _ H2). lia.
  - pose proof (chain_sum _ _ _ H2). pose proof (chain_length _ _ _ H2). pose proof (chain_le _ _ _ H2).
    pose proof (chain_sum _ _ _ H1). pose proof (chain_length _ _ _ H1). pose proof (chain_le _ _ _ H1).
    rewrite size_sum_app, app_length. lia.
Qed.

(** Any two records, at different positions of the sequence, are disjoint. *)
Lemma chain_disjoint : forall a x b y c s e, chain s (a ++ x :: b ++ y :: c) e -> r_start x + r_size x <= r_start y.
Proof.
  intros a x b y c s e H. apply chain_app in H. destruct H as (m & _ & H). cbn in H. destruct H as (H1 & _ & H).
  assert (In y (b ++ y :: c)) by (apply in_or_app; right; left; reflexivity).
  pose proof (chain_in _ _ _ _ H H0). lia.
Qed.

Lemma split_two : forall (T : Type) (A B a b c : list T) x y, a ++ x :: b ++ y :: c = A ++ B ->
  (exists b1 b2, b = b1 ++ b2 /\ A = a ++ x :: b1 /\ B = b2 ++ y :: c) \/
  (exists c1, A = a ++ x :: b ++ y :: c1 /\ c = c1 ++ B) \/
  (exists a2, B = a2 ++ x :: b ++ y :: c /\ a = A ++ a2).
Proof.
  intros T A B a b c x y H. symmetry in H. apply app_eq_app in H. destruct H as (l & [[H1 H2]|[H1 H2]]).
  - destruct l as [|z l].
    + rewrite app_nil_r in H1. right. right. exists []. rewrite app_nil_r. cbn in H2. subst. auto.
    + cbn in H2. inversion H2 as [[Hx Hr]]. subst z. symmetry in Hr. apply app_eq_app in Hr.
      destruct Hr as (l2 & [[H3 H4]|[H3 H4]]).
      * destruct l2 as [|w l2].
        -- rewrite app_nil_r in H3. left. exists b, []. rewrite app_nil_r. cbn in H4. subst. auto.
        -- cbn in H4. inversion H4. subst. right. left. exists l2. auto.
      * left. exists l, l2. subst. auto.
  - right. right. exists l. auto.
Qed.

Lemma layout_disjoint : forall a x b y c W lwe N, layout (a ++ x :: b ++ y :: c) W lwe N -> disjoint x y.
Proof.
  intros a x b y c W lwe N [(s & H1 & H2 & H3 & _)|(A & b0 & B & sA & eA & HE & HA & H0 & H1 & H2 & H3 & H4 & _)].
  - left. eapply chain_disjoint; eassumption.
  - apply split_two in HE. destruct HE as [(b1 & b2 & -> & -> & Hb)|[(c1 & -> & ->)|(a2 & Hb & ->)]].
    + right. assert (In x (a ++ x :: b1)) by (apply in_or_app; right; left; reflexivity).
      assert (In y (b0 :: B)) by (rewrite Hb; apply in_or_app; right; left; reflexivity).
      pose proof (chain_in _ _ _ _ H1 H). pose proof (chain_in _ _ _ _ H2 H5). lia.
    + left. eapply chain_disjoint; eassumption.
    + left. rewrite Hb in H2. eapply chain_disjoint; eassumption.
Qed.

(** Dropping the oldest record. *)
Lemma layout_tail : forall h t W lwe N, layout (h :: t) W lwe N -> layout t W lwe N.
Proof.
  intros h t W lwe N [(s & H1 & H2 & H3 & H4)|(A & b & B & sA & eA & HE & HA & H0 & H1 & H2 & H3 & H4 & H5 & H6)].
  - left. cbn in H2. destruct H2 as (_ & Hs & H2). exists (s + r_size h). splits; auto; lia.
  - destruct A as [|h' A]; [congruence|]. cbn in HE. inv HE. destruct A as [|h2 A].
    + left. exists 0. cbn [app]. apply chain_lt in H1; [|discriminate]. splits; auto; try lia. intros k Hk. inv Hk. lia.
    + right. cbn [chain] in H1. destruct H1 as (Hs & Hp & H1).
      exists (h2 :: A), b, B, (sA + r_size h'), eA. splits; auto; try lia; discriminate.
Qed.

(** The step of [advance_next_read] between two records. *)
Lemma layout_next : forall h h2 t W lwe N, layout (h :: h2 :: t) W lwe N ->
  (lwe = Some (r_start h + r_size h - 1) /\ r_start h2 = 0 /\ layout (h2 :: t) W None N) \/
  (lwe <> Some (r_start h + r_size h - 1) /\ r_start h2 = r_start h + r_size h /\ layout (h2 :: t) W lwe N).
Proof.
  intros h h2 t W lwe N [(s & H1 & H2 & H3 & H4)|(A & b & B & sA & eA & HE & HA & H0 & H1 & H2 & H3 & H4 & H5 & H6)].
  - right. cbn [chain] in H2. destruct H2 as (Hs & Hp & Hs2 & Hp2 & H2). pose proof (chain_le _ _ _ H2). splits; try lia.
    + intros Hl. apply H4 in Hl. lia.
    + left. exists (s + r_size h). splits; auto; try lia. cbn [chain]. auto.
  - destruct A as [|h' A]; [congruence|]. cbn [app] in HE. injection HE as <- HE. destruct A as [|h2' A].
    + left. cbn [app] in HE. injection HE as <- ->. cbn [chain] in H1. destruct H1 as (Hs & Hp & H1). subst.
      splits; [reflexivity|destruct H2; assumption|]. left. exists 0. splits; auto; try lia. intros k Hk. discriminate.
    + cbn [app] in HE. injection HE as <- ->. right. cbn [chain] in H1. destruct H1 as (Hs & Hp & Hs2 & Hp2 & H1).
      pose proof (chain_le _ _ _ H1). splits; try lia.
      * intros Hl. rewrite H5 in Hl. inv Hl. lia.
      * right. exists (h2 :: A), b, B, (sA + r_size h), eA. splits; auto; try lia; [discriminate|]. cbn [chain]. auto.
Qed.

(** The end-before-wrap after [reserve] (volatile_ring_buffer.rs:137-139, common_ring_buffer.rs:262-268). *)
Definition lwe_after (lwe : option Z) (t : temp) : option Z :=
  match (match t_lwe t with Some l => Some l | None => lwe end) with
  | Some l => if l <? r_start (t_range t) + r_size (t_range t) - 1 then None else Some l
  | None => None
  end.

(** [calculate_next_write_start], as arithmetic. *)
Definition is_temp (W N size : Z) (t : temp) : Prop :=
  0 < size <= N /\
  ((W + size <= N /\ t = mkTemp (mkRange W size) (W + size) None) \/
   (N < W + size /\ t = mkTemp (mkRange 0 size) size (Some (W - 1)))).

Lemma add32_ok : forall a b, a + b < 4294967296 -> add32 a b = Some (a + b).
Proof. intros a b H. unfold add32, U32. apply Z.ltb_lt in H. rewrite H. reflexivity. Qed.
Lemma add32_none : forall a b, add32 a b = None -> 4294967296 <= a + b.
Proof. intros a b H. unfold add32 in H. destruct (Z.ltb_spec (a + b) U32) as [H1|H1]; [discriminate|exact H1]. Qed.
Lemma add32_some : forall a b c, add32 a b = Some c -> c = a + b.
Proof. intros a b c H. unfold add32 in H. destruct (a + b <? U32); congruence. Qed.
Lemma sub32_ok : forall a b, b <= a -> sub32 a b = Some (a - b).
Proof. intros a b H. unfold sub32. apply Z.leb_le in H. rewrite H. reflexivity. Qed.

Lemma calculate_is_temp : forall c size t, 0 <= c_nws c <= c_len c -> c_len c < 2147483648 -> 0 < size <= c_len c ->
  calculate_next_write_start c size = Some t -> is_temp (c_nws c) (c_len c) size t.
Proof.
  intros c size t H1 H2 H3 E. unfold calculate_next_write_start in E. split; [assumption|].
  rewrite add32_ok in E by lia.
  destruct (c_nws c + size <=? c_len c) eqn:E1.
  - left. split; [lia|]. inv E. reflexivity.
  - rewrite sub32_ok in E by lia. right. split; [lia|]. inv E. reflexivity.
Qed.

Lemma calculate_some : forall c size, 0 <= c_nws c <= c_len c -> c_len c < 2147483648 -> 0 < size <= c_len c ->
  exists t, calculate_next_write_start c size = Some t.
Proof.
  intros c size H1 H2 H3. unfold calculate_next_write_start. rewrite add32_ok by lia.
  destruct (c_nws c + size <=? c_len c) eqn:E; [eexists; reflexivity|].
  rewrite sub32_ok by lia. eexists; reflexivity.
Qed.

Definition hits (N : Z) (t : temp) (r : range) : bool :=
  intersect r (t_range t) || match t_lwe t with None => false | Some l => intersect (mkRange (l + 1) (N - (l + 1))) r end.

Lemma intersect_reservation_hits : forall c t r, intersect_reservation c t r = hits (c_len c) t r.
Proof. reflexivity. Qed.

Lemma intersect_false_iff : forall a b, intersect a b = false <-> (r_start b + r_size b <= r_start a \/ r_start a + r_size a <= r_start b).
Proof.
  intros a b. unfold intersect. rewrite andb_false_iff, !Z.leb_gt. split; intros [H|H]; [left|right|left|right]; lia.
Qed.
Lemma intersect_true_iff : forall a b, intersect a b = true <-> (r_start a < r_start b + r_size b /\ r_start b < r_start a + r_size a).
Proof. intros a b. unfold intersect. rewrite andb_true_iff, !Z.leb_le. split; intros [H H']; split; lia. Qed.

Definition hitP (N W size : Z) (r : range) : Prop :=
  (W + size <= N /\ r_start r < W + size /\ W < r_start r + r_size r) \/
  (N < W + size /\ ((r_start r < size /\ 0 < r_start r + r_size r) \/ (W < r_start r + r_size r /\ r_start r < N))).

Lemma hits_true_iff : forall N W size t r, is_temp W N size t -> hits N t r = true <-> hitP N W size r.
Proof.
  intros N W size t r [Hs [[Hw ->]|[Hw ->]]]; unfold hits, hitP; cbn [t_range t_lwe].
  - rewrite orb_false_r, intersect_true_iff. cbn [r_start r_size]. split; intros H.
    + left. lia.
    + destruct H as [(_ & H1 & H2)|(H1 & _)]; lia.
  - rewrite orb_true_iff, !intersect_true_iff. cbn [r_start r_size]. split; intros H.
    + right. split; [lia|]. destruct H as [(H1 & H2)|(H1 & H2)]; [left|right]; lia.
    + destruct H as [(H0 & _)|(_ & [(H1 & H2)|(H1 & H2)])]; [lia| left; lia | right; lia].
Qed.

Lemma hits_false_iff : forall N W size t r, is_temp W N size t -> hits N t r = false <-> ~ hitP N W size r.
Proof.
  intros N W size t r Ht. rewrite <- (hits_true_iff _ _ _ _ _ Ht). destruct (hits N t r); split; intros; congruence.
Qed.

(** If the oldest record is not hit by a new reservation then none is. *)
Lemma head_not_hitP : forall h E W lwe N size r, layout (h :: E) W lwe N -> 0 < size <= N ->
  ~ hitP N W size h -> In r (h :: E) -> ~ hitP N W size r.
Proof.
  intros h E W lwe N size r L Hs Hh Hin Hr. apply Hh. clear Hh. unfold hitP in *.
  destruct L as [(s & H1 & H2 & H3 & H4)|(A & b & B & sA & eA & HE & HA & H0 & H1 & H2 & H3 & H4 & H5 & H6)].
  - pose proof (chain_in _ _ _ _ H2 Hin). cbn [chain] in H2. destruct H2 as (Hhs & Hhp & H2). apply chain_le in H2. clear H4.
    destruct Hr as [(Hw & Hr1 & Hr2)|(Hw & [(Hr1 & Hr2)|(Hr1 & Hr2)])]; [lia| |lia].
    right. split; [lia|]. left. lia.
  - destruct A as [|h' A]; [congruence|]. cbn [app] in HE. injection HE as <- ->.
    pose proof (chain_le _ _ _ H2). cbn [chain] in H1. destruct H1 as (Hhs & Hhp & H1).
    pose proof (chain_le _ _ _ H1).
    destruct (Z_lt_le_dec N (W + size)) as [Hw|Hw].
    + right. split; [lia|]. right. lia.
    + left. split; [lia|]. destruct Hr as [(_ & Hr1 & Hr2)|(Hw2 & _)]; [|lia].
      destruct Hin as [<-|Hin]; [lia|]. apply in_app_or in Hin. destruct Hin as [Hin|Hin].
      * pose proof (chain_in _ _ _ _ H1 Hin). lia.
      * pose proof (chain_in _ _ _ _ H2 Hin). lia.
Qed.

Lemma head_not_hit_none : forall h E W lwe N size t r, layout (h :: E) W lwe N -> is_temp W N size t ->
  hits N t h = false -> In r (h :: E) -> hits N t r = false.
Proof.
  intros h E W lwe N size t r L Ht Hh Hin. apply (hits_false_iff _ _ _ _ _ Ht). apply (hits_false_iff _ _ _ _ _ Ht) in Hh.
  exact (head_not_hitP _ _ _ _ _ _ _ L (proj1 Ht) Hh Hin).
Qed.

(** The new reservation extends the layout. *)
Lemma layout_push : forall E W lwe N size t, layout E W lwe N -> is_temp W N size t ->
  (forall r, In r E -> hits N t r = false) ->
  layout (E ++ [t_range t]) (t_nws t) (lwe_after lwe t) N.
Proof.
  intros E W lwe N size t L T Hh.
  assert (Hh': forall r, In r E -> ~ hitP N W size r).
  { intros r Hr. apply (hits_false_iff _ _ _ _ _ T). auto. }
  clear Hh. destruct T as [Hs Ht].
  destruct L as [(s & H1 & H2 & H3 & H4)|(A & b & B & sA & eA & HE & HA & H0 & H1 & H2 & H3 & H4 & H5 & H6)].
  - destruct Ht as [[Hw ->]|[Hw ->]]; unfold lwe_after; cbn [t_range t_lwe t_nws r_start r_size] in *.
    + left. exists s. splits; auto; try lia.
      * apply chain_app. exists W. cbn. splits; auto; lia.
      * intros k Hk. destruct lwe as [l|]; [|discriminate].
        destruct (l <? W + size - 1) eqn:E1; [discriminate|]. inv Hk. lia.
    + destruct E as [|h E].
      * left. exists 0. cbn in *. splits; auto; try lia.
        intros k Hk. destruct (W - 1 <? size - 1) eqn:E1; [discriminate|]. inv Hk. lia.
      * right. clear H4. assert (Hh1 := Hh' h (or_introl eq_refl)). unfold hitP in Hh1.
        pose proof (chain_lt _ _ _ H2 ltac:(discriminate)). pose proof H2 as H2'. cbn [chain] in H2'. destruct H2' as (Hhs & Hhp & H2').
        pose proof (chain_le _ _ _ H2').
        assert (size <= s) by lia.
        exists (h :: E), (mkRange 0 size), [], s, W. splits; auto; try discriminate; try (cbn; lia).
        -- replace (W - 1 <? 0 + size - 1) with false by lia. reflexivity.
  - destruct A as [|h A]; [congruence|].
    assert (Hin: In h E) by (rewrite HE; left; reflexivity).
    assert (Hh1 := Hh' h Hin). unfold hitP in Hh1. pose proof (chain_le _ _ _ H2). pose proof H1 as H1'. cbn [chain] in H1'. destruct H1' as (Hhs & Hhp & H1').
    pose proof (chain_le _ _ _ H1').
    assert (Hw: W + size <= sA) by lia.
    destruct Ht as [[Hw2 ->]|[Hw2 ->]]; [|lia]. cbn [t_range t_nws].
    right. exists (h :: A), b, (B ++ [mkRange W size]), sA, eA. splits; auto.
    + rewrite HE. rewrite <- app_assoc. reflexivity.
    + change (b :: B ++ [mkRange W size]) with ((b :: B) ++ [mkRange W size]). apply chain_app. exists W. split; [exact H2|]. cbn. lia.
    + unfold lwe_after. cbn [t_lwe t_range r_start r_size]. rewrite H5.
      replace (eA - 1 <? W + size - 1) with false by lia. reflexivity.
Qed.

(** A record is only hit when there really is little room. *)
Definition size_max (d : Z) (l : list range) : Z := fold_right (fun r a => Z.max (r_size r) a) d l.

Lemma size_max_in : forall l d r, In r l -> r_size r <= size_max d l.
Proof.
  induction l as [|x l IH]; intros d r H; [contradiction|]. cbn. destruct H as [->|H]; [lia|]. apply (IH d) in H. unfold size_max in H. lia.
Qed.
Lemma size_max_base : forall l d, d <= size_max d l.
Proof. induction l as [|x l IH]; intros d; cbn; [lia|]. specialize (IH d). unfold size_max in IH. lia. Qed.

Lemma hit_no_room : forall h E W lwe N size t, layout (h :: E) W lwe N -> is_temp W N size t -> hits N t h = true ->
  N < size_sum (h :: E) + size + size_max size (h :: E).
Proof.
  intros h E W lwe N size t L Ht Hh. apply (hits_true_iff _ _ _ _ _ Ht) in Hh. destruct Ht as [Hs _]. unfold hitP in Hh.
  pose proof (size_max_base (h :: E) size) as Hm.
  destruct L as [(s & H1 & H2 & H3 & H4)|(A & b & B & sA & eA & HE & HA & H0 & H1 & H2 & H3 & H4 & H5 & H6)].
  - rewrite (chain_sum _ _ _ H2). clear H4.
    cbn [chain] in H2. destruct H2 as (Hhs & Hhp & H2). pose proof (chain_le _ _ _ H2). lia.
  - assert (In b (h :: E)) by (rewrite HE; apply in_or_app; right; left; reflexivity).
    pose proof (size_max_in _ size _ H). remember (size_max size (h :: E)) as M.
    replace (size_sum (h :: E)) with ((eA - sA) + (W - 0))
      by (rewrite HE, size_sum_app, (chain_sum _ _ _ H1), (chain_sum _ _ _ H2); reflexivity).
    destruct A as [|h' A]; [congruence|]. cbn [app] in HE. injection HE as <- _.
    cbn [chain] in H1. destruct H1 as (Hhs & Hhp & H1). pose proof (chain_le _ _ _ H1). pose proof (chain_le _ _ _ H2). lia.
Qed.
