(** Invariant of the shared ring buffer state and the effect of the shared functions under it. *)
From Verif Require Import Base Ring_Model Ring_Layout.
Open Scope Z_scope.

(** * Memory *)
Arguments mem_get : simpl never.
Arguments mem_set : simpl never.
Arguments to_bytes : simpl never.
Arguments from_bytes : simpl never.
Arguments hits : simpl never.
Arguments Z.add : simpl never.
Arguments Z.sub : simpl never.
Arguments Z.of_nat : simpl never.
Lemma mem_get_length : forall m a n, length (mem_get m a n) = Z.to_nat n.
Proof. intros. unfold mem_get. rewrite map_length, seq_length. reflexivity. Qed.

Lemma mem_get_ext : forall m m' a n, (forall i, a <= i < a + n -> m i = m' i) -> mem_get m a n = mem_get m' a n.
Proof.
  intros m m' a n H. unfold mem_get. apply map_ext_in. intros k Hk. apply in_seq in Hk. apply H. lia.
Qed.

Lemma mem_set_out : forall m a bs i, i < a \/ a + Z.of_nat (length bs) <= i -> mem_set m a bs i = m i.
Proof.
  intros m a bs i H. unfold mem_set. destruct (a <=? i) eqn:E1, (i <? a + Z.of_nat (length bs)) eqn:E2; cbn; try reflexivity; lia.
Qed.

Lemma mem_set_in : forall m a bs i, a <= i < a + Z.of_nat (length bs) -> mem_set m a bs i = nth (Z.to_nat (i - a)) bs 0.
Proof.
  intros m a bs i H. unfold mem_set. replace (a <=? i) with true by lia. replace (i <? a + Z.of_nat (length bs)) with true by lia. reflexivity.
Qed.

Lemma map_nth_seq : forall (l : list Z), map (fun k => nth k l 0) (seq 0 (length l)) = l.
Proof.
  induction l as [|x l IH]; [reflexivity|]. cbn [length seq map nth]. f_equal. rewrite <- seq_shift, map_map. exact IH.
Qed.

Lemma mem_get_set_same : forall m a bs n, Z.of_nat (length bs) = n -> mem_get (mem_set m a bs) a n = bs.
Proof.
  intros m a bs n H. unfold mem_get. replace (Z.to_nat n) with (length bs) by lia.
  transitivity (map (fun k => nth k bs 0) (seq 0 (length bs))); [|apply map_nth_seq]. apply map_ext_in. intros k Hk. apply in_seq in Hk.
  rewrite mem_set_in by lia. f_equal. lia.
Qed.

Lemma mem_get_set_disj : forall m a bs b n, b + n <= a \/ a + Z.of_nat (length bs) <= b -> mem_get (mem_set m a bs) b n = mem_get m b n.
Proof. intros m a bs b n H. apply mem_get_ext. intros i Hi. apply mem_set_out. lia. Qed.

(** Overwriting part of a list. *)
Definition splice (l : list Z) (off : Z) (bs : list Z) : list Z :=
  firstn (Z.to_nat off) l ++ bs ++ skipn (Z.to_nat off + length bs) l.

Lemma splice_length : forall l off bs, 0 <= off -> off + Z.of_nat (length bs) <= Z.of_nat (length l) -> length (splice l off bs) = length l.
Proof.
  intros l off bs H1 H2. unfold splice. rewrite !app_length, firstn_length, skipn_length. lia.
Qed.

Lemma nth_ext_len : forall (l l' : list Z), length l = length l' -> (forall k, (k < length l)%nat -> nth k l 0 = nth k l' 0) -> l = l'.
Proof. intros l l' H1 H2. apply (nth_ext l l' 0 0); auto. Qed.

Lemma nth_mem_get : forall m a n k, (k < Z.to_nat n)%nat -> nth k (mem_get m a n) 0 = m (a + Z.of_nat k).
Proof.
  intros m a n k H. unfold mem_get. set (f := fun k => m (a + Z.of_nat k)).
  rewrite (nth_indep _ 0 (f 0%nat)) by (rewrite map_length, seq_length; assumption).
  rewrite map_nth. rewrite seq_nth by assumption. reflexivity.
Qed.

Lemma nth_firstn_lt : forall (l : list Z) n k d, (k < n)%nat -> nth k (firstn n l) d = nth k l d.
Proof.
  induction l as [|x l IH]; intros n k d H; destruct n as [|n]; try lia; [destruct k; reflexivity|].
  destruct k as [|k]; [reflexivity|]. cbn. apply IH. lia.
Qed.
Lemma nth_skipn_add : forall (l : list Z) n k d, nth k (skipn n l) d = nth (n + k) l d.
Proof.
  induction l as [|x l IH]; intros n k d; destruct n as [|n]; try reflexivity; [destruct k; reflexivity|].
  cbn [skipn Nat.add nth]. apply IH.
Qed.

Lemma mem_get_splice : forall m a n off bs, 0 <= off -> off + Z.of_nat (length bs) <= n ->
  mem_get (mem_set m (a + off) bs) a n = splice (mem_get m a n) off bs.
Proof.
  intros m a n off bs H1 H2. apply nth_ext_len.
  - rewrite splice_length; rewrite ?mem_get_length; lia.
  - intros k Hk. rewrite mem_get_length in Hk. rewrite nth_mem_get by assumption. unfold splice.
    destruct (Nat.lt_ge_cases k (Z.to_nat off)) as [Hlt|Hge].
    + rewrite app_nth1 by (rewrite firstn_length, mem_get_length; lia).
      rewrite nth_firstn_lt by assumption. rewrite nth_mem_get by assumption. apply mem_set_out. lia.
    + rewrite app_nth2 by (rewrite firstn_length, mem_get_length; lia).
      rewrite firstn_length, mem_get_length. replace (Nat.min (Z.to_nat off) (Z.to_nat n)) with (Z.to_nat off) by lia.
      destruct (Nat.lt_ge_cases k (Z.to_nat off + length bs)) as [Hlt2|Hge2].
      * rewrite app_nth1 by lia. rewrite mem_set_in by lia. f_equal. lia.
      * rewrite app_nth2 by lia. rewrite nth_skipn_add. rewrite mem_set_out by lia.
        rewrite nth_mem_get by lia. f_equal. lia.
Qed.

Lemma from_to_bytes : forall z, 0 <= z < 4294967296 -> from_bytes (to_bytes z) = z.
Proof.
  intros z H. unfold from_bytes, to_bytes. cbn [nth].
  assert (E1: z / 65536 = (z / 256) / 256) by (rewrite Z.div_div by lia; reflexivity).
  assert (E2: z / 16777216 = ((z / 256) / 256) / 256) by (rewrite !Z.div_div by lia; reflexivity).
  rewrite E1, E2. lia.
Qed.
Lemma to_bytes_length : forall z, length (to_bytes z) = 4%nat.
Proof. reflexivity. Qed.

(** * Invariant *)
Definition hd_start (l : list range) : option Z := option_map r_start (hd_error l).
Fixpoint last_start (l : list range) : option Z :=
  match l with
  | [] => None
  | r :: l' => match l' with [] => Some (r_start r) | _ => last_start l' end
  end.

Lemma last_start_snoc : forall l r, last_start (l ++ [r]) = Some (r_start r).
Proof.
  induction l as [|x l IH]; intros r; [reflexivity|]. cbn [app last_start]. rewrite IH.
  destruct l; reflexivity.
Qed.
Lemma last_start_cons : forall x l, l <> [] -> last_start (x :: l) = last_start l.
Proof. intros x [|y l] H; [congruence|reflexivity]. Qed.
Lemma last_start_app : forall a b, b <> [] -> last_start (a ++ b) = last_start b.
Proof.
  induction a as [|x a IH]; intros b H; [reflexivity|]. cbn [app]. rewrite last_start_cons; [auto|].
  destruct a; cbn; congruence.
Qed.
Lemma last_start_in : forall l k, last_start l = Some k -> exists r, In r l /\ r_start r = k.
Proof.
  induction l as [|x l IH]; intros k H; [discriminate|]. destruct l as [|y l].
  - cbn in H. inv H. exists x. split; [left|]; reflexivity.
  - apply IH in H. destruct H as (r & H1 & H2). exists r. split; [right; assumption|assumption].
Qed.

Lemma last_start_none : forall l, last_start l = None -> l = [].
Proof.
  induction l as [|x l IH]; intros H; [reflexivity|]. destruct l as [|y l]; [discriminate|].
  cbn [last_start] in H. apply IH in H. discriminate.
Qed.

(** The record [r] has its size written in front of its data. *)
Definition size_ok (c : common) (r : range) : Prop :=
  c_extra c < r_size r /\ from_bytes (mem_get (c_mem c) (r_start r + c_extra c - 4) 4) = r_size r - c_extra c.

Record cinv (c : common) (U T : list range) : Prop := {
  ci_len : 0 <= c_len c < 2147483648;
  ci_extra : 4 <= c_extra c <= 16;
  ci_layout : layout (U ++ T) (c_nws c) (c_lwe c) (c_len c);
  ci_nrs : c_nrs c = hd_start U;
  ci_cws : c_cws c = last_start U;
  ci_sizes : Forall (size_ok c) (U ++ T);
  ci_pending : c_pending c = false }.

Ltac ci I := first [exact (ci_len _ _ _ I) | exact (ci_extra _ _ _ I) | exact (ci_layout _ _ _ I) | exact (ci_nrs _ _ _ I)
  | exact (ci_cws _ _ _ I) | exact (ci_sizes _ _ _ I) | exact (ci_pending _ _ _ I)].

Lemma load_ok : forall c U T cu r, cinv c U T -> In r (U ++ T) -> rd_start cu c = Some (r_start r) ->
  load_next_read_size c cu = Ok (r_size r - c_extra c).
Proof.
  intros c U T cu r I Hin Hr. unfold load_next_read_size. rewrite Hr. unfold record_size_offset.
  pose proof (ci_len _ _ _ I). pose proof (ci_extra _ _ _ I).
  pose proof (layout_bounds _ _ _ _ _ (ci_layout _ _ _ I) Hin) as (Hb1 & Hb2 & Hb3).
  pose proof (ci_sizes _ _ _ I) as Hs. rewrite Forall_forall in Hs. destruct (Hs _ Hin) as [Hs1 Hs2].
  rewrite add32_ok by lia. rewrite add32_ok by lia.
  replace (c_len c <? r_start r + (c_extra c - 4) + 4) with false by lia.
  replace (r_start r + (c_extra c - 4)) with (r_start r + c_extra c - 4) by lia. rewrite Hs2.
  replace (r_size r - c_extra c =? 0) with false by lia.
  replace (r_start r + c_extra c + (r_size r - c_extra c)) with (r_start r + r_size r) by lia.
  replace (r_start r + r_size r <? U32) with true by (unfold U32; lia).
  replace (c_len c <? r_start r + r_size r) with false by lia. reflexivity.
Qed.

(** Setting the three indices an advancing reader touches. *)
Definition set3 (w l n : option Z) (c : common) : common := set_cws w (set_lwe l (set_nrs n c)).

Lemma start_unique : forall c U T a b, cinv c U T -> forall x y z, U ++ T = x ++ a :: y ++ b :: z -> r_start a <> r_start b.
Proof.
  intros c U T a b I x y z E. pose proof (ci_layout _ _ _ I) as L. rewrite E in L.
  pose proof (layout_disjoint _ _ _ _ _ _ _ _ L) as D.
  assert (Ha: 0 < r_size a) by (eapply (layout_bounds _ _ _ _ _ L); apply in_or_app; right; left; reflexivity).
  assert (Hb: 0 < r_size b) by (eapply (layout_bounds _ _ _ _ _ L); apply in_or_app; right; right; apply in_or_app; right; left; reflexivity).
  unfold disjoint in D. lia.
Qed.

Lemma head_not_last : forall c h U T, cinv c (h :: U) T -> U <> [] -> last_start U <> Some (r_start h).
Proof.
  intros c h U T I Hn H. apply last_start_in in H. destruct H as (r & H1 & H2).
  apply in_split in H1. destruct H1 as (y & z & ->).
  apply (start_unique _ _ _ h r I [] y (z ++ T)); [cbn; rewrite <- app_assoc; reflexivity|]. congruence.
Qed.

Lemma advance_ok : forall c h U T, cinv c (h :: U) T ->
  exists w l n, advance_next_read c (r_size h) CursorNo = Some (set3 w l n c) /\ cinv (set3 w l n c) U T.
Proof.
  intros c h U T I. unfold advance_next_read. cbn [rd_start]. rewrite (ci_nrs _ _ _ I), (ci_cws _ _ _ I). cbn [hd_start hd_error option_map].
  assert (Hin: In h ((h :: U) ++ T)) by (left; reflexivity).
  pose proof (layout_bounds _ _ _ _ _ (ci_layout _ _ _ I) Hin) as (Hb1 & Hb2 & Hb3).
  pose proof (ci_len _ _ _ I).
  assert (Hsz: Forall (size_ok c) (U ++ T)) by (pose proof (ci_sizes _ _ _ I) as Hs; cbn in Hs; inv Hs; assumption).
  destruct U as [|h2 U].
  - cbn [last_start]. rewrite Z.eqb_refl. cbn [negb set_rd_start].
    exists None, (c_lwe c), None. split; [reflexivity|].
    constructor; cbn; try ci I; auto.
    apply (layout_tail h). ci I.
  - destruct (last_start (h :: h2 :: U)) as [k|] eqn:El; [|apply last_start_none in El; discriminate].
    assert (Hk: (r_start h =? k) = false).
    { apply Z.eqb_neq. intros Hk. apply (head_not_last _ _ _ _ I); [discriminate|]. rewrite Hk, <- El. reflexivity. }
    rewrite Hk. cbn [negb]. rewrite add32_ok by lia. rewrite sub32_ok by lia.
    pose proof (layout_next h h2 (U ++ T) _ _ _ (ci_layout _ _ _ I)) as [(E1 & E2 & E3)|(E1 & E2 & E3)].
    + rewrite E1, Z.eqb_refl. cbn [set_rd_start].
      exists (c_cws c), None, (Some 0). split; [destruct c; reflexivity|].
      constructor; cbn; try ci I; auto; try (unfold hd_start; cbn; congruence);
      rewrite (ci_cws _ _ _ I); reflexivity.
    + replace (match c_lwe c with Some l => l =? r_start h + r_size h - 1 | None => false end) with false.
      2:{ destruct (c_lwe c) as [l|]; [|reflexivity]. symmetry. apply Z.eqb_neq. congruence. }
      cbn [set_rd_start]. exists (c_cws c), (c_lwe c), (Some (r_start h + r_size h)). split; [destruct c; reflexivity|].
      constructor; cbn; try ci I; auto; try (unfold hd_start; cbn; congruence);
      rewrite (ci_cws _ _ _ I); reflexivity.
Qed.

(** Changing memory outside the size fields. *)
Lemma cinv_mem : forall c U T m, cinv c U T ->
  (forall r i, In r (U ++ T) -> r_start r + c_extra c - 4 <= i < r_start r + c_extra c -> m i = c_mem c i) ->
  cinv (set_mem m c) U T.
Proof.
  intros c U T m I H. constructor; cbn; try ci I.
  pose proof (ci_sizes _ _ _ I) as Hs. rewrite Forall_forall in *. intros r Hr. destruct (Hs r Hr) as [H1 H2].
  split; [exact H1|]. cbn. rewrite <- H2. f_equal. apply mem_get_ext. intros i Hi. eapply H; [exact Hr|lia].
Qed.

Lemma cinv_stats : forall c U T s, cinv c U T -> cinv (set_stats s c) U T.
Proof. intros c U T s I. constructor; cbn; ci I. Qed.

Lemma cinv_sum : forall c U T, cinv c U T -> Z.of_nat (length U) <= c_len c.
Proof.
  intros c U T I. pose proof (layout_sum _ _ _ _ (ci_layout _ _ _ I)) as [_ H]. rewrite app_length in H. lia.
Qed.

Lemma zero_extra_ok : forall c U T r, cinv c U T -> In r (U ++ T) ->
  exists m, zero_extra_data c (r_start r) = Some (set_mem m c) /\ cinv (set_mem m c) U T /\
    m = mem_set (c_mem c) (r_start r) (repeat 0 (Z.to_nat (c_extra c - 4))) /\
    (forall i, i < r_start r \/ r_start r + c_extra c - 4 <= i -> m i = c_mem c i).
Proof.
  intros c U T r I Hin. unfold zero_extra_data, slice_ok.
  pose proof (layout_bounds _ _ _ _ _ (ci_layout _ _ _ I) Hin) as (Hb1 & Hb2 & Hb3).
  pose proof (ci_extra _ _ _ I). pose proof (ci_sizes _ _ _ I) as Hs. rewrite Forall_forall in Hs. destruct (Hs _ Hin) as [Hs1 _].
  replace (0 <=? r_start r) with true by lia. replace (r_start r <=? r_start r + c_extra c - 4) with true by lia.
  replace (r_start r + c_extra c - 4 <=? c_len c) with true by lia. cbn [andb].
  set (m := mem_set (c_mem c) (r_start r) (repeat 0 (Z.to_nat (c_extra c - 4)))).
  assert (Hm: forall i, i < r_start r \/ r_start r + c_extra c - 4 <= i -> m i = c_mem c i).
  { intros i Hi. unfold m. apply mem_set_out. rewrite repeat_length. lia. }
  exists m. split; [reflexivity|]. split; [|split; [reflexivity|exact Hm]]. apply cinv_mem; [exact I|].
  intros r' i Hr' Hi. apply Hm.
  destruct (Hs _ Hr') as [Hs1' _].
  apply in_split in Hin. destruct Hin as (l1 & l2 & E). rewrite E in Hr'.
  pose proof (ci_layout _ _ _ I) as L. rewrite E in L.
  apply in_app_or in Hr'. destruct Hr' as [Hr'|[<-|Hr']].
  - apply in_split in Hr'. destruct Hr' as (a & b & ->). rewrite <- app_assoc in L. cbn [app] in L.
    apply layout_disjoint in L. unfold disjoint in L. lia.
  - lia.
  - apply in_split in Hr'. destruct Hr' as (a & b & ->). apply layout_disjoint in L. unfold disjoint in L. lia.
Qed.

Definition ow_stats (n b : Z) (st : stats) : stats :=
  mkStats (s_records_written st) (s_bytes_written st) (s_total_bytes_written st)
          (s_records_read st) (s_bytes_read st) (s_total_bytes_read st)
          (s_records_overwritten st + n) (s_bytes_overwritten st + b)
          (s_records_refused st) (s_bytes_refused st)
          (s_total_data_loss st) (s_records_corrupted st).

Definition data_sum (extra : Z) (l : list range) : Z := fold_right (fun r a => (r_size r - extra) + a) 0 l.

(** State after evicting some records: memory, the three indices and the overwrite counters changed. *)
Definition evicted (m : Z -> Z) (w l n : option Z) (k b : Z) (c : common) : common :=
  set_stats (ow_stats k b (c_stats c)) (set3 w l n (set_mem m c)).

Lemma evicted_compose : forall m w l n k b w1 l1 n1 m1 s c,
  evicted m w l n k b (set3 w1 l1 n1 (set_mem m1 (count_overwritten s c))) = evicted m w l n (1 + k) (s + b) c.
Proof.
  intros. destruct c as [mem len nws cws lwe nrs cur wt pd lk sh ex ow rb hc st]. destruct st.
  unfold evicted, set3, ow_stats, count_overwritten. cbn. unfold set_stats. cbn. f_equal. f_equal; lia.
Qed.

Lemma hd_not_hit_all : forall c U T size t, cinv c U T -> is_temp (c_nws c) (c_len c) size t ->
  match U ++ T with [] => True | h :: _ => hits (c_len c) t h = false end ->
  forall r, In r (U ++ T) -> hits (c_len c) t r = false.
Proof.
  intros c U T size t I Ht Hh r Hr. pose proof (ci_layout _ _ _ I) as L.
  destruct (U ++ T) as [|h E]; [contradiction|]. eapply head_not_hit_none; eassumption.
Qed.

(** The eviction loop of [advance_next_read_due_to_write] in overwriting mode. *)
Lemma evict_loop : forall U fuel cb busy c T t size block, (length U < fuel)%nat -> cinv c U T ->
  is_temp (c_nws c) (c_len c) size t -> c_ow c = OYes ->
  exists ev U' m w l n, U = ev ++ U' /\
    let c' := evicted m w l n (Z.of_nat (length ev)) (data_sum (c_extra c) ev) c in
    advance_due_to_write fuel cb busy c t block = (c', Ok tt) /\ cinv c' U' T /\
    match U' with [] => True | h :: _ => hits (c_len c) t h = false end /\
    (forall i, (forall r, In r ev -> i < r_start r \/ r_start r + c_extra c - 4 <= i) -> m i = c_mem c i) /\
    (forall e, In e ev -> hits (c_len c) t e = true) /\
    (forall pre e, ev = pre ++ [e] -> c_len c < size_sum (e :: U' ++ T) + size + size_max size (e :: U' ++ T)).
Proof.
  induction U as [|h U IH]; intros fuel cb busy c T t size block Hf I Ht How; (destruct fuel as [|fuel]; [cbn in Hf; lia|]).
  - exists [], [], (c_mem c), (c_cws c), (c_lwe c), (c_nrs c). split; [reflexivity|]. cbn zeta.
    assert (Hc: evicted (c_mem c) (c_cws c) (c_lwe c) (c_nrs c) (Z.of_nat (@length range [])) (data_sum (c_extra c) []) c = c).
    { destruct c, c_stats. unfold evicted, ow_stats, set3. cbn. rewrite !Z.add_0_r. reflexivity. }
    rewrite Hc. splits; auto.
    + cbn [advance_due_to_write]. rewrite (ci_nrs _ _ _ I). reflexivity.
    + intros pre e E. destruct pre; discriminate.
  - assert (Hin: In h ((h :: U) ++ T)) by (left; reflexivity).
    assert (Hn: c_nrs c = Some (r_start h)) by (rewrite (ci_nrs _ _ _ I); reflexivity).
    cbn [advance_due_to_write]. rewrite Hn.
    rewrite (load_ok _ _ _ CursorNo h I Hin Hn).
    replace (r_size h - c_extra c + c_extra c) with (r_size h) by lia.
    replace (mkRange (r_start h) (r_size h)) with h by (destruct h; reflexivity).
    rewrite intersect_reservation_hits.
    destruct (hits (c_len c) t h) eqn:Hh.
    + rewrite How.
      set (c1 := count_overwritten (r_size h - c_extra c) c).
      assert (I1: cinv c1 (h :: U) T) by (apply cinv_stats; exact I).
      destruct (zero_extra_ok c1 _ _ h I1 Hin) as (m1 & Ez & I2 & _ & Hm1). rewrite Ez.
      destruct (advance_ok _ _ _ _ I2) as (w1 & l1 & n1 & Ea & I3). rewrite Ea.
      destruct (IH fuel cb busy (set3 w1 l1 n1 (set_mem m1 c1)) T t size block) as (ev & U' & m & w & l & n & EU & E1 & E2 & E3 & E4 & E6 & E5).
      { cbn in Hf. lia. } { exact I3. } { exact Ht. } { exact How. }
      exists (h :: ev), U', m, w, l, n. split; [cbn; congruence|]. cbn zeta.
      assert (Hc: evicted m w l n (Z.of_nat (length (h :: ev))) (data_sum (c_extra c) (h :: ev)) c =
                  evicted m w l n (Z.of_nat (length ev)) (data_sum (c_extra c) ev) (set3 w1 l1 n1 (set_mem m1 c1))).
      { unfold c1. rewrite evicted_compose. f_equal; unfold data_sum; cbn; lia. }
      rewrite Hc. splits.
      * exact E1.
      * exact E2.
      * exact E3.
      * intros i Hi. rewrite E4; [apply Hm1|].
        -- exact (Hi h (or_introl eq_refl)).
        -- intros r Hr. exact (Hi r (or_intror Hr)).
      * intros e [<-|He]; [exact Hh|]. exact (E6 e He).
      * intros pre e E. destruct pre as [|p pre].
        -- cbn in E. injection E as Eh Ee. subst e. rewrite Ee in EU. cbn [app] in EU. subst U.
           exact (hit_no_room h (U' ++ T) _ _ _ size t (ci_layout _ _ _ I) Ht Hh).
        -- cbn in E. injection E as Eh Ee. exact (E5 pre e Ee).
    + exists [], (h :: U), (c_mem c), (c_cws c), (c_lwe c), (c_nrs c). split; [reflexivity|]. cbn zeta.
      assert (Hc: evicted (c_mem c) (c_cws c) (c_lwe c) (c_nrs c) (Z.of_nat (@length range [])) (data_sum (c_extra c) []) c = c).
      { destruct c, c_stats. unfold evicted, ow_stats, set3. cbn. rewrite !Z.add_0_r. reflexivity. }
      rewrite Hc. splits; auto.
      intros pre e E. destruct pre; discriminate.
Qed.

(** Blocking mode. *)
Lemma block_loop : forall U fuel cb busy c T t size block, cinv c U T ->
  is_temp (c_nws c) (c_len c) size t -> c_ow c = OBlock ->
  advance_due_to_write (S fuel) cb busy c t block =
  (c, match U with
      | [] => Ok tt
      | h :: _ => if hits (c_len c) t h then (if negb block then Err Unavailable else if c_shutdown c then Err Aborted else Err WouldBlock)
                  else Ok tt
      end).
Proof.
  intros U fuel cb busy c T t size block I Ht How. cbn [advance_due_to_write].
  rewrite (ci_nrs _ _ _ I). destruct U as [|h U]; [reflexivity|]. cbn [hd_start hd_error option_map].
  assert (Hin: In h ((h :: U) ++ T)) by (left; reflexivity).
  assert (Hn: c_nrs c = Some (r_start h)) by (rewrite (ci_nrs _ _ _ I); reflexivity).
  rewrite (load_ok _ _ _ CursorNo h I Hin Hn).
  replace (r_size h - c_extra c + c_extra c) with (r_size h) by lia.
  replace (mkRange (r_start h) (r_size h)) with h by (destruct h; reflexivity).
  rewrite intersect_reservation_hits.
  destruct (hits (c_len c) t h); [|reflexivity]. rewrite How. destruct block; cbn; [|reflexivity]. destruct (c_shutdown c); reflexivity.
Qed.

(** The tail of [reserve]: publish the indices and write the record header. *)
Definition reserved (c : common) (t : temp) (size : Z) : option (common * Z) :=
  let c := set_nws (t_nws t) c in
  let c := match t_lwe t with Some l => set_lwe (Some l) c | None => c end in
  finish_reservation c (t_range t) size.

Lemma is_temp_bounds : forall W N size t, 0 <= W <= N -> is_temp W N size t ->
  0 <= r_start (t_range t) /\ r_start (t_range t) + r_size (t_range t) <= N /\ r_size (t_range t) = size.
Proof. intros W N size t HW [Hs [[Hw ->]|[Hw ->]]]; cbn; lia. Qed.

Lemma not_hit_disjoint : forall N t r, hits N t r = false -> disjoint r (t_range t).
Proof. intros N t r H. unfold hits in H. apply orb_false_iff in H. apply intersect_false. apply H. Qed.

Lemma reserved_ok : forall c U T t size, cinv c U T ->
  is_temp (c_nws c) (c_len c) (size + c_extra c) t -> 0 < size ->
  (forall r, In r (U ++ T) -> hits (c_len c) t r = false) ->
  exists m, reserved c t size = Some (set_mem m (set_lwe (lwe_after (c_lwe c) t) (set_nws (t_nws t) c)), r_start (t_range t) + c_extra c) /\
    cinv (set_mem m (set_lwe (lwe_after (c_lwe c) t) (set_nws (t_nws t) c))) U (T ++ [t_range t]) /\
    (forall i, i < r_start (t_range t) \/ r_start (t_range t) + c_extra c <= i -> m i = c_mem c i) /\
    (forall i, r_start (t_range t) <= i < r_start (t_range t) + c_extra c - 4 -> m i = 0).
Proof.
  intros c U T t size I Ht Hsz Hn.
  pose proof (layout_nws _ _ _ _ (ci_layout _ _ _ I)) as HW.
  pose proof (is_temp_bounds _ _ _ _ HW Ht) as (B1 & B2 & B3).
  pose proof (ci_len _ _ _ I) as HL. pose proof (ci_extra _ _ _ I) as HE.
  pose proof (layout_push _ _ _ _ _ _ (ci_layout _ _ _ I) Ht Hn) as L.
  set (s := r_start (t_range t)) in *. set (x := c_extra c) in *.
  set (m1 := mem_set (c_mem c) (s + (x - 4)) (to_bytes size)).
  set (m2 := mem_set m1 s (repeat 0 (Z.to_nat (x - 4)))).
  assert (M1: forall i, i < s \/ s + x <= i -> m2 i = c_mem c i).
  { intros i Hi. unfold m2. rewrite mem_set_out by (rewrite repeat_length; lia).
    unfold m1. apply mem_set_out. rewrite to_bytes_length. lia. }
  assert (M2: forall i, s <= i < s + x - 4 -> m2 i = 0).
  { intros i Hi. unfold m2. rewrite mem_set_in by (rewrite repeat_length; lia). apply nth_repeat. }
  assert (M3: mem_get m2 (s + x - 4) 4 = to_bytes size).
  { unfold m2. rewrite mem_get_set_disj by (rewrite repeat_length; lia).
    unfold m1. replace (s + x - 4) with (s + (x - 4)) by lia. apply mem_get_set_same. reflexivity. }
  exists m2. split; [|split; [|split; [exact M1|exact M2]]].
  - unfold reserved, finish_reservation, record_size_offset.
    set (c1 := set_nws (t_nws t) c).
    set (c2 := match t_lwe t with Some l => set_lwe (Some l) c1 | None => c1 end).
    assert (C2e: c_extra c2 = x) by (unfold c2; destruct (t_lwe t); reflexivity).
    assert (C2l: c_len c2 = c_len c) by (unfold c2; destruct (t_lwe t); reflexivity).
    assert (C2m: c_mem c2 = c_mem c) by (unfold c2; destruct (t_lwe t); reflexivity).
    assert (C2w: c_lwe c2 = match t_lwe t with Some l => Some l | None => c_lwe c end) by (unfold c2; destruct (t_lwe t); reflexivity).
    rewrite C2e. fold s. rewrite add32_ok by lia.
    unfold zero_extra_data, slice_ok. cbn [set_mem c_len c_extra c_mem c_lwe].
    rewrite C2e, C2l, C2m.
    replace (0 <=? s + (x - 4)) with true by lia. replace (s + (x - 4) <=? s + (x - 4) + 4) with true by lia.
    replace (s + (x - 4) + 4 <=? c_len c) with true by lia. cbn [andb negb].
    replace (0 <=? s) with true by lia. replace (s <=? s + x - 4) with true by lia. replace (s + x - 4 <=? c_len c) with true by lia.
    cbn [andb]. fold m1. fold m2. cbn [set_mem c_len c_extra c_mem c_lwe]. rewrite C2w, ?C2e.
    assert (Hlwe: lwe_after (c_lwe c) t = match (match t_lwe t with Some l => Some l | None => c_lwe c end) with
       | Some l => if l <? s + size + x - 1 then None else Some l | None => None end).
    { unfold lwe_after. fold s. rewrite B3. fold x. replace (s + (size + x) - 1) with (s + size + x - 1) by lia. reflexivity. }
    rewrite Hlwe. clear Hlwe.
    assert (F: forall (c3 : common), c_extra c3 = x -> c_len c3 = c_len c ->
      (if (0 <=? s + c_extra c3) && (s + c_extra c3 <=? s + c_extra c3 + size) && (s + c_extra c3 + size <=? c_len c3)
       then Some (c3, s + c_extra c3) else None) = Some (c3, s + x)).
    { intros c3 F1 F2. rewrite F1, F2. replace (0 <=? s + x) with true by lia. replace (s + x <=? s + x + size) with true by lia.
      replace (s + x + size <=? c_len c) with true by lia. reflexivity. }
    destruct (t_lwe t) as [l|] eqn:El.
    + rewrite F; [|destruct (l <? s + size + x - 1); exact C2e|destruct (l <? s + size + x - 1); exact C2l].
      f_equal. f_equal. unfold c2, c1. destruct (l <? s + size + x - 1); reflexivity.
    + destruct (c_lwe c) as [l|] eqn:El2.
      * rewrite F; [|destruct (l <? s + size + x - 1); exact C2e|destruct (l <? s + size + x - 1); exact C2l].
        f_equal. f_equal. unfold c2, c1. destruct (l <? s + size + x - 1); [reflexivity|]. destruct c; cbn in *; subst; reflexivity.
      * rewrite F; [|exact C2e|exact C2l]. f_equal. f_equal. unfold c2, c1. destruct c; cbn in *; subst; reflexivity.
  - constructor; cbn; try ci I.
    + rewrite app_assoc. exact L.
    + rewrite app_assoc. apply Forall_app. split.
      * pose proof (ci_sizes _ _ _ I) as Hs. rewrite Forall_forall in *. intros r Hr. destruct (Hs r Hr) as [S1 S2].
        split; [exact S1|]. cbn. rewrite <- S2. f_equal. apply mem_get_ext. intros i Hi. apply M1.
        pose proof (not_hit_disjoint _ _ _ (Hn r Hr)) as D. unfold disjoint in D. fold s in D. fold x in S1, Hi. lia.
      * constructor; [|constructor]. split; cbn; [lia|]. fold x s. rewrite M3, B3. rewrite from_to_bytes by lia. lia.
Qed.

(** Publishing a committed record. *)
Lemma cinv_commit : forall c U r T, cinv c U (r :: T) -> cinv (advance_committed c r) (U ++ [r]) T.
Proof.
  intros c U r T I. unfold advance_committed. apply cinv_stats.
  assert (H: forall x, cinv x (U ++ [r]) T -> cinv (match c_cur x with None => set_cur (c_cws x) x | Some _ => x end) (U ++ [r]) T).
  { intros x Ix. destruct (c_cur x); [exact Ix|]. constructor; cbn; ci Ix. }
  apply H. clear H.
  assert (Hf: (U ++ [r]) ++ T = U ++ r :: T) by (rewrite <- app_assoc; reflexivity).
  destruct (c_nrs (set_cws (Some (r_start r)) c)) as [k|] eqn:En; cbn in En.
  - pose proof (ci_nrs _ _ _ I) as Hn. rewrite En in Hn. destruct U as [|h U]; [discriminate|].
    constructor; cbn [set_cws c_len c_extra c_nws c_lwe c_nrs c_cws c_pending]; try ci I.
    + rewrite Hf. ci I.
    + rewrite last_start_snoc. reflexivity.
    + rewrite Hf. apply (ci_sizes _ _ _ I).
  - pose proof (ci_nrs _ _ _ I) as Hn. rewrite En in Hn. destruct U as [|h U]; [|discriminate].
    constructor; cbn; try ci I; reflexivity.
Qed.
