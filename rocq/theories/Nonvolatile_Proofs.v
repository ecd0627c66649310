From Verif Require Import Base Ring_Model Ring_Layout Ring_Proofs Nonvolatile_Model Nonvolatile_Spec.
Open Scope Z_scope.

(** * Small facts *)
Lemma F2_app_inv_l : forall (A B : Type) (P : A -> B -> Prop) a1 a2 b, Forall2 P (a1 ++ a2) b ->
  exists b1 b2, b = b1 ++ b2 /\ Forall2 P a1 b1 /\ Forall2 P a2 b2.
Proof. intros. apply Forall2_app_inv_l in H. destruct H as (b1 & b2 & H1 & H2 & H3). exists b1, b2. auto. Qed.
Lemma F2_app_inv_r : forall (A B : Type) (P : A -> B -> Prop) a b1 b2, Forall2 P a (b1 ++ b2) ->
  exists a1 a2, a = a1 ++ a2 /\ Forall2 P a1 b1 /\ Forall2 P a2 b2.
Proof. intros. apply Forall2_app_inv_r in H. destruct H as (b3 & b4 & H1 & H2 & H3). exists b3, b4. auto. Qed.
Lemma F2_impl : forall (A B : Type) (P Q : A -> B -> Prop) l l', (forall a b, In a l -> In b l' -> P a b -> Q a b) -> Forall2 P l l' -> Forall2 Q l l'.
Proof.
  intros A B P Q l l' H F. induction F; constructor.
  - apply H; [left; reflexivity|left; reflexivity|assumption].
  - apply IHF. intros a b Ha Hb. apply H; right; assumption.
Qed.
Lemma F2_length : forall (A B : Type) (P : A -> B -> Prop) l l', Forall2 P l l' -> length l = length l'.
Proof. intros A B P l l' F. induction F; cbn; congruence. Qed.
Lemma F2_nil : forall (A B : Type) (P : A -> B -> Prop) l l', Forall2 P l l' -> (l = [] <-> l' = []).
Proof. intros A B P l l' F. destruct F; split; congruence. Qed.

Lemma to_from_bytes : forall l, length l = 4%nat -> Forall (fun b => 0 <= b < 256) l -> to_bytes (from_bytes l) = l.
Proof.
  intros l Hl F. destruct l as [|a [|b [|c [|d [|? ?]]]]]; try discriminate. inv F. inv H2. inv H4. inv H5.
  unfold to_bytes, from_bytes. cbn [nth].
  assert (E1: (a + 256 * b + 65536 * c + 16777216 * d) / 256 = b + 256 * c + 65536 * d) by lia.
  assert (E2: (a + 256 * b + 65536 * c + 16777216 * d) / 65536 = c + 256 * d) by lia.
  assert (E3: (a + 256 * b + 65536 * c + 16777216 * d) / 16777216 = d) by lia.
  rewrite E1, E2, E3. repeat f_equal; lia.
Qed.
Lemma to_bytes_range : forall z, Forall (fun b => 0 <= b < 256) (to_bytes z).
Proof. intros z. unfold to_bytes. repeat (constructor; [lia|]). constructor. Qed.
Lemma from_bytes_range : forall l, Forall (fun b => 0 <= b < 256) l -> (length l <= 4)%nat -> 0 <= from_bytes l < U32.
Proof.
  intros l F Hl. unfold from_bytes, U32. destruct l as [|a [|b [|c [|d [|? ?]]]]]; cbn [nth length] in *;
  repeat match goal with H : Forall _ (_ :: _) |- _ => inv H end; try lia.
Qed.

Lemma layout_drop : forall A B W l N, layout (A ++ B) W l N -> layout B W l N.
Proof. induction A as [|h A IH]; intros B W l N L; [exact L|]. apply IH. cbn [app] in L. eapply layout_tail. exact L. Qed.
Lemma cinv_forget : forall c T R, cinv c [] (T ++ R) -> cinv c [] R.
Proof.
  intros c T R I. constructor; try ci I.
  - cbn [app]. eapply layout_drop. exact (ci_layout _ _ _ I).
  - pose proof (ci_sizes _ _ _ I) as H. cbn [app] in *. apply Forall_app in H. apply H.
Qed.

Lemma cinv_commit_all : forall c U D r, cinv c U (D ++ [r]) -> (U = [] -> D = []) -> cinv (advance_committed c r) (U ++ D ++ [r]) [].
Proof.
  intros c U D r I Ht. destruct U as [|h U].
  - rewrite (Ht eq_refl) in *. apply (cinv_commit c [] r []). exact I.
  - unfold advance_committed. apply cinv_stats.
    assert (H: forall x l, cinv x l [] -> cinv (match c_cur x with None => set_cur (c_cws x) x | Some _ => x end) l []).
    { intros x l Ix. destruct (c_cur x); [exact Ix|]. constructor; cbn; ci Ix. }
    apply H. clear H.
    assert (En: c_nrs (set_cws (Some (r_start r)) c) = Some (r_start h)) by (cbn; rewrite (ci_nrs _ _ _ I); reflexivity).
    rewrite En. constructor; cbn [set_cws c_len c_extra c_nws c_lwe c_nrs c_cws c_pending]; try ci I.
    + rewrite app_nil_r. ci I.
    + rewrite app_assoc, last_start_snoc. reflexivity.
    + rewrite app_nil_r. apply (ci_sizes _ _ _ I).
Qed.

(** Two different records of a layout are disjoint. *)
Lemma layout_disj_app : forall A B W l N x y, layout (A ++ B) W l N -> In x A -> In y B -> disjoint x y.
Proof.
  intros A B W l N x y L Hx Hy. apply in_split in Hx. destruct Hx as (a1 & a2 & ->). apply in_split in Hy. destruct Hy as (b1 & b2 & ->).
  rewrite <- app_assoc in L. cbn [app] in L. rewrite app_assoc in L. eapply layout_disjoint. exact L.
Qed.
Lemma disjoint_sym : forall a b, disjoint a b -> disjoint b a.
Proof. unfold disjoint. tauto. Qed.

(** * The relation between buffer and queue *)
Definition stored (c : common) (r : range) (d : list Z) : Prop :=
  r_size r = Z.of_nat (length d) + c_extra c /\
  mem_get (c_mem c) (r_start r + (c_extra c - 4)) (r_size r - (c_extra c - 4)) = to_bytes (Z.of_nat (length d)) ++ d.

Definition sum_stored (check : bool) (c : common) (r : range) (s : Z) : Prop :=
  0 <= s < U32 /\ (check = true -> mem_get (c_mem c) (r_start r) 4 = to_bytes s).

Definition erel (check : bool) (c : common) (r : range) (e : entry) : Prop :=
  stored c r (e_data e) /\ sum_stored check c r (e_sum e).

Lemma stored_mem : forall c m r d, stored c r d -> 4 <= c_extra c ->
  (forall i, r_start r + c_extra c - 4 <= i < r_start r + r_size r -> m i = c_mem c i) -> stored (set_mem m c) r d.
Proof.
  intros c m r d [H1 H2] Hx H. split; [exact H1|]. cbn. rewrite <- H2. apply mem_get_ext. intros i Hi. apply H. lia.
Qed.
Lemma stored_same : forall c c' r d, c_mem c' = c_mem c -> c_extra c' = c_extra c -> stored c r d -> stored c' r d.
Proof. intros c c' r d E1 E2 [H1 H2]. unfold stored. rewrite E1, E2. auto. Qed.
Lemma erel_mem : forall check c m r e, erel check c r e -> c_extra c = (if check then 8 else 4) ->
  (forall i, r_start r <= i < r_start r + r_size r -> m i = c_mem c i) -> erel check (set_mem m c) r e.
Proof.
  intros check c m r e [H1 [H2 H3]] Hx H. split; [|split; [exact H2|]].
  - apply stored_mem; [exact H1|destruct check; lia|]. intros i Hi. apply H. destruct check; lia.
  - intros Hc. rewrite Hc in Hx. cbn. rewrite <- (H3 Hc). apply mem_get_ext. intros i Hi. apply H.
    destruct H1 as [H1 _]. lia.
Qed.
Lemma erel_same : forall check c c' r e, c_mem c' = c_mem c -> c_extra c' = c_extra c -> erel check c r e -> erel check c' r e.
Proof.
  intros check c c' r e E1 E2 [H1 [H2 H3]]. split; [eapply stored_same; eassumption|]. split; [exact H2|]. rewrite E1. exact H3.
Qed.

Lemma mem_get_app : forall m a n1 n2, 0 <= n1 -> 0 <= n2 -> mem_get m a (n1 + n2) = mem_get m a n1 ++ mem_get m (a + n1) n2.
Proof.
  intros m a n1 n2 H1 H2. apply nth_ext_len.
  - rewrite app_length, !mem_get_length. lia.
  - intros i Hi. rewrite mem_get_length in Hi. rewrite nth_mem_get by assumption.
    destruct (Nat.lt_ge_cases i (Z.to_nat n1)) as [Hl|Hl].
    + rewrite app_nth1 by (rewrite mem_get_length; exact Hl). rewrite nth_mem_get by assumption. reflexivity.
    + rewrite app_nth2 by (rewrite mem_get_length; exact Hl). rewrite mem_get_length, nth_mem_get by lia. f_equal. lia.
Qed.

Lemma stored_data : forall c r d, stored c r d -> 4 <= c_extra c ->
  mem_get (c_mem c) (r_start r + c_extra c) (r_size r - c_extra c) = d.
Proof.
  intros c r d [H1 H2] Hx.
  assert (Hn: Z.to_nat (r_size r - (c_extra c - 4)) = (4 + length d)%nat) by lia.
  unfold mem_get in *. rewrite Hn in H2. replace (Z.to_nat (r_size r - c_extra c)) with (length d) by lia.
  change (to_bytes (Z.of_nat (length d)) ++ d) with ([Z.of_nat (length d) mod 256; (Z.of_nat (length d) / 256) mod 256; (Z.of_nat (length d) / 65536) mod 256; (Z.of_nat (length d) / 16777216) mod 256] ++ d) in H2.
  cbn [Nat.add seq map app] in H2. injection H2 as _ _ _ _ H2. rewrite <- H2 at 2.
  rewrite <- (seq_shift (length d) 3), <- (seq_shift (length d) 2), <- (seq_shift (length d) 1), <- (seq_shift (length d) 0), !map_map.
  apply map_ext. intros i. f_equal. lia.
Qed.

(** * Counting *)
Definition moved (k : config) (c c' : common) (s s' : queue) : Prop :=
  forall b, counted (k_extra k) b (c_stats c) s -> counted (k_extra k) b (c_stats c') s'.

Lemma moved_trans : forall k c c' c'' s s' s'', moved k c c' s s' -> moved k c' c'' s' s'' -> moved k c c'' s s''.
Proof. unfold moved. auto. Qed.

Lemma weigh_app : forall w a b, weigh w (a ++ b) = weigh w a + weigh w b.
Proof. intros w a b. unfold weigh. induction a as [|e a IH]; [reflexivity|]. cbn. rewrite IH. lia. Qed.
Lemma weigh_done_app : forall w a b, weigh w (filter e_done (a ++ b)) = weigh w (filter e_done a) + weigh w (filter e_done b).
Proof. intros. rewrite filter_app. apply weigh_app. Qed.
Lemma fate_app : forall f w a b, weigh w (map snd (filter (fun p => fate_is f (fst p)) (a ++ b))) =
  weigh w (map snd (filter (fun p => fate_is f (fst p)) a)) + weigh w (map snd (filter (fun p => fate_is f (fst p)) b)).
Proof. intros. rewrite filter_app, map_app. apply weigh_app. Qed.
Lemma fate_all : forall f g (l : list entry), filter (fun p => fate_is f (fst p)) (map (pair g) l) = if fate_is f g then map (pair g) l else [].
Proof.
  intros f g l. induction l as [|e l IH]; [destruct (fate_is f g); reflexivity|]. cbn. rewrite IH. destruct (fate_is f g); reflexivity.
Qed.
Lemma map_snd_pair : forall (A B : Type) (a : A) (l : list B), map snd (map (pair a) l) = l.
Proof. intros. rewrite map_map. apply map_id. Qed.

Lemma tally_leave : forall f w fs u s, f <> Forgotten ->
  tally f w (leave fs u s) = tally f w s + weigh w (map snd (filter (fun p => fate_is f (fst p)) fs)).
Proof.
  intros f w fs u s Hf. unfold tally, leave. destruct u; cbn [q_past]; rewrite !fate_app; [|reflexivity].
  rewrite fate_all. destruct f; try congruence; cbn; lia.
Qed.
Lemma tally_leave_all : forall f g w l u s, f <> Forgotten ->
  tally f w (leave (map (pair g) l) u s) = tally f w s + (if fate_is f g then weigh w l else 0).
Proof.
  intros f g w l u s Hf. rewrite tally_leave by exact Hf. rewrite fate_all. destruct (fate_is f g); [rewrite map_snd_pair|]; reflexivity.
Qed.

(** Two records that differ in the checksum only. *)
Definition same_bytes (a b : entry) : Prop := e_data a = e_data b /\ e_done a = e_done b.
Lemma weigh_same : forall w a b, Forall2 same_bytes a b -> weigh w (filter e_done a) = weigh w (filter e_done b).
Proof.
  intros w a b F. induction F as [|x y a b [H1 H2] F IH]; [reflexivity|]. cbn. rewrite H2. destruct (e_done y); [|exact IH]. cbn. rewrite H1. 
  unfold weigh in IH. rewrite IH. reflexivity.
Qed.
Lemma same_bytes_refl : forall l, Forall2 same_bytes l l.
Proof. induction l; constructor; [split; reflexivity|assumption]. Qed.

Lemma committed_leave : forall w fs u s, Forall2 same_bytes (q_unread s) (map snd fs ++ u) -> committed w (leave fs u s) = committed w s.
Proof.
  intros w fs u s F. pose proof (weigh_same w _ _ F) as E. rewrite weigh_done_app in E. unfold committed, leave.
  destruct u; cbn [q_past q_unread q_gone]; rewrite ?map_app, ?map_snd_pair, ?weigh_done_app; cbn [filter app weigh fold_right] in *; rewrite ?weigh_done_app in *.
  - cbn [weigh fold_right] in *. lia.
  - lia.
Qed.

(** The counters the relation speaks about. *)
Definition acct (st : stats) : list Z :=
  [s_records_written st; s_bytes_written st; s_total_bytes_written st; s_records_read st; s_bytes_read st; s_total_bytes_read st;
   s_records_overwritten st; s_bytes_overwritten st; s_records_corrupted st].
Lemma moved_same : forall k c c' s s', acct (c_stats c') = acct (c_stats c) -> (forall f w, f <> Forgotten -> tally f w s' = tally f w s) ->
  (forall w, committed w s' = committed w s) -> moved k c c' s s'.
Proof.
  intros k c c' s s' E T C b [H1 H2 H3 H4 H5 H6 H7 H8 H9]. unfold acct in E. injection E as E1 E2 E3 E4 E5 E6 E7 E8 E9.
  constructor; rewrite ?E1, ?E2, ?E3, ?E4, ?E5, ?E6, ?E7, ?E8, ?E9, ?C, ?T by discriminate; assumption.
Qed.
Lemma moved_fields : forall k c c' s s', acct (c_stats c') = acct (c_stats c) -> q_past s' = q_past s -> q_unread s' = q_unread s -> q_gone s' = q_gone s ->
  moved k c c' s s'.
Proof.
  intros k c c' s s' E H1 H2 H3. apply moved_same; [exact E| |].
  - intros f w _. unfold tally. rewrite H1. reflexivity.
  - intros w. unfold committed. rewrite H1, H2, H3. reflexivity.
Qed.

Lemma data_sum_weigh : forall k c ev lost, Forall2 (erel (k_check k) c) ev lost -> data_sum (c_extra c) ev = weigh size_of lost /\ Z.of_nat (length ev) = weigh one lost.
Proof.
  intros k c ev lost F. induction F as [|r e ev lost H F [IH1 IH2]]; [split; reflexivity|].
  cbn [length data_sum weigh fold_right]. fold (data_sum (c_extra c) ev). fold (weigh size_of lost). fold (weigh one lost).
  rewrite IH1. destruct H as [[H _] _]. change (size_of (e_data e)) with (Z.of_nat (length (e_data e))). change (one (e_data e)) with 1. split; lia.
Qed.

(** Eviction, release and passing over, with their counters. *)
Lemma moved_lost : forall k c c' s lost kept ev m w l x, Forall2 (erel (k_check k) c) ev lost -> q_unread s = lost ++ kept ->
  c_stats c' = c_stats (evicted m w l x (Z.of_nat (length ev)) (data_sum (c_extra c) ev) c) ->
  moved k c c' s (leave (map (pair Overwritten) lost) kept s).
Proof.
  intros k c c' s lost kept ev m w l x F E Hc b [H1 H2 H3 H4 H5 H6 H7 H8 H9]. rewrite Hc. destruct (data_sum_weigh _ _ _ _ F) as [D1 D2]. rewrite D1, D2.
  assert (C: forall w, committed w (leave (map (pair Overwritten) lost) kept s) = committed w s).
  { intros w0. apply committed_leave. rewrite map_snd_pair, E. apply same_bytes_refl. }
  constructor; cbn [evicted set_stats c_stats ow_stats s_records_written s_bytes_written s_total_bytes_written s_records_read s_bytes_read s_total_bytes_read
   s_records_overwritten s_bytes_overwritten s_records_corrupted]; rewrite ?C, ?tally_leave_all by discriminate; cbn [fate_is]; lia.
Qed.

Lemma moved_read : forall k c c' s e l h, stored c h (e_data e) -> c_extra c = k_extra k -> q_unread s = e :: l ->
  acct (c_stats c') = (let st := c_stats c in [s_records_written st; s_bytes_written st; s_total_bytes_written st;
    s_records_read st + 1; s_bytes_read st + (r_size h - c_extra c); s_total_bytes_read st + r_size h;
    s_records_overwritten st; s_bytes_overwritten st; s_records_corrupted st]) ->
  moved k c c' s (leave [(Consumed, e)] l s).
Proof.
  intros k c c' s e l h [Hs _] Hx E Hc b [H1 H2 H3 H4 H5 H6 H7 H8 H9]. unfold acct in Hc. injection Hc as E1 E2 E3 E4 E5 E6 E7 E8 E9.
  assert (C: forall w, committed w (leave [(Consumed, e)] l s) = committed w s).
  { intros w0. apply committed_leave. rewrite E. apply same_bytes_refl. }
  change [(Consumed, e)] with (map (pair Consumed) [e]) in *.
  constructor; rewrite ?C, ?tally_leave_all by discriminate; cbn [fate_is weigh fold_right]; change (one (e_data e)) with 1; change (size_of (e_data e)) with (Z.of_nat (length (e_data e)));
    change (need (k_extra k) (e_data e)) with (Z.of_nat (length (e_data e)) + k_extra k); lia.
Qed.

Lemma moved_skip : forall k c c' s e l h, stored c h (e_data e) -> c_extra c = k_extra k -> q_unread s = e :: l ->
  acct (c_stats c') = (let st := c_stats c in [s_records_written st; s_bytes_written st; s_total_bytes_written st;
    s_records_read st + 1; s_bytes_read st + (r_size h - c_extra c); s_total_bytes_read st + r_size h;
    s_records_overwritten st; s_bytes_overwritten st; s_records_corrupted st + 1]) ->
  moved k c c' s (leave [(Skipped, e)] l s).
Proof.
  intros k c c' s e l h [Hs _] Hx E Hc b [H1 H2 H3 H4 H5 H6 H7 H8 H9]. unfold acct in Hc. injection Hc as E1 E2 E3 E4 E5 E6 E7 E8 E9.
  assert (C: forall w, committed w (leave [(Skipped, e)] l s) = committed w s).
  { intros w0. apply committed_leave. rewrite E. apply same_bytes_refl. }
  change [(Skipped, e)] with (map (pair Skipped) [e]) in *.
  constructor; rewrite ?C, ?tally_leave_all by discriminate; cbn [fate_is weigh fold_right]; change (one (e_data e)) with 1; change (size_of (e_data e)) with (Z.of_nat (length (e_data e)));
    change (need (k_extra k) (e_data e)) with (Z.of_nat (length (e_data e)) + k_extra k); lia.
Qed.

Lemma moved_commit : forall k c c' s s' i d x r, stored c r d -> c_extra c = k_extra k ->
  s' = mkQ (q_unread s ++ q_gone s ++ [mkEntry i d x true]) [] None (q_next s) (q_prod s) (q_wait s) (q_reader s) (q_sync s) (q_locks s) (q_shut s) (q_past s) ->
  acct (c_stats c') = (let st := c_stats c in [s_records_written st + 1; s_bytes_written st + (r_size r - c_extra c); s_total_bytes_written st + r_size r;
    s_records_read st; s_bytes_read st; s_total_bytes_read st;
    s_records_overwritten st; s_bytes_overwritten st; s_records_corrupted st]) ->
  moved k c c' s s'.
Proof.
  intros k c c' s s' i d x r [Hs _] Hx -> Hc b [H1 H2 H3 H4 H5 H6 H7 H8 H9]. unfold acct in Hc. injection Hc as E1 E2 E3 E4 E5 E6 E7 E8 E9.
  assert (C: forall w, committed w (mkQ (q_unread s ++ q_gone s ++ [mkEntry i d x true]) [] None (q_next s) (q_prod s) (q_wait s) (q_reader s) (q_sync s) (q_locks s) (q_shut s) (q_past s)) = committed w s + w d).
  { intros w. unfold committed. cbn [q_past q_unread q_gone]. rewrite app_nil_r, !weigh_done_app. cbn [filter e_done weigh fold_right e_data]. lia. }
  constructor; rewrite ?C; change (one d) with 1; change (size_of d) with (Z.of_nat (length d)); change (need (k_extra k) d) with (Z.of_nat (length d) + k_extra k);
    unfold tally in *; cbn [q_past]; lia.
Qed.
Lemma moved_abandon : forall k c s, (q_unread s = [] -> q_gone s = []) -> moved k c c s (abandon s).
Proof.
  intros k c s G. unfold abandon. destruct (q_slot s) as [[i d]|]; [|apply moved_fields; reflexivity].
  destruct (q_unread s) as [|e l] eqn:E.
  - specialize (G eq_refl). apply moved_same; [reflexivity| |].
    + intros f w Hf. unfold tally. cbn [q_past]. rewrite fate_app. destruct f; try congruence; cbn; lia.
    + intros w. unfold committed. cbn [q_past q_unread q_gone]. rewrite E, G, map_app, !weigh_done_app. cbn. lia.
  - apply moved_same; [reflexivity|reflexivity|]. intros w. unfold committed. cbn [q_past q_unread q_gone]. rewrite E, !weigh_done_app. cbn [filter e_done weigh fold_right]. lia.
Qed.
Lemma moved_dim : forall k c c' s e l, c_stats c' = c_stats c -> q_unread s = e :: l -> moved k c c' s (leave (map (pair Skipped) []) (dim k e :: l) s).
Proof.
  intros k c c' s e l Hc E. apply moved_same; [rewrite Hc; reflexivity| |].
  - intros f w Hf. rewrite tally_leave_all by exact Hf. destruct (fate_is f Skipped); cbn; lia.
  - intros w. apply committed_leave. rewrite E. cbn [map app]. constructor; [|apply same_bytes_refl]. unfold dim. destruct (k_check k); split; reflexivity.
Qed.

Section Checksums.
Variable rcrc : list Z -> Z.
Variable hcrc : Z -> option Z -> option Z -> option Z -> Z.

(** The checksum stored with a record of these bytes. *)
Definition sum_of (d : list Z) : Z := rcrc (to_bytes (Z.of_nat (length d)) ++ d) mod U32.

Lemma sum_of_range : forall d, 0 <= sum_of d < U32.
Proof. intros d. unfold sum_of. apply Z.mod_pos_bound. reflexivity. Qed.

Lemma stored_crc : forall c r d, stored c r d -> record_crc rcrc c r = sum_of d.
Proof. intros c r d [H1 H2]. unfold record_crc, sum_of. rewrite H2. reflexivity. Qed.

Definition resv (n : nbuf) : list range := match n_prod n with Some (Some r) => [r] | _ => [] end.

Definition ahead (s : queue) : nat := match q_reader s with Cursor k => k | _ => 0%nat end.

Record rel (k : config) (n : nbuf) (s : queue) (U D : list range) : Prop := {
  nr_ci : cinv (n_c n) U (D ++ resv n);
  nr_tidy : U = [] -> D = [];
  nr_len : c_len (n_c n) = k_cap k;
  nr_ex : c_extra (n_c n) = k_extra k;
  nr_ow : c_ow (n_c n) = k_ow k;
  nr_hold : n_hold n = k_hold k;
  nr_check : n_check n = k_check k;
  nr_unread : Forall2 (erel (k_check k) (n_c n)) U (q_unread s);
  nr_gone : Forall2 (erel (k_check k) (n_c n)) D (q_gone s);
  nr_prod : match n_prod n with
            | None => q_prod s = false /\ q_slot s = None
            | Some None => q_prod s = true /\ q_slot s = None
            | Some (Some r) => q_prod s = true /\ exists i d, q_slot s = Some (i, d) /\ stored (n_c n) r d /\ sum_stored (k_check k) (n_c n) r 0
            end;
  nr_wait : match n_wait n with
            | None => q_wait s = None
            | Some w => q_wait s = Some (w_size w, w_block w, w_second w) /\ n_prod n = Some None /\ 0 < w_size w /\
                        is_temp (c_nws (n_c n)) (c_len (n_c n)) (w_size w + c_extra (n_c n)) (w_temp w) /\
                        (w_second w = true -> k_ow k = OBlock)
            end;
  nr_cons : match n_cons n with
            | None => q_reader s = Nobody
            | Some (Plain None) => q_reader s = Regular false
            | Some (Plain (Some r)) => q_reader s = Regular true /\ hd_error U = Some r
            | Some (Ahead q) => exists j, q_reader s = Cursor j /\ (j <= length U)%nat /\ q = firstn j U /\ k_ow k = OBlock
            end;
  nr_sync : q_sync s = true -> k_ow k = OBlock /\ D = [] /\ Forall (shown k sum_of) (q_unread s) /\
            c_cur (n_c n) = hd_start (skipn (ahead s) U) /\ (forall b, q_reader s <> Regular b);
  nr_locks : c_locks (n_c n) = q_locks s;
  nr_shut : c_shutdown (n_c n) = q_shut s;
  nr_hcrc : c_hcrc (n_c n) = hcrc (c_nws (n_c n)) (c_cws (n_c n)) (c_lwe (n_c n)) (c_nrs (n_c n)) }.

Lemma rel_gone : forall k n s U D, rel k n s U D -> q_unread s = [] -> q_gone s = [].
Proof.
  intros k n s U D R H. pose proof (nr_unread _ _ _ _ _ R) as F. rewrite H in F. inversion F as [E|]. pose proof (nr_gone _ _ _ _ _ R) as G.
  rewrite (nr_tidy _ _ _ _ _ R (eq_sym E)) in G. inv G. reflexivity.
Qed.
Ltac nr R := first [exact (nr_ci _ _ _ _ _ R) | exact (nr_tidy _ _ _ _ _ R) | exact (nr_len _ _ _ _ _ R) | exact (nr_ex _ _ _ _ _ R) | exact (nr_ow _ _ _ _ _ R) | exact (nr_hold _ _ _ _ _ R) | exact (nr_check _ _ _ _ _ R) | exact (nr_unread _ _ _ _ _ R) | exact (nr_gone _ _ _ _ _ R) | exact (nr_prod _ _ _ _ _ R) | exact (nr_wait _ _ _ _ _ R) | exact (nr_cons _ _ _ _ _ R) | exact (nr_sync _ _ _ _ _ R) | exact (nr_locks _ _ _ _ _ R) | exact (nr_shut _ _ _ _ _ R) | exact (nr_hcrc _ _ _ _ _ R)].

Lemma k_extra_range : forall k, 4 <= k_extra k <= 8.
Proof. intros k. unfold k_extra. destruct (k_check k); lia. Qed.
Lemma k_extra_if : forall k, k_extra k = if k_check k then 8 else 4.
Proof. reflexivity. Qed.

(** Room. *)
Lemma room_eq : forall check c R L n, Forall2 (erel check c) R L ->
  size_sum R = total (c_extra c) (map e_data L) /\ size_max n R = largest (c_extra c) n (map e_data L).
Proof.
  intros check c R L n F. induction F as [|r e R L H F IH]; [split; reflexivity|]. destruct IH as [I1 I2].
  cbn. unfold size_sum, size_max, total, largest in *. destruct H as [[H _] _]. unfold need. rewrite H, I1, I2. auto.
Qed.

Lemma hit_short : forall k n s U D t size r, rel k n s U D -> resv n = [] ->
  is_temp (c_nws (n_c n)) (c_len (n_c n)) (size + k_extra k) t -> In r (U ++ D) -> hits (c_len (n_c n)) t r = true ->
  short_of_room k (q_unread s ++ q_gone s) size.
Proof.
  intros k n s U D t size r R Hv Ht Hr Hh. pose proof (nr_ci _ _ _ _ _ R) as I. rewrite Hv, app_nil_r in I.
  unfold short_of_room. pose proof (Forall2_app (nr_unread _ _ _ _ _ R) (nr_gone _ _ _ _ _ R)) as F.
  destruct (room_eq _ _ _ _ (size + k_extra k) F) as [Q1 Q2]. rewrite (nr_ex _ _ _ _ _ R) in Q1, Q2. rewrite <- Q1, <- Q2, <- (nr_len _ _ _ _ _ R).
  destruct (U ++ D) as [|h E0] eqn:EU; [contradiction|]. split; [inversion F; discriminate|].
  pose proof (ci_layout _ _ _ I) as L. rewrite EU in L.
  destruct (hits (c_len (n_c n)) t h) eqn:Hh1.
  - exact (hit_no_room _ _ _ _ _ _ _ L Ht Hh1).
  - exfalso. rewrite (head_not_hit_none _ _ _ _ _ _ _ _ L Ht Hh1 Hr) in Hh. discriminate.
Qed.

(** The record a consumer holds is the oldest one. *)
Lemma held_head : forall k n s U D r, rel k n s U D -> n_read_reservation n = Some r -> hd_error U = Some r /\ reading s.
Proof.
  intros k n s U D r R H. unfold n_read_reservation in H. pose proof (nr_cons _ _ _ _ _ R) as C.
  destruct (n_cons n) as [[[r0|]|q]|]; try discriminate.
  - injection H as ->. destruct C as [C1 C2]. split; [exact C2|]. unfold reading. rewrite C1. reflexivity.
  - destruct C as (j & C1 & C2 & -> & _). destruct j as [|j]; [discriminate|]. destruct U as [|h U]; [discriminate|]. cbn in H.
    split; [exact H|]. unfold reading. rewrite C1. discriminate.
Qed.
Lemma reading_held : forall k n s U D, rel k n s U D -> reading s -> exists r, n_read_reservation n = Some r /\ hd_error U = Some r.
Proof.
  intros k n s U D R H. unfold reading in H. pose proof (nr_cons _ _ _ _ _ R) as C. unfold n_read_reservation.
  destruct (n_cons n) as [[[r0|]|q]|].
  - destruct C as [_ C]. eauto.
  - rewrite C in H. discriminate.
  - destruct C as (j & C1 & C2 & -> & _). rewrite C1 in H. destruct j as [|j]; [congruence|]. destruct U as [|h U]; [cbn in C2; lia|].
    exists h. auto.
  - rewrite C in H. contradiction.
Qed.

(** * Frames *)
Record frame (c c' : common) : Prop := {
  fr_len : c_len c' = c_len c; fr_ex : c_extra c' = c_extra c; fr_ow : c_ow c' = c_ow c; fr_nws : c_nws c' = c_nws c;
  fr_cur : c_cur c' = c_cur c; fr_locks : c_locks c' = c_locks c; fr_shut : c_shutdown c' = c_shutdown c }.

Record same (c c' : common) : Prop := {
  sm_mem : c_mem c' = c_mem c; sm_len : c_len c' = c_len c; sm_ex : c_extra c' = c_extra c; sm_ow : c_ow c' = c_ow c;
  sm_nws : c_nws c' = c_nws c; sm_cws : c_cws c' = c_cws c; sm_lwe : c_lwe c' = c_lwe c; sm_nrs : c_nrs c' = c_nrs c;
  sm_cur : c_cur c' = c_cur c; sm_pending : c_pending c' = c_pending c; sm_hcrc : c_hcrc c' = c_hcrc c }.

Lemma cinv_same : forall c c' U T, cinv c U T -> same c c' -> cinv c' U T.
Proof.
  intros c c' U T I S. destruct S as [S1 S2 S3 S4 S5 S6 S7 S8 S9 S10 S11].
  constructor; rewrite ?S2, ?S3, ?S5, ?S6, ?S7, ?S8, ?S10; try ci I.
  pose proof (ci_sizes _ _ _ I) as H. eapply Forall_impl; [|exact H]. intros r [H1 H2]. split; rewrite ?S3, ?S1; assumption.
Qed.

Lemma cinv_hcrc : forall c U T h, cinv c U T -> cinv (set_hcrc h c) U T.
Proof. intros c U T h I. constructor; cbn; ci I. Qed.

Lemma same_refl : forall c, same c c.
Proof. intros c. constructor; reflexivity. Qed.
Lemma same_stats : forall c st, same c (set_stats st c).
Proof. intros. constructor; reflexivity. Qed.

(** Replacing the buffer state by one that differs in counters, locks, waiters. *)
Lemma rel_same : forall k n s U D c' x y, rel k n s U D -> same (n_c n) c' -> c_locks c' = x -> c_shutdown c' = y ->
  rel k (n_set_c c' n) (set_qlocks x y s) U D.
Proof.
  intros k n s U D c' x y R S Hx Hy. assert (S' := S). destruct S' as [S1 S2 S3 S4 S5 S6 S7 S8 S9 S10 S11].
  assert (E: forall r e, erel (k_check k) (n_c n) r e -> erel (k_check k) c' r e) by (intros r e; apply erel_same; assumption).
  constructor; cbn [n_c n_prod n_cons n_hold n_check n_wait n_set_c set_qlocks q_unread q_gone q_slot q_prod q_wait q_reader q_sync q_locks q_shut].
  - eapply cinv_same; [exact (nr_ci _ _ _ _ _ R)|exact S].
  - nr R.
  - rewrite S2. nr R.
  - rewrite S3. nr R.
  - rewrite S4. nr R.
  - nr R.
  - nr R.
  - eapply F2_impl; [|exact (nr_unread _ _ _ _ _ R)]. auto.
  - eapply F2_impl; [|exact (nr_gone _ _ _ _ _ R)]. auto.
  - pose proof (nr_prod _ _ _ _ _ R) as P. destruct (n_prod n) as [[r|]|]; try exact P.
    destruct P as (P1 & i & d & P2 & P3 & P4). split; [exact P1|]. exists i, d. splits; auto.
    + eapply stored_same; eassumption.
    + destruct P4 as [P4 P5]. split; [exact P4|]. rewrite S1. exact P5.
  - pose proof (nr_wait _ _ _ _ _ R) as P. rewrite S5, S2, S3. exact P.
  - nr R.
  - rewrite S9. exact (nr_sync _ _ _ _ _ R).
  - exact Hx.
  - exact Hy.
  - rewrite S5, S6, S7, S8, S11. nr R.
Qed.

Lemma qlocks_id : forall s, set_qlocks (q_locks s) (q_shut s) s = s.
Proof. intros []. reflexivity. Qed.
Lemma rel_same' : forall k n s U D c', rel k n s U D -> same (n_c n) c' -> c_locks c' = c_locks (n_c n) -> c_shutdown c' = c_shutdown (n_c n) ->
  rel k (n_set_c c' n) s U D.
Proof.
  intros k n s U D c' R S H1 H2. rewrite <- (qlocks_id s). apply rel_same; auto.
  - rewrite H1. nr R.
  - rewrite H2. nr R.
Qed.

Lemma rel_refused : forall k n s U D z, rel k n s U D -> rel k (n_set_c (count_refused z (n_c n)) n) s U D.
Proof. intros k n s U D z R. apply rel_same'; auto. apply same_stats. Qed.

Lemma rel_nowait : forall k n s U D, rel k n s U D -> rel k (n_set_wait None n) (set_qwait None s) U D.
Proof.
  intros k n s U D R.
  constructor; cbn [n_c n_prod n_cons n_hold n_check n_wait n_set_wait set_qwait q_unread q_gone q_slot q_prod q_wait q_reader q_sync q_locks q_shut]; try nr R.
  reflexivity.
Qed.
Lemma rel_waits : forall k n s U D t size block second, rel k n s U D -> n_prod n = Some None -> 0 < size ->
  is_temp (c_nws (n_c n)) (c_len (n_c n)) (size + c_extra (n_c n)) t -> (second = true -> k_ow k = OBlock) ->
  rel k (n_set_wait (Some (mkWaiting t size block second)) n) (set_qwait (Some (size, block, second)) s) U D.
Proof.
  intros k n s U D t size block second R P Hs Ht H2.
  constructor; cbn [n_c n_prod n_cons n_hold n_check n_wait n_set_wait set_qwait q_unread q_gone q_slot q_prod q_wait q_reader q_sync q_locks q_shut w_size w_block w_second w_temp]; try nr R.
  splits; auto.
Qed.

Lemma set_wait_set_c : forall n c, n_set_wait None (n_set_c c n) = n_set_c c (n_set_wait None n).
Proof. reflexivity. Qed.

(** The size field a reservation writes. *)
Lemma reserved_size : forall c t size c' a, reserved c t size = Some (c', a) -> 4 <= c_extra c ->
  mem_get (c_mem c') (r_start (t_range t) + (c_extra c - 4)) 4 = to_bytes size.
Proof.
  intros c t size c' a H Hx. unfold reserved, finish_reservation, record_size_offset in H.
  set (c2 := match t_lwe t with Some l => set_lwe (Some l) (set_nws (t_nws t) c) | None => set_nws (t_nws t) c end) in *.
  assert (Ee: c_extra c2 = c_extra c) by (unfold c2; destruct (t_lwe t); reflexivity). rewrite Ee in H.
  destruct (add32 (r_start (t_range t)) (c_extra c - 4)) as [o|] eqn:Eo; [|discriminate]. apply add32_some in Eo. subst o.
  destruct (negb (slice_ok c2 (r_start (t_range t) + (c_extra c - 4)) (r_start (t_range t) + (c_extra c - 4) + 4))); [discriminate|].
  destruct (zero_extra_data _ _) as [c3|] eqn:Ez; [|discriminate].
  assert (M: mem_get (c_mem c3) (r_start (t_range t) + (c_extra c - 4)) 4 = to_bytes size).
  { unfold zero_extra_data in Ez. destruct (slice_ok _ _ _); [|discriminate]. injection Ez as <-. cbn [set_mem c_mem c_extra]. rewrite Ee.
    rewrite mem_get_set_disj by (rewrite repeat_length; lia). apply mem_get_set_same. reflexivity. }
  destruct (slice_ok _ _ _); [|discriminate]. injection H as <- _. destruct (c_lwe c3) as [l|]; [|exact M].
  destruct (l <? _); exact M.
Qed.

Lemma app_nil_end' : forall (A : Type) (l : list A), l ++ [] = l.
Proof. intros. apply app_nil_r. Qed.

(** * [reserve] *)
Lemma tail_ok : forall k n s U D U' D' c' t size block second lost kept,
  rel k n s U D -> n_prod n = Some None -> 0 < size ->
  is_temp (c_nws c') (c_len c') (size + c_extra c') t ->
  cinv c' U' D' -> (U' = [] -> D' = []) -> frame (n_c n) c' ->
  (forall r, In r (U' ++ D') -> hits (c_len c') t r = false) ->
  q_unread s = lost ++ kept -> (reading s \/ k_ow k = OBlock -> lost = []) ->
  (forall pre x, lost = pre ++ [x] -> short_of_room k (x :: kept ++ q_gone s) size) ->
  Forall2 (erel (k_check k) c') U' kept -> Forall2 (erel (k_check k) c') D' (match kept with [] => [] | _ => q_gone s end) ->
  (reading s \/ k_ow k = OBlock -> U' = U /\ D' = D) ->
  moved k (n_c n) c' s (leave (map (pair Overwritten) lost) kept s) ->
  exists c'' a, reserved c' t size = Some (c'', a) /\
    exists s', attempt k s size block second (NRange (Ok (mkRange a size))) s' /\
      rel k (n_set_wait None (n_set_prod (Some (Some (t_range t))) (n_set_c (write_header_crc hcrc c'') n))) s' U' D' /\
      moved k (n_c n) (write_header_crc hcrc c'') s s'.
Proof.
  intros k n s U D U' D' c' t size block second lost kept R P Hs Ht I Htidy F Hn Hu Hl Hr FU FD HB MV.
  assert (F' := F). destruct F' as [F1 F2 F3 F4 F5 F6 F7].
  assert (Hx: c_extra c' = k_extra k) by (rewrite F2; nr R). pose proof (k_extra_range k) as Hk.
  destruct (reserved_ok c' U' D' t size I Ht Hs Hn) as (m & E & I2 & M1 & M2).
  pose proof (reserved_size _ _ _ _ _ E) as M3. rewrite Hx in M3. specialize (M3 ltac:(lia)). cbn [set_mem c_mem] in M3.
  pose proof (layout_nws _ _ _ _ (ci_layout _ _ _ I)) as HW.
  pose proof (is_temp_bounds _ _ _ _ HW Ht) as (B1 & B2 & B3). rewrite Hx in *.
  set (c2 := set_mem m (set_lwe (lwe_after (c_lwe c') t) (set_nws (t_nws t) c'))) in *.
  exists c2, (r_start (t_range t) + k_extra k). split; [exact E|].
  set (d := mem_get m (r_start (t_range t) + k_extra k) size).
  assert (Hd: Z.of_nat (length d) = size) by (unfold d; rewrite mem_get_length; lia).
  eexists. split.
  { eapply A_ok with (init := d) (lost := lost) (kept := kept); eauto. }
  split; [|eapply moved_trans; [exact MV|]; apply moved_fields; reflexivity].
  assert (Hst: stored c2 (t_range t) d).
  { split; [cbn; lia|]. cbn [c2 set_mem set_lwe set_nws c_mem c_extra]. rewrite Hx, B3, Hd.
    replace (size + k_extra k - (k_extra k - 4)) with (4 + size) by lia. rewrite mem_get_app by lia. rewrite M3. f_equal. unfold d. f_equal. lia. }
  assert (Hsum: sum_stored (k_check k) c2 (t_range t) 0).
  { split; [unfold U32; lia|]. intros Hc. unfold k_extra in M2. rewrite Hc in M2. cbn [c2 set_mem c_mem].
    apply nth_ext_len; [rewrite mem_get_length; reflexivity|]. intros i Hi. rewrite mem_get_length in Hi. rewrite nth_mem_get by exact Hi.
    rewrite M2 by lia. change (to_bytes 0) with (repeat 0 4). symmetry. apply nth_repeat. }
  assert (Her: forall r e, In r (U' ++ D') -> erel (k_check k) c' r e -> erel (k_check k) c2 r e).
  { intros r e Hin He. unfold c2.
    assert (G: erel (k_check k) (set_mem m c') r e).
    { apply erel_mem; [exact He|rewrite Hx; reflexivity|]. intros i Hi. apply M1. pose proof (not_hit_disjoint _ _ _ (Hn r Hin)) as Dj. unfold disjoint in Dj. lia. }
    eapply erel_same; [| |exact G]; reflexivity. }
  set (s1 := leave (map (pair Overwritten) lost) kept s).
  assert (Q: q_unread s1 = kept /\ q_gone s1 = match kept with [] => [] | _ => q_gone s end /\ q_slot s1 = q_slot s /\ q_prod s1 = q_prod s /\
             q_reader s1 = q_reader s /\ q_sync s1 = q_sync s /\ q_locks s1 = q_locks s /\ q_shut s1 = q_shut s).
  { unfold s1, leave. destruct kept; repeat split; reflexivity. }
  destruct Q as (Q1 & Q2 & Q3 & Q4 & Q5 & Q6 & Q7 & Q8).
  clearbody s1. pose proof (nr_prod _ _ _ _ _ R) as NP. rewrite P in NP.
  constructor; cbn [n_c n_prod n_cons n_hold n_check n_wait n_set_wait n_set_prod n_set_c set_qwait take_slot q_unread q_gone q_slot q_prod q_wait q_reader q_sync q_locks q_shut resv];
    rewrite ?Q1, ?Q2, ?Q3, ?Q4, ?Q5, ?Q6, ?Q7, ?Q8.
  - unfold write_header_crc. apply cinv_hcrc. exact I2.
  - exact Htidy.
  - cbn. rewrite F1. nr R.
  - exact Hx.
  - cbn. rewrite F3. nr R.
  - nr R.
  - nr R.
  - eapply F2_impl; [|exact FU]. intros r e Hi _ He. eapply erel_same; [reflexivity|reflexivity|]. apply Her; [|exact He]. apply in_or_app. left. exact Hi.
  - eapply F2_impl; [|exact FD]. intros r e Hi _ He. eapply erel_same; [reflexivity|reflexivity|]. apply Her; [|exact He]. apply in_or_app. right. exact Hi.
  - destruct NP as [NP _]. split; [exact NP|]. exists (q_next s1), d. split; [reflexivity|]. split; [exact Hst|exact Hsum].
  - reflexivity.
  - pose proof (nr_cons _ _ _ _ _ R) as C. destruct (n_cons n) as [[[r|]|q]|]; try exact C.
    + destruct C as [C1 C2]. split; [exact C1|]. destruct HB as [-> _]; [left; unfold reading; rewrite C1; reflexivity|exact C2].
    + destruct C as (j & C1 & C2 & C3 & C4). exists j. destruct HB as [-> _]; [right; exact C4|]. auto.
  - intros Hsy. destruct (nr_sync _ _ _ _ _ R Hsy) as (Y1 & Y2 & Y3 & Y4 & Y5). destruct HB as [-> ->]; [right; exact Y1|].
    splits; auto.
    + rewrite Hl, app_nil_l in Hu by (right; exact Y1). rewrite <- Hu. exact Y3.
    + unfold ahead in *. cbn [q_reader set_qwait take_slot]. rewrite ?Q5. cbn. rewrite F5. exact Y4.
  - cbn. rewrite F6. nr R.
  - cbn. rewrite F7. nr R.
  - reflexivity.
Qed.

Lemma sim_tail : forall k n s U D t size block second,
  rel k n s U D -> n_prod n = Some None -> 0 < size ->
  is_temp (c_nws (n_c n)) (c_len (n_c n)) (size + c_extra (n_c n)) t ->
  (second = true -> k_ow k = OBlock) ->
  (second = false -> forall r, n_read_reservation n = Some r -> hits (c_len (n_c n)) t r = false) ->
  exists s' U' D', attempt k s size block second (NRange (snd (n_reserve_tail hcrc n t size block))) s' /\
    rel k (fst (n_reserve_tail hcrc n t size block)) s' U' D' /\ moved k (n_c n) (n_c (fst (n_reserve_tail hcrc n t size block))) s s'.
Proof.
  intros k n s U D t size block second R P Hs Ht H2 H1.
  pose proof (nr_ci _ _ _ _ _ R) as I. unfold resv in I. rewrite P, app_nil_r in I.
  assert (Hx: c_extra (n_c n) = k_extra k) by nr R. pose proof (k_extra_range k) as Hk.
  assert (HR: resv n = []) by (unfold resv; rewrite P; reflexivity).
  unfold n_reserve_tail.
  destruct (k_ow k) eqn:Eow.
  - (* blocking *)
    unfold loop_fuel. rewrite (block_loop U _ (n_cb hcrc) (n_busy n) (n_c n) D t _ block I Ht ltac:(rewrite <- Eow; nr R)).
    destruct (match U with [] => false | h :: _ => hits (c_len (n_c n)) t h end) eqn:Eh.
    + destruct U as [|h U]; [discriminate|]. rewrite Eh.
      assert (Sh: short_of_room k (q_unread s ++ q_gone s) size).
      { eapply hit_short; [exact R|exact HR| |left; reflexivity|exact Eh]. rewrite <- Hx. exact Ht. }
      assert (Rn: rel k (n_set_wait None (n_set_c (n_c n) n)) (set_qwait None s) (h :: U) D).
      { rewrite set_wait_set_c. apply (rel_same' k (n_set_wait None n)); [apply rel_nowait; exact R|apply same_refl|reflexivity|reflexivity]. }
      destruct block; cbn [negb].
      * destruct (c_shutdown (n_c n)) eqn:Es; cbn [fst snd].
        -- eexists _, (h :: U), D. split; [apply A_aborted; auto; rewrite <- Es; symmetry; nr R|split; [exact Rn|apply moved_fields; reflexivity]].
        -- eexists _, (h :: U), D. split; [apply A_blocked; auto; rewrite <- Es; symmetry; nr R|]. split; [|apply moved_fields; reflexivity].
           apply rel_waits; auto. apply rel_same'; [exact R|apply same_refl|reflexivity|reflexivity].
      * cbn [fst snd]. eexists _, (h :: U), D. split; [apply A_full; auto|split; [exact Rn|apply moved_fields; reflexivity]].
    + assert (MV0: moved k (n_c n) (n_c n) s (leave (map (pair Overwritten) []) (q_unread s) s)).
      { apply moved_same; [reflexivity|intros f w Hf; rewrite tally_leave_all by exact Hf; destruct (fate_is f Overwritten); cbn; lia|].
        intros w. apply committed_leave. apply same_bytes_refl. }
      replace (match U with [] => Ok tt | h :: _ => if hits (c_len (n_c n)) t h then _ else Ok tt end) with (@Ok unit tt)
        by (destruct U as [|h U]; [reflexivity|rewrite Eh; reflexivity]).
      destruct (tail_ok k n s U D U D (n_c n) t size block second [] (q_unread s)) as (c'' & a & E & s' & A & R' & MV); auto.
      * nr R.
      * constructor; reflexivity.
      * apply (hd_not_hit_all _ _ _ _ _ I Ht). destruct U as [|h U]; [|exact Eh]. rewrite (nr_tidy _ _ _ _ _ R eq_refl). exact Logic.I.
      * intros pre x E. destruct pre; discriminate.
      * nr R.
      * pose proof (nr_gone _ _ _ _ _ R) as G. pose proof (nr_unread _ _ _ _ _ R) as FU. destruct (q_unread s); [|exact G].
        inv FU. rewrite (nr_tidy _ _ _ _ _ R eq_refl). constructor.
      * unfold reserved in E. rewrite E. exists s', U, D. cbn [fst snd]. auto.
  - (* overwriting *)
    assert (Hf: (length U < loop_fuel (n_c n))%nat) by (pose proof (cinv_sum _ _ _ I); unfold loop_fuel; lia).
    destruct (evict_loop U (loop_fuel (n_c n)) (n_cb hcrc) (n_busy n) (n_c n) D t _ block Hf I Ht ltac:(rewrite <- Eow; nr R))
      as (ev & U' & m & w & l & nr & EU & E1 & E2 & E3 & E4 & E5 & E6). cbn zeta in *.
    set (c' := evicted m w l nr (Z.of_nat (length ev)) (data_sum (c_extra (n_c n)) ev) (n_c n)) in *. rewrite E1.
    assert (Hsec: second = false) by (destruct second; [specialize (H2 eq_refl); discriminate|reflexivity]).
    assert (Hrd: reading s -> ev = []).
    { intros Hrd. destruct (reading_held _ _ _ _ _ R Hrd) as (r & R1 & R2). destruct ev as [|h ev]; [reflexivity|]. exfalso.
      rewrite EU in R2. cbn in R2. injection R2 as ->. pose proof (H1 Hsec _ R1) as X. rewrite (E5 r (or_introl eq_refl)) in X. discriminate. }
    pose proof (nr_unread _ _ _ _ _ R) as FU. rewrite EU in FU. apply F2_app_inv_l in FU. destruct FU as (lost & kept & Eq & F1 & F2).
    assert (Fr: frame (n_c n) c') by (constructor; reflexivity).
    assert (Her: forall r e, In r (U' ++ D) -> erel (k_check k) (n_c n) r e -> erel (k_check k) c' r e).
    { intros r e Hin He. apply (erel_same _ (set_mem m (n_c n))); [reflexivity|reflexivity|]. apply erel_mem; [exact He|rewrite Hx; reflexivity|].
      intros i Hi. apply E4. intros r' Hr'. pose proof (ci_layout _ _ _ I) as L. rewrite EU, <- app_assoc in L.
      pose proof (layout_disj_app _ _ _ _ _ _ _ L Hr' Hin) as Dj. unfold disjoint in Dj.
      destruct (layout_bounds _ _ _ _ r' L) as (Bx & By & Bz); [apply in_or_app; left; exact Hr'|].
      assert (Hsz: c_extra (n_c n) < r_size r').
      { pose proof (ci_sizes _ _ _ I) as Sz. rewrite EU, <- app_assoc in Sz. rewrite Forall_forall in Sz. apply (Sz r'). apply in_or_app. left. exact Hr'. }
      lia. }
    assert (FK: Forall2 (erel (k_check k) c') U' kept).
    { eapply F2_impl; [|exact F2]. intros r e Hr _. apply Her. apply in_or_app. left. exact Hr. }
    assert (FG: Forall2 (erel (k_check k) c') D (q_gone s)).
    { eapply F2_impl; [|exact (nr_gone _ _ _ _ _ R)]. intros r e Hr _. apply Her. apply in_or_app. right. exact Hr. }
    assert (Hlost: reading s \/ OYes = OBlock -> lost = []).
    { intros [H|H]; [|discriminate]. rewrite (Hrd H) in F1. inv F1. reflexivity. }
    assert (Hshort: forall pre x, lost = pre ++ [x] -> short_of_room k (x :: kept ++ q_gone s) size).
    { intros pre x El. rewrite El in F1. apply F2_app_inv_r in F1. destruct F1 as (evp & evx & Eev & F1a & F1b). 
      inversion F1b as [|rx x1 lx ly Hx1 Hx2]; subst. inversion Hx2; subst. pose proof (E6 evp rx eq_refl) as Z. unfold short_of_room.
      assert (FF: Forall2 (erel (k_check k) (n_c n)) (rx :: U' ++ D) (x :: kept ++ q_gone s)).
      { constructor; [exact Hx1|]. apply Forall2_app; [exact F2|exact (nr_gone _ _ _ _ _ R)]. }
      destruct (room_eq _ _ _ _ (size + c_extra (n_c n)) FF) as [Y1 Y2]. rewrite <- Hx, <- Y1, <- Y2, <- (nr_len _ _ _ _ _ R). split; [discriminate|exact Z]. }
    assert (MV0: moved k (n_c n) c' s (leave (map (pair Overwritten) lost) kept s)) by (eapply moved_lost; [exact F1|exact Eq|reflexivity]).
    destruct U' as [|h U'].
    + assert (Ek: kept = []) by (inversion F2; reflexivity). rewrite Ek in *. rewrite app_nil_r in *.
      assert (I0: cinv c' [] []) by (apply (cinv_forget c' D []); rewrite app_nil_r; exact E2).
      destruct (tail_ok k n s U D [] [] c' t size block second lost []) as (c'' & a & E & s' & A & R' & MV); auto.
      * intros r [].
      * rewrite app_nil_r. exact Eq.
      * rewrite Eow. exact Hlost.
      * rewrite Eow. intros H. assert (Hrs: reading s) by (destruct H; [assumption|discriminate]). rewrite EU, (Hrd Hrs).
        split; [reflexivity|]. symmetry. apply (nr_tidy _ _ _ _ _ R). rewrite EU, (Hrd Hrs). reflexivity.
      * unfold reserved in E. rewrite E. exists s', [], []. cbn [fst snd]. auto.
    + destruct (tail_ok k n s U D (h :: U') D c' t size block second lost kept) as (c'' & a & E & s' & A & R' & MV); auto.
      * discriminate.
      * apply (hd_not_hit_all c' (h :: U') D _ t E2 Ht). exact E3.
      * rewrite Eow. exact Hlost.
      * destruct kept; [inv F2|exact FG].
      * rewrite Eow. intros H. assert (Hrs: reading s) by (destruct H; [assumption|discriminate]). rewrite EU, (Hrd Hrs). auto.
      * unfold reserved in E. rewrite E. exists s', (h :: U'), D. cbn [fst snd]. auto.
Qed.

Lemma sim_loop : forall k n s U D t size block,
  rel k n s U D -> n_prod n = Some None -> 0 < size ->
  is_temp (c_nws (n_c n)) (c_len (n_c n)) (size + c_extra (n_c n)) t ->
  exists s' U' D', attempt k s size block false (NRange (snd (n_reserve_loop hcrc n t size block))) s' /\
    rel k (fst (n_reserve_loop hcrc n t size block)) s' U' D' /\ moved k (n_c n) (n_c (fst (n_reserve_loop hcrc n t size block))) s s'.
Proof.
  intros k n s U D t size block R P Hs Ht. unfold n_reserve_loop.
  assert (HR: resv n = []) by (unfold resv; rewrite P; reflexivity).
  destruct (match n_read_reservation n with Some r => intersect_reservation (n_c n) t r | None => false end) eqn:E.
  - destruct (n_read_reservation n) as [r|] eqn:Er; [|discriminate]. rewrite intersect_reservation_hits in E.
    destruct (held_head _ _ _ _ _ _ R Er) as [Hh Hrd].
    assert (Sh: short_of_room k (q_unread s ++ q_gone s) size).
    { eapply hit_short; [exact R|exact HR| | |exact E]; [rewrite <- (nr_ex _ _ _ _ _ R); exact Ht|].
      destruct U as [|h U]; [discriminate|]. injection Hh as ->. left. reflexivity. }
    destruct (n_hold n) eqn:Eh; cbn [fst snd].
    + eexists _, U, D. split; [apply A_held; auto; rewrite <- Eh; symmetry; nr R|]. split; [|apply moved_fields; reflexivity]. apply rel_waits; auto. discriminate.
    + eexists _, U, D. split; [apply A_refused; auto; rewrite <- Eh; symmetry; nr R|]. split; [|apply moved_fields; reflexivity].
      rewrite set_wait_set_c. apply (rel_refused k (n_set_wait None n)). apply rel_nowait. exact R.
  - eapply sim_tail; eauto; [discriminate|]. intros _ r Er. rewrite Er in E. rewrite intersect_reservation_hits in E. exact E.
Qed.

Lemma idle_iff : forall k n s U D, rel k n s U D -> idle s <-> (exists p, n_prod n = Some p) /\ n_wait n = None.
Proof.
  intros k n s U D R. unfold idle. pose proof (nr_prod _ _ _ _ _ R) as P. pose proof (nr_wait _ _ _ _ _ R) as W. split.
  - intros [H1 H2]. split.
    + destruct (n_prod n) as [p|]; [eauto|]. destruct P; congruence.
    + destruct (n_wait n); [|reflexivity]. destruct W; congruence.
  - intros [[p H1] H2]. rewrite H1 in P. rewrite H2 in W. split; [|exact W]. destruct p; apply P.
Qed.

Lemma sim_reserve : forall k n s U D size block, rel k n s U D -> 0 <= size < 4294967296 ->
  exists s' U' D', step k sum_of s (NReserve size block) (snd (n_step rcrc hcrc n (NReserve size block))) s' /\
    rel k (fst (n_step rcrc hcrc n (NReserve size block))) s' U' D' /\ moved k (n_c n) (n_c (fst (n_step rcrc hcrc n (NReserve size block)))) s s'.
Proof.
  intros k n s U D size block R Hz. cbn [n_step].
  pose proof (idle_iff _ _ _ _ _ R) as Hi. pose proof (nr_prod _ _ _ _ _ R) as P. pose proof (nr_wait _ _ _ _ _ R) as W.
  destruct (n_prod n) as [p|] eqn:Ep; [|exists s, U, D; split; [apply S_reserve_nocall; rewrite Hi; intros [[p H] _]; discriminate|split; [exact R|apply moved_fields; reflexivity]]].
  destruct (n_wait n) as [w|] eqn:Ew; [exists s, U, D; split; [apply S_reserve_nocall; rewrite Hi; intros [_ H]; discriminate|split; [exact R|apply moved_fields; reflexivity]]|].
  assert (Id: idle s) by (apply Hi; eauto).
  unfold n_reserve. rewrite Ep. destruct p as [r|].
  - destruct P as (_ & i & d & P & _). exists s, U, D. split; [apply S_reserve_twice; [exact Id|congruence]|split; [exact R|apply moved_fields; reflexivity]].
  - destruct P as [P1 P2]. unfold start_reserve_common. rewrite (ci_pending _ _ _ (nr_ci _ _ _ _ _ R)).
    pose proof (nr_locks _ _ _ _ _ R) as NL. pose proof (nr_ex _ _ _ _ _ R) as Hx. pose proof (k_extra_range k) as Hk.
    pose proof (nr_len _ _ _ _ _ R) as HL. pose proof (ci_len _ _ _ (nr_ci _ _ _ _ _ R)) as HLen.
    destruct (0 <? c_locks (n_c n)) eqn:El.
    + exists s, U, D. split; [apply S_reserve_locked; auto; rewrite <- NL; lia|]. split; [apply rel_refused; exact R|apply moved_fields; reflexivity].
    + rewrite Hx. destruct (add32 size (k_extra k)) as [actual|] eqn:Ea.
      * apply add32_some in Ea. subst actual. rewrite HL.
        destruct ((size =? 0) || (k_cap k <? size + k_extra k)) eqn:Eb.
        -- exists s, U, D. split; [|split; [apply rel_refused; exact R|apply moved_fields; reflexivity]]. apply S_reserve_size; auto; [rewrite <- NL; lia|].
           apply orb_true_iff in Eb. destruct Eb; [left|right]; lia.
        -- apply orb_false_iff in Eb. destruct Eb as [Eb1 Eb2].
           pose proof (layout_nws _ _ _ _ (ci_layout _ _ _ (nr_ci _ _ _ _ _ R))) as HW.
           destruct (calculate_some (n_c n) (size + k_extra k)) as (t & Et); [lia|lia|lia|]. rewrite Et.
           apply calculate_is_temp in Et; [|lia|lia|lia].
           assert (Rc: rel k (n_set_c (n_c n) n) s U D) by (apply rel_same'; [exact R|apply same_refl|reflexivity|reflexivity]).
           destruct (sim_loop k (n_set_c (n_c n) n) s U D t size block Rc Ep ltac:(lia)) as (s' & U' & D' & A & R' & MV).
           { cbn [n_c n_set_c]. rewrite Hx. exact Et. }
           exists s', U', D'. destruct (n_reserve_loop hcrc (n_set_c (n_c n) n) t size block) as [n' r]. cbn [fst snd] in *.
           split; [|split; [exact R'|exact MV]]. apply S_reserve; auto; try lia.
      * exists s, U, D. split; [|split; [apply rel_refused; exact R|apply moved_fields; reflexivity]]. apply S_reserve_size; auto; [rewrite <- NL; lia|].
        right. apply add32_none in Ea. lia.
Qed.

Lemma sim_resume : forall k n s U D, rel k n s U D ->
  exists s' U' D', step k sum_of s NResume (snd (n_step rcrc hcrc n NResume)) s' /\ rel k (fst (n_step rcrc hcrc n NResume)) s' U' D' /\
    moved k (n_c n) (n_c (fst (n_step rcrc hcrc n NResume))) s s'.
Proof.
  intros k n s U D R. cbn [n_step]. pose proof (nr_wait _ _ _ _ _ R) as W.
  destruct (n_wait n) as [w|]; [|exists s, U, D; split; [apply S_resume_nocall; exact W|split; [exact R|apply moved_fields; reflexivity]]].
  destruct W as (W1 & W2 & W3 & W4 & W5). unfold n_resume. destruct (c_shutdown (n_c n)) eqn:Es.
  - cbn [fst snd]. eexists _, U, D. split; [|split; [apply rel_nowait; exact R|apply moved_fields; reflexivity]]. apply S_resume_aborted; [congruence|]. rewrite <- Es. symmetry. nr R.
  - assert (Qs: q_shut s = false) by (rewrite <- Es; symmetry; nr R). destruct (w_second w) eqn:E2.
    + destruct (sim_tail k n s U D (w_temp w) (w_size w) (w_block w) true R W2 W3 W4 W5) as (s' & U' & D' & A & R' & MV); [discriminate|].
      exists s', U', D'. destruct (n_reserve_tail hcrc n (w_temp w) (w_size w) (w_block w)) as [n' r]. cbn [fst snd] in *.
      split; [|split; [exact R'|exact MV]]. eapply S_resume; eassumption.
    + destruct (sim_loop k n s U D (w_temp w) (w_size w) (w_block w) R W2 W3 W4) as (s' & U' & D' & A & R' & MV).
      exists s', U', D'. destruct (n_reserve_loop hcrc n (w_temp w) (w_size w) (w_block w)) as [n' r]. cbn [fst snd] in *.
      split; [|split; [exact R'|exact MV]]. eapply S_resume; eassumption.
Qed.

(** * Writing into the slice *)
Lemma stored_in : forall c r d, stored c r d -> 4 <= c_extra c -> r_size r = Z.of_nat (length d) + c_extra c.
Proof. intros c r d [H _] _. exact H. Qed.

Lemma rel_slot_mem : forall k n s U D r i d d' m, rel k n s U D -> n_prod n = Some (Some r) -> q_slot s = Some (i, d) ->
  stored (set_mem m (n_c n)) r d' -> (forall j, j < r_start r + k_extra k \/ r_start r + r_size r <= j -> m j = c_mem (n_c n) j) ->
  rel k (n_set_c (set_mem m (n_c n)) n) (set_slot (Some (i, d')) s) U D.
Proof.
  intros k n s U D r i d d' m R P Q Hst Hm. pose proof (nr_ci _ _ _ _ _ R) as I.
  assert (HR: resv n = [r]) by (unfold resv; rewrite P; reflexivity).
  assert (Hx: c_extra (n_c n) = k_extra k) by nr R. pose proof (k_extra_range k) as Hk.
  assert (Hin: In r ((U ++ D) ++ [r])) by (apply in_or_app; right; left; reflexivity).
  assert (L: layout ((U ++ D) ++ [r]) (c_nws (n_c n)) (c_lwe (n_c n)) (c_len (n_c n))).
  { pose proof (ci_layout _ _ _ I) as L. rewrite HR, app_assoc in L. exact L. }
  assert (Dj: forall x, In x (U ++ D) -> forall j, r_start x <= j < r_start x + r_size x -> m j = c_mem (n_c n) j).
  { intros x Hx' j Hj. apply Hm. pose proof (layout_disj_app _ _ _ _ _ x r L Hx' (or_introl eq_refl)) as Dj. unfold disjoint in Dj. lia. }
  assert (Her: forall x e, In x (U ++ D) -> erel (k_check k) (n_c n) x e -> erel (k_check k) (set_mem m (n_c n)) x e).
  { intros x e Hi He. apply erel_mem; [exact He|rewrite Hx; reflexivity|]. apply Dj. exact Hi. }
  pose proof (nr_prod _ _ _ _ _ R) as NP. rewrite P, Q in NP. destruct NP as (NP1 & i' & d0 & NP2 & NP3 & NP4). injection NP2 as <- <-.
  assert (Isz: forall x, In x (U ++ D) -> c_extra (n_c n) < r_size x).
  { intros x Hi. pose proof (ci_sizes _ _ _ I) as Sz. rewrite HR, app_assoc in Sz. rewrite Forall_forall in Sz. apply (Sz x). apply in_or_app. left. exact Hi. }
  constructor; cbn [n_c n_prod n_cons n_hold n_check n_wait n_set_c set_slot q_unread q_gone q_slot q_prod q_wait q_reader q_sync q_locks q_shut]; try nr R.
  - apply cinv_mem; [exact I|]. intros x j Hxin Hj. change (resv (n_set_c (set_mem m (n_c n)) n)) with (resv n) in Hxin. rewrite HR, app_assoc in Hxin. apply in_app_or in Hxin. destruct Hxin as [Hxin|[<-|[]]].
    + apply (Dj x Hxin). pose proof (Isz x Hxin). lia.
    + apply Hm. lia.
  - eapply F2_impl; [|exact (nr_unread _ _ _ _ _ R)]. intros x e Hi _. apply Her. apply in_or_app. left. exact Hi.
  - eapply F2_impl; [|exact (nr_gone _ _ _ _ _ R)]. intros x e Hi _. apply Her. apply in_or_app. right. exact Hi.
  - rewrite P. split; [exact NP1|]. exists i, d'. splits; auto. destruct NP4 as [NP4 NP5]. split; [exact NP4|]. intros Hc.
    rewrite <- (NP5 Hc). apply mem_get_ext. intros j Hj. apply Hm. left. unfold k_extra. rewrite Hc. lia.
Qed.

Lemma splice_app : forall a d off bs, 0 <= off -> splice (a ++ d) (Z.of_nat (length a) + off) bs = a ++ splice d off bs.
Proof.
  intros a d off bs H. unfold splice. replace (Z.to_nat (Z.of_nat (length a) + off)) with (length a + Z.to_nat off)%nat by lia.
  rewrite firstn_app_2, <- app_assoc. f_equal. f_equal. f_equal. rewrite skipn_app.
  rewrite (skipn_all2 a) by lia. cbn [app]. f_equal. lia.
Qed.

Lemma stored_write : forall c r d off bs, stored c r d -> 4 <= c_extra c -> 0 <= off -> off + Z.of_nat (length bs) <= Z.of_nat (length d) ->
  stored (set_mem (mem_set (c_mem c) (r_start r + c_extra c + off) bs) c) r (splice d off bs).
Proof.
  intros c r d off bs [H1 H2] Hx H3 H4. split.
  - cbn. rewrite splice_length by assumption. exact H1.
  - cbn. rewrite splice_length by assumption.
    replace (r_start r + c_extra c + off) with (r_start r + (c_extra c - 4) + (4 + off)) by lia.
    rewrite mem_get_splice; [|lia|lia]. rewrite H2.
    change 4 with (Z.of_nat (length (to_bytes (Z.of_nat (length d))))). apply splice_app. exact H3.
Qed.

Lemma sim_write : forall k n s U D off bs, rel k n s U D ->
  exists s' U' D', step k sum_of s (NWrite off bs) (snd (n_step rcrc hcrc n (NWrite off bs))) s' /\
    rel k (fst (n_step rcrc hcrc n (NWrite off bs))) s' U' D' /\ moved k (n_c n) (n_c (fst (n_step rcrc hcrc n (NWrite off bs)))) s s'.
Proof.
  intros k n s U D off bs R. cbn [n_step]. pose proof (idle_iff _ _ _ _ _ R) as Hi.
  pose proof (nr_prod _ _ _ _ _ R) as P. exists
    (match n_prod n, n_wait n with Some (Some r), None => match q_slot s with Some (i, d) => if (0 <=? off) && (off + Z.of_nat (length bs) <=? Z.of_nat (length d)) then set_slot (Some (i, overwrite_bytes d off bs)) s else s | None => s end | _, _ => s end), U, D.
  destruct (n_prod n) as [p|] eqn:Ep.
  2:{ split; [apply S_write_nocall; rewrite Hi; intros [[p H] _]; discriminate|split; [exact R|apply moved_fields; reflexivity]]. }
  destruct (n_wait n) as [w|] eqn:Ew.
  { cbn [fst snd]. split; [|split; [destruct p; exact R|destruct p; apply moved_fields; reflexivity]]. destruct p; apply S_write_nocall; rewrite Hi; intros [_ H]; discriminate. }
  assert (Id: idle s) by (apply Hi; eauto). unfold n_write. rewrite Ep. cbn [fst snd].
  destruct p as [r|].
  - destruct P as (_ & i & d & P1 & P2 & _). rewrite P1.
    assert (Hx: c_extra (n_c n) = k_extra k) by nr R. pose proof (k_extra_range k) as Hk.
    assert (Hlen: r_size r - c_extra (n_c n) = Z.of_nat (length d)) by (destruct P2; lia). rewrite Hlen.
    split; [apply (S_write k sum_of s off bs i d Id P1)|]. split; [|destruct ((0 <=? off) && (off + Z.of_nat (length bs) <=? Z.of_nat (length d))); apply moved_fields; reflexivity].
    destruct ((0 <=? off) && (off + Z.of_nat (length bs) <=? Z.of_nat (length d))) eqn:E; [|exact R].
    apply andb_true_iff in E. destruct E as [E1 E2]. apply Z.leb_le in E1, E2.
    eapply (rel_slot_mem k n s U D r i d); [exact R|exact Ep|exact P1| |].
    + apply stored_write; [exact P2|lia|lia|lia].
    + intros j Hj. apply mem_set_out. lia.
  - destruct P as [_ P]. split; [apply S_write_none; assumption|split; [exact R|apply moved_fields; reflexivity]].
Qed.

(** * [commit] *)
Lemma sim_commit : forall k n s U D, rel k n s U D ->
  exists s' U' D', step k sum_of s NCommit (snd (n_step rcrc hcrc n NCommit)) s' /\ rel k (fst (n_step rcrc hcrc n NCommit)) s' U' D' /\
    moved k (n_c n) (n_c (fst (n_step rcrc hcrc n NCommit))) s s'.
Proof.
  intros k n s U D R. cbn [n_step]. pose proof (idle_iff _ _ _ _ _ R) as Hi. pose proof (nr_prod _ _ _ _ _ R) as P.
  destruct (n_prod n) as [p|] eqn:Ep; [|exists s, U, D; split; [apply S_commit_nocall; rewrite Hi; intros [[p H] _]; discriminate|split; [exact R|apply moved_fields; reflexivity]]].
  destruct (n_wait n) as [w|] eqn:Ew; [exists s, U, D; split; [apply S_commit_nocall; rewrite Hi; intros [_ H]; discriminate|split; [exact R|apply moved_fields; reflexivity]]|].
  assert (Id: idle s) by (apply Hi; eauto). unfold n_commit. rewrite Ep. destruct p as [r|].
  2:{ destruct P as [_ P]. exists s, U, D. split; [apply S_commit_none; assumption|split; [exact R|apply moved_fields; reflexivity]]. }
  destruct P as (P0 & i & d & P1 & P2 & P3).
  pose proof (nr_ci _ _ _ _ _ R) as I. assert (HR: resv n = [r]) by (unfold resv; rewrite Ep; reflexivity). rewrite HR in I.
  assert (Hx: c_extra (n_c n) = k_extra k) by nr R. pose proof (k_extra_range k) as Hk.
  pose proof (cinv_commit_all _ _ _ _ I (nr_tidy _ _ _ _ _ R)) as I1.
  set (c0 := finish_commit_common (advance_committed (n_c n) r) r).
  assert (I2: cinv c0 (U ++ D ++ [r]) []) by (constructor; cbn [c0 finish_commit_common set_readable c_len c_extra c_nws c_lwe c_nrs c_cws c_pending]; ci I1).
  assert (C0: c_mem c0 = c_mem (n_c n) /\ c_len c0 = c_len (n_c n) /\ c_extra c0 = c_extra (n_c n) /\ c_ow c0 = c_ow (n_c n) /\
    c_locks c0 = c_locks (n_c n) /\ c_shutdown c0 = c_shutdown (n_c n) /\ c_pending c0 = false /\ c_nws c0 = c_nws (n_c n) /\
    c_cur c0 = match c_cur (n_c n) with None => Some (r_start r) | Some x => Some x end).
  { split; [|split; [|split; [|split; [|split; [|split; [|split; [|split]]]]]]]; try (unfold c0, finish_commit_common, advance_committed; cbn; destruct (c_nrs (n_c n)); cbn; destruct (c_cur (n_c n)) eqn:Ec; cbn; rewrite ?Ec; reflexivity).
    exact (ci_pending _ _ _ I2). }
  destruct C0 as (C1 & C2 & C3 & C4 & C5 & C6 & C7 & C8 & C9).
  assert (Hin: In r ((U ++ D) ++ [r])) by (apply in_or_app; right; left; reflexivity).
  assert (L: layout ((U ++ D) ++ [r]) (c_nws (n_c n)) (c_lwe (n_c n)) (c_len (n_c n))) by (rewrite <- app_assoc; exact (ci_layout _ _ _ I)).
  pose proof (layout_bounds _ _ _ _ _ L Hin) as (B1 & B2 & B3).
  assert (Hsz: c_extra (n_c n) < r_size r).
  { pose proof (ci_sizes _ _ _ I) as Sz. rewrite app_assoc in Sz. rewrite Forall_forall in Sz. apply (Sz r). exact Hin. }
  assert (St0: stored c0 r d) by (eapply stored_same; [exact C1|exact C3|exact P2]).
  set (c1 := if n_check n then set_mem (mem_set (c_mem c0) (r_start r) (to_bytes (record_crc rcrc c0 r))) c0 else c0).
  assert (E: (if n_check n
    then if slice_ok c0 (r_start r) (r_start r + c_extra c0 - 4) && slice_ok c0 (r_start r + (c_extra c0 - 4)) (r_start r + r_size r)
      then Some (set_mem (mem_set (c_mem c0) (r_start r) (to_bytes (record_crc rcrc c0 r))) c0) else None else Some c0) = Some c1).
  { unfold c1. destruct (n_check n); [|reflexivity]. unfold slice_ok. rewrite C2, C3.
    replace (0 <=? r_start r) with true by lia. replace (r_start r <=? r_start r + c_extra (n_c n) - 4) with true by lia.
    replace (r_start r + c_extra (n_c n) - 4 <=? c_len (n_c n)) with true by lia.
    replace (0 <=? r_start r + (c_extra (n_c n) - 4)) with true by lia.
    replace (r_start r + (c_extra (n_c n) - 4) <=? r_start r + r_size r) with true by lia.
    replace (r_start r + r_size r <=? c_len (n_c n)) with true by lia. reflexivity. }
  rewrite E.
  assert (M: forall j, j < r_start r \/ r_start r + c_extra (n_c n) - 4 <= j -> c_mem c1 j = c_mem (n_c n) j).
  { intros j Hj. unfold c1. destruct (n_check n) eqn:Ec; [|rewrite C1; reflexivity]. cbn [set_mem c_mem]. rewrite C1.
    rewrite (nr_check _ _ _ _ _ R) in Ec. unfold k_extra in Hx. rewrite Ec in Hx. apply mem_set_out. rewrite to_bytes_length. lia. }
  assert (F1: c_len c1 = c_len (n_c n) /\ c_extra c1 = c_extra (n_c n) /\ c_ow c1 = c_ow (n_c n) /\ c_locks c1 = c_locks (n_c n) /\
     c_shutdown c1 = c_shutdown (n_c n) /\ c_pending c1 = false /\ c_nws c1 = c_nws (n_c n) /\ c_cur c1 = c_cur c0).
  { unfold c1. destruct (n_check n); cbn [set_mem c_len c_extra c_ow c_locks c_shutdown c_pending c_nws c_cur]; auto 12. }
  destruct F1 as (F1 & F2 & F3 & F4 & F5 & F6 & F7 & F8).
  assert (I3: cinv c1 (U ++ D ++ [r]) []).
  { unfold c1 in *. destruct (n_check n) eqn:Ec; [|exact I2]. apply cinv_mem; [exact I2|]. intros x j Hxin Hj.
    change (c_mem (set_mem (mem_set (c_mem c0) (r_start r) (to_bytes (record_crc rcrc c0 r))) c0) j = c_mem c0 j). etransitivity; [apply M|rewrite C1; reflexivity].
    rewrite app_nil_r, app_assoc in Hxin. apply in_app_or in Hxin. rewrite C3 in Hj. destruct Hxin as [Hxin|[<-|[]]]; [|lia].
    pose proof (layout_disj_app _ _ _ _ _ x r L Hxin (or_introl eq_refl)) as Dj. unfold disjoint in Dj.
    assert (Hsx: c_extra (n_c n) < r_size x).
    { pose proof (ci_sizes _ _ _ I) as Sz. rewrite app_assoc in Sz. rewrite Forall_forall in Sz. apply (Sz x). apply in_or_app. left. exact Hxin. }
    lia. }
  assert (Her: forall x e, In x (U ++ D) -> erel (k_check k) (n_c n) x e -> erel (k_check k) c1 x e).
  { intros x e Hxin He. apply (erel_same _ (set_mem (c_mem c1) (n_c n))); [reflexivity|exact F2|]. apply erel_mem; [exact He|rewrite Hx; reflexivity|].
    intros j Hj. apply M. pose proof (layout_disj_app _ _ _ _ _ x r L Hxin (or_introl eq_refl)) as Dj. unfold disjoint in Dj. lia. }
  assert (Enew: erel (k_check k) c1 r (mkEntry i d (sum_of d) true)).
  { split.
    - apply (stored_same (set_mem (c_mem c1) (n_c n))); [reflexivity|exact F2|]. apply stored_mem; [exact P2|lia|]. intros j Hj. apply M. lia.
    - split; [apply sum_of_range|]. cbn [e_sum]. intros Hc. unfold c1. rewrite (nr_check _ _ _ _ _ R), Hc. cbn [set_mem c_mem].
      rewrite (stored_crc _ _ _ St0). apply mem_get_set_same. reflexivity. }
  assert (MV: moved k (n_c n) (write_header_crc hcrc c1) s
    (mkQ (q_unread s ++ q_gone s ++ [mkEntry i d (sum_of d) true]) [] None (q_next s) (q_prod s) (q_wait s) (q_reader s) (q_sync s) (q_locks s) (q_shut s) (q_past s))).
  { apply (moved_commit k (n_c n) _ s _ i d (sum_of d) r); auto.
    unfold c1, c0, finish_commit_common, advance_committed. destruct (n_check n); cbn; destruct (c_nrs (n_c n)); cbn; destruct (c_cur (n_c n)); reflexivity. }
  unfold maybe_do_total_data_loss_reset. rewrite F6. cbn [negb fst snd].
  eexists _, (U ++ D ++ [r]), []. split; [apply (S_commit k sum_of s i d Id P1)|]. split; [|exact MV].
  constructor; cbn [n_c n_prod n_cons n_hold n_check n_wait n_set_c n_set_prod q_unread q_gone q_slot q_prod q_wait q_reader q_sync q_locks q_shut].
  - cbn [resv n_prod n_set_c n_set_prod app]. apply cinv_hcrc. exact I3.
  - reflexivity.
  - cbn. rewrite F1. nr R.
  - cbn. rewrite F2. nr R.
  - cbn. rewrite F3. nr R.
  - nr R.
  - nr R.
  - apply Forall2_app; [|apply Forall2_app; [|constructor; [|constructor]]].
    + eapply F2_impl; [|exact (nr_unread _ _ _ _ _ R)]. intros x e Hxin _ He. eapply erel_same; [reflexivity|reflexivity|]. apply Her; [apply in_or_app; left; exact Hxin|exact He].
    + eapply F2_impl; [|exact (nr_gone _ _ _ _ _ R)]. intros x e Hxin _ He. eapply erel_same; [reflexivity|reflexivity|]. apply Her; [apply in_or_app; right; exact Hxin|exact He].
    + eapply erel_same; [reflexivity|reflexivity|]. exact Enew.
  - constructor.
  - split; [exact P0|reflexivity].
  - rewrite Ew. pose proof (nr_wait _ _ _ _ _ R) as W. rewrite Ew in W. exact W.
  - pose proof (nr_cons _ _ _ _ _ R) as C. destruct (n_cons n) as [[[r0|]|q]|]; try exact C.
    + destruct C as [D1 D2]. split; [exact D1|]. destruct U; [discriminate|]. exact D2.
    + destruct C as (j & D1 & D2 & D3 & D4). exists j. splits; auto.
      * rewrite app_length. lia.
      * rewrite firstn_app. replace (j - length U)%nat with 0%nat by lia. cbn [firstn]. rewrite app_nil_r. exact D3.
  - intros Hsy. destruct (nr_sync _ _ _ _ _ R Hsy) as (Y1 & Y2 & Y3 & Y4 & Y5). subst D.
    pose proof (nr_gone _ _ _ _ _ R) as G. inversion G as [HG|]. rewrite <- ?HG. splits; auto.
    + apply Forall_app. split; [exact Y3|]. cbn [app]. constructor; [|constructor]. intros _. reflexivity.
    + unfold ahead in *. cbn [q_reader]. cbn [write_header_crc set_hcrc c_cur]. rewrite F8, C9.
      assert (Hj: (match q_reader s with Cursor j => j | _ => 0 end <= length U)%nat).
      { pose proof (nr_cons _ _ _ _ _ R) as C. destruct (n_cons n) as [[[r0|]|q]|]; try (rewrite C; lia).
        - destruct C as [C _]. rewrite C. lia.
        - destruct C as (j & D1 & D2 & _). rewrite D1. exact D2. }
      rewrite Y4. cbn [app]. rewrite skipn_app.
      destruct (skipn (match q_reader s with Cursor j => j | _ => 0%nat end) U) as [|h T] eqn:Es; [|reflexivity].
      replace (match q_reader s with Cursor j => j | _ => 0%nat end - length U)%nat with 0%nat by lia. reflexivity.
  - cbn. rewrite F4. nr R.
  - cbn. rewrite F5. nr R.
  - reflexivity.
Qed.

(** * Registration *)
Lemma sim_register_producer : forall k n s U D, rel k n s U D ->
  exists s' U' D', step k sum_of s NRegisterProducer (snd (n_step rcrc hcrc n NRegisterProducer)) s' /\ rel k (fst (n_step rcrc hcrc n NRegisterProducer)) s' U' D' /\
    moved k (n_c n) (n_c (fst (n_step rcrc hcrc n NRegisterProducer))) s s'.
Proof.
  intros k n s U D R. cbn [n_step]. pose proof (nr_prod _ _ _ _ _ R) as P. unfold n_register_producer.
  destruct (n_prod n) as [p|] eqn:Ep; cbn [fst snd].
  - exists s, U, D. split; [apply S_producer_twice; destruct p; apply P|split; [exact R|apply moved_fields; reflexivity]].
  - destruct P as [P1 P2]. exists (set_prod true s), U, D. split; [apply S_producer; exact P1|]. split; [|apply moved_fields; reflexivity].
    constructor; cbn [n_c n_prod n_cons n_hold n_check n_wait n_set_prod set_prod q_unread q_gone q_slot q_prod q_wait q_reader q_sync q_locks q_shut]; try nr R.
    + pose proof (nr_ci _ _ _ _ _ R) as I. unfold resv in *. rewrite Ep in I. exact I.
    + auto.
    + pose proof (nr_wait _ _ _ _ _ R) as W. destruct (n_wait n); [|exact W]. destruct W as (_ & W & _). congruence.
Qed.

(** The reservation is given up. *)
Lemma abandoned : forall k n s U D, rel k n s U D -> exists D', cinv (n_c n) U D' /\ (U = [] -> D' = []) /\
  Forall2 (erel (k_check k) (n_c n)) U (q_unread (abandon s)) /\ Forall2 (erel (k_check k) (n_c n)) D' (q_gone (abandon s)) /\
  q_slot (abandon s) = None /\ q_prod (abandon s) = q_prod s /\ q_wait (abandon s) = q_wait s /\ q_reader (abandon s) = q_reader s /\
  q_locks (abandon s) = q_locks s /\ q_shut (abandon s) = q_shut s /\ q_unread (abandon s) = q_unread s /\
  (q_sync (abandon s) = true -> q_sync s = true /\ D' = D) .
Proof.
  intros k n s U D R. pose proof (nr_ci _ _ _ _ _ R) as I. pose proof (nr_prod _ _ _ _ _ R) as P.
  pose proof (nr_unread _ _ _ _ _ R) as FU. pose proof (nr_gone _ _ _ _ _ R) as FD. pose proof (nr_tidy _ _ _ _ _ R) as HT.
  unfold abandon. destruct (q_slot s) as [ [i d]|] eqn:Es.
  - destruct (n_prod n) as [ [r|]|] eqn:Ep; try (destruct P; congruence).
    destruct P as (_ & i' & d' & P1 & P2 & P3). injection P1 as <- <-.
    unfold resv in I. rewrite Ep in I.
    destruct (q_unread s) as [|e l] eqn:Eu.
    + inv FU. rewrite (HT eq_refl) in *. exists []. cbn. splits; auto.
      * apply (cinv_forget _ [r] []). exact I.
    + exists (D ++ [r]). cbn [q_unread q_gone q_slot q_prod q_wait q_reader q_locks q_shut q_sync]. splits; auto.
      * intros ->. inv FU.
      * apply Forall2_app; [exact FD|]. constructor; [|constructor]. split; [exact P2|exact P3].
      * discriminate.
  - assert (HR: resv n = []).
    { unfold resv. destruct (n_prod n) as [ [r|]|]; try reflexivity. destruct P as (_ & i & d & P & _). congruence. }
    rewrite HR, app_nil_r in I. exists D. splits; auto.
Qed.

Lemma sim_drop_producer : forall k n s U D, rel k n s U D ->
  exists s' U' D', step k sum_of s NDropProducer (snd (n_step rcrc hcrc n NDropProducer)) s' /\ rel k (fst (n_step rcrc hcrc n NDropProducer)) s' U' D' /\
    moved k (n_c n) (n_c (fst (n_step rcrc hcrc n NDropProducer))) s s'.
Proof.
  intros k n s U D R. cbn [n_step]. pose proof (idle_iff _ _ _ _ _ R) as Hi.
  destruct (n_prod n) as [p|] eqn:Ep; [|exists s, U, D; split; [apply S_drop_producer_nocall; rewrite Hi; intros [[p H] _]; discriminate|split; [exact R|apply moved_fields; reflexivity]]].
  destruct (n_wait n) as [w|] eqn:Ew; [exists s, U, D; split; [apply S_drop_producer_nocall; rewrite Hi; intros [_ H]; discriminate|split; [exact R|apply moved_fields; reflexivity]]|].
  assert (Id: idle s) by (apply Hi; eauto). cbn [fst snd].
  destruct (abandoned _ _ _ _ _ R) as (D' & A1 & A2 & A3 & A4 & A5 & A6 & A7 & A8 & A9 & A10 & A11 & A12).
  exists (set_prod false (abandon s)), U, D'. split; [apply S_drop_producer; exact Id|]. split; [|apply (moved_trans _ _ (n_c n) _ _ (abandon s)); [apply moved_abandon; eapply rel_gone; exact R|apply moved_fields; reflexivity]].
  constructor; cbn [n_c n_prod n_cons n_hold n_check n_wait n_drop_producer n_set_prod set_prod q_unread q_gone q_slot q_prod q_wait q_reader q_sync q_locks q_shut]; try nr R; auto.
  - unfold resv. cbn. rewrite app_nil_r. exact A1.
  - rewrite Ew, A7. pose proof (nr_wait _ _ _ _ _ R) as W. rewrite Ew in W. exact W.
  - rewrite A8. nr R.
  - intros Hs. destruct (A12 Hs) as [Hs' ->]. destruct (nr_sync _ _ _ _ _ R Hs') as (Y1 & Y2 & Y3 & Y4 & Y5).
    splits; auto; [rewrite A11; exact Y3|unfold ahead in *; cbn [q_reader set_prod]; rewrite A8; exact Y4|rewrite A8; exact Y5].
  - rewrite A9. nr R.
  - rewrite A10. nr R.
Qed.

Lemma nobody_iff : forall k n s U D, rel k n s U D -> q_reader s = Nobody <-> n_cons n = None.
Proof.
  intros k n s U D R. pose proof (nr_cons _ _ _ _ _ R) as C. destruct (n_cons n) as [ [ [r|]|q]|].
  - destruct C as [C _]. split; congruence.
  - split; congruence.
  - destruct C as (j & C & _). split; congruence.
  - split; auto.
Qed.

Lemma sim_register_consumer : forall k n s U D, rel k n s U D ->
  exists s' U' D', step k sum_of s NRegisterConsumer (snd (n_step rcrc hcrc n NRegisterConsumer)) s' /\ rel k (fst (n_step rcrc hcrc n NRegisterConsumer)) s' U' D' /\
    moved k (n_c n) (n_c (fst (n_step rcrc hcrc n NRegisterConsumer))) s s'.
Proof.
  intros k n s U D R. cbn [n_step]. unfold n_register_consumer. pose proof (nobody_iff _ _ _ _ _ R) as Hn.
  destruct (n_cons n) as [kc|] eqn:Ec; cbn [fst snd].
  - exists s, U, D. split; [apply S_register_twice; rewrite Hn; discriminate|split; [exact R|apply moved_fields; reflexivity]].
  - exists (set_sync false (set_reader (Regular false) s)), U, D. split; [apply S_register; apply Hn; reflexivity|]. split; [|apply moved_fields; reflexivity].
    constructor; cbn [n_c n_prod n_cons n_hold n_check n_wait n_set_cons set_sync set_reader q_unread q_gone q_slot q_prod q_wait q_reader q_sync q_locks q_shut]; try nr R.
    + reflexivity.
    + discriminate.
Qed.

Lemma sim_register_cursor : forall k n s U D, rel k n s U D ->
  misuse k s NRegisterCursor \/
  exists s' U' D', step k sum_of s NRegisterCursor (snd (n_step rcrc hcrc n NRegisterCursor)) s' /\ rel k (fst (n_step rcrc hcrc n NRegisterCursor)) s' U' D' /\
    moved k (n_c n) (n_c (fst (n_step rcrc hcrc n NRegisterCursor))) s s'.
Proof.
  intros k n s U D R. cbn [n_step]. unfold n_register_cursor. pose proof (nobody_iff _ _ _ _ _ R) as Hn.
  destruct (n_cons n) as [kc|] eqn:Ec; cbn [fst snd].
  - right. exists s, U, D. split; [apply S_cursor_twice; rewrite Hn; discriminate|split; [exact R|apply moved_fields; reflexivity]].
  - assert (N: q_reader s = Nobody) by (apply Hn; reflexivity). rewrite (nr_ow _ _ _ _ _ R). destruct (k_ow k) eqn:Eo; cbn [fst snd].
    + destruct (q_sync s) eqn:Es.
      * right. exists (set_reader (Cursor 0) s), U, D. split; [apply S_cursor; assumption|]. split; [|apply moved_fields; reflexivity].
        constructor; cbn [n_c n_prod n_cons n_hold n_check n_wait n_set_cons set_reader q_unread q_gone q_slot q_prod q_wait q_reader q_sync q_locks q_shut]; try nr R.
        -- exists 0%nat. splits; auto. lia.
        -- intros _. destruct (nr_sync _ _ _ _ _ R Es) as (Y1 & Y2 & Y3 & Y4 & Y5). splits; auto; [|discriminate].
           unfold ahead in *. rewrite N in Y4. cbn [q_reader set_reader]. exact Y4.
      * left. split; [exact Es|]. auto.
    + right. exists s, U, D. split; [apply S_cursor_overwriting; assumption|split; [exact R|apply moved_fields; reflexivity]].
Qed.

Lemma sim_drop_consumer : forall k n s U D, rel k n s U D ->
  exists s' U' D', step k sum_of s NDropConsumer (snd (n_step rcrc hcrc n NDropConsumer)) s' /\ rel k (fst (n_step rcrc hcrc n NDropConsumer)) s' U' D' /\
    moved k (n_c n) (n_c (fst (n_step rcrc hcrc n NDropConsumer))) s s'.
Proof.
  intros k n s U D R. cbn [n_step]. pose proof (nobody_iff _ _ _ _ _ R) as Hn.
  destruct (n_cons n) as [kc|] eqn:Ec; cbn [fst snd].
  - assert (N: q_reader s <> Nobody) by (rewrite Hn; discriminate).
    eexists _, U, D. split; [apply S_drop_consumer; exact N|]. split; [|apply moved_fields; reflexivity].
    constructor; cbn [n_c n_prod n_cons n_hold n_check n_wait n_drop_consumer n_set_cons set_sync set_reader q_unread q_gone q_slot q_prod q_wait q_reader q_sync q_locks q_shut]; try nr R.
    + reflexivity.
    + destruct (q_reader s) as [|b|[|j]] eqn:Er; try discriminate. intros Hs. destruct (nr_sync _ _ _ _ _ R Hs) as (Y1 & Y2 & Y3 & Y4 & Y5).
      splits; auto; [|discriminate]. unfold ahead in *. rewrite Er in Y4. exact Y4.
  - exists s, U, D. split; [apply S_drop_consumer_nocall; apply Hn; reflexivity|split; [exact R|apply moved_fields; reflexivity]].
Qed.

(** * Releasing the oldest record *)
Lemma finish_ok : forall cb busy c h U T, cinv c (h :: U) T ->
  exists c' b, finish_read_common cb busy c h = Some (c', b) /\ cinv c' U T /\ frame c c' /\ c_mem c' = c_mem c /\
    acct (c_stats c') = (let st := c_stats c in [s_records_written st; s_bytes_written st; s_total_bytes_written st;
      s_records_read st + 1; s_bytes_read st + (r_size h - c_extra c); s_total_bytes_read st + r_size h;
      s_records_overwritten st; s_bytes_overwritten st; s_records_corrupted st]).
Proof.
  intros cb busy c h U T I. unfold finish_read_common. destruct (advance_ok _ _ _ _ I) as (w & l & n & E & I2). rewrite E.
  set (c1 := set_stats _ (set3 w l n c)).
  assert (I3: cinv c1 U T) by (apply cinv_stats; exact I2).
  set (drained := match c_wait c1 with None => false | Some None => true | Some (Some x) => x =? r_start h end).
  set (c2 := if drained then set_wait None c1 else c1).
  assert (S: same c1 c2 /\ c_locks c2 = c_locks c1 /\ c_shutdown c2 = c_shutdown c1).
  { unfold c2. destruct drained; splits; try reflexivity; constructor; reflexivity. }
  assert (A: acct (c_stats c2) = acct (c_stats c1)) by (unfold c2; destruct drained; reflexivity).
  destruct S as (S & S1 & S2). pose proof (cinv_same _ _ _ _ I3 S) as I4.
  unfold maybe_do_total_data_loss_reset. rewrite (ci_pending _ _ _ I4). cbn [negb].
  exists c2, drained. split; [reflexivity|]. split; [exact I4|]. destruct S. split; [|split; [rewrite sm_mem0; reflexivity|exact A]].
  constructor; [rewrite sm_len0|rewrite sm_ex0|rewrite sm_ow0|rewrite sm_nws0|rewrite sm_cur0|rewrite S1|rewrite S2]; reflexivity.
Qed.

Lemma leave_fields : forall fs u s, q_unread (leave fs u s) = u /\ q_gone (leave fs u s) = match u with [] => [] | _ => q_gone s end /\
  q_slot (leave fs u s) = q_slot s /\ q_prod (leave fs u s) = q_prod s /\ q_wait (leave fs u s) = q_wait s /\ q_reader (leave fs u s) = q_reader s /\
  q_sync (leave fs u s) = q_sync s /\ q_locks (leave fs u s) = q_locks s /\ q_shut (leave fs u s) = q_shut s /\ q_next (leave fs u s) = q_next s.
Proof. intros fs u s. unfold leave. destruct u; repeat split; reflexivity. Qed.

(** What the relation sees of a queue. *)
Record alike (s s' : queue) : Prop := {
  al_unread : q_unread s' = q_unread s; al_gone : q_gone s' = q_gone s; al_slot : q_slot s' = q_slot s; al_prod : q_prod s' = q_prod s;
  al_wait : q_wait s' = q_wait s; al_reader : q_reader s' = q_reader s; al_sync : q_sync s' = q_sync s; al_locks : q_locks s' = q_locks s;
  al_shut : q_shut s' = q_shut s }.
Lemma rel_alike : forall k n s s' U D, rel k n s U D -> alike s s' -> rel k n s' U D.
Proof.
  intros k n s s' U D R A. destruct A as [A1 A2 A3 A4 A5 A6 A7 A8 A9]. unfold ahead in *.
  constructor; rewrite ?A1, ?A2, ?A3, ?A4, ?A5, ?A6, ?A7, ?A8, ?A9; try nr R.
  intros H. destruct (nr_sync _ _ _ _ _ R H) as (Y1 & Y2 & Y3 & Y4 & Y5). unfold ahead in *. rewrite A6. auto.
Qed.

Definition tidy (U D : list range) : list range := match U with [] => [] | _ => D end.

Lemma rel_release : forall k n s h U D e l c' kc rd f, rel k n s (h :: U) D -> q_unread s = e :: l ->
  cinv c' U (D ++ resv n) -> frame (n_c n) c' -> c_mem c' = c_mem (n_c n) ->
  match kc with
  | None => rd = Nobody
  | Some (Plain None) => rd = Regular false
  | Some (Plain (Some r)) => False
  | Some (Ahead q) => exists j, rd = Cursor j /\ (j <= length U)%nat /\ q = firstn j U /\ k_ow k = OBlock
  end ->
  (q_sync s = true -> exists j, q_reader s = Cursor (S j) /\ rd = Cursor j) ->
  rel k (n_set_c (write_header_crc hcrc c') (n_set_cons kc n)) (set_reader rd (leave [(f, e)] l s)) U (tidy U D).
Proof.
  intros k n s h U D e l c' kc rd f R Q I F M HC HS. assert (F' := F). destruct F' as [F1 F2 F3 F4 F5 F6 F7].
  destruct (leave_fields [(f, e)] l s) as (Q1 & Q2 & Q3 & Q4 & Q5 & Q6 & Q7 & Q8 & Q9 & _).
  pose proof (nr_unread _ _ _ _ _ R) as FU. rewrite Q in FU. inversion FU as [|? ? ? ? _ FU']; subst.
  assert (Her: forall r x, erel (k_check k) (n_c n) r x -> erel (k_check k) (write_header_crc hcrc c') r x).
  { intros r x. apply erel_same; [exact M|exact F2]. }
  assert (HR: resv (n_set_c (write_header_crc hcrc c') (n_set_cons kc n)) = resv n) by reflexivity.
  constructor; rewrite ?HR; cbn [n_c n_prod n_cons n_hold n_check n_wait n_set_c n_set_cons set_reader q_unread q_gone q_slot q_prod q_wait q_reader q_sync q_locks q_shut];
    rewrite ?Q1, ?Q2, ?Q3, ?Q4, ?Q5, ?Q6, ?Q7, ?Q8, ?Q9.
  - apply cinv_hcrc. destruct U; [|exact I]. cbn [tidy app]. apply (cinv_forget _ D). exact I.
  - intros ->. reflexivity.
  - cbn. rewrite F1. nr R.
  - cbn. rewrite F2. nr R.
  - cbn. rewrite F3. nr R.
  - nr R.
  - nr R.
  - eapply F2_impl; [|exact FU']. auto.
  - destruct FU' as [|a b ? ? ? ?]; [constructor|]. cbn [tidy]. eapply F2_impl; [|exact (nr_gone _ _ _ _ _ R)]. auto.
  - pose proof (nr_prod _ _ _ _ _ R) as P. destruct (n_prod n) as [ [r|]|]; try exact P. destruct P as (P1 & i & d & P2 & P3 & P4).
    split; [exact P1|]. exists i, d. splits; auto.
    + eapply stored_same; [exact M|exact F2|exact P3].
    + destruct P4 as [P4 P5]. split; [exact P4|]. cbn. rewrite M. exact P5.
  - pose proof (nr_wait _ _ _ _ _ R) as W. cbn. rewrite F4, F1, F2. exact W.
  - destruct kc as [ [ [r|]|q]|]; auto. contradiction.
  - intros Hs. destruct (nr_sync _ _ _ _ _ R Hs) as (Y1 & Y2 & Y3 & Y4 & Y5). destruct (HS Hs) as (j & J1 & J2). subst D.
    splits; auto.
    + destruct U; reflexivity.
    + rewrite Q in Y3. inv Y3. assumption.
    + unfold ahead in *. cbn. rewrite F5, J2. rewrite J1 in Y4. exact Y4.
    + rewrite J2. discriminate.
  - cbn. rewrite F6. nr R.
  - cbn. rewrite F7. nr R.
  - reflexivity.
Qed.

Lemma sim_finish : forall k n s U D, rel k n s U D ->
  exists s' U' D', step k sum_of s NFinishRead (snd (n_step rcrc hcrc n NFinishRead)) s' /\ rel k (fst (n_step rcrc hcrc n NFinishRead)) s' U' D' /\
    moved k (n_c n) (n_c (fst (n_step rcrc hcrc n NFinishRead))) s s'.
Proof.
  intros k n s U D R. cbn [n_step]. pose proof (nr_cons _ _ _ _ _ R) as C. destruct (n_cons n) as [ [ [r|]|q]|].
  - destruct C as [C1 C2]. destruct U as [|h U]; [discriminate|]. injection C2 as ->. unfold n_finish_read.
    pose proof (nr_unread _ _ _ _ _ R) as FU. destruct (q_unread s) as [|e l] eqn:Q; [inv FU|].
    set (n1 := n_set_cons (Some (Plain None)) n).
    destruct (finish_ok (n_cb hcrc) (n_busy n1) (n_c n) r U _ (nr_ci _ _ _ _ _ R)) as (c' & b & E & I & F & M & A).
    change (n_c n1) with (n_c n). rewrite E. cbn [fst snd]. eexists _, U, _. split; [eapply S_finish; eassumption|].
    split; [|eapply (moved_trans _ _ (write_header_crc hcrc c') _ _ (leave [(Consumed, e)] l s)); [|apply moved_fields; reflexivity];
      inversion FU as [|? ? ? ? [He _] _]; subst; eapply moved_read; [exact He|nr R|exact Q|exact A]].
    eapply rel_release; try eassumption; [reflexivity|]. intros Hs. exfalso. eapply (nr_sync _ _ _ _ _ R Hs). exact C1.
  - exists s, U, D. split; [apply S_finish_none; exact C|split; [exact R|apply moved_fields; reflexivity]].
  - destruct C as (j & C & _). exists s, U, D. split; [apply S_finish_nocall; intros b; rewrite C; discriminate|split; [exact R|apply moved_fields; reflexivity]].
  - exists s, U, D. split; [apply S_finish_nocall; intros b; rewrite C; discriminate|split; [exact R|apply moved_fields; reflexivity]].
Qed.

Lemma sim_advance : forall k n s U D, rel k n s U D ->
  exists s' U' D', step k sum_of s NAdvance (snd (n_step rcrc hcrc n NAdvance)) s' /\ rel k (fst (n_step rcrc hcrc n NAdvance)) s' U' D' /\
    moved k (n_c n) (n_c (fst (n_step rcrc hcrc n NAdvance))) s s'.
Proof.
  intros k n s U D R. cbn [n_step]. pose proof (nr_cons _ _ _ _ _ R) as C. destruct (n_cons n) as [ [ [r|]|q]|].
  - destruct C as [C _]. exists s, U, D. split; [apply S_advance_nocall; intros b; rewrite C; discriminate|split; [exact R|apply moved_fields; reflexivity]].
  - exists s, U, D. split; [apply S_advance_nocall; intros b; rewrite C; discriminate|split; [exact R|apply moved_fields; reflexivity]].
  - destruct C as (j & C1 & C2 & C3 & C4). unfold n_advance. destruct q as [|r q].
    + cbn [fst snd]. exists s, U, D. split; [|split; [exact R|apply moved_fields; reflexivity]]. apply S_advance_none. destruct j; [exact C1|]. destruct U; [cbn in C2; lia|discriminate].
    + destruct j as [|j]; [discriminate|]. destruct U as [|h U]; [discriminate|]. cbn in C3. injection C3 as -> ->.
      pose proof (nr_unread _ _ _ _ _ R) as FU. destruct (q_unread s) as [|e l] eqn:Q; [inv FU|].
      set (n1 := n_set_cons (Some (Ahead (firstn j U))) n).
      destruct (finish_ok (n_cb hcrc) (n_busy n1) (n_c n) h U _ (nr_ci _ _ _ _ _ R)) as (c' & b & E & I & F & M & A).
      change (n_c n1) with (n_c n). rewrite E. cbn [fst snd]. eexists _, U, _. split; [eapply S_advance; eassumption|].
    split; [|eapply (moved_trans _ _ (write_header_crc hcrc c') _ _ (leave [(Consumed, e)] l s)); [|apply moved_fields; reflexivity];
      inversion FU as [|? ? ? ? [He _] _]; subst; eapply moved_read; [exact He|nr R|exact Q|exact A]].
      eapply rel_release; try eassumption.
      * exists j. splits; auto. cbn in C2. lia.
      * intros _. exists j. auto.
  - exists s, U, D. split; [apply S_advance_nocall; intros b; rewrite C; discriminate|split; [exact R|apply moved_fields; reflexivity]].
Qed.

(** * Reading *)
Definition tear (j : nat) (e : entry) : entry :=
  mkEntry (e_id e) (e_data e) (from_bytes (repeat 0 j ++ skipn j (to_bytes (e_sum e)))) (e_done e).

Lemma tear_torn : forall j e, (j <= 4)%nat -> torn e (tear j e).
Proof. intros j e H. unfold torn. splits; try reflexivity. exists j. auto. Qed.
Lemma tear_dim : forall k e, k_check k = true -> tear 4 e = dim k e.
Proof. intros k e H. unfold dim. rewrite H. reflexivity. Qed.

(** Clearing the first [j] bytes of the checksum of the oldest record. *)
Lemma rel_tear : forall k n s h U D e l j m, rel k n s (h :: U) D -> q_unread s = e :: l -> q_sync s = false -> k_check k = true -> (j <= 4)%nat ->
  (forall i, m i = mem_set (c_mem (n_c n)) (r_start h) (repeat 0 j) i) ->
  rel k (n_set_c (set_mem m (n_c n)) n) (leave [] (tear j e :: l) s) (h :: U) D.
Proof.
  intros k n s h U D e l j m R Q Hs Hc Hj Hm. pose proof (nr_ci _ _ _ _ _ R) as I.
  assert (Hx: c_extra (n_c n) = 8) by (rewrite (nr_ex _ _ _ _ _ R); unfold k_extra; rewrite Hc; reflexivity).
  pose proof (ci_layout _ _ _ I) as L. pose proof (ci_sizes _ _ _ I) as Sz. rewrite Forall_forall in Sz.
  assert (Hh: c_extra (n_c n) < r_size h) by (apply (Sz h); left; reflexivity).
  assert (M: forall i, i < r_start h \/ r_start h + 4 <= i -> m i = c_mem (n_c n) i).
  { intros i Hi. rewrite Hm. apply mem_set_out. rewrite repeat_length. lia. }
  assert (Dj: forall x, In x (U ++ D ++ resv n) -> forall i, r_start x <= i < r_start x + r_size x -> m i = c_mem (n_c n) i).
  { intros x Hxin i Hi. apply M. pose proof (layout_disj_app [h] (U ++ D ++ resv n) _ _ _ h x L (or_introl eq_refl) Hxin) as Dj. unfold disjoint in Dj. lia. }
  assert (Her: forall x y, In x (U ++ D ++ resv n) -> erel (k_check k) (n_c n) x y -> erel (k_check k) (set_mem m (n_c n)) x y).
  { intros x y Hi He. apply erel_mem; [exact He|rewrite Hc; exact Hx|]. apply Dj. exact Hi. }
  pose proof (nr_unread _ _ _ _ _ R) as FU. rewrite Q in FU. inversion FU as [|? ? ? ? He FU']; subst.
  assert (He': erel (k_check k) (set_mem m (n_c n)) h (tear j e)).
  { destruct He as [He1 [He2 He3] ]. split.
    - apply stored_mem; [exact He1|lia|]. intros i Hi. apply M. lia.
    - rewrite Hc in *. specialize (He3 eq_refl).
      assert (Fb: Forall (fun b => 0 <= b < 256) (repeat 0 j ++ skipn j (to_bytes (e_sum e)))).
      { apply Forall_app. split; [apply Forall_forall; intros b Hb; apply repeat_spec in Hb; lia|].
        pose proof (to_bytes_range (e_sum e)) as Tb.
        rewrite <- (firstn_skipn j (to_bytes (e_sum e))) in Tb. apply Forall_app in Tb. apply Tb. }
      assert (Lb: length (repeat 0 j ++ skipn j (to_bytes (e_sum e))) = 4%nat).
      { rewrite app_length, repeat_length, skipn_length, to_bytes_length. lia. }
      split; [apply from_bytes_range; [exact Fb|lia]|]. intros _. cbn [tear e_sum set_mem c_mem].
      rewrite to_from_bytes by assumption.
      rewrite (mem_get_ext m (mem_set (c_mem (n_c n)) (r_start h + 0) (repeat 0 j))) by (intros i _; rewrite Hm; f_equal; lia).
      rewrite mem_get_splice; [|lia|rewrite repeat_length; lia]. rewrite He3. unfold splice. rewrite repeat_length. reflexivity. }
  destruct (leave_fields [] (tear j e :: l) s) as (Q1 & Q2 & Q3 & Q4 & Q5 & Q6 & Q7 & Q8 & Q9 & _).
  assert (HR: resv (n_set_c (set_mem m (n_c n)) n) = resv n) by reflexivity.
  constructor; rewrite ?HR; cbn [n_c n_prod n_cons n_hold n_check n_wait n_set_c]; rewrite ?Q1, ?Q2, ?Q3, ?Q4, ?Q5, ?Q6, ?Q7, ?Q8, ?Q9; try nr R.
  - apply cinv_mem; [exact I|]. intros x i Hxin Hi. destruct Hxin as [<-|Hxin]; [apply M; lia|].
    apply (Dj x Hxin). assert (c_extra (n_c n) < r_size x) by (apply (Sz x); right; exact Hxin). lia.
  - constructor; [exact He'|]. eapply F2_impl; [|exact FU']. intros x y Hi _. apply Her. apply in_or_app. left. exact Hi.
  - eapply F2_impl; [|exact (nr_gone _ _ _ _ _ R)]. intros x y Hi _. apply Her. apply in_or_app. right. apply in_or_app. left. exact Hi.
  - pose proof (nr_prod _ _ _ _ _ R) as P. unfold resv in *. destruct (n_prod n) as [ [r|]|]; try exact P. destruct P as (P1 & i & d & P2 & P3 & P4).
    assert (Hin: In r (U ++ D ++ [r])) by (apply in_or_app; right; apply in_or_app; right; left; reflexivity).
    split; [exact P1|]. exists i, d. splits; auto.
    + apply stored_mem; [exact P3|lia|]. intros x Hi. apply (Dj r Hin). lia.
    + destruct P4 as [P4 P5]. split; [exact P4|]. intros X. rewrite <- (P5 X). apply mem_get_ext. intros x Hi. apply (Dj r Hin).
      assert (c_extra (n_c n) < r_size r) by (apply (Sz r); right; exact Hin). lia.
  - rewrite Hs. discriminate.
Qed.

Lemma leave_leave : forall f1 u1 f2 u2 s, (u1 = [] -> u2 = [] /\ f2 = []) -> alike (leave (f1 ++ f2) u2 s) (leave f2 u2 (leave f1 u1 s)) /\
  q_past (leave f2 u2 (leave f1 u1 s)) = q_past (leave (f1 ++ f2) u2 s) /\ q_next (leave f2 u2 (leave f1 u1 s)) = q_next (leave (f1 ++ f2) u2 s).
Proof.
  intros f1 u1 f2 u2 s H. destruct u1 as [|a u1].
  - destruct (H eq_refl) as [-> ->]. cbn. rewrite !app_nil_r. splits; auto. constructor; reflexivity.
  - destruct u2 as [|b u2]; cbn; rewrite <- !app_assoc; splits; auto; constructor; reflexivity.
Qed.
Lemma leave_leave_eq : forall f1 u1 f2 u2 s, (u1 = [] -> u2 = [] /\ f2 = []) -> leave f2 u2 (leave f1 u1 s) = leave (f1 ++ f2) u2 s.
Proof.
  intros f1 u1 f2 u2 s H. destruct u1 as [|a u1].
  - destruct (H eq_refl) as [-> ->]. cbn. rewrite !app_nil_r. reflexivity.
  - destruct u2 as [|b u2]; cbn; rewrite <- !app_assoc; reflexivity.
Qed.

Lemma start_read_head : forall cb busy c h U T block, cinv c (h :: U) T -> start_read cb busy c block false CursorNo = (c, Ok h).
Proof.
  intros cb busy c h U T block I. unfold start_read. rewrite (ci_pending _ _ _ I).
  assert (Hin: In h ((h :: U) ++ T)) by (left; reflexivity).
  assert (Hn: rd_start CursorNo c = Some (r_start h)) by (cbn; rewrite (ci_nrs _ _ _ I); reflexivity).
  rewrite Hn, (load_ok _ _ _ CursorNo h I Hin Hn).
  pose proof (layout_bounds _ _ _ _ _ (ci_layout _ _ _ I) Hin) as (B1 & B2 & B3). pose proof (ci_extra _ _ _ I) as Hx.
  pose proof (ci_sizes _ _ _ I) as Sz. rewrite Forall_forall in Sz. destruct (Sz h Hin) as [S1 _].
  unfold slice_ok.
  replace (0 <=? r_start h) with true by lia. replace (r_start h <=? r_start h + c_extra c - 4) with true by lia.
  replace (r_start h + c_extra c - 4 <=? c_len c) with true by lia. replace (0 <=? r_start h + c_extra c) with true by lia.
  replace (r_start h + c_extra c <=? r_start h + c_extra c + (r_size h - c_extra c)) with true by lia.
  replace (r_start h + c_extra c + (r_size h - c_extra c) <=? c_len c) with true by lia. cbn [andb].
  replace (r_size h - c_extra c + c_extra c) with (r_size h) by lia. destruct h; reflexivity.
Qed.

Lemma start_read_empty : forall cb busy c T block, cinv c [] T -> start_read cb busy c block false CursorNo = no_data c block.
Proof.
  intros cb busy c T block I. unfold start_read. rewrite (ci_pending _ _ _ I). cbn [rd_start]. rewrite (ci_nrs _ _ _ I). reflexivity.
Qed.

Lemma rel_no_data : forall k n s U D block, rel k n s U D -> q_unread s = [] ->
  rel k (n_set_c (fst (no_data (n_c n) block)) n) (leave [] [] s) U D /\ NRange (snd (no_data (n_c n) block)) = nothing s block.
Proof.
  intros k n s U D block R Q. split.
  - apply (rel_alike k _ s).
    + unfold no_data. destruct block; cbn [fst]; apply rel_same'; auto; try apply same_refl. constructor; reflexivity.
    + assert (G: q_gone s = []).
      { pose proof (nr_unread _ _ _ _ _ R) as FU. rewrite Q in FU. inversion FU as [E|]. pose proof (nr_gone _ _ _ _ _ R) as FG.
        rewrite (nr_tidy _ _ _ _ _ R (eq_sym E)) in FG. inv FG. reflexivity. }
      cbn. constructor; cbn; congruence.
  - unfold no_data, nothing. rewrite <- (nr_shut _ _ _ _ _ R). destruct block; [|reflexivity]. destruct (c_shutdown (n_c n)); reflexivity.
Qed.

Lemma rel_corrupted : forall k n s U D, rel k n s U D -> rel k (n_set_c (count_corrupted (n_c n)) n) s U D.
Proof. intros k n s U D R. apply rel_same'; auto. apply same_stats. Qed.

Lemma check_head : forall k n s h U D e l, rel k n s (h :: U) D -> q_unread s = e :: l -> k_check k = true ->
  (record_crc rcrc (n_c n) h =? from_bytes (mem_get (c_mem (n_c n)) (r_start h) 4)) = (sum_of (e_data e) =? e_sum e).
Proof.
  intros k n s h U D e l R Q Hc. pose proof (nr_unread _ _ _ _ _ R) as FU. rewrite Q in FU. inversion FU as [|? ? ? ? He FU']; subst.
  destruct He as [He1 [He2 He3] ]. rewrite (stored_crc _ _ _ He1), (He3 Hc), from_to_bytes; [reflexivity|exact He2].
Qed.

Lemma shown_iff : forall k e, k_check k = true -> shown k sum_of e <-> (sum_of (e_data e) =? e_sum e) = true.
Proof. intros k e H. unfold shown. rewrite H, Z.eqb_eq. split; intros X; [symmetry; auto|intros _; symmetry; exact X]. Qed.

Lemma regular_unsync : forall k n s U D b, rel k n s U D -> q_reader s = Regular b -> q_sync s = false.
Proof.
  intros k n s U D b R H. destruct (q_sync s) eqn:E; [|reflexivity]. exfalso. exact (proj2 (proj2 (proj2 (proj2 (nr_sync _ _ _ _ _ R E)))) b H).
Qed.

Lemma set_c_c : forall n, n_set_c (n_c n) n = n.
Proof. intros []. reflexivity. Qed.
Lemma set_reader_id : forall s r, q_reader s = r -> set_reader r s = s.
Proof. intros [] r H. cbn in *. subst. reflexivity. Qed.

(** One record with a wrong checksum is passed over. *)
Lemma skip_one : forall k n s h U D e l fuel block, rel k n s (h :: U) D -> q_unread s = e :: l -> n_cons n = Some (Plain None) ->
  ~ shown k sum_of e ->
  exists m c1 b, zero_extra_data (n_c n) (r_start h) = Some (set_mem m (n_c n)) /\
    finish_read_common (n_cb hcrc) (n_busy n) (count_corrupted (set_mem m (n_c n))) h = Some (c1, b) /\
    consumer_start_read rcrc hcrc (S fuel) (n_check n) (n_busy n) (n_c n) block false CursorNo =
             consumer_start_read rcrc hcrc fuel (n_check n) (n_busy n) (write_header_crc hcrc c1) block false CursorNo /\
    rel k (n_set_c (write_header_crc hcrc c1) n) (leave [(Skipped, e)] l s) U (tidy U D) /\
    moved k (n_c n) (write_header_crc hcrc c1) s (leave [(Skipped, e)] l s).
Proof.
  intros k n s h U D e l fuel block R Q C Hs.
  assert (Hc: k_check k = true) by (destruct (k_check k) eqn:E; [reflexivity|]; exfalso; apply Hs; unfold shown; congruence).
  pose proof (nr_ci _ _ _ _ _ R) as I.
  assert (Qr: q_reader s = Regular false) by (pose proof (nr_cons _ _ _ _ _ R) as X; rewrite C in X; exact X).
  cbn [consumer_start_read]. rewrite (start_read_head _ _ _ _ _ _ _ I). rewrite (nr_check _ _ _ _ _ R), Hc.
  rewrite (check_head _ _ _ _ _ _ _ _ R Q Hc).
  destruct (sum_of (e_data e) =? e_sum e) eqn:E; [exfalso; apply Hs; apply shown_iff; assumption|].
  assert (Hin: In h ((h :: U) ++ D ++ resv n)) by (left; reflexivity).
  destruct (zero_extra_ok _ _ _ h I Hin) as (m & Ez & Iz & Em & Mz). rewrite Ez.
  assert (Rt: rel k (n_set_c (set_mem m (n_c n)) n) (leave [] (tear 4 e :: l) s) (h :: U) D).
  { apply rel_tear; auto; [apply (regular_unsync _ _ _ _ _ _ R Qr)|]. intros i. rewrite Em.
    rewrite (nr_ex _ _ _ _ _ R). unfold k_extra. rewrite Hc. reflexivity. }
  apply rel_corrupted in Rt. cbn [n_c n_set_c n_prod n_cons n_hold n_check n_wait] in Rt.
  change (n_set_c (count_corrupted (set_mem m (n_c n))) (n_set_c (set_mem m (n_c n)) n)) with (n_set_c (count_corrupted (set_mem m (n_c n))) n) in Rt.
  destruct (finish_ok (n_cb hcrc) (n_busy n) (count_corrupted (set_mem m (n_c n))) h U _ (nr_ci _ _ _ _ _ Rt)) as (c' & b & Ef & If & Ff & Mf & Af).
  rewrite Ef. exists m, c', b. split; [reflexivity|]. split; [exact Ef|]. split; [reflexivity|].
  split.
  2:{ pose proof (nr_unread _ _ _ _ _ R) as FU. rewrite Q in FU. inversion FU as [|? ? ? ? [He _] _]; subst.
      eapply moved_skip; [exact He|nr R|exact Q|exact Af]. }
  assert (G: rel k (n_set_c (write_header_crc hcrc c') (n_set_cons (Some (Plain None)) (n_set_c (count_corrupted (set_mem m (n_c n))) n)))
     (set_reader (Regular false) (leave [(Skipped, tear 4 e)] l (leave [] (tear 4 e :: l) s))) U (tidy U D)).
  { eapply rel_release; try eassumption; try reflexivity. 
    - destruct (leave_fields [] (tear 4 e :: l) s) as (_ & _ & _ & _ & _ & _ & Q7 & _). rewrite Q7.
      rewrite (regular_unsync _ _ _ _ _ _ R Qr). discriminate. }
  rewrite leave_leave_eq in G by discriminate. cbn [app] in G.
  assert (En: n_set_c (write_header_crc hcrc c') (n_set_cons (Some (Plain None)) (n_set_c (count_corrupted (set_mem m (n_c n))) n)) = n_set_c (write_header_crc hcrc c') n).
  { unfold n_set_c, n_set_cons. cbn. rewrite C. reflexivity. }
  rewrite En in G. eapply rel_alike; [exact G|].
  unfold leave. destruct l; constructor; cbn; try reflexivity; exact Qr.
Qed.

Lemma read_loop : forall l fuel k n s U D block, rel k n s U D -> q_unread s = l -> (length l < fuel)%nat -> n_cons n = Some (Plain None) ->
  exists c' out U' D', consumer_start_read rcrc hcrc fuel (n_check n) (n_busy n) (n_c n) block false CursorNo = (c', out) /\
   ((exists skip x l' r, out = Ok r /\ l = skip ++ x :: l' /\ Forall (fun e => ~ shown k sum_of e) skip /\ shown k sum_of x /\
       rel k (n_set_c c' n) (leave (map (pair Skipped) skip) (dim k x :: l') s) U' D' /\ hd_error U' = Some r /\
       moved k (n_c n) c' s (leave (map (pair Skipped) skip) (dim k x :: l') s)) \/
    (Forall (fun e => ~ shown k sum_of e) l /\ NRange out = nothing s block /\ rel k (n_set_c c' n) (leave (map (pair Skipped) l) [] s) U' D' /\
       moved k (n_c n) c' s (leave (map (pair Skipped) l) [] s))).
Proof.
  induction l as [|e l IH]; intros fuel k n s U D block R Q Hf C.
  - destruct fuel as [|fuel]; [cbn in Hf; lia|]. pose proof (nr_ci _ _ _ _ _ R) as I.
    assert (EU: U = []) by (pose proof (nr_unread _ _ _ _ _ R) as FU; rewrite Q in FU; inversion FU; reflexivity). subst U.
    cbn [consumer_start_read]. rewrite (start_read_empty _ _ _ _ _ I).
    destruct (rel_no_data _ _ _ _ _ block R Q) as [R1 E1].
    destruct (no_data (n_c n) block) as [c' out] eqn:En. cbn [fst snd] in *.
    exists c', out, [], D. split.
    + unfold no_data in En. destruct block; [destruct (c_shutdown (n_c n))|]; injection En as <- <-; reflexivity.
    + right. split; [constructor|]. split; [exact E1|]. split; [exact R1|].
      apply moved_same; [unfold no_data in En; destruct block; injection En as <- _; reflexivity|intros f w Hf'; rewrite tally_leave_all by exact Hf'; destruct (fate_is f Skipped); cbn; lia|].
      intros w. apply committed_leave. rewrite Q. constructor.
  - pose proof (nr_unread _ _ _ _ _ R) as FU. rewrite Q in FU. destruct U as [|h U]; [inv FU|].
    destruct fuel as [|fuel]; [cbn in Hf; lia|].
    pose proof (nr_ci _ _ _ _ _ R) as I.
    assert (Qr: q_reader s = Regular false) by (pose proof (nr_cons _ _ _ _ _ R) as X; rewrite C in X; exact X).
    assert (Dec: shown k sum_of e \/ ~ shown k sum_of e).
    { destruct (k_check k) eqn:Hc; [|left; unfold shown; congruence]. rewrite (shown_iff _ _ Hc). destruct (sum_of (e_data e) =? e_sum e); auto. }
    destruct Dec as [Hs|Hs].
    + cbn [consumer_start_read]. rewrite (start_read_head _ _ _ _ _ _ _ I). rewrite (nr_check _ _ _ _ _ R).
      destruct (k_check k) eqn:Hc.
      * rewrite (check_head _ _ _ _ _ _ _ _ R Q Hc). rewrite (proj1 (shown_iff _ _ Hc) Hs).
        assert (Hin: In h ((h :: U) ++ D ++ resv n)) by (left; reflexivity).
        destruct (zero_extra_ok _ _ _ h I Hin) as (m & Ez & Iz & Em & Mz). rewrite Ez.
        eexists _, _, (h :: U), D. split; [reflexivity|]. left. exists [], e, l, h. split; [reflexivity|]. split; [reflexivity|]. split; [constructor|]. split; [exact Hs|]. split; [|split; [reflexivity|apply moved_dim; [reflexivity|exact Q]]].
        cbn [map]. rewrite <- (tear_dim k e Hc). apply rel_tear; auto; [apply (regular_unsync _ _ _ _ _ _ R Qr)|]. intros i. rewrite Em.
        rewrite (nr_ex _ _ _ _ _ R). unfold k_extra. rewrite Hc. reflexivity.
      * eexists _, _, (h :: U), D. split; [reflexivity|]. left. exists [], e, l, h. split; [reflexivity|]. split; [reflexivity|]. split; [constructor|]. split; [exact Hs|]. split; [|split; [reflexivity|apply moved_dim; [reflexivity|exact Q]]].
        cbn [map]. unfold dim. rewrite Hc. rewrite set_c_c. eapply rel_alike; [exact R|]. cbn. constructor; auto.
    + destruct (skip_one _ _ _ _ _ _ _ _ fuel block R Q C Hs) as (m1 & c0 & b0 & _ & _ & E1 & R1 & MV1). rewrite E1.
      set (c1 := write_header_crc hcrc c0) in *. set (s1 := leave [(Skipped, e)] l s) in *.
      assert (Q1: q_unread s1 = l) by (apply leave_fields).
      destruct (IH fuel k (n_set_c c1 n) s1 U (tidy U D) block R1 Q1 ltac:(cbn in Hf; lia) C) as (c' & out & U' & D' & E2 & H).
      exists c', out, U', D'. split; [exact E2|].
      destruct H as [(skip & x & l' & r & H1 & H2 & H3 & H4 & H5 & H6 & H7)|(H1 & H2 & H3 & H7)].
      * left. exists (e :: skip), x, l', r. split; [exact H1|]. split; [rewrite H2; reflexivity|]. split; [constructor; assumption|].
        split; [exact H4|]. unfold s1 in *. rewrite leave_leave_eq in H5, H7 by (intros ->; destruct skip; discriminate). split; [exact H5|]. split; [exact H6|].
        eapply moved_trans; [exact MV1|exact H7].
      * right. split; [constructor; assumption|]. split.
        -- rewrite H2. unfold nothing, s1. destruct (leave_fields [(Skipped, e)] l s) as (_ & _ & _ & _ & _ & _ & _ & _ & -> & _). reflexivity.
        -- unfold s1 in *. rewrite leave_leave_eq in H3, H7 by (intros ->; auto). split; [exact H3|]. eapply moved_trans; [exact MV1|exact H7].
Qed.

(** The cursor. *)
Lemma advance_cursor : forall c A r B T, cinv c (A ++ r :: B) T -> c_cur c = Some (r_start r) ->
  advance_next_read c (r_size r) CursorYes = Some (set_cur (hd_start B) c).
Proof.
  intros c A r B T I E. unfold advance_next_read. cbn [rd_start set_rd_start]. rewrite E, (ci_cws _ _ _ I).
  pose proof (ci_layout _ _ _ I) as L. rewrite <- app_assoc in L. apply layout_drop in L. cbn [app] in L.
  pose proof (ci_len _ _ _ I) as HL.
  pose proof (layout_bounds _ _ _ _ r L (or_introl eq_refl)) as (B1 & B2 & B3).
  rewrite (last_start_app A (r :: B)) by discriminate.
  destruct B as [|b B].
  - cbn [last_start]. rewrite Z.eqb_refl. reflexivity.
  - destruct (last_start (r :: b :: B)) as [x|] eqn:El; [|apply last_start_none in El; discriminate].
    assert (Hne: (r_start r =? x) = false).
    { apply Z.eqb_neq. intros Hx. rewrite last_start_cons in El by discriminate. apply last_start_in in El. destruct El as (y & Y1 & Y2).
      apply in_split in Y1. destruct Y1 as (y1 & y2 & Y3). rewrite Y3 in I.
      apply (start_unique _ _ _ r y I A y1 (y2 ++ T)); [rewrite <- !app_assoc; cbn; rewrite <- app_assoc; reflexivity|congruence]. }
    rewrite Hne. cbn [negb]. rewrite add32_ok by lia. rewrite sub32_ok by lia.
    destruct (layout_next r b (B ++ T) _ _ _ L) as [(N1 & N2 & _)|(N1 & N2 & _)].
    + rewrite N1, Z.eqb_refl. unfold hd_start. cbn. rewrite N2. reflexivity.
    + replace (match c_lwe c with Some l => l =? r_start r + r_size r - 1 | None => false end) with false.
      2:{ destruct (c_lwe c) as [l|]; [|reflexivity]. symmetry. apply Z.eqb_neq. congruence. }
      unfold hd_start. cbn. rewrite N2. reflexivity.
Qed.

Lemma start_read_ahead : forall cb busy c A r B T block, cinv c (A ++ r :: B) T -> c_cur c = Some (r_start r) ->
  start_read cb busy c block false CursorYes = (set_cur (hd_start B) c, Ok r).
Proof.
  intros cb busy c A r B T block I E. unfold start_read. rewrite (ci_pending _ _ _ I).
  assert (Hin: In r ((A ++ r :: B) ++ T)) by (apply in_or_app; left; apply in_or_app; right; left; reflexivity).
  cbn [rd_start]. rewrite E, (load_ok _ _ _ CursorYes r I Hin E).
  pose proof (layout_bounds _ _ _ _ _ (ci_layout _ _ _ I) Hin) as (B1 & B2 & B3). pose proof (ci_extra _ _ _ I) as Hx.
  pose proof (ci_sizes _ _ _ I) as Sz. rewrite Forall_forall in Sz. destruct (Sz r Hin) as [S1 _].
  replace (r_size r - c_extra c + c_extra c) with (r_size r) by lia. cbn [r_size].
  rewrite (advance_cursor _ _ _ _ _ I E). unfold slice_ok. cbn [set_cur c_len c_extra].
  replace (0 <=? r_start r) with true by lia. replace (r_start r <=? r_start r + c_extra c - 4) with true by lia.
  replace (r_start r + c_extra c - 4 <=? c_len c) with true by lia. replace (0 <=? r_start r + c_extra c) with true by lia.
  replace (r_start r + c_extra c <=? r_start r + c_extra c + (r_size r - c_extra c)) with true by lia.
  replace (r_start r + c_extra c + (r_size r - c_extra c) <=? c_len c) with true by lia. cbn [andb]. destruct r; reflexivity.
Qed.

Lemma nth_split_F2 : forall (A B : Type) (P : A -> B -> Prop) l l' j x, Forall2 P l l' -> nth_error l' j = Some x ->
  exists a l1 l2, l = l1 ++ a :: l2 /\ length l1 = j /\ P a x.
Proof.
  intros A B P l l' j x F. revert j. induction F as [|a b l l' H F IH]; intros j E; [destruct j; discriminate|].
  destruct j as [|j]; cbn in E.
  - injection E as <-. exists a, [], l. auto.
  - destruct (IH j E) as (a' & l1 & l2 & -> & <- & H'). exists a', (a :: l1), l2. auto.
Qed.

Lemma sim_read : forall k n s U D block, rel k n s U D ->
  misuse k s (NStartRead block) \/
  exists s' U' D', step k sum_of s (NStartRead block) (snd (n_step rcrc hcrc n (NStartRead block))) s' /\
    rel k (fst (n_step rcrc hcrc n (NStartRead block))) s' U' D' /\ moved k (n_c n) (n_c (fst (n_step rcrc hcrc n (NStartRead block)))) s s'.
Proof.
  intros k n s U D block R. cbn [n_step]. pose proof (nr_cons _ _ _ _ _ R) as C.
  assert (Hx: c_extra (n_c n) = k_extra k) by nr R.
  assert (Hfuel: (length (q_unread s) < loop_fuel (n_c n))%nat).
  { pose proof (cinv_sum _ _ _ (nr_ci _ _ _ _ _ R)). rewrite <- (F2_length _ _ _ _ _ (nr_unread _ _ _ _ _ R)). unfold loop_fuel. lia. }
  destruct (n_cons n) as [ [ [r|]|q]|] eqn:Ec.
  - (* holds a record *)
    destruct C as [C _]. right. exists s, U, D. unfold n_start_read, n_start_read_fuel, loop_fuel. cbn [consumer_start_read].
    unfold start_read. cbn [fst snd]. split; [apply S_read_twice; exact C|]. rewrite set_c_c. split; [exact R|apply moved_fields; reflexivity].
  - (* regular *)
    right. destruct (read_loop (q_unread s) _ k n s U D block R eq_refl Hfuel Ec) as (c' & out & U' & D' & E & H).
    unfold n_start_read, n_start_read_fuel. rewrite E.
    destruct H as [(skip & x & l' & r & H1 & H2 & H3 & H4 & H5 & H6 & MV)|(H1 & H2 & H3 & MV)].
    + subst out. cbn [fst snd].
      exists (set_reader (Regular true) (leave (map (pair Skipped) skip) (dim k x :: l') s)), U', D'. split.
      * destruct U' as [|h U']; [discriminate|]. injection H6 as ->.
        pose proof (nr_unread _ _ _ _ _ H5) as FU. destruct (leave_fields (map (pair Skipped) skip) (dim k x :: l') s) as (Q1 & _). rewrite Q1 in FU.
        inversion FU as [|? ? ? ? [ [Hsz _] _] _]; subst. unfold data_of. cbn [n_c n_set_c] in Hsz.
        replace (e_data (dim k x)) with (e_data x) in Hsz by (unfold dim; destruct (k_check k); reflexivity).
        replace (r_size r - c_extra c') with (Z.of_nat (length (e_data x))) by lia.
        apply S_read; assumption.
      * split; [|eapply moved_trans; [exact MV|apply moved_fields; reflexivity]]. destruct (leave_fields (map (pair Skipped) skip) (dim k x :: l') s) as (Q1 & Q2 & Q3 & Q4 & Q5 & Q6 & Q7 & Q8 & Q9 & _).
        constructor; cbn [n_c n_prod n_cons n_hold n_check n_wait n_set_c n_set_cons set_reader q_unread q_gone q_slot q_prod q_wait q_reader q_sync q_locks q_shut]; try nr H5.
        -- auto.
        -- rewrite Q7. rewrite (regular_unsync _ _ _ _ _ _ R C). discriminate.
    + assert (Hn: exists code, out = Err code) by (destruct out; unfold nothing in H2; try discriminate; eauto). destruct Hn as [code ->].
      cbn [fst snd]. eexists _, U', D'. split; [|split; [exact H3|exact MV]]. rewrite H2. apply S_read_nothing; assumption.
  - (* cursor *)
    destruct C as (j & C1 & C2 & C3 & C4). destruct (q_sync s) eqn:Es; [|left; split; [exact Es|eauto]]. right.
    destruct (nr_sync _ _ _ _ _ R Es) as (Y1 & Y2 & Y3 & Y4 & Y5). unfold ahead in Y4. rewrite C1 in Y4.
    pose proof (nr_ci _ _ _ _ _ R) as I. unfold n_start_read, n_start_read_fuel. unfold loop_fuel. cbn [consumer_start_read].
    destruct (nth_error (q_unread s) j) as [x|] eqn:En.
    + destruct (nth_split_F2 _ _ _ _ _ _ _ (nr_unread _ _ _ _ _ R) En) as (r & U1 & U2 & EU & EL & He).
      assert (Ecur: c_cur (n_c n) = Some (r_start r)).
      { rewrite Y4, EU, skipn_app, <- EL, skipn_all, Nat.sub_diag. reflexivity. }
      rewrite EU in I. rewrite (start_read_ahead _ _ _ _ _ _ _ _ I Ecur).
      assert (Hshown: shown k sum_of x) by (rewrite Forall_forall in Y3; apply Y3; eapply nth_error_In; eassumption).
      set (c' := set_cur (hd_start U2) (n_c n)).
      assert (Eq: (if n_check n then if record_crc rcrc c' r =? from_bytes (mem_get (c_mem c') (r_start r) 4) then (c', Ok r)
                   else consumer_start_read rcrc hcrc (S (Z.to_nat (2 * c_len (n_c n) + 2))) (n_check n) (n_busy n) (count_corrupted c') block false CursorYes else (c', Ok r)) = (c', Ok r)).
      { rewrite (nr_check _ _ _ _ _ R). destruct (k_check k) eqn:Hc; [|reflexivity].
        destruct He as [He1 [He2 He3] ]. rewrite (stored_crc c' r (e_data x)) by exact He1.
        change (c_mem c') with (c_mem (n_c n)). rewrite (He3 eq_refl), from_to_bytes by exact He2.
        rewrite (proj1 (shown_iff _ _ Hc) Hshown). reflexivity. }
      cbn [consumer_start_read] in Eq. cbn [consumer_start_read]. rewrite Eq. clear Eq. cbn [fst snd].
      exists (set_reader (Cursor (S j)) s), U, D. split.
      * unfold data_of. change (c_extra c') with (c_extra (n_c n)). destruct He as [ [He _] _].
        replace (r_size r - c_extra (n_c n)) with (Z.of_nat (length (e_data x))) by lia. apply S_ahead; assumption.
      * split; [|apply moved_fields; reflexivity]. assert (HR: resv (n_set_cons (Some (Ahead (q ++ [r]))) (n_set_c c' n)) = resv n) by reflexivity.
        constructor; rewrite ?HR; cbn [n_c n_prod n_cons n_hold n_check n_wait n_set_c n_set_cons set_reader q_unread q_gone q_slot q_prod q_wait q_reader q_sync q_locks q_shut]; try nr R.
        -- pose proof (nr_ci _ _ _ _ _ R) as I'. constructor; ci I'.
        -- exists (S j). splits; auto.
           ++ rewrite EU, app_length. cbn. lia.
           ++ rewrite C3, EU. rewrite !firstn_app. rewrite <- EL. rewrite Nat.sub_diag. replace (S (length U1) - length U1)%nat with 1%nat by lia.
              rewrite firstn_all, (firstn_all2 (n := S (length U1)) U1) by lia. cbn [firstn]. rewrite app_nil_r. reflexivity.
        -- intros _. splits; auto; [|discriminate]. unfold ahead. cbn [q_reader c_cur set_reader]. unfold c'. cbn [set_cur c_cur]. rewrite EU, skipn_app, <- EL.
           replace (S (length U1) - length U1)%nat with 1%nat by lia. rewrite (skipn_all2 (n := S (length U1)) U1) by lia. reflexivity.
    + assert (Ecur: c_cur (n_c n) = None).
      { rewrite Y4. apply nth_error_None in En. rewrite skipn_all2; [reflexivity|]. rewrite (F2_length _ _ _ _ _ (nr_unread _ _ _ _ _ R)). exact En. }
      unfold start_read. rewrite (ci_pending _ _ _ I). cbn [rd_start]. rewrite Ecur.
      assert (Hout: NRange (snd (no_data (n_c n) block)) = nothing s block).
      { unfold no_data, nothing. rewrite <- (nr_shut _ _ _ _ _ R). destruct block; [|reflexivity]. destruct (c_shutdown (n_c n)); reflexivity. }
      exists s, U, D. unfold no_data in *. destruct block.
      * destruct (c_shutdown (n_c n)); cbn [fst snd] in *; (split; [rewrite Hout; eapply S_ahead_nothing; eassumption|rewrite set_c_c; split; [exact R|apply moved_fields; reflexivity]]).
      * cbn [fst snd] in *. split; [rewrite Hout; eapply S_ahead_nothing; eassumption|]. split; [|apply moved_fields; reflexivity]. apply rel_same'; auto. constructor; reflexivity.
  - right. exists s, U, D. split; [apply S_read_nocall; exact C|split; [exact R|apply moved_fields; reflexivity]].
Qed.
End Checksums.
