(** Damaged record areas: the weak invariant. *)
From Verif Require Import Base Ring_Model Ring_Layout Ring_Proofs Nonvolatile_Model Nonvolatile_Spec Nonvolatile_Proofs NonvolatileCrash_Proofs NonvolatileStores_Proofs NonvolatileQueue_Proofs NonvolatileClient_Spec NonvolatileUse_Proofs NonvolatileCorrupt_Spec.
Open Scope Z_scope.

Record cweak (c : common) : Prop := {
  cw_len : 0 <= c_len c < 2147483640;
  cw_extra : 4 <= c_extra c <= 8;
  cw_bytes : bytes (c_mem c);
  cw_nws : 0 <= c_nws c <= c_len c;
  cw_nrs : forall s, c_nrs c = Some s -> 0 <= s <= 2 * c_len c /\ c_cws c <> None }.
Definition frame (c c' : common) : Prop := c_len c' = c_len c /\ c_extra c' = c_extra c /\ c_ow c' = c_ow c.
Definition inside (c : common) (r : range) : Prop := 0 <= r_start r /\ c_extra c < r_size r /\ r_start r + r_size r <= c_len c.
Definition near (c : common) : Prop := forall s, c_nrs c = Some s -> s <= c_len c.

Ltac fs := cbn [set_mem set_nws set_cws set_lwe set_nrs set_cur set_wait set_pending set_locks set_shutdown set_readable set_hcrc set_stats set_rd_start n_cb
  c_mem c_len c_nws c_cws c_lwe c_nrs c_cur c_wait c_pending c_locks c_shutdown c_extra c_ow c_readable c_hcrc c_stats].
Lemma frame_refl c : frame c c. Proof. repeat split. Qed.
Lemma frame_trans a b c : frame a b -> frame b c -> frame a c. Proof. unfold frame. intuition congruence. Qed.
Lemma inside_frame c c' r : frame c c' -> inside c r -> inside c' r. Proof. unfold frame, inside. intros (-> & -> & _). auto. Qed.

Lemma get_bytes m a n : bytes m -> Forall (fun b => 0 <= b < 256) (mem_get m a n).
Proof. intros H. unfold mem_get. apply Forall_forall. intros x Hx. apply in_map_iff in Hx. destruct Hx as (k & <- & _). apply H. Qed.
Lemma get_length m a n : length (mem_get m a n) = Z.to_nat n. Proof. unfold mem_get. now rewrite map_length, seq_length. Qed.
Lemma set_bytes m a bs : bytes m -> Forall (fun b => 0 <= b < 256) bs -> bytes (mem_set m a bs).
Proof.
  intros H F i. unfold mem_set. destruct ((a <=? i) && _); [|apply H]. destruct (nth_in_or_default (Z.to_nat (i - a)) bs 0) as [Hn| -> ]; [|lia].
  rewrite Forall_forall in F. apply F. exact Hn.
Qed.
Lemma zeros_bytes k : Forall (fun b => 0 <= b < 256) (repeat 0 k).
Proof. apply Forall_forall. intros x Hx. apply repeat_spec in Hx. lia. Qed.

Lemma load_weak c s : cweak c -> c_nrs c = Some s ->
  load_next_read_size c CursorNo = Err DataLoss \/ exists size, load_next_read_size c CursorNo = Ok size /\ 0 < size /\ s + c_extra c + size <= c_len c.
Proof.
  intros W Hs. pose proof (cw_len _ W). pose proof (cw_extra _ W). destruct (cw_nrs _ W s Hs) as [Hr _].
  unfold load_next_read_size, rd_start, record_size_offset. rewrite Hs, !add32_ok by (unfold U32; lia).
  destruct (c_len c <? s + (c_extra c - 4) + 4) eqn:E1; [now left|].
  pose proof (from_bytes_range (mem_get (c_mem c) (s + (c_extra c - 4)) 4) (get_bytes _ _ _ (cw_bytes _ W))) as B. rewrite get_length in B. specialize (B ltac:(lia)).
  remember (from_bytes _) as size eqn:Es. clear Es. destruct ((size =? 0) || _ || _) eqn:E2; [now left|]. right. exists size. split; [reflexivity|].
  apply orb_false_iff in E2. destruct E2 as [E2 E3]. apply orb_false_iff in E2. destruct E2 as [E2 E4]. lia.
Qed.

Lemma zero_weak c s size : cweak c -> c_nrs c = Some s -> 0 < size -> s + c_extra c + size <= c_len c ->
  exists c', zero_extra_data c s = Some c' /\ cweak c' /\ frame c c' /\ c' = set_mem (c_mem c') c.
Proof.
  intros W Hs Hp Hb. pose proof (cw_len _ W). pose proof (cw_extra _ W). destruct (cw_nrs _ W s Hs) as [Hr _]. unfold zero_extra_data, slice_ok.
  replace ((0 <=? s) && (s <=? s + c_extra c - 4) && (s + c_extra c - 4 <=? c_len c)) with true by lia. eexists. split; [reflexivity|]. split; [|split; [repeat split|reflexivity] ].
  destruct W. constructor; cbn [set_mem c_mem c_len c_extra c_nws c_nrs c_cws]; auto. apply set_bytes; auto. apply zeros_bytes.
Qed.

(** The measure of the loops that walk over records. *)
Definition togo (c : common) : Z :=
  match c_nrs c with None => 0 | Some s => 1 + (c_len c - Z.min s (c_len c)) + match c_lwe c with Some _ => c_len c + 1 | None => 0 end end.

Lemma advance_weak c s size : cweak c -> c_nrs c = Some s -> 0 < size -> s + size <= 2 * c_len c ->
  exists c', advance_next_read c size CursorNo = Some c' /\ cweak c' /\ frame c c' /\ c_stats c' = c_stats c /\ c_pending c' = c_pending c /\
    (s + size <= c_len c -> near c' /\ togo c' < togo c).
Proof.
  intros W Hs Hp Hb. pose proof (cw_len _ W). pose proof (cw_extra _ W). destruct (cw_nrs _ W s Hs) as [Hr Hc]. unfold advance_next_read, rd_start. rewrite Hs.
  destruct (c_cws c) as [w|] eqn:Ew; [|congruence]. destruct (s =? w) eqn:E; cbn [negb].
  - eexists. split; [reflexivity|]. split; [destruct W; constructor; fs; auto; discriminate|]. split; [repeat split|]. split; [reflexivity|]. split; [reflexivity|].
    intros Hi. split; [intros x; discriminate|]. unfold togo. cbn [set_cws set_rd_start set_nrs c_nrs]. rewrite Hs. destruct (c_lwe c); lia.
  - rewrite add32_ok by (unfold U32; lia). unfold sub32. replace (1 <=? s + size) with true by lia. destruct (match c_lwe c with Some l => l =? s + size - 1 | None => false end) eqn:El.
    + eexists. split; [reflexivity|]. split; [destruct W; constructor; fs; auto; intros x Hx; injection Hx as <-; split; [lia|congruence]|]. split; [repeat split|]. split; [reflexivity|]. split; [reflexivity|].
      intros Hi. split; [intros x Hx; injection Hx as <-; fs; lia|]. unfold togo. cbn [set_lwe set_rd_start set_nrs c_nrs c_lwe c_len]. rewrite Hs. destruct (c_lwe c); [lia|discriminate].
    + eexists. split; [reflexivity|]. split; [destruct W; constructor; fs; auto; intros x Hx; injection Hx as <-; split; [lia|congruence]|]. split; [repeat split|]. split; [reflexivity|]. split; [reflexivity|].
      intros Hi. split; [intros x Hx; injection Hx as <-; fs; lia|]. unfold togo. cbn [set_lwe set_rd_start set_nrs c_nrs c_lwe c_len]. rewrite Hs. destruct (c_lwe c); lia.
Qed.

(** The state after a reset. *)
Definition blank (hcrc : Z -> option Z -> option Z -> option Z -> Z) (c : common) : Prop :=
  c_nws c = 0 /\ c_cws c = None /\ c_lwe c = None /\ c_nrs c = None /\ c_cur c = None /\ c_hcrc c = hcrc 0 None None None.
Lemma reset_weak hcrc c : cweak c -> let c' := total_data_loss_reset (n_cb hcrc) c in cweak c' /\ frame c c' /\ blank hcrc c' /\ near c' /\ c_stats c' = c_stats c /\ c_pending c' = c_pending c /\ togo c' = 0.
Proof.
  intros W. cbv zeta. unfold total_data_loss_reset, n_cb. split; [destruct W; constructor; fs; auto; try lia; try discriminate; intros i; lia|]. split; [repeat split|]. split; [repeat split|]. split; [intros s; discriminate|]. repeat split.
Qed.
Definition lossy (c : common) : Z := s_total_data_loss (c_stats c).
Lemma loss_weak hcrc busy c : cweak c -> let c' := on_total_data_loss (n_cb hcrc) busy c in cweak c' /\ frame c c' /\ (near c -> near c') /\ lossy c' = lossy c + 1 /\
  (busy = true -> c_nrs c' = c_nrs c /\ c_pending c' = true) /\ (busy = false -> blank hcrc c' /\ c_pending c' = c_pending c).
Proof.
  intros W. unfold on_total_data_loss. set (c1 := set_stats _ c). assert (W1 : cweak c1) by (destruct W; constructor; fs; auto). destruct busy.
  - split; [destruct W; constructor; fs; auto|]. split; [repeat split|]. split; [auto|]. split; [reflexivity|]. split; [intros _; split; reflexivity|discriminate].
  - destruct (reset_weak hcrc c1 W1) as (R1 & R2 & R3 & R4 & R5 & R6 & R7). cbv zeta in *. split; [exact R1|]. split; [eapply frame_trans; [|exact R2]; repeat split|]. split; [auto|]. split; [unfold lossy; rewrite R5; reflexivity|]. split; [discriminate|]. intros _. split; [exact R3|rewrite R6; reflexivity].
Qed.
Lemma maybe_weak hcrc busy c : cweak c -> let c' := maybe_do_total_data_loss_reset (n_cb hcrc) busy c in cweak c' /\ frame c c' /\ (near c -> near c') /\ lossy c' = lossy c /\ togo c' <= togo c /\
  (busy = true \/ c_pending c = false -> c' = c) /\ (busy = false -> c_pending c = true -> blank hcrc c' /\ c_pending c' = false) /\ (c_pending c = false -> c_pending c' = false).
Proof.
  intros W. unfold maybe_do_total_data_loss_reset. destruct (c_pending c) eqn:P; cbn [negb].
  - destruct busy.
    + split; [exact W|]. split; [apply frame_refl|]. split; [auto|]. split; [reflexivity|]. split; [lia|]. split; [auto|]. split; [discriminate|]. congruence.
    + assert (W1 : cweak (set_pending false c)) by (destruct W; constructor; fs; auto). destruct (reset_weak hcrc _ W1) as (R1 & R2 & R3 & R4 & R5 & R6 & R7). cbv zeta in *. split; [exact R1|]. split; [eapply frame_trans; [|exact R2]; repeat split|]. split; [auto|].
      split; [unfold lossy; rewrite R5; reflexivity|]. split; [rewrite R7; unfold togo; destruct (c_nrs c) eqn:En; [|lia]; destruct (c_lwe c); pose proof (cw_len _ W); lia|]. split; [intros [X|X]; discriminate|]. split; [intros _ _; split; [exact R3|rewrite R6; reflexivity]|discriminate].
  - split; [exact W|]. split; [apply frame_refl|]. split; [auto|]. split; [reflexivity|]. split; [lia|]. split; [auto|]. split; [congruence|]. auto.
Qed.

Section Buffer.
Variable rcrc : list Z -> Z.
Variable hcrc : Z -> option Z -> option Z -> option Z -> Z.

Lemma stats_weak st c : cweak c -> cweak (set_stats st c). Proof. intros []; constructor; auto. Qed.

Lemma evict_weak busy t block fuel : forall c c' r, cweak c -> (togo c < Z.of_nat fuel) -> advance_due_to_write fuel (n_cb hcrc) busy c t block = (c', r) ->
  r <> Panic /\ cweak c' /\ frame c c' /\ (near c -> near c') /\ (c_ow c = OBlock -> busy = true -> c_nrs c' = c_nrs c) /\
  (lossy c' = lossy c /\ c_pending c' = c_pending c \/ lossy c' = lossy c + 1 /\ r = Err Unavailable /\ (busy = true -> c_pending c' = true) /\ (busy = false -> blank hcrc c' /\ c_pending c' = c_pending c)).
Proof.
  induction fuel as [|fuel IH]; intros c c' r W T H; [exfalso; unfold togo in T; pose proof (cw_len _ W); destruct (c_nrs c), (c_lwe c); lia|]. cbn [advance_due_to_write] in H.
  destruct (c_nrs c) as [s|] eqn:Es; [|inv H; splits; auto; [discriminate|apply frame_refl]].
  destruct (load_weak c s W Es) as [E|(size & E & Hp & Hb)]; rewrite E in H.
  - injection H as <- <-. destruct (loss_weak hcrc busy c W) as (L1 & L2 & L3 & L4 & L5 & L6). cbv zeta in *. split; [discriminate|]. split; [apply stats_weak; auto|]. split; [exact L2|]. split; [exact L3|]. split; [intros _ B; destruct (L5 B) as [X _]; rewrite <- Es; exact X|].
    right. split; [exact L4|]. split; [reflexivity|]. split; [intros B; apply (L5 B)|exact L6].
  - destruct (intersect_reservation c t _); [|inv H; splits; auto; [discriminate|apply frame_refl] ]. destruct (c_ow c) eqn:Ow.
    + assert (X : c' = c /\ r <> Panic) by (destruct block; cbn [negb] in H; [destruct (c_shutdown c)|]; inv H; split; auto; discriminate). destruct X as [-> X]. splits; auto. apply frame_refl.
    + set (c1 := count_overwritten size c) in *. assert (W1 : cweak c1) by (apply stats_weak; auto). destruct (zero_weak c1 s size W1 Es Hp Hb) as (c2 & Z1 & Z2 & Z3 & Z4). rewrite Z1 in H.
      assert (Es2 : c_nrs c2 = Some s) by (rewrite Z4; exact Es). assert (L2 : c_len c2 = c_len c) by (destruct Z3 as (X & _); exact X).
      destruct (advance_weak c2 s (size + c_extra c) Z2 Es2) as (c3 & A1 & A2 & A3 & A4 & A5 & A6); [pose proof (cw_extra _ W); lia|pose proof (cw_len _ W); lia|]. rewrite A1 in H. destruct A6 as [A6 A7]; [lia|].
      assert (T2 : togo c2 = togo c) by (unfold togo; rewrite Es2, Es, L2; rewrite Z4; reflexivity).
      destruct (IH c3 c' r A2 ltac:(lia) H) as (I1 & I2 & I3 & I4 & I5 & I6). splits; auto.
      * eapply frame_trans; [|exact I3]. eapply frame_trans; [|exact A3]. eapply frame_trans; [|exact Z3]. repeat split.
      * discriminate.
      * unfold lossy in *. rewrite A4, A5 in I6. rewrite Z4 in I6. cbn [set_mem c_stats c_pending] in I6. exact I6.
Qed.

Lemma fuel_enough c : cweak c -> (togo c < Z.of_nat (loop_fuel c)).
Proof. intros W. unfold togo, loop_fuel. pose proof (cw_len _ W). destruct (c_nrs c) as [s|] eqn:E; [destruct (cw_nrs _ W s E)|]; destruct (c_lwe c); lia. Qed.

Lemma reservation_weak c r size : cweak c -> inside c r -> r_size r = size + c_extra c -> exists c' a, finish_reservation c r size = Some (c', a) /\ a = r_start r + c_extra c /\
  cweak c' /\ frame c c' /\ c_nrs c' = c_nrs c /\ c_stats c' = c_stats c /\ c_pending c' = c_pending c.
Proof.
  intros W (I1 & I2 & I3) Hs. pose proof (cw_len _ W). pose proof (cw_extra _ W). unfold finish_reservation, record_size_offset. rewrite add32_ok by (unfold U32; lia).
  unfold slice_ok at 1. match goal with |- context [negb ?b] => replace b with true by lia end. cbn [negb]. set (c1 := set_mem _ c). unfold zero_extra_data. unfold slice_ok at 1. cbn [c1 set_mem c_len c_extra].
  match goal with |- context [if ?b then Some _ else None] => replace b with true by lia end.
  match goal with |- context [mem_set (c_mem c1) _ ?z] => set (z0 := z) end. set (c2 := set_mem _ c1).
  assert (W2 : cweak c2). { destruct W. constructor; fs; auto. apply set_bytes; [|apply zeros_bytes]. apply set_bytes; auto. apply to_bytes_range. }
  match goal with |- context [slice_ok ?x _ _] => set (c3 := x) end.
  assert (X : cweak c3 /\ frame c c3 /\ c_nrs c3 = c_nrs c /\ c_stats c3 = c_stats c /\ c_pending c3 = c_pending c).
  { subst c3. destruct (c_lwe c2); [destruct (_ <? _)|]; (split; [destruct W2; constructor; fs; auto|repeat split]). }
  destruct X as (X1 & X2 & X3 & X4 & X5). destruct X2 as (E1 & E2 & E3). unfold slice_ok. rewrite E1, E2. match goal with |- context [if ?b then _ else _] => replace b with true by lia end.
  do 2 eexists. split; [reflexivity|]. splits; auto. repeat split; auto.
Qed.

(** * The invariant of the buffer *)
Record nweak (n : nbuf) : Prop := {
  nw_c : cweak (n_c n);
  nw_extra : c_extra (n_c n) = if n_check n then 8 else 4;
  nw_prod : forall r, n_prod n = Some (Some r) -> inside (n_c n) r;
  nw_wait : forall w, n_wait n = Some w -> inside (n_c n) (t_range (w_temp w)) /\ r_size (t_range (w_temp w)) = w_size w + c_extra (n_c n) /\ 0 <= t_nws (w_temp w) <= c_len (n_c n) /\ (forall r, n_prod n <> Some (Some r));
  nw_cons : match n_cons n with
            | Some (Ahead _) => False
            | Some (Plain (Some r)) => inside (n_c n) r /\ near (n_c n) /\ (c_ow (n_c n) = OBlock -> c_nrs (n_c n) = Some (r_start r))
            | _ => True
            end }.

Lemma crc_weak c : cweak c -> cweak (write_header_crc hcrc c). Proof. intros []; constructor; auto. Qed.

Definition loss_ok (busy : bool) (c c' : common) : Prop :=
  lossy c' = lossy c /\ c_pending c' = c_pending c \/
  lossy c' = lossy c + 1 /\ (busy = true -> c_pending c' = true) /\ (busy = false -> blank hcrc c' /\ c_pending c' = c_pending c).

Lemma none_weak c block c' r : cweak c -> no_data c block = (c', r) -> cweak c' /\ frame c c' /\ (near c -> near c') /\ lossy c' = lossy c /\ c_pending c' = c_pending c /\ (blank hcrc c -> blank hcrc c') /\ (exists e, r = Err e).
Proof.
  intros W H. unfold no_data in H. destruct block; injection H as <- <-.
  - splits; auto; [apply frame_refl|]. destruct (c_shutdown c); eauto.
  - split; [destruct W; constructor; fs; auto|]. splits; auto; [repeat split|eauto].
Qed.

Lemma start_weak busy block c c' r : cweak c -> start_read (n_cb hcrc) busy c block false CursorNo = (c', r) ->
  r <> Panic /\ cweak c' /\ frame c c' /\ (near c -> near c') /\ loss_ok busy c c' /\
  (forall rg, r = Ok rg -> c' = c /\ inside c rg /\ c_nrs c = Some (r_start rg) /\ c_pending c = false).
Proof.
  intros W H. unfold start_read in H. destruct (c_pending c) eqn:P.
  { inv H. split; [discriminate|]. split; [exact W|]. split; [apply frame_refl|]. split; [auto|]. split; [left; auto|discriminate]. }
  cbn [rd_start] in H. destruct (c_nrs c) as [s|] eqn:Es.
  2:{ destruct (none_weak c block c' r W H) as (N1 & N2 & N3 & N4 & N5 & N6 & e & ->). splits; auto; try discriminate. left. auto. }
  destruct (load_weak c s W Es) as [E|(size & E & Hp & Hb)]; rewrite E in H.
  - destruct (loss_weak hcrc busy c W) as (L1 & L2 & L3 & L4 & L5 & L6). cbv zeta in *. destruct (c_pending (on_total_data_loss (n_cb hcrc) busy c)) eqn:P2.
    + inv H. splits; auto; try discriminate. right. splits; auto. intros B. destruct (L6 B). congruence.
    + destruct (none_weak _ block c' r L1 H) as (N1 & N2 & N3 & N4 & N5 & N6 & e & ->). splits; auto; try discriminate.
      * eapply frame_trans; eauto.
      * right. rewrite N4, N5. split; [exact L4|]. split; [intros B; destruct (L5 B); congruence|]. intros B. destruct (L6 B) as [B1 B2]. split; [auto|congruence].
  - pose proof (cw_len _ W). pose proof (cw_extra _ W). destruct (cw_nrs _ W s Es) as [Hr _]. unfold slice_ok in H.
    match type of H with (if ?b then _ else _) = _ => replace b with true in H by lia end. inv H. splits; auto; try discriminate; [apply frame_refl|left; auto|].
    intros rg X. inv X. cbn [r_start r_size]. splits; auto. unfold inside. cbn [r_start r_size]. lia.
Qed.

Lemma read_weak check busy block fuel : forall c c' r, cweak c -> togo c < Z.of_nat fuel -> consumer_start_read rcrc hcrc fuel check busy c block false CursorNo = (c', r) ->
  r <> Panic /\ cweak c' /\ frame c c' /\ (near c -> near c') /\ loss_ok busy c c' /\
  (forall rg, r = Ok rg -> inside c' rg /\ c_nrs c' = Some (r_start rg) /\ near c' /\ lossy c' = lossy c /\ c_pending c' = c_pending c).
Proof.
  induction fuel as [|fuel IH]; intros c c' r W T H; [exfalso; unfold togo in T; pose proof (cw_len _ W); destruct (c_nrs c), (c_lwe c); lia|]. cbn [consumer_start_read] in H.
  destruct (start_read (n_cb hcrc) busy c block false CursorNo) as [c1 r1] eqn:E. destruct (start_weak busy block c c1 r1 W E) as (S1 & S2 & S3 & S4 & S5 & S6).
  destruct r1 as [rg|e|]; [|inv H; splits; auto; discriminate|congruence]. destruct (S6 rg eq_refl) as (-> & (I1 & I2 & I3) & S8 & S9).
  assert (near c). { intros x Hx. pose proof (cw_extra _ W). assert (x = r_start rg) by congruence. lia. }
  destruct check.
  2:{ inv H. splits; auto. intros rg' X. inv X. splits; auto. repeat split; auto. }
  destruct (zero_weak c (r_start rg) (r_size rg - c_extra c) W S8 ltac:(lia) ltac:(lia)) as (c2 & Z1 & Z2 & Z3 & Z4). rewrite Z1 in H.
  assert (En : c_nrs c2 = Some (r_start rg)) by (rewrite Z4; exact S8). assert (El : c_len c2 = c_len c) by apply Z3. destruct (_ =? _).
  - inv H. splits; auto; [intros _ x Hx; rewrite El; pose proof (cw_extra _ W); assert (x = r_start rg) by congruence; lia|left; rewrite Z4; split; reflexivity|].
    intros rg' X. inv X. splits; auto; [eapply inside_frame; [exact Z3|repeat split; auto]|intros x Hx; rewrite El; pose proof (cw_extra _ W); assert (x = r_start rg') by congruence; lia|rewrite Z4; reflexivity|rewrite Z4; reflexivity].
  - unfold finish_read_common in H. set (c3 := count_corrupted c2) in *. assert (W3 : cweak c3) by (apply stats_weak; auto). assert (L3 : c_len c3 = c_len c) by exact El.
    destruct (advance_weak c3 (r_start rg) (r_size rg) W3 En) as (c4 & A1 & A2 & A3 & A4 & A5 & A6); [pose proof (cw_extra _ W); lia|pose proof (cw_len _ W); lia|]. rewrite A1 in H. destruct A6 as [A6 A7]; [lia|].
    match type of H with context [maybe_do_total_data_loss_reset _ _ ?x] => set (c5 := x) in * end.
    assert (W5 : cweak c5 /\ frame c4 c5 /\ near c5 /\ togo c5 = togo c4 /\ lossy c5 = lossy c4 /\ c_pending c5 = c_pending c4). { subst c5. match goal with |- context [if ?b then _ else _] => destruct b end; (split; [destruct A2; constructor; fs; auto|splits; auto; repeat split]). }
    destruct W5 as (W5 & F5 & N5 & T5 & Lo5 & P5). assert (Pf : c_pending c5 = false) by (rewrite P5, A5; change (c_pending c3) with (c_pending c2); rewrite Z4; exact S9).
    destruct (maybe_weak hcrc busy c5 W5) as (_ & _ & _ & _ & _ & M & _ & _). cbv zeta in M. rewrite (M (or_intror Pf)) in H.
    assert (T6 : togo (write_header_crc hcrc c5) = togo c5) by reflexivity. assert (T3 : togo c3 = togo c). { unfold togo. change (c_nrs c3) with (c_nrs c2). change (c_lwe c3) with (c_lwe c2). rewrite En, S8, L3, Z4. reflexivity. }
    destruct (IH (write_header_crc hcrc c5) c' r) as (J1 & J2 & J3 & J4 & J5 & J6); [apply crc_weak; auto|lia|exact H|].
    assert (X : lossy (write_header_crc hcrc c5) = lossy c /\ c_pending (write_header_crc hcrc c5) = c_pending c). { split; [change (lossy c5 = lossy c); rewrite Lo5; unfold lossy; rewrite A4; change (lossy c2 = lossy c); rewrite Z4; reflexivity|change (c_pending c5 = c_pending c); congruence]. }
    destruct X as [X1 X2]. split; [exact J1|]. split; [exact J2|]. split; [|split; [auto|split] ].
    + eapply frame_trans; [|exact J3]. eapply frame_trans; [exact Z3|]. eapply frame_trans; [|eapply frame_trans; [exact F5|repeat split] ]. eapply frame_trans; [|exact A3]. repeat split.
    + unfold loss_ok in *. rewrite X1, X2 in J5. exact J5.
    + intros rg' X. destruct (J6 rg' X) as (Y1 & Y2 & Y3 & Y4 & Y5). splits; auto; congruence.
Qed.

(** * Steps *)
Definition keeps (n n' : nbuf) : Prop := c_len (n_c n') = c_len (n_c n) /\ c_ow (n_c n') = c_ow (n_c n) /\ n_hold n' = n_hold n /\ n_check n' = n_check n.
Definition nloss (n n' : nbuf) : Prop :=
  losses n' = losses n /\ (c_pending (n_c n') = c_pending (n_c n) \/ n_busy n' = false /\ blank hcrc (n_c n') /\ c_pending (n_c n') = false) \/
  losses n' = losses n + 1 /\ n_busy n' = n_busy n /\ (n_busy n = true -> c_pending (n_c n') = true) /\ (n_busy n = false -> blank hcrc (n_c n') /\ c_pending (n_c n') = c_pending (n_c n)).
Lemma keeps_refl n : keeps n n. Proof. repeat split. Qed.
Lemma nloss_refl n : nloss n n. Proof. left. auto. Qed.
Lemma loss_ok_n n c' : loss_ok (n_busy n) (n_c n) c' -> forall n', n_c n' = c' -> n_busy n' = n_busy n -> nloss n n'.
Proof.
  intros [ [H1 H2]|(H1 & H2 & H3)] n' <- B; [left|right].
  - split; [exact H1|auto].
  - split; [exact H1|auto].
Qed.

Lemma tail_weak n t size block n' r : nweak n -> n_wait n = None -> (forall r, n_prod n <> Some (Some r)) -> inside (n_c n) (t_range t) -> r_size (t_range t) = size + c_extra (n_c n) -> 0 <= t_nws t <= c_len (n_c n) ->
  n_reserve_tail hcrc n t size block = (n', r) -> r <> Panic /\ nweak n' /\ keeps n n' /\ nloss n n' /\ hands_out (c_len (n_c n)) (NRange r).
Proof.
  intros W HW HP Hi Hs Ht H. pose proof (nw_c _ W) as WC. unfold n_reserve_tail in H. destruct (advance_due_to_write _ _ _ _ _ _) as [c r1] eqn:E.
  destruct (evict_weak (n_busy n) t block _ (n_c n) c r1 WC (fuel_enough _ WC) E) as (V1 & V2 & V3 & V4 & V5 & V6). pose proof V3 as (F1 & F2 & F3).
  assert (WN : forall w, (w = None \/ exists b, w = Some (mkWaiting t size block b)) -> nweak (n_set_wait w (n_set_c c n))).
  { intros w Hw. destruct W as [W1 W2 W3 W4 W5]. constructor; cbn [n_set_wait n_set_c n_c n_prod n_cons n_check n_wait]; auto; [congruence|intros q Hq; eapply inside_frame; eauto| |].
    - intros w' ->. destruct Hw as [|(b & X)]; [discriminate|]. inv X. cbn [w_temp w_size]. split; [eapply inside_frame; eauto|]. split; [congruence|]. split; [lia|auto].
    - destruct (n_cons n) as [ [ [q|]|q]|] eqn:Ec; auto. destruct W5 as (X1 & X2 & X3). splits; auto; [eapply inside_frame; eauto|]. intros Ow. rewrite F3 in Ow. rewrite V5; auto. unfold n_busy, n_reading. rewrite Ec. reflexivity. }
  assert (KN : forall w, keeps n (n_set_wait w (n_set_c c n))) by (intros w; repeat split; auto).
  assert (LN : forall w, nloss n (n_set_wait w (n_set_c c n))).
  { intros w. eapply loss_ok_n; [|reflexivity|auto]. destruct V6 as [V6|(V6 & _ & V7 & V8)]; [left|right]; auto. }
  destruct r1 as [u|e|]; [| |congruence].
  - match type of H with context [finish_reservation ?x _ _] => set (c2 := x) in * end.
    assert (W2 : cweak c2 /\ frame c c2 /\ c_nrs c2 = c_nrs c /\ c_stats c2 = c_stats c /\ c_pending c2 = c_pending c). { subst c2. destruct (t_lwe t); (split; [destruct V2; constructor; fs; auto; lia|repeat split]). }
    destruct W2 as (W2 & F4 & E4 & E5 & E6). destruct (reservation_weak c2 (t_range t) size W2) as (c3 & a & Q1 & Q2 & Q3 & Q4 & Q5 & Q6 & Q7); [eapply inside_frame; [exact F4|]; eapply inside_frame; eauto|destruct F4 as (_ & F5 & _); congruence|].
    rewrite Q1 in H. injection H as <- <-. assert (FA : frame (n_c n) c3) by (eapply frame_trans; [exact V3|]; eapply frame_trans; [exact F4|exact Q4]). pose proof FA as (G1 & G2 & G3).
    split; [discriminate|]. split; [|split; [repeat split; auto|split] ].
    + destruct W as [W1 W2' W3 W4 W5]. constructor; cbn [n_set_wait n_set_c n_set_prod n_c n_prod n_cons n_check n_wait]; auto.
      * apply crc_weak. auto.
      * change (c_extra c3 = if n_check n then 8 else 4). congruence.
      * intros q Hq. inv Hq. change (inside c3 (t_range t)). eapply inside_frame; eauto.
      * discriminate.
      * destruct (n_cons n) as [ [ [q|]|q]|] eqn:Ec; auto. destruct W5 as (X1 & X2 & X3). split; [change (inside c3 q); eapply inside_frame; eauto|].
        split; [intros x Hx; change (x <= c_len c3); rewrite G1, <- F1; apply (V4 X2); rewrite <- E4, <- Q5; exact Hx|]. intros Ow. change (c_nrs c3 = Some (r_start q)). change (c_ow c3 = OBlock) in Ow. rewrite Q5, E4, V5; auto; [apply X3; congruence|congruence|]. unfold n_busy, n_reading. rewrite Ec. reflexivity.
    + destruct V6 as [ [V6 V7]|(V6 & X & _)]; [|discriminate]. left. unfold losses. cbn [n_set_wait n_set_c n_set_prod n_c]. split; [change (lossy c3 = lossy (n_c n)); unfold lossy; rewrite Q6, E5; exact V6|]. left. change (c_pending c3 = c_pending (n_c n)). congruence.
    + intros q Hq. inv Hq. cbn [r_start r_size]. destruct F4 as (_ & F5 & _). destruct Hi as (I1 & I2 & I3). pose proof (cw_extra _ WC). rewrite F5, F2. lia.
  - assert (X : r = Err e /\ exists w, n' = n_set_wait w (n_set_c c n) /\ (w = None \/ exists b, w = Some (mkWaiting t size block b))) by (destruct e; inv H; split; auto; eexists; split; try reflexivity; eauto).
    destruct X as (-> & w & -> & Hw). splits; auto; [discriminate|]. intros q; discriminate.
Qed.

Lemma loop_weak n t size block n' r : nweak n -> n_wait n = None -> (forall r, n_prod n <> Some (Some r)) -> inside (n_c n) (t_range t) -> r_size (t_range t) = size + c_extra (n_c n) -> 0 <= t_nws t <= c_len (n_c n) ->
  n_reserve_loop hcrc n t size block = (n', r) -> r <> Panic /\ nweak n' /\ keeps n n' /\ nloss n n' /\ hands_out (c_len (n_c n)) (NRange r).
Proof.
  intros W HW HP Hi Hs Ht H. unfold n_reserve_loop in H. destruct (match n_read_reservation n with Some r => _ | None => false end); [|eapply tail_weak; eauto].
  destruct (n_hold n); injection H as <- <-.
  - split; [discriminate|]. split; [|split; [repeat split|split; [left; split; [reflexivity|auto]|intros q; discriminate] ] ]. destruct W as [W1 W2 W3 W4 W5]. constructor; cbn [n_set_wait n_c n_prod n_cons n_check n_wait]; auto. intros w X. inv X. cbn [w_temp w_size]. auto.
  - split; [discriminate|]. split; [|split; [repeat split|split; [left; auto|intros q; discriminate] ] ]. destruct W as [W1 W2 W3 W4 W5]. constructor; cbn [n_set_wait n_set_c n_c n_prod n_cons n_check n_wait]; auto; [apply stats_weak; auto|discriminate].
Qed.

Lemma refused_weak n z : nweak n -> nweak (n_set_c (count_refused z (n_c n)) n).
Proof. intros [W1 W2 W3 W4 W5]. constructor; cbn [n_set_c n_c n_prod n_cons n_check n_wait]; auto. apply stats_weak. auto. Qed.

Lemma reserve_weak n size block n' r : nweak n -> n_wait n = None -> 0 <= size < 4294967296 -> n_reserve hcrc n size block = (n', r) -> r <> Panic /\ nweak n' /\ keeps n n' /\ nloss n n' /\ hands_out (c_len (n_c n)) (NRange r).
Proof.
  intros W HW Hz H. unfold n_reserve in H.
  assert (X : (exists q, n_prod n = Some (Some q) /\ n' = n /\ r = Err InvalidArgument) \/ (forall q, n_prod n <> Some (Some q)) /\
    match start_reserve_common (n_c n) size with
      | (c, Panic) => (n_set_c c n, Panic)
      | (c, Err e) => (n_set_c c n, Err e)
      | (c, Ok actual) => match calculate_next_write_start c actual with None => (n_set_c c n, Panic) | Some t => n_reserve_loop hcrc (n_set_c c n) t size block end
      end = (n', r)).
  { destruct (n_prod n) as [ [q|]|]; [left; inv H; eauto|right; split; [discriminate|exact H]|right; split; [discriminate|exact H] ]. }
  clear H. destruct X as [(q & _ & -> & ->)|[HP H] ]; [splits; auto; [discriminate|apply keeps_refl|left; split; [reflexivity|auto]|intros q'; discriminate]|].
  assert (RF : forall z e, (n_set_c (count_refused z (n_c n)) n, Err e) = (n', r) -> r <> Panic /\ nweak n' /\ keeps n n' /\ nloss n n' /\ hands_out (c_len (n_c n)) (NRange r)).
  { intros z e X. inv X. split; [discriminate|]. split; [apply refused_weak; auto|]. split; [repeat split|]. split; [left; auto|intros q; discriminate]. }
  unfold start_reserve_common in H. destruct (0 <? c_locks (n_c n)); [eauto|]. destruct (c_pending (n_c n)); [eauto|]. unfold add32 in H. destruct (size + c_extra (n_c n) <? U32); [|eauto].
  destruct ((size =? 0) || _) eqn:E; [eauto|]. apply orb_false_iff in E. destruct E as [E1 E2]. replace (n_set_c (n_c n) n) with n in H by (destruct n; reflexivity).
  pose proof (nw_c _ W) as WC. pose proof (cw_len _ WC). pose proof (cw_extra _ WC). pose proof (cw_nws _ WC). unfold calculate_next_write_start in H. rewrite add32_ok in H by (unfold U32; lia).
  destruct (c_nws (n_c n) + _ <=? c_len (n_c n)) eqn:E3.
  - eapply loop_weak; [exact W|exact HW|exact HP| | | |exact H]; unfold inside; cbn [t_range t_nws r_start r_size]; lia.
  - unfold sub32 in H. destruct (1 <=? c_nws (n_c n)) eqn:E4; [|lia]. eapply loop_weak; [exact W|exact HW|exact HP| | | |exact H]; unfold inside; cbn [t_range t_nws r_start r_size]; lia.
Qed.

Lemma resume_weak n w n' r : nweak n -> n_wait n = Some w -> n_resume hcrc n w = (n', r) -> r <> Panic /\ nweak n' /\ keeps n n' /\ nloss n n' /\ hands_out (c_len (n_c n)) (NRange r).
Proof.
  intros W HW H. unfold n_resume in H. destruct (nw_wait _ W w HW) as (X1 & X2 & X3 & X4).
  assert (W0 : nweak (n_set_wait None n)). { destruct W as [W1 W2 W3 W4 W5]. constructor; cbn [n_set_wait n_c n_prod n_cons n_check n_wait]; auto. discriminate. }
  destruct (c_shutdown (n_c n)).
  - inv H. splits; auto; [discriminate|repeat split|left; split; [reflexivity|auto]|intros q; discriminate].
  - assert (Y : forall m, n_reserve_tail hcrc n (w_temp w) (w_size w) (w_block w) = m -> n_reserve_tail hcrc (n_set_wait None n) (w_temp w) (w_size w) (w_block w) = m) by (intros m <-; reflexivity).
    destruct (w_second w).
    + apply Y in H. destruct (tail_weak (n_set_wait None n) _ _ _ _ _ W0 eq_refl X4 X1 X2 X3 H) as (T1 & T2 & T3 & T4 & T5). splits; auto.
    + assert (Z : n_reserve_loop hcrc (n_set_wait None n) (w_temp w) (w_size w) (w_block w) = (n', r)) by (rewrite <- H; reflexivity).
      destruct (loop_weak (n_set_wait None n) _ _ _ _ _ W0 eq_refl X4 X1 X2 X3 Z) as (T1 & T2 & T3 & T4 & T5). splits; auto.
Qed.

Lemma commit_weak n n' r : nweak n -> n_wait n = None -> n_commit rcrc hcrc n = (n', r) -> r <> Panic /\ nweak n' /\ keeps n n' /\ nloss n n' /\
  (c_pending (n_c n) = true -> r = Ok tt -> n_busy n' = false -> blank hcrc (n_c n') /\ c_pending (n_c n') = false).
Proof.
  intros W HW H. unfold n_commit in H. pose proof (nw_c _ W) as WC. pose proof (cw_len _ WC). pose proof (cw_extra _ WC).
  assert (X : (exists q, n_prod n = Some (Some q)) \/ ((n, Err InvalidArgument) = (n', r))) by (destruct (n_prod n) as [ [q|]|]; eauto). destruct X as [(q & Hq)|X].
  2:{ inv X. splits; auto; try discriminate; [apply keeps_refl|left; split; [reflexivity|auto]]. }
  rewrite Hq in H. destruct (nw_prod _ W q Hq) as (I1 & I2 & I3). set (c1 := finish_commit_common (advance_committed (n_c n) q) q) in *.
  assert (A : cweak c1 /\ frame (n_c n) c1 /\ lossy c1 = lossy (n_c n) /\ c_pending c1 = c_pending (n_c n) /\ (near (n_c n) -> near c1) /\ (forall s, c_nrs (n_c n) = Some s -> c_nrs c1 = Some s)).
  { assert (E : c_nrs c1 = match c_nrs (n_c n) with Some s => Some s | None => Some (r_start q) end /\ c_cws c1 = Some (r_start q) /\ c_len c1 = c_len (n_c n) /\ c_extra c1 = c_extra (n_c n) /\ c_ow c1 = c_ow (n_c n) /\ c_mem c1 = c_mem (n_c n) /\ c_nws c1 = c_nws (n_c n) /\ lossy c1 = lossy (n_c n) /\ c_pending c1 = c_pending (n_c n)).
    { subst c1. unfold finish_commit_common, advance_committed. destruct (n_c n) as [y1 y2 y3 y4 y5 y6 y7 y8 y9 y10 y11 y12 y13 y14 y15 y16]. destruct y6, y7; cbn; splits; reflexivity. }
    destruct E as (E1 & E2 & E3 & E4 & E5 & E6 & E7 & E8 & E9). clearbody c1. destruct WC as [K1 K2 K3 K4 K5]. split; [constructor; rewrite ?E3, ?E4, ?E6, ?E7; auto|splits; auto; [repeat split; auto| |] ].
    - intros x Hx. split; [|congruence]. rewrite E1 in Hx. destruct (c_nrs (n_c n)) as [s|] eqn:En; inv Hx; [destruct (K5 _ eq_refl); lia|lia].
    - intros N x Hx. rewrite E3. rewrite E1 in Hx. destruct (c_nrs (n_c n)) as [s|] eqn:En; inv Hx; [apply N; auto|lia].
    - intros s Hs. rewrite E1, Hs. reflexivity. }
  destruct A as (A1 & A2 & A3 & A4 & A5 & A6). pose proof A2 as (F1 & F2 & F3).
  assert (B : exists c2, (if n_check n
             then if slice_ok c1 (r_start q) (r_start q + c_extra c1 - 4) && slice_ok c1 (r_start q + (c_extra c1 - 4)) (r_start q + r_size q)
                  then Some (set_mem (mem_set (c_mem c1) (r_start q) (to_bytes (record_crc rcrc c1 q))) c1)
                  else None
             else Some c1) = Some c2 /\ cweak c2 /\ frame c1 c2 /\ lossy c2 = lossy c1 /\ c_pending c2 = c_pending c1 /\ c_nrs c2 = c_nrs c1).
  { destruct (n_check n); [|eexists; splits; eauto; apply frame_refl]. unfold slice_ok. rewrite F1, F2. match goal with |- context [if ?b then _ else _] => replace b with true by lia end.
    eexists. split; [reflexivity|]. split; [destruct A1; constructor; fs; auto; apply set_bytes; auto; apply to_bytes_range|]. splits; auto. repeat split. }
  destruct B as (c2 & B1 & B2 & B3 & B4 & B5 & B6). rewrite B1 in H. injection H as <- <-. set (n1 := n_set_prod (Some None) n) in *. destruct (maybe_weak hcrc (n_busy n1) c2 B2) as (M1 & M2 & M3 & M4 & M5 & M6 & M7 & M8). cbv zeta in *.
  set (c3 := maybe_do_total_data_loss_reset (n_cb hcrc) (n_busy n1) c2) in *. assert (FA : frame (n_c n) c3) by (eapply frame_trans; [exact A2|]; eapply frame_trans; eauto). pose proof FA as (G1 & G2 & G3).
  split; [discriminate|]. split; [|split; [repeat split; auto|split] ].
  - destruct W as [W1 W2 W3 W4 W5]. constructor; cbn [n_set_c n_c n1 n_set_prod n_prod n_cons n_check n_wait]; auto.
    + apply crc_weak. auto.
    + change (c_extra c3 = if n_check n then 8 else 4). congruence.
    + discriminate.
    + rewrite HW. discriminate.
    + destruct (n_cons n) as [ [ [x|]|x]|] eqn:Ec; auto. destruct W5 as (X1 & X2 & X3). assert (Bz : n_busy n1 = true) by (unfold n_busy, n_reading; cbn; rewrite Ec; reflexivity).
      split; [change (inside c3 x); eapply inside_frame; eauto|]. split; [change (near c3); apply M3; intros y Hy; destruct B3 as (B3 & _); rewrite B3; apply (A5 X2); congruence|].
      intros Ow. change (c_nrs c3 = Some (r_start x)). change (c_ow c3 = OBlock) in Ow. rewrite (M6 (or_introl Bz)), B6. apply A6. apply X3. congruence.
  - left. split; [change (lossy c3 = lossy (n_c n)); congruence|]. destruct (n_busy n1) eqn:Bz; [left; change (c_pending c3 = c_pending (n_c n)); rewrite (M6 (or_introl eq_refl)); congruence|]. destruct (c_pending c2) eqn:P2.
    + right. destruct M7 as [M7 M7']; auto. split; [exact Bz|]. split; [|exact M7']. destruct M7 as (R1 & R2 & R3 & R4 & R5 & R6). unfold blank, write_header_crc, n_set_c. cbn [n_c]. fs. rewrite R1, R2, R3, R4. splits; auto.
    + left. change (c_pending c3 = c_pending (n_c n)). rewrite (M6 (or_intror eq_refl)). congruence.
  - intros P _ Bz. change (blank hcrc (write_header_crc hcrc c3) /\ c_pending c3 = false). destruct M7 as [M7 M7']; [exact Bz|congruence|]. split; [|exact M7']. destruct M7 as (R1 & R2 & R3 & R4 & R5 & R6). unfold blank, write_header_crc. fs. rewrite R1, R2, R3, R4. splits; auto.
Qed.

Lemma finish_weak n q n' r : nweak n -> n_cons n = Some (Plain (Some q)) -> n_finish_read hcrc n (Some q) = (n', r) -> (r = Panic -> c_ow (n_c n) = OYes /\ c_nrs (n_c n) = None) /\ nweak n' /\ keeps n n' /\ nloss n n' /\
  (c_pending (n_c n) = true -> (exists b, r = Ok b) -> n_busy n' = false -> blank hcrc (n_c n') /\ c_pending (n_c n') = false).
Proof.
  intros W Hk H. unfold n_finish_read, finish_read_common in H. pose proof (nw_c _ W) as WC. pose proof (cw_len _ WC). pose proof (cw_extra _ WC). pose proof (nw_cons _ W) as K. rewrite Hk in K. destruct K as ((I1 & I2 & I3) & K2 & K3).
  set (n1 := n_set_cons (Some (Plain None)) n) in *. change (n_c n1) with (n_c n) in H.
  assert (W1 : forall c, cweak c -> frame (n_c n) c -> nweak (n_set_c c n1)).
  { intros c Wc F. pose proof F as (G1 & G2 & G3). destruct W as [Wa Wb Wd We Wf]. constructor; cbn [n_set_c n1 n_set_cons n_c n_prod n_cons n_check n_wait]; auto; [congruence|intros x Hx; eapply inside_frame; eauto|]. intros w Hw. destruct (We w Hw) as (Y1 & Y2 & Y3 & Y4). split; [eapply inside_frame; eauto|]. split; [congruence|]. split; [lia|auto]. }
  destruct (c_nrs (n_c n)) as [s|] eqn:Es.
  - destruct (cw_nrs _ WC s Es) as [Hr _]. specialize (K2 s Es). destruct (advance_weak (n_c n) s (r_size q) WC Es) as (c1 & A1 & A2 & A3 & A4 & A5 & A6); [lia|lia|]. rewrite A1 in H.
    match type of H with context [maybe_do_total_data_loss_reset _ _ ?x] => set (c2 := x) in * end.
    assert (W2 : cweak c2 /\ frame c1 c2 /\ lossy c2 = lossy c1 /\ c_pending c2 = c_pending c1). { subst c2. match goal with |- context [if ?b then _ else _] => destruct b end; (split; [destruct A2; constructor; fs; auto|splits; auto; repeat split]). }
    destruct W2 as (W2 & F2 & Lo2 & P2). destruct (maybe_weak hcrc (n_busy n1) c2 W2) as (M1 & M2 & M3 & M4 & M5 & M6 & M7 & M8). cbv zeta in *. set (c3 := maybe_do_total_data_loss_reset _ _ c2) in *. injection H as <- <-.
    assert (FA : frame (n_c n) (write_header_crc hcrc c3)) by (eapply frame_trans; [exact A3|]; eapply frame_trans; [exact F2|]; eapply frame_trans; [exact M2|]; repeat split). pose proof FA as (G1 & G2 & G3).
    split; [discriminate|]. split; [apply W1; auto; apply crc_weak; auto|]. split; [repeat split; auto|]. split.
    + left. split; [change (lossy c3 = lossy (n_c n)); rewrite M4, Lo2; unfold lossy; rewrite A4; reflexivity|]. destruct (n_busy n1) eqn:Bz; [left; change (c_pending c3 = c_pending (n_c n)); rewrite (M6 (or_introl eq_refl)); congruence|]. destruct (c_pending c2) eqn:Pc2.
      * right. destruct M7 as [M7 M7']; auto. split; [exact Bz|]. split; [|exact M7']. destruct M7 as (R1 & R2 & R3 & R4 & R5 & R6). unfold blank, write_header_crc, n_set_c. cbn [n_c]. fs. rewrite R1, R2, R3, R4. splits; auto.
      * left. change (c_pending c3 = c_pending (n_c n)). rewrite (M6 (or_intror eq_refl)). congruence.
    + intros P _ Bz. change (blank hcrc (write_header_crc hcrc c3) /\ c_pending c3 = false). destruct M7 as [M7 M7']; [exact Bz|congruence|]. split; [|exact M7']. destruct M7 as (R1 & R2 & R3 & R4 & R5 & R6). unfold blank, write_header_crc. fs. rewrite R1, R2, R3, R4. splits; auto.
  - replace (advance_next_read (n_c n) (r_size q) CursorNo) with (@None common) in H by (unfold advance_next_read, rd_start; rewrite Es; reflexivity). injection H as <- <-.
    split; [intros _; split; auto; destruct (c_ow (n_c n)); [specialize (K3 eq_refl); discriminate|reflexivity]|]. split; [replace n1 with (n_set_c (n_c n) n1) by (destruct n; reflexivity); apply W1; auto; apply frame_refl|]. split; [repeat split|]. split; [left; auto|]. intros _ (b & X). discriminate.
Qed.

Lemma reading_weak n e block n' r : nweak n -> n_cons n = Some (Plain e) -> n_start_read rcrc hcrc n (Plain e) block = (n', r) -> r <> Panic /\ nweak n' /\ keeps n n' /\ nloss n n' /\ hands_out (c_len (n_c n)) (NRange r).
Proof.
  intros W Hk H. unfold n_start_read, n_start_read_fuel in H. pose proof (nw_c _ W) as WC. pose proof (cw_len _ WC). pose proof (cw_extra _ WC). destruct e as [q|].
  - assert (X : consumer_start_read rcrc hcrc (loop_fuel (n_c n)) (n_check n) (n_busy n) (n_c n) block true CursorNo = (n_c n, Err InvalidArgument)) by reflexivity. rewrite X in H. inv H.
    replace (n_set_c (n_c n) n) with n by (destruct n; reflexivity). splits; auto; [discriminate|apply keeps_refl|left; split; [reflexivity|auto]|intros x; discriminate].
  - destruct (consumer_start_read _ _ _ _ _ _ _ _ _) as [c r1] eqn:E. destruct (read_weak _ _ _ _ _ _ _ WC (fuel_enough _ WC) E) as (R1 & R2 & R3 & R4 & R5 & R6). pose proof R3 as (G1 & G2 & G3).
    destruct r1 as [q|e|]; [| |congruence]; injection H as <- <-.
    + destruct (R6 q eq_refl) as (Q1 & Q2 & Q3 & Q4 & Q5). split; [discriminate|]. split; [|split; [repeat split; auto|split] ].
      * destruct W as [W1 W2 W3 W4 W5]. constructor; cbn [n_set_c n_set_cons n_c n_prod n_cons n_check n_wait]; auto; [congruence|intros x Hx; eapply inside_frame; eauto|]. intros w Hw. destruct (W4 w Hw) as (Y1 & Y2 & Y3 & Y4). split; [eapply inside_frame; eauto|]. split; [congruence|]. split; [lia|auto].
      * left. split; [exact Q4|left; exact Q5].
      * intros x Hx. inv Hx. unfold data_of. cbn [r_start r_size]. destruct Q1 as (Q1 & Q6 & Q7). lia.
    + split; [discriminate|]. split; [|split; [repeat split; auto|split; [|intros x; discriminate] ] ].
      * destruct W as [W1 W2 W3 W4 W5]. constructor; cbn [n_set_c n_set_cons n_c n_prod n_cons n_check n_wait]; auto; [congruence|intros x Hx; eapply inside_frame; eauto| |rewrite Hk; auto]. intros w Hw. destruct (W4 w Hw) as (Y1 & Y2 & Y3 & Y4). split; [eapply inside_frame; eauto|]. split; [congruence|]. split; [lia|auto].
      * eapply loss_ok_n; [exact R5|reflexivity|auto].
Qed.

Lemma open_weak f size ow hold check st n : header_size <= size -> size - header_size < 2147483640 -> 0 <= fl_nws f <= size - header_size ->
  (forall s, fl_nrs f = Some s -> 0 <= s <= 2 * (size - header_size) /\ fl_cws f <> None) -> bytes (fl_mem f) -> n_open hcrc (Some f) size ow hold check st = Ok n ->
  nweak n /\ c_len (n_c n) = size - header_size /\ c_ow (n_c n) = ow /\ n_hold n = hold /\ n_check n = check /\ c_stats (n_c n) = st /\ c_pending (n_c n) = false.
Proof.
  intros H1 H2 H3 H4 H5 H. unfold n_open in H. destruct (size <? header_size); [discriminate|].
  assert (X : forall g, 0 <= fl_nws g <= size - header_size -> (forall s, fl_nrs g = Some s -> 0 <= s <= 2 * (size - header_size) /\ fl_cws g <> None) -> bytes (fl_mem g) ->
    (if negb (hcrc (fl_nws g) (fl_cws g) (fl_lwe g) (fl_nrs g) =? fl_crc g) then Err DataLoss
     else Ok (mkN (set_stats st (common_new (fl_mem g) (size - header_size) (fl_nws g) (fl_cws g) (fl_lwe g) (fl_nrs g) (if check then 4 else 0) ow (fl_crc g))) None None hold check None)) = Ok n ->
    nweak n /\ c_len (n_c n) = size - header_size /\ c_ow (n_c n) = ow /\ n_hold n = hold /\ n_check n = check /\ c_stats (n_c n) = st /\ c_pending (n_c n) = false).
  { intros g G1 G2 G3 E. clear H. destruct (negb _); [discriminate|]. inv E. split; [|splits; reflexivity]. constructor; cbn [n_c n_check n_prod n_wait n_cons]; try discriminate; auto.
    - unfold common_new. constructor; fs; auto; [lia|destruct check; lia].
    - destruct check; reflexivity. }
  destruct (negb (size =? fl_len f)) eqn:E1.
  - apply (X _) in H; auto; cbn [fresh_file fl_nws fl_nrs fl_mem]; [lia|discriminate].
  - destruct (negb (fl_version f =? current_version) || negb (fl_size f =? size)); [discriminate|]. apply (X f); auto.
Qed.
Lemma open_none size ow hold check st : header_size <= size -> size - header_size < 2147483640 -> exists n, n_open hcrc None size ow hold check st = Ok n /\
  nweak n /\ c_len (n_c n) = size - header_size /\ c_ow (n_c n) = ow /\ n_hold n = hold /\ n_check n = check /\ c_stats (n_c n) = st /\ c_pending (n_c n) = false.
Proof.
  intros H1 H2. unfold n_open. replace (size <? header_size) with false by lia. cbn [fresh_file fl_nws fl_cws fl_lwe fl_nrs fl_crc fl_mem]. rewrite Z.eqb_refl. cbn [negb]. eexists. split; [reflexivity|]. split; [|splits; reflexivity].
  constructor; cbn [n_c n_check n_prod n_wait n_cons]; try discriminate; auto.
  - unfold common_new. constructor; fs; auto; [lia|destruct check; lia|intros i; lia|lia|discriminate].
  - destruct check; reflexivity.
Qed.

Lemma reload_weak n n' out : nweak n -> n_reload hcrc n (n_file n) = (n', out) -> nweak n' /\ keeps n n' /\ (losses n' = losses n /\ c_pending (n_c n') = false) /\ exists b, out = NOpened b.
Proof.
  intros W H. unfold n_reload, rb_open in H. pose proof (nw_c _ W) as WC. pose proof (cw_len _ WC). set (size := c_len (n_c n) + header_size) in *. assert (Hs : size - header_size = c_len (n_c n)) by (subst size; lia).
  assert (K : forall m, nweak m /\ c_len (n_c m) = size - header_size /\ c_ow (n_c m) = c_ow (n_c n) /\ n_hold m = n_hold n /\ n_check m = n_check n /\ c_stats (n_c m) = c_stats (n_c n) /\ c_pending (n_c m) = false -> nweak m /\ keeps n m /\ (losses m = losses n /\ c_pending (n_c m) = false)).
  { intros m (K1 & K2 & K3 & K4 & K5 & K6 & K7). split; [exact K1|]. split; [repeat split; congruence|]. split; [unfold losses; congruence|auto]. }
  destruct (n_open hcrc (Some (n_file n)) size (c_ow (n_c n)) (n_hold n) (n_check n) (c_stats (n_c n))) as [m|e|] eqn:E.
  - inv H. apply open_weak in E; [|unfold size, header_size; lia|lia|cbn [n_file fl_nws]; rewrite Hs; apply WC|cbn [n_file fl_nrs fl_cws]; rewrite Hs; apply WC|apply WC]. destruct (K _ E) as (K1 & K2 & K3). split; [exact K1|split; [exact K2|split; [exact K3|eauto] ] ].
  - assert (e = DataLoss) as ->. { unfold n_open in E. replace (size <? header_size) with false in E by (unfold size, header_size; lia). destruct (negb (size =? fl_len _)); [|destruct (_ || _); [congruence|] ]; match type of E with (if ?b then _ else _) = _ => destruct b end; congruence. }
    destruct (open_none size (c_ow (n_c n)) (n_hold n) (n_check n) (c_stats (n_c n))) as (m & E2 & M); [unfold size, header_size; lia|lia|]. rewrite E2 in H. inv H. destruct (K _ M) as (K1 & K2 & K3). split; [exact K1|split; [exact K2|split; [exact K3|eauto] ] ].
  - exfalso. unfold n_open in E. destruct (size <? header_size); [discriminate|]. destruct (negb (size =? fl_len _)); [|destruct (_ || _); [congruence|] ]; match type of E with (if ?b then _ else _) = _ => destruct b end; discriminate.
Qed.

(** A successful commit or end of a read. *)
Definition settles (o : cop) (out : nout) : Prop := o = Do NCommit /\ out = NRes (Ok tt) \/ o = Do NFinishRead /\ exists b, out = NFin (Ok b).
Definition steps_well (n : nbuf) (o : cop) (n' : nbuf) (out : nout) : Prop :=
  nweak n' /\ keeps n n' /\ (nloss n n' \/ o = Do NReopen /\ losses n' = losses n /\ c_pending (n_c n') = false) /\ hands_out (c_len (n_c n)) out /\ (panics out -> o = Do NFinishRead /\ c_ow (n_c n) = OYes) /\
  (settles o out -> c_pending (n_c n) = true -> n_busy n' = false -> blank hcrc (n_c n') /\ c_pending (n_c n') = false).

Lemma quiet n o out : nweak n -> (forall r, out <> NRange (Ok r)) -> ~ panics out -> ~ settles o out -> steps_well n o n out.
Proof. intros W H1 H2 H3. split; [exact W|]. split; [apply keeps_refl|]. split; [left; apply nloss_refl|]. split; [intros r X; exfalso; exact (H1 r X)|]. split; [intros X; contradiction|intros X; contradiction]. Qed.
Lemma np_range r : r <> Panic -> ~ panics (NRange r). Proof. intros H [X|[X|X] ]; congruence. Qed.

Lemma step_weak n o n' out : nweak n -> cop_ok o -> c_step rcrc hcrc n o = (n', out) -> steps_well n o n' out.
Proof.
  intros W Ho H. pose proof (nw_c _ W) as WC. destruct o as [o|m].
  2:{ inv H. unfold steps_well. split; [|split; [repeat split|split; [left; left; split; [reflexivity|auto]|split; [intros r; discriminate|split; [intros [X|[X|X] ]; discriminate|intros [ [X _]|[X _] ]; discriminate] ] ] ] ].
      destruct W as [W1 W2 W3 W4 W5]. constructor; cbn [n_set_c n_c n_check n_prod n_wait n_cons]; auto. destruct W1. constructor; fs; auto. }
  destruct Ho as (Ho1 & Ho2 & Ho3). cbn [c_step] in H.
  assert (NS : forall out, match o with NCommit | NFinishRead => False | _ => True end -> ~ settles (Do o) out) by (intros out' X [ [Y _]|[Y _] ]; inv Y; contradiction).
  assert (SIMPLE : forall m u, nweak m -> keeps n m -> losses m = losses n -> c_pending (n_c m) = c_pending (n_c n) -> (m, u) = (n', out) -> (forall r, u <> NRange (Ok r)) -> ~ panics u -> match o with NCommit | NFinishRead => False | _ => True end -> steps_well n (Do o) n' out).
  { intros m u M1 M2 M3 M4 E U1 U2 U3. inv E. split; [exact M1|]. split; [exact M2|]. split; [left; left; auto|]. split; [intros r X; exfalso; exact (U1 r X)|]. split; [intros X; contradiction|]. intros X; exfalso; exact (NS _ U3 X). }
  assert (NP : forall u, match u with NRange Panic | NRes Panic | NFin Panic => False | _ => True end -> ~ panics u) by (intros u X [Y|[Y|Y] ]; subst u; exact X).
  destruct o; cbn [n_step] in H; try contradiction.
  - (* reserve *)
    destruct (n_prod n) as [p|] eqn:Ep; [|inv H; apply quiet; auto; try discriminate; try (apply NP; exact Logic.I)]. destruct (n_wait n) as [w|] eqn:Ew; [inv H; apply quiet; auto; try discriminate; try (apply NP; exact Logic.I)|].
    destruct (n_reserve hcrc n size block) as [m r] eqn:E. inv H. destruct (reserve_weak n size block n' r W Ew Ho1 E) as (R1 & R2 & R3 & R4 & R5). split; [exact R2|]. split; [exact R3|]. split; [left; exact R4|]. split; [exact R5|]. split; [intros X; exfalso; exact (np_range _ R1 X)|intros X; exfalso; exact (NS _ Logic.I X)].
  - destruct (n_wait n) as [w|] eqn:Ew; [|inv H; apply quiet; auto; try discriminate; try (apply NP; exact Logic.I)]. destruct (n_resume hcrc n w) as [m r] eqn:E. inv H. destruct (resume_weak n w n' r W Ew E) as (R1 & R2 & R3 & R4 & R5).
    split; [exact R2|]. split; [exact R3|]. split; [left; exact R4|]. split; [exact R5|]. split; [intros X; exfalso; exact (np_range _ R1 X)|intros X; exfalso; exact (NS _ Logic.I X)].
  - destruct (n_prod n) as [p|] eqn:Ep; [|inv H; apply quiet; auto; try discriminate; try (apply NP; exact Logic.I)]. destruct (n_wait n) as [w|] eqn:Ew; [inv H; apply quiet; auto; try discriminate; try (apply NP; exact Logic.I)|].
    assert (Q : nweak (n_write n off bs) /\ keeps n (n_write n off bs) /\ losses (n_write n off bs) = losses n /\ c_pending (n_c (n_write n off bs)) = c_pending (n_c n)).
    { unfold n_write. rewrite Ep. destruct p as [r|]; [|splits; auto; apply keeps_refl]. destruct (_ && _); [|splits; auto; apply keeps_refl]. split; [|splits; auto; repeat split].
      destruct W as [W1 W2 W3 W4 W5]. constructor; cbn [n_set_c n_c n_check n_prod n_wait n_cons]; auto. destruct W1. constructor; fs; auto. apply set_bytes; auto. }
    destruct Q as (Q1 & Q2 & Q3 & Q4). eapply SIMPLE; [exact Q1|exact Q2|exact Q3|congruence|exact H|discriminate|apply NP; exact Logic.I|exact Logic.I].
  - destruct (n_prod n) as [p|] eqn:Ep; [|inv H; apply quiet; auto; try discriminate; try (apply NP; exact Logic.I); try (intros [ [_ X]|[X _] ]; discriminate) ]. destruct (n_wait n) as [w|] eqn:Ew; [inv H; apply quiet; auto; try discriminate; try (apply NP; exact Logic.I); try (intros [ [_ X]|[X _] ]; discriminate)|].
    destruct (n_commit rcrc hcrc n) as [m r] eqn:E. inv H. destruct (commit_weak n n' r W Ew E) as (R1 & R2 & R3 & R4 & R5). split; [exact R2|]. split; [exact R3|]. split; [left; exact R4|]. split; [intros q; discriminate|].
    split; [intros [X|[X|X] ]; congruence|]. intros [ [_ X]|[X _] ]; [|discriminate]. inv X. intros P B. apply R5; auto.
  - unfold n_register_producer in H. destruct (n_prod n) eqn:Ep; [inv H; apply quiet; auto; try discriminate; try (apply NP; exact Logic.I)|]. eapply SIMPLE; [ | | | |exact H|discriminate|apply NP; exact Logic.I|exact Logic.I]; auto; [|repeat split].
    destruct W as [W1 W2 W3 W4 W5]. constructor; cbn [n_set_prod n_c n_check n_prod n_wait n_cons]; auto; [discriminate|]. intros w Hw. destruct (W4 w Hw) as (Y1 & Y2 & Y3 & Y4). split; [exact Y1|]. split; [exact Y2|]. split; [exact Y3|discriminate].
  - destruct (n_prod n) as [p|] eqn:Ep; [|inv H; apply quiet; auto; try discriminate; try (apply NP; exact Logic.I)]. destruct (n_wait n) as [w|] eqn:Ew; [inv H; apply quiet; auto; try discriminate; try (apply NP; exact Logic.I)|].
    eapply SIMPLE; [ | | | |exact H|discriminate|apply NP; exact Logic.I|exact Logic.I]; auto; [|repeat split]. destruct W as [W1 W2 W3 W4 W5]. constructor; cbn [n_drop_producer n_set_prod n_c n_check n_prod n_wait n_cons]; auto; [discriminate|]. intros w Hw. congruence.
  - unfold n_register_consumer in H. destruct (n_cons n) eqn:Ek; [inv H; apply quiet; auto; try discriminate; try (apply NP; exact Logic.I)|]. eapply SIMPLE; [ | | | |exact H|discriminate|apply NP; exact Logic.I|exact Logic.I]; auto; [|repeat split].
    destruct W as [W1 W2 W3 W4 W5]. constructor; cbn [n_set_cons n_c n_check n_prod n_wait n_cons]; auto.
  - destruct (n_cons n) eqn:Ek; [|inv H; apply quiet; auto; try discriminate; try (apply NP; exact Logic.I)]. eapply SIMPLE; [ | | | |exact H|discriminate|apply NP; exact Logic.I|exact Logic.I]; auto; [|repeat split].
    destruct W as [W1 W2 W3 W4 W5]. constructor; cbn [n_drop_consumer n_set_cons n_c n_check n_prod n_wait n_cons]; auto.
  - destruct (n_cons n) as [ [e|q]|] eqn:Ek; [| |inv H; apply quiet; auto; try discriminate; try (apply NP; exact Logic.I)].
    + destruct (n_start_read rcrc hcrc n (Plain e) block) as [m r] eqn:E. inv H. destruct (reading_weak n e block n' r W Ek E) as (R1 & R2 & R3 & R4 & R5).
      split; [exact R2|]. split; [exact R3|]. split; [left; exact R4|]. split; [exact R5|]. split; [intros X; exfalso; exact (np_range _ R1 X)|intros X; exfalso; exact (NS _ Logic.I X)].
    + pose proof (nw_cons _ W) as X. rewrite Ek in X. contradiction.
  - inv H. apply quiet; auto; try discriminate; try (apply NP; exact Logic.I).
  - assert (QF : forall out0, out0 = NoCall \/ out0 = NFin (Err InvalidArgument) -> steps_well n (Do NFinishRead) n out0).
    { intros out0 X. apply quiet; auto; [intros r Y; destruct X; congruence|apply NP; destruct X as [X|X]; subst; exact Logic.I|intros [ [Y _]|[_ (b & Y)] ]; [discriminate|destruct X; congruence] ]. }
    destruct (n_cons n) as [ [ [q|]|q]|] eqn:Ek; try (inv H; apply QF; auto; fail). destruct (n_finish_read hcrc n (Some q)) as [m r] eqn:E. inv H. destruct (finish_weak n q n' r W Ek E) as (R1 & R2 & R3 & R4 & R5).
    split; [exact R2|]. split; [exact R3|]. split; [left; exact R4|]. split; [intros x; discriminate|]. split; [intros [X|[X|X] ]; try discriminate; inv X; destruct R1; auto|]. intros [ [X _]|[_ (b & X)] ]; [discriminate|]. inv X. intros P B. apply R5; eauto.
  - destruct (n_cons n) as [ [e|q]|] eqn:Ek; try (inv H; apply quiet; auto; try discriminate; try (apply NP; exact Logic.I)). pose proof (nw_cons _ W) as X. rewrite Ek in X. contradiction.
  - unfold n_wait_for_drain, wait_for_drain in H.
    assert (Y : forall w, nweak (n_set_c (set_wait w (n_c n)) n)) by (intros w; destruct W as [W1 W2 W3 W4 W5]; constructor; cbn [n_set_c n_c n_check n_prod n_wait n_cons]; auto; destruct W1; constructor; fs; auto).
    destruct (n_reading n || _).
    + eapply SIMPLE; [apply (Y (Some (c_cws (n_c n))))| | | |exact H|discriminate|apply NP; exact Logic.I|exact Logic.I]; auto. repeat split.
    + replace (n_set_c (n_c n) n) with n in H by (destruct n; reflexivity). inv H. apply quiet; auto; try discriminate; try (apply NP; exact Logic.I).
  - eapply SIMPLE; [ | | | |exact H|discriminate|apply NP; exact Logic.I|exact Logic.I]; auto; [|repeat split]. destruct W as [W1 W2 W3 W4 W5]; constructor; cbn [n_lock n_set_c n_c n_check n_prod n_wait n_cons]; auto; destruct W1; constructor; unfold lock_common; fs; auto.
  - eapply SIMPLE; [ | | | |exact H|discriminate|apply NP; exact Logic.I|exact Logic.I]; auto; [|repeat split]. destruct W as [W1 W2 W3 W4 W5]; constructor; cbn [n_unlock n_set_c n_c n_check n_prod n_wait n_cons]; auto; destruct W1; constructor; unfold unlock_common; fs; auto.
  - assert (Y : nweak (n_shutdown n) /\ keeps n (n_shutdown n) /\ losses (n_shutdown n) = losses n /\ c_pending (n_c (n_shutdown n)) = c_pending (n_c n)).
    { unfold n_shutdown, shutdown_common. destruct (c_shutdown (n_c n)); [replace (n_set_c (n_c n) n) with n by (destruct n; reflexivity); splits; auto; apply keeps_refl|]. split; [|splits; auto; repeat split].
      destruct W as [W1 W2 W3 W4 W5]; constructor; cbn [n_set_c n_c n_check n_prod n_wait n_cons]; auto; destruct W1; constructor; unfold lock_common; fs; auto. }
    destruct Y as (Y1 & Y2 & Y3 & Y4). eapply SIMPLE; [exact Y1|exact Y2|exact Y3|congruence|exact H|discriminate|apply NP; exact Logic.I|exact Logic.I].
  - destruct (reload_weak n n' out W H) as (R1 & R2 & R3 & b & ->). split; [exact R1|]. split; [exact R2|]. split; [right; split; [reflexivity|exact R3]|]. split; [intros r; discriminate|]. split; [intros [X|[X|X] ]; discriminate|intros X; exfalso; exact (NS _ Logic.I X)].
Qed.

Lemma run_weak l : forall n, nweak n -> Forall cop_ok l -> nweak (fst (c_run rcrc hcrc n l)) /\ keeps n (fst (c_run rcrc hcrc n l)) /\
  (forall i o out, nth_error l i = Some o -> nth_error (snd (c_run rcrc hcrc n l)) i = Some out -> hands_out (c_len (n_c n)) out /\ (panics out -> o = Do NFinishRead /\ c_ow (n_c n) = OYes)).
Proof.
  induction l as [|o l IH]; intros n W F; [split; [exact W|split; [apply keeps_refl|intros [|i]; discriminate] ]|]. inv F. cbn [c_run]. destruct (c_step rcrc hcrc n o) as [n1 out1] eqn:E. destruct (step_weak n o n1 out1 W H1 E) as (S1 & S2 & S3 & S4 & S5 & S6).
  destruct (IH n1 S1 H2) as (I1 & I2 & I3). destruct (c_run rcrc hcrc n1 l) as [n2 outs]. cbn [fst snd] in *. destruct S2 as (K1 & K2 & K3 & K4). destruct I2 as (L1 & L2 & L3 & L4). split; [exact I1|]. split; [repeat split; congruence|].
  intros [|i] o' out' X Y; cbn [nth_error] in X, Y; [inv X; inv Y; auto|]. destruct (I3 i o' out' X Y) as [Z1 Z2]. rewrite K1 in Z1. rewrite K2 in Z2. auto.
Qed.

(** * Becoming usable again *)
Lemma tail_busy n t size block n' r : n_reserve_tail hcrc n t size block = (n', r) -> n_busy n = true -> n_busy n' = true.
Proof.
  intros H B. unfold n_reserve_tail in H. destruct (advance_due_to_write _ _ _ _ _ _) as [c [u|e|] ].
  - destruct (finish_reservation _ _ _) as [ [c3 a]|]; inv H; [unfold n_busy, n_reading; cbn; apply orb_true_r|exact B].
  - destruct e; inv H; exact B.
  - inv H. exact B.
Qed.
Lemma loop_busy n t size block n' r : n_reserve_loop hcrc n t size block = (n', r) -> n_busy n = true -> n_busy n' = true.
Proof.
  intros H B. unfold n_reserve_loop in H. destruct (match n_read_reservation n with Some r => _ | None => false end); [destruct (n_hold n); inv H; exact B|]. eapply tail_busy; eauto.
Qed.
Lemma reserve_busy n size block n' r : n_reserve hcrc n size block = (n', r) -> n_busy n = true -> n_busy n' = true.
Proof.
  intros H B. unfold n_reserve in H.
  assert (X : forall c, n_busy (n_set_c c n) = true) by (intros c; exact B).
  destruct (n_prod n) as [ [q|]|]; [inv H; exact B| |]; (destruct (start_reserve_common (n_c n) size) as [c [a|e|] ]; [|inv H; apply X|inv H; apply X]; destruct (calculate_next_write_start c a); [|inv H; apply X]; eapply loop_busy; [exact H|apply X]).
Qed.
Lemma step_busy n o n' out : n_busy n = true -> c_step rcrc hcrc n o = (n', out) -> n_busy n' = true \/ settles o out \/ o = Do NDropProducer \/ o = Do NDropConsumer \/ o = Do NReopen \/ (exists o' j, o = Do (NCrash o' j)) \/ o = Do NAdvance \/ panics out.
Proof.
  intros B H. destruct o as [o|m]; [|inv H; left; exact B]. cbn [c_step] in H. destruct o; cbn [n_step] in H; auto 10; try (inv H; left; exact B); try (right; right; right; right; right; left; eauto; fail).
  - destruct (n_prod n) as [p|]; [|inv H; left; exact B]. destruct (n_wait n) as [w|]; [inv H; left; exact B|]. destruct (n_reserve hcrc n size block) as [m r] eqn:E. inv H. left. eapply reserve_busy; eauto.
  - destruct (n_wait n) as [w|]; [|inv H; left; exact B]. destruct (n_resume hcrc n w) as [m r] eqn:E. inv H. left. unfold n_resume in E. destruct (c_shutdown (n_c n)); [inv E; exact B|]. destruct (w_second w); [eapply tail_busy|eapply loop_busy]; eauto.
  - destruct (n_prod n) as [p|] eqn:Ep; [|inv H; left; exact B]. destruct (n_wait n) as [w|]; [inv H; left; exact B|]. inv H. left. unfold n_write. rewrite Ep. destruct p; [|exact B]. destruct (_ && _); exact B.
  - destruct (n_prod n) as [p|] eqn:Ep; [|inv H; left; exact B]. destruct (n_wait n) as [w|]; [inv H; left; exact B|]. unfold n_commit in H. rewrite Ep in H. destruct p as [q|]; [|inv H; left; exact B].
    match type of H with context [match ?x with Some c => _ | None => _ end] => destruct x end; inv H; [right; left; left; split; reflexivity|left; exact B].
  - unfold n_register_producer in H. destruct (n_prod n) as [p|] eqn:Ep; inv H; left; [exact B|]. unfold n_busy, n_reading in *. cbn. rewrite Ep in B. exact B.
  - unfold n_register_consumer in H. destruct (n_cons n) eqn:Ek; inv H; left; [exact B|]. unfold n_busy, n_reading in *. cbn. rewrite Ek in B. exact B.
  - unfold n_register_cursor in H. destruct (n_cons n) eqn:Ek; [inv H; left; exact B|]. destruct (c_ow (n_c n)); inv H; left; [|exact B]. unfold n_busy, n_reading in *. cbn. rewrite Ek in B. exact B.
  - destruct (n_cons n) as [k|] eqn:Ek; [|inv H; left; exact B]. destruct (n_start_read rcrc hcrc n k block) as [m r] eqn:E. inv H. left. unfold n_start_read, n_start_read_fuel in E. destruct k as [e|q].
    + destruct (consumer_start_read _ _ _ _ _ _ _ _ _) as [c [q|e'|] ]; inv E; try exact B. reflexivity.
    + destruct (consumer_start_read _ _ _ _ _ _ _ _ _) as [c [q'|e'|] ]; inv E; try exact B. unfold n_busy, n_reading. cbn. destruct q; reflexivity.
  - destruct (n_cons n) as [ [ [q|]|q]|] eqn:Ek; try (inv H; left; exact B). unfold n_finish_read in H. match type of H with context [match ?x with Some c => _ | None => _ end] => destruct x as [ [c d]|] end; inv H.
    + right; left; right; split; eauto.
    + do 7 right. right. right. reflexivity.
  - unfold n_wait_for_drain in H. destruct (wait_for_drain _ _). inv H. left. exact B.
Qed.

(** A blank buffer nobody uses. *)
Lemma blank_new k n : nweak n -> blank hcrc (n_c n) -> c_pending (n_c n) = false -> unused n ->
  k_cap k = c_len (n_c n) -> k_ow k = c_ow (n_c n) -> k_hold k = n_hold n -> k_check k = n_check n -> as_new rcrc hcrc (record_sum rcrc) k n.
Proof.
  intros W (B1 & B2 & B3 & B4 & B5 & B6) HP [U1 U2] K1 K2 K3 K4. pose proof (nw_c _ W) as WC. pose proof (cw_len _ WC). pose proof (cw_extra _ WC).
  unfold n_busy, n_reading in U1. apply orb_false_iff in U1. destruct U1 as [U1 U3].
  set (s := mkQ [] [] None 0 (match n_prod n with Some _ => true | None => false end) None (match n_cons n with Some _ => Regular false | None => Nobody end) false (c_locks (n_c n)) (c_shutdown (n_c n)) []).
  assert (R : rel rcrc hcrc k n s [] []).
  { assert (RV : resv n = []) by (unfold resv; destruct (n_prod n) as [ [q|]|]; [discriminate|reflexivity|reflexivity]).
    constructor; cbn [s q_unread q_gone q_slot q_prod q_wait q_reader q_sync q_locks q_shut]; rewrite ?RV; auto; try discriminate.
    - constructor; cbn [app hd_start last_start]; auto; [lia|lia|]. rewrite B1, B3. apply layout_empty. lia.
    - rewrite (nw_extra _ W). unfold k_extra. rewrite K4. reflexivity.
    - destruct (n_prod n) as [ [q|]|]; [discriminate|auto|auto].
    - rewrite U2. reflexivity.
    - pose proof (nw_cons _ W) as X. destruct (n_cons n) as [ [ [q|]|q]|]; auto; [discriminate|contradiction].
    - rewrite B1, B2, B3, B4. exact B6. }
  exists s. cbn [s q_unread q_gone q_slot q_prod q_wait q_reader q_past q_locks q_shut]. splits; auto.
  - destruct (n_prod n); split; intros; congruence.
  - destruct (n_cons n); split; intros; congruence.
  - intros l Ho Hp. destruct (clean_run rcrc hcrc no_cursor plain_op k) with (n := n) (s := s) (U := @nil range) (D := @nil range) (l := l) as (s' & U & D & H1 & H2 & H3); auto.
    + intros s0 o out s0' St Po. eapply step_no_cursor; [exact St|]. destruct o; try discriminate. contradiction.
    + intros s0 o N Po [_ M]. destruct o; try contradiction. destruct M as [m M]. eapply N. exact M.
    + intros m. cbn. destruct (n_cons n); discriminate.
    + eauto.
Qed.

Lemma crun_app l1 : forall n l2, fst (c_run rcrc hcrc n (l1 ++ l2)) = fst (c_run rcrc hcrc (fst (c_run rcrc hcrc n l1)) l2) /\
  snd (c_run rcrc hcrc n (l1 ++ l2)) = snd (c_run rcrc hcrc n l1) ++ snd (c_run rcrc hcrc (fst (c_run rcrc hcrc n l1)) l2).
Proof.
  induction l1 as [|o l1 IH]; intros n l2; [split; reflexivity|]. cbn [app c_run]. destruct (c_step rcrc hcrc n o) as [n1 out]. destruct (IH n1 l2) as [I1 I2].
  destruct (c_run rcrc hcrc n1 (l1 ++ l2)) as [a b]. destruct (c_run rcrc hcrc n1 l1) as [c d]. cbn [fst snd] in *. split; [exact I1|rewrite I2; reflexivity].
Qed.

(** A reset is postponed only while somebody has a reservation. *)
Definition owed (n : nbuf) : Prop := c_pending (n_c n) = true -> n_busy n = true.
Lemma settled_false n o n' out : nweak n -> cop_ok o -> no_drop o -> ~ panics out -> c_step rcrc hcrc n o = (n', out) -> owed n -> owed n'.
Proof.
  intros W Ho Nd Np E Ow P'. destruct (step_weak n o n' out W Ho E) as (_ & _ & L & _ & _ & St).
  destruct L as [ [ (_ & [L|(_ & _ & L)]) | (_ & Lb & Lt & Lf) ] | (_ & _ & L) ]; try congruence.
  - rewrite L in P'. specialize (Ow P'). destruct (step_busy n o n' out Ow E) as [X|[X|[X|[X|[X|[X|[X|X] ] ] ] ] ] ]; [exact X| |subst; contradiction|subst; contradiction| | | |contradiction].
    + destruct (n_busy n') eqn:B; [reflexivity|]. destruct (St X P' eq_refl). congruence.
    + subst o. destruct (n_busy n') eqn:B; [reflexivity|]. exfalso. cbn [c_step n_step] in E. destruct (reload_weak n n' out W E) as (_ & _ & (_ & R) & _). congruence.
    + destruct X as (o' & j & ->). destruct Ho as (_ & X & _). contradiction.
    + subst o. destruct Ho as (_ & X & _). cbn in E. pose proof (nw_cons _ W). destruct (n_cons n) as [ [e|q]|] eqn:Ek; try contradiction; inv E; exact Ow.
  - destruct (n_busy n) eqn:B; [congruence|]. destruct (Lf eq_refl) as [_ Lp]. rewrite Lp in P'. specialize (Ow P'). congruence.
Qed.
Lemma run_owed l : forall n, nweak n -> Forall cop_ok l -> Forall no_drop l -> Forall (fun out => ~ panics out) (snd (c_run rcrc hcrc n l)) -> owed n -> owed (fst (c_run rcrc hcrc n l)).
Proof.
  induction l as [|o l IH]; intros n W F1 F2 F3 Ow; [exact Ow|]. inv F1. inv F2. cbn [c_run] in *. destruct (c_step rcrc hcrc n o) as [n1 out] eqn:E. specialize (IH n1). destruct (c_run rcrc hcrc n1 l) as [n2 outs]. cbn [fst snd] in *. inv F3.
  apply IH; auto; [destruct (step_weak n o n1 out W H1 E) as (X & _); exact X|]. eapply settled_false; eauto.
Qed.

(** While reservations delay the reset. *)
Lemma run_reset l : forall n, nweak n -> Forall cop_ok l -> Forall no_drop l -> Forall no_reopen l -> Forall (fun out => ~ panics out) (snd (c_run rcrc hcrc n l)) -> c_pending (n_c n) = true ->
  (forall a o b, l = a ++ o :: b -> n_busy (fst (c_run rcrc hcrc n a)) = true) -> n_busy (fst (c_run rcrc hcrc n l)) = false -> l <> [] ->
  blank hcrc (n_c (fst (c_run rcrc hcrc n l))) /\ c_pending (n_c (fst (c_run rcrc hcrc n l))) = false.
Proof.
  induction l as [|o l IH]; intros n W F1 F2 F4 F3 P B U Nl; [congruence|]. inv F1. inv F2. inv F4. pose proof (B [] o l eq_refl) as B0. cbn [c_run fst] in B0. cbn [c_run] in *. destruct (c_step rcrc hcrc n o) as [n1 out] eqn:E. specialize (IH n1).
  destruct (step_weak n o n1 out W H1 E) as (W1 & _ & L & _ & _ & St).
  assert (B' : forall a o' b, l = a ++ o' :: b -> n_busy (fst (c_run rcrc hcrc n1 a)) = true).
  { intros a o' b ->. specialize (B (o :: a) o' b eq_refl). cbn [c_run] in B. rewrite E in B. destruct (c_run rcrc hcrc n1 a). exact B. }
  destruct l as [|o2 l].
  - cbn [c_run fst snd] in *. inv F3. destruct (step_busy n o n1 out B0 E) as [X|[X|[X|[X|[X|[X|[X|X] ] ] ] ] ] ]; try (subst; contradiction); [congruence|auto| |].
    + destruct X as (o' & j & ->). destruct H1 as (_ & X & _). contradiction.
    + subst o. cbn in E. pose proof (nw_cons _ W). destruct (n_cons n) as [ [e|q]|] eqn:Ek; try contradiction; inv E; congruence.
  - pose proof (B' [] o2 l eq_refl) as B1. cbn [c_run fst] in B1. destruct (c_run rcrc hcrc n1 (o2 :: l)) as [n2 outs] eqn:E2. cbn [fst snd] in *. inv F3. apply IH; auto; [|discriminate].
    destruct L as [ [ (_ & [L|(L & _)]) | (_ & _ & Lt & _) ] | (-> & _) ]; [congruence|congruence|auto|contradiction].
Qed.

Lemma usable_again k n l1 o l2 : nweak n -> c_pending (n_c n) = false -> k_cap k = c_len (n_c n) -> k_ow k = c_ow (n_c n) -> k_hold k = n_hold n -> k_check k = n_check n ->
  Forall cop_ok (l1 ++ o :: l2) -> Forall no_drop (l1 ++ o :: l2) -> Forall no_reopen l2 -> Forall (fun out => ~ panics out) (snd (c_run rcrc hcrc n (l1 ++ o :: l2))) ->
  losses (fst (c_run rcrc hcrc n (l1 ++ [o]))) <> losses (fst (c_run rcrc hcrc n l1)) ->
  (forall a o' b, l2 = a ++ o' :: b -> n_busy (fst (c_run rcrc hcrc n (l1 ++ o :: a))) = true) -> unused (fst (c_run rcrc hcrc n (l1 ++ o :: l2))) ->
  as_new rcrc hcrc (record_sum rcrc) k (fst (c_run rcrc hcrc n (l1 ++ o :: l2))).
Proof.
  intros W P K1 K2 K3 K4 F1 F2 F4 F3 Lo B U. destruct (run_weak (l1 ++ o :: l2) n W F1) as (WE & (Q1 & Q2 & Q3 & Q4) & _).
  apply Forall_app in F1. destruct F1 as [F1a F1b]. apply Forall_app in F2. destruct F2 as [F2a F2b]. inv F1b. inv F2b. destruct (run_weak l1 n W F1a) as (W1 & _ & _).
  destruct (crun_app l1 n (o :: l2)) as [A1 A2]. destruct (crun_app l1 n [o]) as [A3 _]. rewrite A2 in F3. apply Forall_app in F3. destruct F3 as [F3a F3b].
  assert (Ow : owed (fst (c_run rcrc hcrc n l1))) by (apply run_owed; auto; intros X; congruence).
  assert (B' : forall a o' b, l2 = a ++ o' :: b -> n_busy (fst (c_run rcrc hcrc (fst (c_run rcrc hcrc n l1)) (o :: a))) = true).
  { intros a o' b X. specialize (B a o' b X). destruct (crun_app l1 n (o :: a)) as [A4 _]. congruence. }
  rewrite A3 in Lo. apply blank_new; auto; try congruence; rewrite A1 in *; set (m := fst (c_run rcrc hcrc n l1)) in *; clearbody m; cbn [c_run] in *; destruct (c_step rcrc hcrc m o) as [n1 out] eqn:E; cbn [fst] in Lo.
  all: destruct (step_weak m o n1 out W1 H1 E) as (Wn & _ & L & _ & _ & _).
  all: assert (Ow1 : owed n1) by (eapply settled_false; [exact W1|exact H1|assumption| |exact E|exact Ow]; destruct (c_run rcrc hcrc n1 l2); inv F3b; assumption).
  all: destruct L as [ [ (L & _) | (_ & Lb & Lt & Lf) ] | (_ & L & _) ]; try congruence.
  all: assert (R : blank hcrc (n_c (fst (c_run rcrc hcrc n1 l2))) /\ c_pending (n_c (fst (c_run rcrc hcrc n1 l2))) = false).
  1, 3: destruct l2 as [|o2 l2].
  1, 3: cbn [c_run fst snd] in *; destruct U as [U _]; rewrite Lb in U; destruct (Lf U) as [Y1 Y2]; split; [exact Y1|]; destruct (c_pending (n_c n1)) eqn:Pn; [specialize (Ow1 Pn); congruence|reflexivity].
  1, 2: pose proof (B' [] o2 l2 eq_refl) as B1; cbn [c_run fst] in B1; apply run_reset; auto; try discriminate; [destruct (c_run rcrc hcrc n1 (o2 :: l2)); cbn [snd] in *; inv F3b; assumption|apply Lt; congruence| |destruct U as [U _]; destruct (c_run rcrc hcrc n1 (o2 :: l2)); exact U].
  1, 2: intros a o' b X; specialize (B' a o' b X); destruct (c_run rcrc hcrc n1 a); exact B'.
  all: destruct (c_run rcrc hcrc n1 l2); apply R.
Qed.

(** A postponed reset that nobody performs. *)
Definition stuck (n : nbuf) : Prop := c_pending (n_c n) = true /\ (n_prod n = None \/ n_prod n = Some None) /\ (n_cons n = None \/ n_cons n = Some (Plain None)) /\ n_wait n = None.
Lemma step_stuck n o n' out : stuck n -> match o with Do o => nop_ok o /\ plain_op o | Spoil _ => True end -> no_reopen o -> c_step rcrc hcrc n o = (n', out) -> stuck n' /\ (forall r, out <> NRange (Ok r)).
Proof.
  intros (P & Hp & Hc & Hw) Ho Nr H. destruct o as [o|m]; [|inv H; split; [repeat split; auto|discriminate] ]. destruct Ho as [_ Po].
  assert (Q : stuck n) by (repeat split; auto). cbn [c_step] in H. destruct o; cbn [n_step] in H; try contradiction; rewrite ?Hw in H.
  - destruct Hp as [Hp|Hp]; rewrite Hp in H; [inv H; split; [auto|discriminate]|]. unfold n_reserve, start_reserve_common in H. rewrite Hp, P in H.
    destruct (0 <? c_locks (n_c n)); inv H; (split; [repeat split; auto|discriminate]).
  - inv H; split; [auto|discriminate].
  - destruct Hp as [Hp|Hp]; rewrite Hp in H; inv H; split; auto; try discriminate. unfold n_write. rewrite Hp. auto.
  - destruct Hp as [Hp|Hp]; unfold n_commit in H; rewrite Hp in H; inv H; split; auto; discriminate.
  - destruct Hp as [Hp|Hp]; unfold n_register_producer in H; rewrite Hp in H; inv H; (split; [repeat split; cbn; auto|discriminate]).
  - destruct Hp as [Hp|Hp]; rewrite Hp in H; inv H; (split; [repeat split; cbn; auto|discriminate]).
  - destruct Hc as [Hc|Hc]; unfold n_register_consumer in H; rewrite Hc in H; inv H; (split; [repeat split; cbn; auto|discriminate]).
  - destruct Hc as [Hc|Hc]; rewrite Hc in H; inv H; (split; [repeat split; cbn; auto|discriminate]).
  - destruct Hc as [Hc|Hc]; rewrite Hc in H; [inv H; split; [auto|discriminate]|].
    unfold n_start_read, n_start_read_fuel in H. destruct (loop_fuel (n_c n)) as [|fuel]; cbn [consumer_start_read] in H; [inv H; split; [repeat split; auto|discriminate]|].
    unfold start_read in H. rewrite P in H. inv H. split; [repeat split; auto|discriminate].
  - inv H; split; [auto|discriminate].
  - destruct Hc as [Hc|Hc]; rewrite Hc in H; inv H; split; auto; discriminate.
  - destruct Hc as [Hc|Hc]; rewrite Hc in H; inv H; split; auto; discriminate.
  - unfold n_wait_for_drain, wait_for_drain in H. destruct (n_reading n || _); inv H; (split; [repeat split; auto|discriminate]).
  - inv H; split; [repeat split; auto|discriminate].
  - inv H; split; [repeat split; auto|discriminate].
  - inv H; split; [|discriminate]. unfold n_shutdown, shutdown_common. destruct (c_shutdown (n_c n)); repeat split; auto.
Qed.
Lemma run_stuck l : forall n, stuck n -> Forall (fun o => match o with Do o => nop_ok o /\ plain_op o | Spoil _ => True end /\ no_reopen o) l -> Forall (fun out => forall r, out <> NRange (Ok r)) (snd (c_run rcrc hcrc n l)).
Proof.
  induction l as [|o l IH]; intros n S F; [constructor|]. inv F. destruct H1 as [X Y]. cbn [c_run]. destruct (c_step rcrc hcrc n o) as [n1 out] eqn:E. destruct (step_stuck n o n1 out S X Y E) as [S1 S2]. specialize (IH n1 S1 H2). destruct (c_run rcrc hcrc n1 l). constructor; auto.
Qed.
Lemma opened_range cap f size ow hold check st n l : 0 <= cap < 2147483640 -> in_range cap f -> size = cap + header_size -> n_open hcrc (Some f) size ow hold check st = Ok n -> Forall cop_ok l ->
  forall i o out, nth_error l i = Some o -> nth_error (snd (c_run rcrc hcrc n l)) i = Some out -> hands_out cap out /\ (panics out -> o = Do NFinishRead /\ ow = OYes).
Proof.
  intros Hc (R1 & R2 & R3) -> E F i o out Ho Hout. apply open_weak in E; auto; try (unfold header_size in *; lia).
  - destruct E as (W & L & O & _). destruct (run_weak l n W F) as (_ & _ & X). replace cap with (c_len (n_c n)) by lia. rewrite <- O. eapply X; eauto.
  - intros s Hs. destruct (R2 s Hs). split; auto. unfold header_size. lia.
Qed.
Lemma opened_usable k f st n l1 o l2 : 0 <= k_cap k < 2147483640 -> in_range (k_cap k) f -> n_open hcrc (Some f) (k_cap k + header_size) (k_ow k) (k_hold k) (k_check k) st = Ok n ->
  Forall cop_ok (l1 ++ o :: l2) -> Forall no_drop (l1 ++ o :: l2) -> Forall no_reopen l2 -> Forall (fun out => ~ panics out) (snd (c_run rcrc hcrc n (l1 ++ o :: l2))) ->
  losses (fst (c_run rcrc hcrc n (l1 ++ [o]))) <> losses (fst (c_run rcrc hcrc n l1)) ->
  (forall a o' b, l2 = a ++ o' :: b -> n_busy (fst (c_run rcrc hcrc n (l1 ++ o :: a))) = true) -> unused (fst (c_run rcrc hcrc n (l1 ++ o :: l2))) ->
  as_new rcrc hcrc (record_sum rcrc) k (fst (c_run rcrc hcrc n (l1 ++ o :: l2))).
Proof.
  intros Hc (R1 & R2 & R3) E. apply open_weak in E; auto; try (unfold header_size in *; lia).
  - destruct E as (W & L & O & Ho & Hk & _ & P). intros. apply usable_again; auto. unfold header_size in *. lia.
  - intros s Hs. destruct (R2 s Hs). split; auto. unfold header_size. lia.
Qed.
End Buffer.
