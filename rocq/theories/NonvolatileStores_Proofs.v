(** The stores listed by the model of a crash are the ones the operations make; what a cut through them leaves in the file. *)
From Verif Require Import Base Ring_Model Ring_Layout Ring_Proofs Nonvolatile_Model Nonvolatile_Spec Nonvolatile_Proofs NonvolatileCrash_Proofs.
Open Scope Z_scope.

(** * Files *)
Definition file_of (c : common) : file :=
  mkFile (c_len c + header_size) current_version (c_len c + header_size) (c_nws c) (c_cws c) (c_lwe c) (c_nrs c) (c_hcrc c) (c_mem c).
Lemma n_file_of : forall n, n_file n = file_of (n_c n).
Proof. reflexivity. Qed.

Lemma feq_sym : forall f g, feq f g -> feq g f.
Proof. intros f g [H1 H2 H3 H4 H5 H6 H7 H8 H9]. constructor; auto. Qed.
Lemma feq_trans : forall f g h, feq f g -> feq g h -> feq f h.
Proof. intros f g h [H1 H2 H3 H4 H5 H6 H7 H8 H9] [G1 G2 G3 G4 G5 G6 G7 G8 G9]. constructor; congruence. Qed.
Lemma feq_put : forall f g s, feq f g -> feq (put f s) (put g s).
Proof.
  intros f g s [H1 H2 H3 H4 H5 H6 H7 H8 H9]. destruct s; constructor; cbn; auto. intros i. destruct (i =? a); auto.
Qed.
Lemma feq_puts : forall l f g, feq f g -> feq (puts f l) (puts g l).
Proof. induction l as [|s l IH]; intros f g H; [exact H|]. apply IH. apply feq_put. exact H. Qed.
Lemma puts_app : forall f a b, puts f (a ++ b) = puts (puts f a) b.
Proof. intros. unfold puts. apply fold_left_app. Qed.

Lemma puts_const : forall l f, fl_len (puts f l) = fl_len f /\ fl_version (puts f l) = fl_version f /\ fl_size (puts f l) = fl_size f.
Proof. induction l as [|s l IH]; intros f; [auto|]. cbn. destruct (IH (put f s)) as (H1 & H2 & H3). unfold puts in *. rewrite H1, H2, H3. destruct s; auto. Qed.

Lemma puts_bytes : forall bs a f, feq (puts f (byte_stores a bs))
  (mkFile (fl_len f) (fl_version f) (fl_size f) (fl_nws f) (fl_cws f) (fl_lwe f) (fl_nrs f) (fl_crc f) (mem_set (fl_mem f) a bs)).
Proof.
  induction bs as [|b bs IH]; intros a f.
  - constructor; cbn; auto. intros i. symmetry. apply mem_set_out. cbn. lia.
  - cbn [byte_stores puts fold_left]. eapply feq_trans; [apply IH|]. constructor; cbn [put fl_len fl_version fl_size fl_nws fl_cws fl_lwe fl_nrs fl_crc fl_mem]; auto.
    intros i. destruct (Z.lt_trichotomy i a) as [H|[->|H]].
    + rewrite !mem_set_out by lia. replace (i =? a) with false by lia. reflexivity.
    + rewrite mem_set_out by lia. rewrite Z.eqb_refl. unfold mem_set.
      replace ((a <=? a) && (a <? a + Z.of_nat (length (b :: bs)))) with true by (cbn [length]; lia). rewrite Z.sub_diag. reflexivity.
    + unfold mem_set. replace (i =? a) with false by lia.
      replace (a + 1 + Z.of_nat (length bs)) with (a + Z.of_nat (length (b :: bs))) by (cbn [length]; lia).
      replace (a + 1 <=? i) with true by lia. replace (a <=? i) with true by lia. cbn [andb].
      destruct (i <? a + Z.of_nat (length (b :: bs))); [|reflexivity].
      replace (Z.to_nat (i - a)) with (S (Z.to_nat (i - (a + 1)))) by lia. reflexivity.
Qed.
Lemma firstn_bytes : forall j bs a, firstn j (byte_stores a bs) = byte_stores a (firstn j bs).
Proof. induction j as [|j IH]; intros [|b bs] a; try reflexivity. cbn. rewrite IH. reflexivity. Qed.
Lemma length_bytes : forall bs a, length (byte_stores a bs) = length bs.
Proof. induction bs as [|b bs IH]; intros a; [reflexivity|]. cbn. rewrite IH. reflexivity. Qed.

(** Kinds of stores. *)
Definition not_crc (s : store) : Prop := match s with StCrc _ => False | _ => True end.
Definition not_byte (s : store) : Prop := match s with StByte _ _ => False | _ => True end.
Definition is_byte (s : store) : Prop := match s with StByte _ _ => True | _ => False end.
Definition nrs_not (x : option Z) (s : store) : Prop := match s with StNrs v => v <> x | _ => True end.

Lemma puts_crc : forall l f, Forall not_crc l -> fl_crc (puts f l) = fl_crc f.
Proof. induction l as [|s l IH]; intros f H; [reflexivity|]. inv H. cbn. unfold puts in IH. rewrite IH by assumption. destruct s; try reflexivity. contradiction. Qed.
Lemma puts_mem : forall l f, Forall not_byte l -> fl_mem (puts f l) = fl_mem f.
Proof. induction l as [|s l IH]; intros f H; [reflexivity|]. inv H. cbn. unfold puts in IH. rewrite IH by assumption. destruct s; try reflexivity. contradiction. Qed.
Lemma puts_header : forall l f, Forall is_byte l -> header (puts f l) = header f.
Proof. induction l as [|s l IH]; intros f H; [reflexivity|]. inv H. cbn. unfold puts in IH. rewrite IH by assumption. destruct s; try contradiction. reflexivity. Qed.
Lemma puts_nrs : forall x l f, Forall (nrs_not x) l -> fl_nrs f <> x -> fl_nrs (puts f l) <> x.
Proof. intros x. induction l as [|s l IH]; intros f H Hf; [exact Hf|]. inv H. cbn. apply IH; [assumption|]. destruct s; cbn in *; assumption. Qed.
Lemma firstn_Forall : forall (A : Type) (P : A -> Prop) l j, Forall P l -> Forall P (firstn j l).
Proof. intros A P l. induction l as [|x l IH]; intros [|j] H; cbn; auto. inv H. constructor; auto. Qed.
Lemma bytes_is : forall bs a, Forall is_byte (byte_stores a bs).
Proof. induction bs; intros a'; cbn; constructor; cbn; auto. Qed.
Lemma bytes_not_crc : forall bs a, Forall not_crc (byte_stores a bs).
Proof. induction bs; intros a'; cbn; constructor; cbn; auto. Qed.
Lemma bytes_nrs : forall x bs a, Forall (nrs_not x) (byte_stores a bs).
Proof. intros x. induction bs; intros a'; cbn; constructor; cbn; auto. Qed.
Lemma advance_not_crc : forall c z, Forall not_crc (advance_stores c z).
Proof. intros c z. unfold advance_stores. repeat dmatch; repeat constructor. Qed.
Lemma advance_not_byte : forall c z, Forall not_byte (advance_stores c z).
Proof. intros c z. unfold advance_stores. repeat dmatch; repeat constructor. Qed.

(** * Operations *)
Lemma zero_file : forall c st c', zero_extra_data c st = Some c' -> feq (puts (file_of c) (zero_stores c st)) (file_of c').
Proof.
  intros c st c' H. unfold zero_extra_data in H. destruct (slice_ok _ _ _); [|discriminate]. injection H as <-.
  eapply feq_trans; [apply puts_bytes|]. constructor; reflexivity.
Qed.

Lemma advance_file : forall c z c', advance_next_read c z CursorNo = Some c' -> puts (file_of c) (advance_stores c z) = file_of c'.
Proof.
  intros c z c' H. unfold advance_next_read in H. unfold advance_stores. cbn [rd_start] in H.
  destruct (c_nrs c) as [st|]; [|discriminate]. destruct (c_cws c) as [w|] eqn:Ew; [|discriminate].
  destruct (negb (st =? w)).
  - destruct (add32 st z) as [e|] eqn:Ea; [|discriminate]. apply add32_some in Ea. subst e.
    unfold sub32 in H. destruct (1 <=? st + z); [|discriminate].
    destruct (match c_lwe c with Some l => l =? st + z - 1 | None => false end); injection H as <-; reflexivity.
  - injection H as <-. reflexivity.
Qed.

(** Every value it stores as the next read start is the final one. *)
Lemma advance_nrs : forall c z c' x, advance_next_read c z CursorNo = Some c' -> c_nrs c' <> x -> Forall (nrs_not x) (advance_stores c z).
Proof.
  intros c z c' x H Hx. unfold advance_next_read in H. unfold advance_stores. cbn [rd_start] in H.
  destruct (c_nrs c) as [st|]; [|discriminate]. destruct (c_cws c) as [w|] eqn:Ew; [|discriminate].
  destruct (negb (st =? w)).
  - destruct (add32 st z) as [e|] eqn:Ea; [|discriminate]. apply add32_some in Ea. subst e.
    unfold sub32 in H. destruct (1 <=? st + z); [|discriminate].
    destruct (match c_lwe c with Some l => l =? st + z - 1 | None => false end); injection H as <-; cbn in Hx; repeat constructor; exact Hx.
  - injection H as <-. cbn in Hx. repeat constructor. exact Hx.
Qed.

Lemma evict_file : forall fuel cb busy c t block c', advance_due_to_write fuel cb busy c t block = (c', Ok tt) ->
  feq (puts (file_of c) (evict_stores fuel c t)) (file_of c').
Proof.
  induction fuel as [|fuel IH]; intros cb busy c t block c' H; [discriminate|].
  cbn [advance_due_to_write evict_stores] in *. destruct (c_nrs c) as [st|] eqn:En; [|injection H as <-; apply feq_refl].
  destruct (load_next_read_size c CursorNo) as [size|e|]; [|discriminate|discriminate].
  destruct (intersect_reservation c t (mkRange st (size + c_extra c))) eqn:Ei.
  - destruct (c_ow c); [destruct (negb block); [discriminate|]; destruct (c_shutdown c); discriminate|].
    destruct (zero_extra_data (count_overwritten size c) st) as [c1|] eqn:Ez; [|discriminate].
    destruct (advance_next_read c1 (size + c_extra c) CursorNo) as [c2|] eqn:Ea; [|discriminate].
    rewrite !puts_app. eapply feq_trans; [|apply (IH _ _ _ _ _ _ H)]. apply feq_puts.
    rewrite <- (advance_file _ _ _ Ea). apply feq_puts. apply (zero_file (count_overwritten size c) st c1 Ez).
  - assert (c' = c) by (destruct (c_ow c); congruence). subst c'. destruct (c_ow c); apply feq_refl.
Qed.

Lemma evict_not_crc : forall fuel c t, Forall not_crc (evict_stores fuel c t).
Proof.
  induction fuel as [|fuel IH]; intros c t; cbn; [constructor|]. destruct (c_nrs c); [|constructor].
  destruct (load_next_read_size c CursorNo); try constructor. destruct (c_ow c); [constructor|]. destruct (intersect_reservation _ _ _); [|constructor].
  destruct (zero_extra_data _ _); [|constructor]. apply Forall_app. split; [apply bytes_not_crc|]. apply Forall_app. split; [apply advance_not_crc|].
  destruct (advance_next_read _ _ _); [apply IH|constructor].
Qed.

(** The next read start never returns to a record that was passed. *)
Lemma evict_nrs : forall fuel x c U T t, cinv c U T -> (forall r, In r U -> Some (r_start r) <> x) -> x <> None -> Forall (nrs_not x) (evict_stores fuel c t).
Proof.
  induction fuel as [|fuel IH]; intros x c U T t I Hx Hn; cbn; [constructor|].
  destruct (c_nrs c) as [st|] eqn:En; [|constructor].
  pose proof (ci_nrs _ _ _ I) as N. rewrite En in N. destruct U as [|h U]; [discriminate|]. injection N as ->.
  assert (Hin: In h ((h :: U) ++ T)) by (left; reflexivity).
  rewrite (load_ok _ _ _ CursorNo h I Hin En). destruct (c_ow c); [constructor|].
  replace (r_size h - c_extra c + c_extra c) with (r_size h) by lia.
  destruct (intersect_reservation c t _); [|constructor].
  set (c0 := count_overwritten (r_size h - c_extra c) c).
  assert (I0: cinv c0 (h :: U) T) by (apply cinv_stats; exact I).
  destruct (zero_extra_ok c0 (h :: U) T h I0 Hin) as (m & E1 & I1 & _ & _). rewrite E1.
  destruct (advance_ok _ _ _ _ I1) as (w & l & n & E2 & I2). rewrite E2.
  apply Forall_app. split; [apply bytes_nrs|]. apply Forall_app. split.
  - eapply advance_nrs; [exact E2|]. rewrite (ci_nrs _ _ _ I2). destruct U as [|h2 U]; [cbn; congruence|]. cbn. apply Hx. right. left. reflexivity.
  - eapply IH; [exact I2| |exact Hn]. intros r Hr. apply Hx. right. exact Hr.
Qed.

Lemma finish_reservation_file : forall c r size c' a, finish_reservation c r size = Some (c', a) ->
  feq (puts (file_of c) (finish_reservation_stores c r size)) (file_of c').
Proof.
  intros c r size c' a H. unfold finish_reservation in H. destruct (record_size_offset c (r_start r)) as [off|] eqn:Eo; [|discriminate].
  unfold record_size_offset in Eo. apply add32_some in Eo. subst off.
  destruct (negb _); [discriminate|]. set (c1 := set_mem _ c) in H. destruct (zero_extra_data c1 (r_start r)) as [c2|] eqn:Ez; [|discriminate].
  assert (E2: c_lwe c2 = c_lwe c /\ c_extra c2 = c_extra c).
  { unfold zero_extra_data in Ez. destruct (slice_ok _ _ _); [|discriminate]. injection Ez as <-. split; reflexivity. }
  destruct E2 as [E2 E3]. rewrite E2, E3 in H.
  unfold finish_reservation_stores. rewrite !puts_app.
  assert (F1: feq (puts (puts (file_of c) (byte_stores (r_start r + (c_extra c - 4)) (to_bytes size))) (zero_stores c (r_start r))) (file_of c2)).
  { eapply feq_trans; [apply feq_puts; apply puts_bytes|]. apply (zero_file c1 (r_start r) c2 Ez). }
  destruct (c_lwe c) as [l|].
  - destruct (l <? r_start r + size + c_extra c - 1).
    + eapply feq_trans; [apply feq_puts; exact F1|]. cbn [puts fold_left].
      destruct (slice_ok _ _ _); [|discriminate]. injection H as <- <-. constructor; reflexivity.
    + destruct (slice_ok _ _ _); [|discriminate]. injection H as <- <-. exact F1.
  - destruct (slice_ok _ _ _); [|discriminate]. injection H as <- <-. exact F1.
Qed.

Lemma finish_reservation_not_crc : forall c r size, Forall not_crc (finish_reservation_stores c r size).
Proof.
  intros. unfold finish_reservation_stores. apply Forall_app. split; [apply bytes_not_crc|]. apply Forall_app. split; [apply bytes_not_crc|].
  repeat dmatch; repeat constructor.
Qed.
Lemma finish_reservation_nrs : forall x c r size, Forall (nrs_not x) (finish_reservation_stores c r size).
Proof.
  intros. unfold finish_reservation_stores. apply Forall_app. split; [apply bytes_nrs|]. apply Forall_app. split; [apply bytes_nrs|].
  repeat dmatch; repeat constructor.
Qed.
Lemma finish_reservation_nws : forall c r size f j, fl_nws (puts f (firstn j (finish_reservation_stores c r size))) = fl_nws f.
Proof.
  intros c r size f j.
  assert (H: forall l g, Forall (fun s => match s with StNws _ => False | _ => True end) l -> fl_nws (puts g l) = fl_nws g).
  { induction l as [|s l IH]; intros g H; [reflexivity|]. inv H. cbn. unfold puts in IH. rewrite IH by assumption. destruct s; try reflexivity; contradiction. }
  apply H. apply firstn_Forall. unfold finish_reservation_stores.
  assert (B: forall bs a, Forall (fun s => match s with StNws _ => False | _ => True end) (byte_stores a bs)) by (induction bs; intros; cbn; constructor; auto).
  apply Forall_app. split; [apply B|]. apply Forall_app. split; [apply B|]. repeat dmatch; repeat constructor.
Qed.

Lemma finish_file : forall cb busy c r c' b, finish_read_common cb busy c r = Some (c', b) -> c_pending c = false ->
  puts (file_of c) (advance_stores c (r_size r)) = file_of c' /\ c_pending c' = false.
Proof.
  intros cb busy c r c' b H Hp. unfold finish_read_common in H. destruct (advance_next_read c (r_size r) CursorNo) as [c1|] eqn:Ea; [|discriminate].
  rewrite (advance_file _ _ _ Ea).
  assert (P1: c_pending c1 = false).
  { unfold advance_next_read in Ea. repeat (dmatch_in Ea; try discriminate); injection Ea as <-; cbn; exact Hp. }
  set (drained := match c_wait _ with None => false | Some None => true | Some (Some w) => w =? r_start r end) in H.
  unfold maybe_do_total_data_loss_reset in H. destruct drained; cbn [set_wait set_stats c_pending] in H; rewrite P1 in H; cbn [negb] in H; injection H as <- <-; split; try reflexivity; exact P1.
Qed.

(** * Crashes *)
Section Checksums.
Variable rcrc : list Z -> Z.
Variable hcrc : Z -> option Z -> option Z -> option Z -> Z.
Local Notation rel := (rel rcrc hcrc).
Local Notation sum_of := (sum_of rcrc).
Local Notation n_step := (n_step rcrc hcrc).
Local Notation n_stores := (n_stores rcrc hcrc).
Local Notation sum_h := (header_sum hcrc).

Ltac nr R := first [exact (nr_ci _ _ _ _ _ _ _ R) | exact (nr_tidy _ _ _ _ _ _ _ R) | exact (nr_len _ _ _ _ _ _ _ R) | exact (nr_ex _ _ _ _ _ _ _ R) | exact (nr_ow _ _ _ _ _ _ _ R) | exact (nr_hold _ _ _ _ _ _ _ R) | exact (nr_check _ _ _ _ _ _ _ R) | exact (nr_unread _ _ _ _ _ _ _ R) | exact (nr_gone _ _ _ _ _ _ _ R) | exact (nr_prod _ _ _ _ _ _ _ R) | exact (nr_wait _ _ _ _ _ _ _ R) | exact (nr_cons _ _ _ _ _ _ _ R) | exact (nr_sync _ _ _ _ _ _ _ R) | exact (nr_locks _ _ _ _ _ _ _ R) | exact (nr_shut _ _ _ _ _ _ _ R) | exact (nr_hcrc _ _ _ _ _ _ _ R)].

(** What [S_crash_before] allows. *)
Definition before (k : config) (s : queue) (o : nop) (s1 : queue) : Prop :=
  exists skip u u' slot, q_unread s = skip ++ u /\ Forall (fun e => ~ shown k sum_of e) skip /\ (skip <> [] -> passing o) /\
    (u' = u \/ clearing k o /\ exists e e' r, u = e :: r /\ u' = e' :: r /\ torn e e') /\ (slot <> q_slot s -> filling o) /\
    (match q_slot s, slot with
     | None, None => True
     | Some (i, d), Some (i', d') => i' = i /\ length d' = length d
     | _, _ => False
     end) /\ s1 = set_slot slot (leave (map (pair Skipped) skip) u' s).

Definition crash_ok (k : config) (s : queue) (o : nop) (f : file) : Prop :=
  exists n1 s1 U1 D1, feq f (n_file n1) /\ rel k n1 s1 U1 D1 /\ (before k s o s1 \/ exists out, step k sum_of s o out s1).

(** The file [j] stores into the list [l]: the header checksum is that of an earlier header; if that header is the one in the file, the file is explained. *)
Definition cut (n : nbuf) (l : list store) (j : nat) (P : file -> Prop) : Prop :=
  let at_ i := puts (n_file n) (firstn i l) in
  exists i, (i <= j)%nat /\ fl_crc (at_ j) = sum_h (at_ i) /\ (header (at_ j) = header (at_ i) -> P (at_ j)).

Lemma sim_crash_of_cut : forall k n s U D o j, rel k n s U D -> storing o \/ header (puts (n_file n) (firstn j (n_stores n o))) = header (n_file n) /\ Forall not_crc (n_stores n o) ->
  cut n (n_stores n o) j (crash_ok k s o) ->
  undetected rcrc hcrc n o j \/
  exists s' U' D', step k sum_of s (NCrash o j) (snd (n_step n (NCrash o j))) s' /\ rel k (fst (n_step n (NCrash o j))) s' U' D'.
Proof.
  intros k n s U D o j R Hst (i & Hi & Hc & Hok). cbn zeta in *. set (f := puts (n_file n) (firstn j (n_stores n o))) in *.
  set (fi := puts (n_file n) (firstn i (n_stores n o))) in *.
  assert (HN: k_cap k < 2147483648) by (rewrite <- (nr_len _ _ _ _ _ _ _ R); pose proof (ci_len _ _ _ (nr_ci _ _ _ _ _ _ _ R)); lia).
  pose proof (rel_cap _ _ _ _ _ _ _ R) as HN0. pose proof (rel_sized _ _ _ _ _ _ _ R) as Sz.
  change (n_step n (NCrash o j)) with (n_reload hcrc n f).
  destruct (Z.eq_dec (sum_h f) (fl_crc f)) as [E|E].
  - assert (Hd: header f = header fi \/ header fi <> header f).
    { assert (Dz: forall a b : option Z, {a = b} + {a <> b}) by (repeat decide equality).
      destruct (Z.eq_dec (fl_nws f) (fl_nws fi)) as [E1|E1]; [|right; unfold header; congruence].
      destruct (Dz (fl_cws f) (fl_cws fi)) as [E2|E2]; [|right; unfold header; congruence].
      destruct (Dz (fl_lwe f) (fl_lwe fi)) as [E3|E3]; [|right; unfold header; congruence].
      destruct (Dz (fl_nrs f) (fl_nrs fi)) as [E4|E4]; [|right; unfold header; congruence].
      left. unfold header. congruence. }
    destruct Hd as [Hd|Hd].
    + right. destruct (Hok Hd) as (n1 & s1 & U1 & D1 & F & R1 & Hs).
      destruct (reload_ok rcrc hcrc k n n1 s1 U1 D1 f Sz HN0 R1 F) as (n' & b & U' & D' & E1 & Hb & R' & _).
      rewrite E1. exists (reopened b s1), U', D'. cbn [fst snd]. split; [|exact R'].
      destruct Hs as [(skip & u & u' & slot & B1 & B2 & B3 & B4 & B5 & B6 & ->)|(out & Hs)].
      * eapply S_crash_before; eauto.
      * eapply S_crash_after; eauto.
    + left. unfold undetected. cbn zeta. fold f. split; [congruence|]. exists i. fold fi. auto.
  - right. destruct (puts_const (firstn j (n_stores n o)) (n_file n)) as (C1 & C2 & C3). fold f in C1, C2, C3.
    destruct (reload_lost rcrc hcrc k n f s Sz (conj HN0 HN)) as (n' & E1 & R'); auto.
    + rewrite C1. cbn. rewrite (nr_len _ _ _ _ _ _ _ R). reflexivity.
    + rewrite C3. cbn. rewrite (nr_len _ _ _ _ _ _ _ R). reflexivity.
    + rewrite E1. exists (lost_queue k s), [], []. split; [|exact R']. destruct Hst as [Hst|[Hst1 Hst2]].
      * apply S_crash_lost; [exact Hst|]. intros ->. apply E. unfold header_sum, f. cbn. symmetry. nr R.
      * exfalso. apply E. unfold header in Hst1. fold f in Hst1. assert (Hcr: fl_crc f = fl_crc (n_file n)) by (apply puts_crc; apply firstn_Forall; exact Hst2). rewrite Hcr.
        unfold header_sum. replace (fl_nws f) with (fl_nws (n_file n)) by congruence. replace (fl_cws f) with (fl_cws (n_file n)) by congruence.
        replace (fl_lwe f) with (fl_lwe (n_file n)) by congruence. replace (fl_nrs f) with (fl_nrs (n_file n)) by congruence. cbn. symmetry. nr R.
Qed.

Lemma same_slot : forall s : queue, match q_slot s, q_slot s with
     | None, None => True
     | Some (i, d), Some (i', d') => i' = i /\ length d' = length d
     | _, _ => False
     end.
Proof. intros s. destruct (q_slot s) as [ [i d]|]; auto. Qed.

Lemma leave_alike_nil : forall k n s U D, rel k n s U D -> alike s (set_slot (q_slot s) (leave [] (q_unread s) s)).
Proof.
  intros k n s U D R. destruct (leave_fields [] (q_unread s) s) as (Q1 & Q2 & Q3 & Q4 & Q5 & Q6 & Q7 & Q8 & Q9 & _).
  constructor; cbn; auto. rewrite Q2. destruct (q_unread s) eqn:E; [|reflexivity].
  pose proof (nr_unread _ _ _ _ _ _ _ R) as FU. rewrite E in FU. inv FU. pose proof (nr_gone _ _ _ _ _ _ _ R) as G.
  rewrite (nr_tidy _ _ _ _ _ _ _ R eq_refl) in G. inv G. reflexivity.
Qed.

(** Nothing happened yet. *)
Lemma crash_unchanged : forall k n1 s U D o f, rel k n1 s U D -> feq f (n_file n1) -> crash_ok k s o f.
Proof.
  intros k n1 s U D o f R F. exists n1, (set_slot (q_slot s) (leave [] (q_unread s) s)), U, D. split; [exact F|]. split.
  - eapply rel_alike; [exact R|]. eapply leave_alike_nil. exact R.
  - left. exists [], (q_unread s), (q_unread s), (q_slot s). splits; auto; try congruence. apply same_slot.
Qed.

Lemma rel_sum : forall k n s U D, rel k n s U D -> fl_crc (n_file n) = sum_h (n_file n).
Proof. intros k n s U D R. unfold header_sum. cbn. nr R. Qed.

Lemma cut_none : forall k n s U D o j, rel k n s U D -> n_stores n o = [] -> cut n (n_stores n o) j (crash_ok k s o).
Proof.
  intros k n s U D o j R E. unfold cut. rewrite E. exists j. rewrite firstn_nil. cbn [puts fold_left]. split; [lia|]. split; [eapply rel_sum; exact R|].
  intros _. eapply (crash_unchanged k n); [exact R|apply feq_refl].
Qed.

(** All stores were made. *)
Lemma cut_all : forall k n s U D s' U' D' out o j, rel k n s U D -> (length (n_stores n o) <= j)%nat ->
  feq (puts (n_file n) (n_stores n o)) (n_file (fst (n_step n o))) ->
  step k sum_of s o out s' -> rel k (fst (n_step n o)) s' U' D' -> cut n (n_stores n o) j (crash_ok k s o).
Proof.
  intros k n s U D s' U' D' out o j R Hj F S R'. unfold cut. cbn zeta. exists j. rewrite firstn_all2 by exact Hj. split; [lia|].
  assert (R'' := rel_sum _ _ _ _ _ R'). split.
  - destruct F as [F1 F2 F3 F4 F5 F6 F7 F8 F9]. rewrite F8, R''. unfold header_sum. rewrite F4, F5, F6, F7. reflexivity.
  - intros _. eexists _, s', U', D'. split; [exact F|]. split; [exact R'|]. right. eauto.
Qed.

(** A list with one checksum store, at the end. *)
Lemma cut_early : forall k n s U D l l' j (P : file -> Prop), rel k n s U D -> Forall not_crc l -> (j <= length l)%nat ->
  (header (puts (n_file n) (firstn j l)) = header (n_file n) -> P (puts (n_file n) (firstn j l))) ->
  cut n (l ++ l') j P.
Proof.
  intros k n s U D l l' j P R Hl Hj HP. unfold cut. cbn zeta. exists 0%nat.
  rewrite firstn_app. replace (j - length l)%nat with 0%nat by lia. rewrite firstn_O, app_nil_r. split; [lia|]. cbn [firstn puts fold_left]. split.
  - rewrite <- (rel_sum _ _ _ _ _ R). apply (puts_crc (firstn j l)). apply firstn_Forall. exact Hl.
  - exact HP.
Qed.

Lemma header_feq : forall f g, header f = header g -> fl_len f = fl_len g -> fl_version f = fl_version g -> fl_size f = fl_size g -> fl_crc f = fl_crc g ->
  (forall i, fl_mem f i = fl_mem g i) -> feq f g.
Proof. intros f g H H1 H2 H3 H4 H5. unfold header in H. injection H as H6 H7 H8 H9. constructor; auto. Qed.

(** Finishing a read. *)
Lemma cut_finish : forall k n s U D s' U' D' out o j n1 r, rel k n s U D -> n_stores n o = finish_stores hcrc n1 r -> n_c n1 = n_c n ->
  fst (n_step n o) = n_set_c (write_header_crc hcrc (match finish_read_common (n_cb hcrc) (n_busy n1) (n_c n) r with Some (c, _) => c | None => n_c n end)) n1 ->
  finish_read_common (n_cb hcrc) (n_busy n1) (n_c n) r <> None ->
  step k sum_of s o out s' -> rel k (fst (n_step n o)) s' U' D' -> cut n (n_stores n o) j (crash_ok k s o).
Proof.
  intros k n s U D s' U' D' out o j n1 r R E Ec E1 E2 S R'. unfold finish_stores in E. rewrite Ec in E.
  destruct (finish_read_common (n_cb hcrc) (n_busy n1) (n_c n) r) as [ [c1 b]|] eqn:Ef; [|congruence].
  destruct (finish_file _ _ _ _ _ _ Ef (ci_pending _ _ _ (nr_ci _ _ _ _ _ _ _ R))) as [F1 F2].
  destruct (Nat.le_gt_cases j (length (advance_stores (n_c n) (r_size r)))) as [Hj|Hj].
  - rewrite E. eapply cut_early; [exact R|apply advance_not_crc|exact Hj|]. intros Hh. eapply (crash_unchanged k n); [exact R|].
    destruct (puts_const (firstn j (advance_stores (n_c n) (r_size r))) (n_file n)) as (C1 & C2 & C3).
    apply header_feq; auto.
    + apply puts_crc. apply firstn_Forall. apply advance_not_crc.
    + intros i. rewrite puts_mem; [reflexivity|]. apply firstn_Forall. apply advance_not_byte.
  - eapply cut_all; [exact R| | |exact S|exact R'].
    + rewrite E, app_length. cbn. lia.
    + rewrite E, E1, puts_app, (n_file_of n), F1. apply feq_refl.
Qed.

Lemma crash_finish : forall k n s U D j, rel k n s U D -> cut n (n_stores n NFinishRead) j (crash_ok k s NFinishRead).
Proof.
  intros k n s U D j R. destruct (sim_finish rcrc hcrc _ _ _ _ _ R) as (s' & U' & D' & S & R' & _).
  pose proof (nr_cons _ _ _ _ _ _ _ R) as C.
  destruct (n_cons n) as [ [ [r|]|q]|] eqn:Ec; try (eapply cut_none; [exact R|]; cbn; rewrite Ec; reflexivity).
  destruct C as [C1 C2]. destruct U as [|h U]; [discriminate|]. injection C2 as ->.
  set (n1 := n_set_cons (Some (Plain None)) n).
  destruct (finish_ok (n_cb hcrc) (n_busy n1) (n_c n) r U _ (nr_ci _ _ _ _ _ _ _ R)) as (c' & b & E & _).
  eapply (cut_finish k n s _ D s' U' D' _ NFinishRead j n1 r); try eassumption.
  - cbn. rewrite Ec. reflexivity.
  - reflexivity.
  - cbn [Nonvolatile_Model.n_step]. rewrite Ec. unfold n_finish_read. fold n1. change (n_c n1) with (n_c n). rewrite E. reflexivity.
  - rewrite E. discriminate.
Qed.

Lemma crash_advance : forall k n s U D j, rel k n s U D -> cut n (n_stores n NAdvance) j (crash_ok k s NAdvance).
Proof.
  intros k n s U D j R. destruct (sim_advance rcrc hcrc _ _ _ _ _ R) as (s' & U' & D' & S & R' & _).
  pose proof (nr_cons _ _ _ _ _ _ _ R) as C.
  destruct (n_cons n) as [ [ [r|]|q]|] eqn:Ec; try (eapply cut_none; [exact R|]; cbn; rewrite Ec; reflexivity).
  destruct C as (i & C1 & C2 & C3 & C4). destruct q as [|r q]; [eapply cut_none; [exact R|]; cbn; rewrite Ec; reflexivity|].
  destruct i as [|i]; [discriminate|]. destruct U as [|h U]; [discriminate|]. cbn in C3. injection C3 as -> ->.
  set (n1 := n_set_cons (Some (Ahead (firstn i U))) n).
  destruct (finish_ok (n_cb hcrc) (n_busy n1) (n_c n) h U _ (nr_ci _ _ _ _ _ _ _ R)) as (c' & b & E & _).
  eapply (cut_finish k n s _ D s' U' D' _ NAdvance j n1 h); try eassumption.
  - cbn. rewrite Ec. reflexivity.
  - reflexivity.
  - cbn [Nonvolatile_Model.n_step]. rewrite Ec. unfold n_advance. fold n1. change (n_c n1) with (n_c n). rewrite E. reflexivity.
  - rewrite E. discriminate.
Qed.

Lemma crash_write : forall k n s U D off bs j, rel k n s U D -> cut n (n_stores n (NWrite off bs)) j (crash_ok k s (NWrite off bs)).
Proof.
  intros k n s U D off bs j R. destruct (n_stores n (NWrite off bs)) as [|x l] eqn:E; [rewrite <- E; eapply cut_none; eassumption|].
  cbn [Nonvolatile_Model.n_stores] in E. destruct (n_wait n); [discriminate|]. unfold write_stores in E.
  destruct (n_prod n) as [ [r|]|] eqn:Ep; try discriminate. destruct ((0 <=? off) && _) eqn:Eo; [|discriminate].
  apply andb_true_iff in Eo. destruct Eo as [O1 O2]. apply Z.leb_le in O1. apply Z.leb_le in O2. rewrite <- E.
  pose proof (nr_prod _ _ _ _ _ _ _ R) as P. rewrite Ep in P. destruct P as (P0 & i & d & P1 & P2 & P3).
  assert (Hx: c_extra (n_c n) = k_extra k) by nr R. pose proof (k_extra_range k) as Hk.
  rewrite <- (app_nil_r (byte_stores _ bs)).
  unfold cut. cbn zeta. exists 0%nat. split; [lia|]. rewrite app_nil_r, firstn_bytes. split.
  { cbn [firstn puts fold_left]. rewrite puts_crc by apply bytes_not_crc. eapply rel_sum. exact R. }
  intros _. set (bs' := firstn j bs).
  set (m := mem_set (c_mem (n_c n)) (r_start r + c_extra (n_c n) + off) bs').
  assert (Hl: Z.of_nat (length bs') <= Z.of_nat (length bs)) by (unfold bs'; rewrite firstn_length; lia).
  pose proof (stored_in _ _ _ P2 ltac:(lia)) as Hd.
  assert (St: stored (set_mem m (n_c n)) r (splice d off bs')) by (apply stored_write; auto; lia).
  assert (R1: rel k (n_set_c (set_mem m (n_c n)) n) (set_slot (Some (i, splice d off bs')) s) U D).
  { eapply rel_slot_mem; try eassumption. intros a Ha. unfold m. apply mem_set_out. lia. }
  exists (n_set_c (set_mem m (n_c n)) n), (set_slot (Some (i, splice d off bs')) (leave [] (q_unread s) s)), U, D. split; [|split].
  - eapply feq_trans; [apply puts_bytes|]. constructor; reflexivity.
  - eapply rel_alike; [exact R1|]. destruct (leave_alike_nil _ _ _ _ _ R) as [A1 A2 A3 A4 A5 A6 A7 A8 A9]. constructor; cbn; auto.
  - left. exists [], (q_unread s), (q_unread s), (Some (i, splice d off bs')). splits; auto; try congruence; try (intros; exact Logic.I). rewrite P1. split; [reflexivity|].
    rewrite splice_length; [reflexivity|lia|lia].
Qed.

Lemma puts_cws : forall l f, Forall (fun s => match s with StCws _ => False | _ => True end) l -> fl_cws (puts f l) = fl_cws f.
Proof. induction l as [|s l IH]; intros g H; [reflexivity|]. inv H. cbn. unfold puts in IH. rewrite IH by assumption. destruct s; try reflexivity; contradiction. Qed.

Lemma commit_file : forall n n', n_commit rcrc hcrc n = (n', Ok tt) -> c_pending (n_c n) = false ->
  feq (puts (n_file n) (commit_stores rcrc hcrc n)) (n_file n').
Proof.
  intros n n' H Hp. unfold n_commit in H. unfold commit_stores. destruct (n_prod n) as [ [r|]|]; try discriminate.
  set (c0 := finish_commit_common (advance_committed (n_c n) r) r) in H.
  assert (Hp0: c_pending c0 = false).
  { unfold c0, finish_commit_common, advance_committed. cbn. destruct (c_nrs (n_c n)); cbn; destruct (c_cur (n_c n)); cbn; exact Hp. }
  assert (F0: puts (n_file n) ([StCws (Some (r_start r))] ++ match c_nrs (n_c n) with None => [StNrs (Some (r_start r))] | Some _ => [] end) = file_of c0).
  { unfold c0, finish_commit_common, advance_committed, file_of. cbn. destruct (c_nrs (n_c n)) eqn:En; cbn; destruct (c_cur (n_c n)); cbn; rewrite ?En; reflexivity. }
  rewrite app_assoc, puts_app, F0.
  destruct (n_check n).
  - destruct (slice_ok c0 _ _ && slice_ok c0 _ _); [|discriminate].
    unfold maybe_do_total_data_loss_reset in H. cbn [set_mem c_pending] in H. rewrite Hp0 in H. cbn [negb] in H. injection H as <-.
    rewrite puts_app. eapply feq_trans; [apply feq_puts; apply puts_bytes|]. constructor; reflexivity.
  - unfold maybe_do_total_data_loss_reset in H. rewrite Hp0 in H. cbn [negb] in H. injection H as <-. cbn [app]. constructor; reflexivity.
Qed.

Lemma crash_commit : forall k n s U D j, rel k n s U D -> cut n (n_stores n NCommit) j (crash_ok k s NCommit).
Proof.
  intros k n s U D j R. destruct (sim_commit rcrc hcrc _ _ _ _ _ R) as (s' & U' & D' & St & R' & _).
  destruct (n_stores n NCommit) as [|x l] eqn:E; [rewrite <- E; eapply cut_none; eassumption|]. rewrite <- E. clear x l E.
  destruct (n_wait n) as [w|] eqn:Ew; [eapply cut_none; [exact R|]; cbn; rewrite Ew; reflexivity|].
  destruct (n_prod n) as [ [r|]|] eqn:Ep; try (eapply cut_none; [exact R|]; cbn; unfold commit_stores; rewrite Ew, Ep; reflexivity).
  assert (Es: n_step n NCommit = let (n0, r0) := n_commit rcrc hcrc n in (n0, NRes r0)) by (cbn [Nonvolatile_Model.n_step]; rewrite Ep, Ew; reflexivity).
  destruct (n_commit rcrc hcrc n) as [n' out] eqn:En. rewrite Es in St, R'. cbn [fst snd] in St, R'.
  pose proof (nr_prod _ _ _ _ _ _ _ R) as P. rewrite Ep in P. destruct P as (P0 & i & d & P1 & P2 & P3).
  assert (Hout: out = Ok tt).
  { inversion St; subst; try reflexivity; try congruence. }
  subst out. pose proof (commit_file _ _ En (ci_pending _ _ _ (nr_ci _ _ _ _ _ _ _ R))) as F.
  assert (E: n_stores n NCommit = commit_stores rcrc hcrc n) by (cbn; rewrite Ew; reflexivity).
  destruct (Nat.le_gt_cases (length (commit_stores rcrc hcrc n)) j) as [Hj|Hj].
  { eapply cut_all; [exact R|rewrite E; exact Hj| |exact St|].
    - rewrite E, Es. exact F.
    - rewrite Es. exact R'. }
  rewrite E. unfold commit_stores in *. rewrite Ep in *. rewrite !app_assoc in *. rewrite app_length in Hj. cbn [length crc_stores] in Hj.
  set (l := ([StCws (Some (r_start r))] ++ _) ++ _) in *.
  assert (Nc: Forall not_crc l).
  { unfold l. apply Forall_app. split; [apply Forall_app; split; [repeat constructor|destruct (c_nrs (n_c n)); repeat constructor]|].
    destruct (n_check n); [apply bytes_not_crc|constructor]. }
  eapply cut_early; [exact R|exact Nc|lia|]. intros Hh. destruct j as [|j].
  - eapply crash_unchanged; [exact R|apply feq_refl].
  - exfalso. assert (W: fl_cws (puts (n_file n) (firstn (S j) l)) = Some (r_start r)).
    { change (firstn (S j) l) with (StCws (Some (r_start r)) :: firstn j (tl l)). cbn [puts fold_left]. 
      change (fold_left put ?x ?y) with (puts y x). rewrite puts_cws; [reflexivity|]. apply firstn_Forall. unfold l. cbn [app tl].
      assert (B: forall bs a, Forall (fun s => match s with StCws _ => False | _ => True end) (byte_stores a bs)) by (induction bs; intros; cbn; constructor; auto).
      apply Forall_app. split; [destruct (c_nrs (n_c n)); repeat constructor|]. destruct (n_check n); [apply B|constructor]. }
    assert (H2: fl_cws (puts (n_file n) (firstn (S j) l)) = fl_cws (n_file n)) by (unfold header in Hh; congruence). rewrite W in H2. cbn in H2.
    pose proof (nr_ci _ _ _ _ _ _ _ R) as I. rewrite (ci_cws _ _ _ I) in H2. symmetry in H2. apply last_start_in in H2. destruct H2 as (r' & H2 & H3).
    apply in_split in H2. destruct H2 as (A & B & ->).
    apply (start_unique _ _ _ r' r I A (B ++ D) []); [|exact H3]. unfold resv. rewrite Ep, <- !app_assoc. reflexivity.
Qed.

(** * Reading *)
Lemma cut_shift : forall n n' p L j (P P' : file -> Prop), feq (puts (n_file n) p) (n_file n') -> cut n' L j P' ->
  (forall f f', feq f f' -> P' f' -> P f) -> cut n (p ++ L) (length p + j) P.
Proof.
  intros n n' p L j P P' F (i & Hi & H1 & H2) HP. cbn zeta in *. exists (length p + i)%nat. cbn zeta.
  assert (G: forall x, feq (puts (n_file n) (firstn (length p + x) (p ++ L))) (puts (n_file n') (firstn x L))).
  { intros x. rewrite firstn_app_2, puts_app. apply feq_puts. exact F. }
  pose proof (G i) as Gi. pose proof (G j) as Gj. split; [lia|]. split.
  - rewrite (fe_crc _ _ Gj), H1. unfold header_sum. rewrite (fe_nws _ _ Gi), (fe_cws _ _ Gi), (fe_lwe _ _ Gi), (fe_nrs _ _ Gi). reflexivity.
  - intros Hh. apply (HP _ _ Gj). apply H2. unfold header in *.
    rewrite <- (fe_nws _ _ Gi), <- (fe_cws _ _ Gi), <- (fe_lwe _ _ Gi), <- (fe_nrs _ _ Gi).
    rewrite <- (fe_nws _ _ Gj), <- (fe_cws _ _ Gj), <- (fe_lwe _ _ Gj), <- (fe_nrs _ _ Gj). exact Hh.
Qed.

Definition read_ok (k : config) (s : queue) (o : nop) (f : file) : Prop :=
  exists n1 s1 U1 D1, feq f (n_file n1) /\ rel k n1 s1 U1 D1 /\
    exists skip u u', q_unread s = skip ++ u /\ Forall (fun e => ~ shown k sum_of e) skip /\ (skip <> [] -> passing o) /\
    (u' = u \/ clearing k o /\ exists e e' r, u = e :: r /\ u' = e' :: r /\ torn e e') /\ s1 = leave (map (pair Skipped) skip) u' s.

Lemma read_ok_feq : forall k s o f f', feq f f' -> read_ok k s o f' -> read_ok k s o f.
Proof. intros k s o f f' F (n1 & s1 & U1 & D1 & H & H'). exists n1, s1, U1, D1. split; [eapply feq_trans; eassumption|exact H']. Qed.

Lemma read_ok_crash : forall k s o f, read_ok k s o f -> crash_ok k s o f.
Proof.
  intros k s o f (n1 & s1 & U1 & D1 & F & R & skip & u & u' & H1 & H2 & H2b & H3 & ->).
  exists n1, (set_slot (q_slot s) (leave (map (pair Skipped) skip) u' s)), U1, D1. split; [exact F|]. split.
  - eapply rel_alike; [exact R|]. destruct (leave_fields (map (pair Skipped) skip) u' s) as (_ & _ & Q3 & _). constructor; cbn; auto.
  - left. exists skip, u, u', (q_slot s). splits; auto; try congruence. apply same_slot.
Qed.

Lemma read_ok_same : forall k n s U D o, rel k n s U D -> read_ok k s o (n_file n).
Proof.
  intros k n s U D o R. exists n, (leave [] (q_unread s) s), U, D. split; [apply feq_refl|]. split.
  - eapply rel_alike; [exact R|]. destruct (leave_alike_nil _ _ _ _ _ R) as [A1 A2 A3 A4 A5 A6 A7 A8 A9].
    destruct (leave_fields [] (q_unread s) s) as (_ & _ & Q3 & _). constructor; cbn in *; auto.
  - exists [], (q_unread s), (q_unread s). splits; auto; congruence.
Qed.

Lemma read_ok_tear : forall k n s h U D e l j o f, clearing k o -> rel k n s (h :: U) D -> q_unread s = e :: l -> q_sync s = false -> k_check k = true -> (j <= 4)%nat ->
  feq f (puts (n_file n) (byte_stores (r_start h) (repeat 0 j))) -> read_ok k s o f.
Proof.
  intros k n s h U D e l j o f Hcl R Q Hs Hc Hj F.
  exists (n_set_c (set_mem (mem_set (c_mem (n_c n)) (r_start h) (repeat 0 j)) (n_c n)) n), (leave [] (tear j e :: l) s), (h :: U), D. split; [|split].
  - eapply feq_trans; [exact F|]. eapply feq_trans; [apply puts_bytes|]. constructor; reflexivity.
  - eapply rel_tear; eauto.
  - exists [], (e :: l), (tear j e :: l). splits; auto; try congruence. right. split; [exact Hcl|]. exists e, (tear j e), l. splits; auto. apply tear_torn. exact Hj.
Qed.

Lemma firstn_zeros : forall j n, (j <= n)%nat -> firstn j (repeat 0 n) = repeat 0 j.
Proof. induction j as [|j IH]; intros [|n] H; try reflexivity; [lia|]. cbn. rewrite IH by lia. reflexivity. Qed.

Lemma read_cut : forall l fuel k n s U D block j, rel k n s U D -> q_unread s = l -> (length l < fuel)%nat -> n_cons n = Some (Plain None) ->
  cut n (start_read_stores rcrc hcrc fuel (n_check n) (n_busy n) (n_c n) block false) j (read_ok k s (NStartRead block)).
Proof.
  induction l as [|e l IH]; intros fuel k n s U D block j R Q Hf C; (destruct fuel as [|fuel]; [cbn in Hf; lia|]);
    pose proof (nr_unread _ _ _ _ _ _ _ R) as FU; rewrite Q in FU; pose proof (nr_ci _ _ _ _ _ _ _ R) as I; cbn [start_read_stores].
  - inversion FU; subst U. rewrite (start_read_empty _ _ _ _ _ I). unfold no_data.
    replace (match _ with (c, Ok r) => _ | _ => [] end) with (@nil store) by (destruct block; [destruct (c_shutdown (n_c n)); reflexivity|reflexivity]).
    exists j. rewrite firstn_nil. split; [lia|]. split; [eapply rel_sum; exact R|]. intros _. eapply read_ok_same. exact R.
  - inversion FU as [|h ? U0 ? He FU']; subst. rewrite (start_read_head _ _ _ _ _ _ _ I).
    assert (Qr: q_reader s = Regular false) by (pose proof (nr_cons _ _ _ _ _ _ _ R) as X; rewrite C in X; exact X).
    pose proof (regular_unsync _ _ _ _ _ _ _ _ R Qr) as Hs. pose proof (nr_check _ _ _ _ _ _ _ R) as Hck.
    destruct (k_check k) eqn:Hc; rewrite Hck; [|exists j; rewrite firstn_nil; split; [lia|]; split; [eapply rel_sum; exact R|]; intros _; eapply read_ok_same; exact R].
    assert (Hz: zero_stores (n_c n) (r_start h) = byte_stores (r_start h) (repeat 0 4)).
    { unfold zero_stores. rewrite (nr_ex _ _ _ _ _ _ _ R). unfold k_extra. rewrite Hc. reflexivity. }
    destruct (Nat.le_gt_cases j 4) as [Hj|Hj].
    { rewrite Hz. eapply cut_early; [exact R|apply bytes_not_crc|rewrite length_bytes, repeat_length; exact Hj|]. intros _.
      eapply (read_ok_tear k n s h U0 D e l j); [exact Logic.I|..]; auto. rewrite firstn_bytes, firstn_zeros by exact Hj. apply feq_refl. }
    rewrite (check_head _ _ _ _ _ _ _ _ _ _ R Q Hc).
    destruct (sum_of (e_data e) =? e_sum e) eqn:E.
    + rewrite app_nil_r, Hz. exists 0%nat. split; [lia|]. rewrite (firstn_all2 (n := j)) by (rewrite length_bytes, repeat_length; lia).
      split; [rewrite puts_crc by apply bytes_not_crc; eapply rel_sum; exact R|]. intros _.
      eapply (read_ok_tear k n s h U0 D e l 4); [exact Logic.I|..]; auto. apply feq_refl.
    + assert (Ns: ~ shown k sum_of e) by (intros X; apply (shown_iff rcrc k e Hc) in X; congruence).
      destruct (skip_one _ _ _ _ _ _ _ _ _ _ fuel block R Q C Ns) as (m & c1 & b & Ez & Ef & _ & R1 & _). rewrite Ez, Ef.
      set (c0 := count_corrupted (set_mem m (n_c n))) in *.
      destruct (finish_file _ _ _ _ _ _ Ef) as [F1 F2]; [cbn; exact (ci_pending _ _ _ I)|].
      set (adv := advance_stores (set_mem m (n_c n)) (r_size h)). change (advance_stores c0 (r_size h)) with adv in F1.
      rewrite app_assoc. set (p := zero_stores (n_c n) (r_start h) ++ adv).
      assert (Fz: feq (puts (n_file n) (zero_stores (n_c n) (r_start h))) (file_of c0)) by (apply (zero_file _ _ _ Ez)).
      destruct (Nat.le_gt_cases j (length p)) as [Hp|Hp].
      * eapply cut_early; [exact R|apply Forall_app; split; [apply bytes_not_crc|apply advance_not_crc]|exact Hp|]. intros Hh.
        eapply (read_ok_tear k n s h U0 D e l 4); [exact Logic.I|..]; auto. rewrite <- Hz. unfold p in *. rewrite Hz in *.
        rewrite firstn_app, (firstn_all2 (n := j)) in * by (rewrite length_bytes, repeat_length; lia).
        rewrite puts_app in *. set (a := firstn _ adv) in *.
        destruct (puts_const a (puts (n_file n) (byte_stores (r_start h) (repeat 0 4)))) as (C1 & C2 & C3).
        apply header_feq; auto.
        -- apply puts_crc. unfold a. apply firstn_Forall. apply advance_not_crc.
        -- intros i. rewrite (puts_mem a); [reflexivity|]. unfold a. apply firstn_Forall. apply advance_not_byte.
      * rewrite app_assoc. set (p' := p ++ crc_stores hcrc c1).
        assert (Lp: length p' = S (length p)) by (unfold p'; rewrite app_length; cbn; lia).
        replace j with (length p' + (j - length p'))%nat by lia.
        set (s1 := leave [(Skipped, e)] l s) in *. set (n1 := n_set_c (write_header_crc hcrc c1) n) in *.
        destruct (leave_fields [(Skipped, e)] l s) as (Q1 & _).
        apply (cut_shift n n1 p' _ _ _ (read_ok k s1 (NStartRead block))).
        -- unfold p', p. rewrite !puts_app. eapply feq_trans; [apply feq_puts; apply feq_puts; exact Fz|]. rewrite F1. constructor; reflexivity.
        -- change (write_header_crc hcrc c1) with (n_c n1). change (n_check n) with (n_check n1) in *. rewrite <- Hck.
           replace (n_busy n) with (n_busy n1) by reflexivity. eapply IH; [exact R1|exact Q1|cbn in Hf; lia|exact C].
        -- intros f f' F (n2 & s2 & U2 & D2 & G1 & G2 & skip & u & u' & H1 & H2 & H2b & H3 & ->). unfold s1 in *. rewrite Q1 in H1.
           exists n2, (leave (map (pair Skipped) (e :: skip)) u' s), U2, D2. split; [eapply feq_trans; eassumption|]. split.
           ++ rewrite leave_leave_eq in G2; [exact G2|]. intros ->. destruct skip; [|discriminate]. cbn in H1. subst u. split; [|reflexivity].
              destruct H3 as [->|(_ & x & x' & r & H3 & _)]; [reflexivity|discriminate].
           ++ exists (e :: skip), u, u'. splits; auto; [cbn; rewrite <- H1; exact Q|intros _; exact Logic.I].
Qed.

Lemma crash_read : forall k n s U D block j, rel k n s U D -> cut n (n_stores n (NStartRead block)) j (crash_ok k s (NStartRead block)).
Proof.
  intros k n s U D block j R. destruct (n_cons n) as [ [ [r|]|q]|] eqn:C; try (eapply cut_none; [exact R|]; cbn [Nonvolatile_Model.n_stores]; rewrite C; reflexivity).
  cbn [Nonvolatile_Model.n_stores]. rewrite C.
  assert (Hf: (length (q_unread s) < loop_fuel (n_c n))%nat).
  { rewrite <- (F2_length _ _ _ _ _ (nr_unread _ _ _ _ _ _ _ R)). pose proof (cinv_sum _ _ _ (nr_ci _ _ _ _ _ _ _ R)). unfold loop_fuel. lia. }
  destruct (read_cut (q_unread s) (loop_fuel (n_c n)) k n s U D block j R eq_refl Hf C) as (i & H1 & H2 & H3).
  exists i. split; [exact H1|]. split; [exact H2|]. intros Hh. apply read_ok_crash. apply H3. exact Hh.
Qed.

(** * Reserving *)
Definition not_nws (s : store) : Prop := match s with StNws _ => False | _ => True end.
Lemma puts_nws : forall l f, Forall not_nws l -> fl_nws (puts f l) = fl_nws f.
Proof. induction l as [|s l IH]; intros g H; [reflexivity|]. inv H. cbn. unfold puts in IH. rewrite IH by assumption. destruct s; try reflexivity; contradiction. Qed.
Lemma bytes_not_nws : forall bs a, Forall not_nws (byte_stores a bs).
Proof. induction bs; intros a'; cbn; constructor; cbn; auto. Qed.

Lemma evict_head : forall fuel c h U T t, cinv c (h :: U) T -> c_ow c = OYes -> hits (c_len c) t h = true ->
  exists c1 c2, evict_stores (S fuel) c t = zero_stores c (r_start h) ++ advance_stores c1 (r_size h) ++ evict_stores fuel c2 t /\
    advance_next_read c1 (r_size h) CursorNo = Some c2 /\ c_nrs c1 = c_nrs c /\ c_lwe c1 = c_lwe c /\ cinv c2 U T.
Proof.
  intros fuel c h U T t I How Hh. cbn [evict_stores].
  assert (En: c_nrs c = Some (r_start h)) by (rewrite (ci_nrs _ _ _ I); reflexivity).
  assert (Hin: In h ((h :: U) ++ T)) by (left; reflexivity).
  rewrite (load_ok _ _ _ CursorNo h I Hin En), En, How.
  replace (r_size h - c_extra c + c_extra c) with (r_size h) by lia.
  rewrite intersect_reservation_hits. replace (mkRange (r_start h) (r_size h)) with h by (destruct h; reflexivity). rewrite Hh.
  set (c0 := count_overwritten (r_size h - c_extra c) c).
  assert (I0: cinv c0 (h :: U) T) by (apply cinv_stats; exact I).
  destruct (zero_extra_ok c0 (h :: U) T h I0 Hin) as (m & E1 & I1 & _ & _). rewrite E1.
  destruct (advance_ok _ _ _ _ I1) as (w & l & n & E2 & I2). rewrite E2.
  eexists _, _. split; [reflexivity|]. split; [exact E2|]. splits; try reflexivity; assumption.
Qed.

Lemma evict_not_hit : forall fuel c U T t, cinv c U T -> match U with [] => True | h :: _ => hits (c_len c) t h = false end -> evict_stores fuel c t = [].
Proof.
  intros [|fuel] c U T t I Hh; [reflexivity|]. cbn [evict_stores]. rewrite (ci_nrs _ _ _ I). destruct U as [|h U]; [reflexivity|].
  cbn [hd_start hd_error option_map]. assert (Hin: In h ((h :: U) ++ T)) by (left; reflexivity).
  assert (En: c_nrs c = Some (r_start h)) by (rewrite (ci_nrs _ _ _ I); reflexivity).
  rewrite (load_ok _ _ _ CursorNo h I Hin En). destruct (c_ow c); [reflexivity|].
  replace (r_size h - c_extra c + c_extra c) with (r_size h) by lia.
  rewrite intersect_reservation_hits. replace (mkRange (r_start h) (r_size h)) with h by (destruct h; reflexivity). rewrite Hh. reflexivity.
Qed.

Lemma advance_changes : forall c z c' x rest j f, advance_next_read c z CursorNo = Some c' -> c_nrs c = Some x -> c_nrs c' <> Some x ->
  Forall (nrs_not (Some x)) rest -> (1 <= j)%nat -> fl_nrs f = c_nrs c -> fl_lwe f = c_lwe c ->
  header (puts f (firstn j (advance_stores c z ++ rest))) <> header f.
Proof.
  intros c z c' x rest j f H Hx Hx' Hr Hj Fn Fl Hh.
  assert (N: fl_nrs (puts f (firstn j (advance_stores c z ++ rest))) = Some x) by (unfold header in Hh; congruence).
  assert (L: fl_lwe (puts f (firstn j (advance_stores c z ++ rest))) = fl_lwe f) by (unfold header in Hh; congruence).
  clear Hh. unfold advance_next_read in H. unfold advance_stores in *. cbn [rd_start] in H. rewrite Hx in *.
  destruct (c_cws c) as [w|]; [|discriminate]. destruct (negb (x =? w)).
  - destruct (add32 x z) as [e|] eqn:Ea; [|discriminate]. apply add32_some in Ea. subst e.
    unfold sub32 in H. destruct (1 <=? x + z); [|discriminate].
    destruct (match c_lwe c with Some l => l =? x + z - 1 | None => false end) eqn:El; injection H as <-; cbn in Hx'.
    + destruct j as [|[|j]]; [lia| |].
      * cbn in L. rewrite Fl in L. destruct (c_lwe c); discriminate.
      * cbn [firstn app puts fold_left] in N. revert N. apply puts_nrs; [apply firstn_Forall; exact Hr|exact Hx'].
    + destruct j as [|j]; [lia|]. cbn [firstn app puts fold_left] in N. revert N. apply puts_nrs; [apply firstn_Forall; exact Hr|exact Hx'].
  - injection H as <-. destruct j as [|j]; [lia|]. cbn [firstn app puts fold_left] in N. revert N.
    apply puts_nrs; [apply firstn_Forall; constructor; [exact Logic.I|exact Hr]|discriminate].
Qed.

(** With nothing in the buffer its memory does not matter. *)
Lemma rel_empty_mem : forall k n s m, rel k n s [] [] -> resv n = [] -> rel k (n_set_c (set_mem m (n_c n)) n) s [] [].
Proof.
  intros k n s m R HR. pose proof (nr_ci _ _ _ _ _ _ _ R) as I. rewrite HR in I.
  constructor; try nr R.
  - change (resv (n_set_c (set_mem m (n_c n)) n)) with (resv n). rewrite HR. constructor; try ci I. constructor.
  - pose proof (nr_unread _ _ _ _ _ _ _ R) as FU. inv FU. constructor.
  - pose proof (nr_gone _ _ _ _ _ _ _ R) as FU. inv FU. constructor.
  - cbn [n_set_c n_prod n_c]. pose proof (nr_prod _ _ _ _ _ _ _ R) as P. unfold resv in HR. destruct (n_prod n) as [ [r|]|]; [discriminate| |]; exact P.
Qed.

Lemma same_nws_empty : forall c U T t size, cinv c U T -> is_temp (c_nws c) (c_len c) size t -> t_nws t = c_nws c ->
  match U with [] => True | h :: _ => hits (c_len c) t h = false end -> U = [].
Proof.
  intros c U T t size I Ht E Hh. destruct U as [|h U]; [reflexivity|]. exfalso.
  apply (hits_false_iff _ _ _ _ _ Ht) in Hh. apply Hh. unfold hitP.
  assert (Hin: In h ((h :: U) ++ T)) by (left; reflexivity).
  pose proof (layout_bounds _ _ _ _ _ (ci_layout _ _ _ I) Hin) as (B1 & B2 & B3).
  destruct Ht as [H0 [[H1 ->]|[H1 ->]]]; cbn in E; [lia|]. right. split; [lia|]. lia.
Qed.

Lemma tail_cut : forall k n s U D t size block second j o, (k_ow k = OYes -> clearing k o) ->
  rel k n s U D -> n_prod n = Some None -> 0 < size ->
  is_temp (c_nws (n_c n)) (c_len (n_c n)) (size + c_extra (n_c n)) t ->
  (second = true -> k_ow k = OBlock) ->
  (second = false -> forall r, n_read_reservation n = Some r -> hits (c_len (n_c n)) t r = false) ->
  (forall f, feq f (n_file (fst (n_reserve_tail hcrc n t size block))) -> crash_ok k s o f) ->
  cut n (reserve_tail_stores hcrc n t size block) j (crash_ok k s o).
Proof.
  intros k n s U D t size block second j o Hcl R P Hs Ht H2 H1 Hfin.
  pose proof (nr_ci _ _ _ _ _ _ _ R) as I. assert (HR: resv n = []) by (unfold resv; rewrite P; reflexivity). rewrite HR, app_nil_r in I.
  pose proof (nr_ow _ _ _ _ _ _ _ R) as How.
  destruct (sim_tail rcrc hcrc k n s U D t size block second R P Hs Ht H2 H1) as (s' & U' & D' & A & R' & _).
  unfold reserve_tail_stores. unfold n_reserve_tail in *.
  destruct (advance_due_to_write (loop_fuel (n_c n)) (n_cb hcrc) (n_busy n) (n_c n) t block) as [c' res] eqn:Ea.
  assert (Hcase: (exists e, res = Err e) /\ k_ow k = OBlock \/ res = Ok tt).
  { destruct (k_ow k) eqn:Eow.
    - unfold loop_fuel in Ea. rewrite (block_loop U _ _ _ _ D t _ _ I Ht How) in Ea. injection Ea as <- <-.
      destruct U as [|h U0]; [auto|]. destruct (hits (c_len (n_c n)) t h); [|auto]. left. split; [|reflexivity].
      destruct (negb block); [eauto|]. destruct (c_shutdown (n_c n)); eauto.
    - right. assert (Hf: (length U < loop_fuel (n_c n))%nat) by (pose proof (cinv_sum _ _ _ I); unfold loop_fuel; lia).
      destruct (evict_loop U (loop_fuel (n_c n)) (n_cb hcrc) (n_busy n) (n_c n) D t _ block Hf I Ht How) as (ev & U1 & m & w & l & x & _ & E1 & _).
      cbn zeta in E1. rewrite E1 in Ea. injection Ea as _ <-. reflexivity. }
  destruct Hcase as [ [ [e ->] Eow]| ->].
  { assert (Ev: evict_stores (loop_fuel (n_c n)) (n_c n) t = []).
    { unfold loop_fuel. cbn [evict_stores]. rewrite How, Eow. destruct (c_nrs (n_c n)); [|reflexivity]. destruct (load_next_read_size _ _); reflexivity. }
    rewrite Ev. cbn [app]. exists j. rewrite firstn_nil. split; [lia|]. split; [eapply rel_sum; exact R|]. intros _. eapply crash_unchanged; [exact R|apply feq_refl]. }
  set (c2 := match t_lwe t with Some l => set_lwe (Some l) (set_nws (t_nws t) c') | None => set_nws (t_nws t) c' end) in *.
  destruct (finish_reservation c2 (t_range t) size) as [ [c'' a]|] eqn:Ef; [|exfalso; cbn [fst snd] in A; inv A].
  cbn [fst snd] in *.
  set (ev := evict_stores (loop_fuel (n_c n)) (n_c n) t) in *.
  set (lw := match t_lwe t with Some l => [StLwe (Some l)] | None => [] end) in *.
  set (fr := finish_reservation_stores c2 (t_range t) size) in *.
  assert (El: ev ++ [StNws (t_nws t)] ++ lw ++ fr ++ crc_stores hcrc c'' = (ev ++ StNws (t_nws t) :: lw ++ fr) ++ crc_stores hcrc c'').
  { rewrite <- app_assoc. cbn [app]. rewrite <- app_assoc. reflexivity. }
  rewrite El. set (l := ev ++ StNws (t_nws t) :: lw ++ fr) in *.
  assert (Nc: Forall not_crc l).
  { unfold l. apply Forall_app. split; [apply evict_not_crc|]. constructor; [exact Logic.I|]. apply Forall_app. split; [unfold lw; destruct (t_lwe t); repeat constructor|apply finish_reservation_not_crc]. }
  destruct (Nat.le_gt_cases j (length l)) as [Hj|Hj].
  - eapply cut_early; [exact R|exact Nc|exact Hj|]. intros Hh.
    destruct (match U with [] => false | h :: _ => match k_ow k with OYes => hits (c_len (n_c n)) t h | OBlock => false end end) eqn:Ehit.
    + destruct U as [|h U]; [discriminate|]. destruct (k_ow k) eqn:Eow; [discriminate|].
      pose proof (nr_unread _ _ _ _ _ _ _ R) as FU. destruct (q_unread s) as [|e0 l0] eqn:Q; [inv FU|].
      assert (Hsync: q_sync s = false).
      { destruct (q_sync s) eqn:Hsy; [|reflexivity]. destruct (nr_sync _ _ _ _ _ _ _ R Hsy) as (X & _). congruence. }
      assert (Elf: exists fuel, loop_fuel (n_c n) = S fuel) by (unfold loop_fuel; eauto). destruct Elf as (fuel & Elf).
      destruct (evict_head fuel (n_c n) h U D t I How Ehit) as (c3 & c4 & E1 & E2 & E3 & E4 & I4).
      set (z := zero_stores (n_c n) (r_start h)) in *.
      assert (Sp: l = z ++ advance_stores c3 (r_size h) ++ (evict_stores fuel c4 t ++ StNws (t_nws t) :: lw ++ fr)) by (unfold l, ev; rewrite Elf, E1, <- !app_assoc; reflexivity).
      clearbody l.
      destruct (Nat.le_gt_cases j (length z)) as [Hz|Hz].
      * destruct (k_check k) eqn:Hc.
        -- apply read_ok_crash. assert (Ez: z = byte_stores (r_start h) (repeat 0 4)).
           { unfold z, zero_stores. rewrite (nr_ex _ _ _ _ _ _ _ R). unfold k_extra. rewrite Hc. reflexivity. }
           assert (Hj4: (j <= 4)%nat) by (rewrite Ez, length_bytes, repeat_length in Hz; exact Hz).
           eapply (read_ok_tear k n s h U D e0 l0 j); auto; [].
           rewrite Sp, firstn_app. replace (j - length z)%nat with 0%nat by lia. rewrite firstn_O, app_nil_r, Ez, firstn_bytes, firstn_zeros by exact Hj4. apply feq_refl.
        -- assert (Ez: z = []) by (unfold z, zero_stores; rewrite (nr_ex _ _ _ _ _ _ _ R); unfold k_extra; rewrite Hc; reflexivity).
           rewrite Ez in Hz. cbn in Hz. replace j with 0%nat by lia. eapply crash_unchanged; [exact R|apply feq_refl].
      * exfalso. rewrite Sp, firstn_app, (firstn_all2 (n := j)) in Hh by lia. rewrite puts_app in Hh.
        set (f0 := puts (n_file n) z) in *. assert (Hf0: header f0 = header (n_file n)) by (apply puts_header; apply bytes_is).
        assert (En: c_nrs (n_c n) = Some (r_start h)) by (rewrite (ci_nrs _ _ _ I); reflexivity).
        assert (Hne: forall r, In r U -> Some (r_start r) <> Some (r_start h)).
        { intros r Hr X. injection X as X. apply in_split in Hr. destruct Hr as (A1 & B1 & ->).
          apply (start_unique _ _ _ h r I [] A1 (B1 ++ D)); [cbn; rewrite <- app_assoc; reflexivity|congruence]. }
        revert Hh. rewrite <- Hf0. eapply advance_changes; [exact E2|rewrite E3; exact En| | |lia| |].
        -- rewrite (ci_nrs _ _ _ I4). destruct U as [|h2 U]; [discriminate|]. apply Hne. left. reflexivity.
        -- apply Forall_app. split; [eapply evict_nrs; [exact I4|exact Hne|discriminate]|]. constructor; [exact Logic.I|].
           apply Forall_app. split; [unfold lw; destruct (t_lwe t); repeat constructor|apply finish_reservation_nrs].
        -- rewrite E3. unfold header in Hf0. change (c_nrs (n_c n)) with (fl_nrs (n_file n)). congruence.
        -- rewrite E4. unfold header in Hf0. change (c_lwe (n_c n)) with (fl_lwe (n_file n)). congruence.
    + assert (Hnh: match U with [] => True | h :: _ => hits (c_len (n_c n)) t h = false end).
      { destruct U as [|h U]; [exact Logic.I|]. destruct (k_ow k) eqn:Eow; [|exact Ehit].
        unfold loop_fuel in Ea. rewrite (block_loop (h :: U) _ _ _ _ D t _ _ I Ht How) in Ea. injection Ea as <- Ea.
        destruct (hits (c_len (n_c n)) t h); [|reflexivity]. destruct (negb block); [discriminate|]. destruct (c_shutdown (n_c n)); discriminate. }
      assert (Eev: ev = []) by (eapply evict_not_hit; eassumption). assert (Sp: l = StNws (t_nws t) :: lw ++ fr) by (unfold l; rewrite Eev; reflexivity). clearbody l.
      destruct j as [|j]; [eapply crash_unchanged; [exact R|apply feq_refl]|].
      assert (W: fl_nws (puts (n_file n) (firstn (S j) l)) = t_nws t).
      { rewrite Sp. cbn [firstn]. cbn [puts fold_left]. change (fold_left put ?x ?y) with (puts y x). rewrite puts_nws; [reflexivity|].
        apply firstn_Forall. apply Forall_app. split; [unfold lw; destruct (t_lwe t); repeat constructor|].
        unfold fr, finish_reservation_stores. apply Forall_app. split; [apply bytes_not_nws|]. apply Forall_app. split; [apply bytes_not_nws|]. repeat dmatch; repeat constructor. }
      assert (W2: t_nws t = c_nws (n_c n)) by (rewrite <- W; unfold header in Hh; change (c_nws (n_c n)) with (fl_nws (n_file n)); congruence).
      assert (EU: U = []) by (eapply same_nws_empty; eassumption). subst U.
      assert (ED: D = []) by (apply (nr_tidy _ _ _ _ _ _ _ R); reflexivity). subst D.
      set (f := puts (n_file n) (firstn (S j) l)) in *.
      destruct (puts_const (firstn (S j) l) (n_file n)) as (C1 & C2 & C3). fold f in C1, C2, C3.
      eapply (crash_unchanged k (n_set_c (set_mem (fl_mem f) (n_c n)) n)); [apply rel_empty_mem; [exact R|exact HR]|].
      apply header_feq; auto.
      unfold f. rewrite puts_crc; [reflexivity|]. apply firstn_Forall. exact Nc.
  - assert (F: feq (puts (n_file n) (l ++ crc_stores hcrc c'')) (file_of (write_header_crc hcrc c''))).
    { unfold l. rewrite puts_app.
      assert (F1: feq (puts (n_file n) (ev ++ StNws (t_nws t) :: lw ++ fr)) (file_of c'')).
      { change (StNws (t_nws t) :: lw ++ fr) with ([StNws (t_nws t)] ++ lw ++ fr). rewrite !puts_app.
        eapply feq_trans; [|apply (finish_reservation_file _ _ _ _ _ Ef)]. apply feq_puts.
        eapply feq_trans; [apply feq_puts; apply feq_puts; apply (evict_file _ _ _ _ _ _ _ Ea)|].
        unfold lw, c2. destruct (t_lwe t); constructor; reflexivity. }
      eapply feq_trans; [apply feq_puts; exact F1|]. constructor; reflexivity. }
    clearbody l. exists j. rewrite firstn_all2 by (rewrite app_length; cbn; lia). split; [lia|]. split.
    + destruct F as [F1 F2 F3 F4 F5 F6 F7 F8 F9]. rewrite F8. unfold header_sum. rewrite F4, F5, F6, F7. reflexivity.
    + intros _. apply Hfin. eapply feq_trans; [exact F|]. constructor; reflexivity.
Qed.

Lemma crash_reserve : forall k n s U D size block j, rel k n s U D -> 0 <= size < 4294967296 ->
  cut n (n_stores n (NReserve size block)) j (crash_ok k s (NReserve size block)).
Proof.
  intros k n s U D size block j R Hz. destruct (sim_reserve rcrc hcrc k n s U D size block R Hz) as (s' & U' & D' & St & R' & _).
  destruct (n_stores n (NReserve size block)) as [|x l] eqn:E; [rewrite <- E; eapply cut_none; eassumption|]. rewrite <- E.
  cbn [Nonvolatile_Model.n_stores Nonvolatile_Model.n_step] in *.
  destruct (n_prod n) as [p|] eqn:Ep; [|discriminate]. destruct (n_wait n) as [w|] eqn:Ew; [discriminate|].
  unfold reserve_stores, n_reserve in *. rewrite Ep in *. destruct p as [r|]; [discriminate|].
  pose proof (ci_pending _ _ _ (nr_ci _ _ _ _ _ _ _ R)) as Hp.
  destruct (start_reserve_common (n_c n) size) as [c res] eqn:Es.
  destruct res as [actual|e|]; [|discriminate|discriminate].
  assert (Hc: c = n_c n /\ actual = size + c_extra (n_c n) /\ 0 < size /\ size + c_extra (n_c n) <= c_len (n_c n)).
  { unfold start_reserve_common in Es. rewrite Hp in Es. destruct (0 <? c_locks (n_c n)); [discriminate|].
    destruct (add32 size (c_extra (n_c n))) as [a|] eqn:Ea; [|discriminate]. apply add32_some in Ea. subst a.
    destruct ((size =? 0) || (c_len (n_c n) <? size + c_extra (n_c n))) eqn:Eb; [discriminate|]. injection Es as <- <-.
    apply orb_false_iff in Eb. destruct Eb. splits; auto; lia. }
  destruct Hc as (-> & -> & Hs & Hl). rewrite set_c_c in *.
  destruct (calculate_next_write_start (n_c n) (size + c_extra (n_c n))) as [t|] eqn:Et; [|discriminate].
  pose proof (layout_nws _ _ _ _ (ci_layout _ _ _ (nr_ci _ _ _ _ _ _ _ R))) as HW.
  pose proof (ci_len _ _ _ (nr_ci _ _ _ _ _ _ _ R)) as HLen. pose proof (ci_extra _ _ _ (nr_ci _ _ _ _ _ _ _ R)) as HEx.
  apply calculate_is_temp in Et; [|lia|lia|lia].
  unfold reserve_loop_stores, n_reserve_loop in *.
  destruct (match n_read_reservation n with Some r => intersect_reservation (n_c n) t r | None => false end) eqn:Er; [discriminate|].
  apply (tail_cut k n s U D t size block false j (NReserve size block) (fun H => H) R Ep Hs Et); [discriminate| |].
  - intros _ r Hr. rewrite Hr, intersect_reservation_hits in Er. exact Er.
  - intros f F. destruct (n_reserve_tail hcrc n t size block) as [n' out]. cbn [fst snd] in *.
    exists n', s', U', D'. split; [exact F|]. split; [exact R'|]. right. eauto.
Qed.

Lemma crash_resume : forall k n s U D j, rel k n s U D -> cut n (n_stores n NResume) j (crash_ok k s NResume).
Proof.
  intros k n s U D j R. destruct (sim_resume rcrc hcrc k n s U D R) as (s' & U' & D' & St & R' & _).
  destruct (n_stores n NResume) as [|x l] eqn:E; [rewrite <- E; eapply cut_none; eassumption|]. rewrite <- E.
  cbn [Nonvolatile_Model.n_stores Nonvolatile_Model.n_step] in *. pose proof (nr_wait _ _ _ _ _ _ _ R) as W.
  destruct (n_wait n) as [w|] eqn:Ew; [|discriminate]. destruct W as (W1 & W2 & W3 & W4 & W5).
  unfold resume_stores, n_resume in *. destruct (c_shutdown (n_c n)); [discriminate|].
  destruct (w_second w) eqn:E2.
  - apply (tail_cut k n s U D _ _ _ true j NResume (fun H => H) R W2 W3 W4); [auto|discriminate|].
    intros f F. destruct (n_reserve_tail hcrc n _ _ _) as [n' out]. cbn [fst snd] in *.
    exists n', s', U', D'. split; [exact F|]. split; [exact R'|]. right. eauto.
  - unfold reserve_loop_stores, n_reserve_loop in *.
    destruct (match n_read_reservation n with Some r => intersect_reservation (n_c n) (w_temp w) r | None => false end) eqn:Er; [discriminate|].
    apply (tail_cut k n s U D _ _ _ false j NResume (fun H => H) R W2 W3 W4); [discriminate| |].
    + intros _ r Hr. rewrite Hr, intersect_reservation_hits in Er. exact Er.
    + intros f F. destruct (n_reserve_tail hcrc n _ _ _) as [n' out]. cbn [fst snd] in *.
      exists n', s', U', D'. split; [exact F|]. split; [exact R'|]. right. eauto.
Qed.

Lemma sim_crash : forall k n s U D o j, rel k n s U D -> nop_ok o ->
  undetected rcrc hcrc n o j \/
  exists s' U' D', step k sum_of s (NCrash o j) (snd (n_step n (NCrash o j))) s' /\ rel k (fst (n_step n (NCrash o j))) s' U' D'.
Proof.
  intros k n s U D o j R Ho. eapply sim_crash_of_cut; [exact R| |].
  { destruct o; try (left; exact Logic.I); right; try (rewrite firstn_nil; split; [reflexivity|constructor]).
    cbn [Nonvolatile_Model.n_stores]. unfold write_stores. repeat dmatch; try (rewrite firstn_nil; split; [reflexivity|constructor]).
    split; [apply puts_header; apply firstn_Forall; apply bytes_is|apply bytes_not_crc]. }
  destruct o; try (eapply cut_none; [exact R|reflexivity]).
  - eapply crash_reserve; [exact R|exact Ho].
  - eapply crash_resume; exact R.
  - eapply crash_write; exact R.
  - eapply crash_commit; exact R.
  - eapply crash_read; exact R.
  - eapply crash_finish; exact R.
  - eapply crash_advance; exact R.
Qed.

(** * One step, and runs *)
Definition trouble (k : config) (n : nbuf) (s : queue) (o : nop) : Prop :=
  misuse k s o \/ exists o' j, o = NCrash o' j /\ undetected rcrc hcrc n o' j.

Lemma sim_step_counted : forall k n s U D o, rel k n s U D -> nop_ok o ->
  trouble k n s o \/ exists s' U' D', step k sum_of s o (snd (n_step n o)) s' /\ rel k (fst (n_step n o)) s' U' D' /\
    ((forall o' j, o <> NCrash o' j) -> moved k (n_c n) (n_c (fst (n_step n o))) s s').
Proof.
  intros k n s U D o R Ho. unfold trouble.
  Local Ltac keep_moved X := destruct X as (s' & U' & D' & X1 & X2 & X3); exists s', U', D'; split; [exact X1|split; [exact X2|intros _; exact X3]].
  destruct o.
  - right. pose proof (sim_reserve rcrc hcrc k n s U D size block R Ho) as X. keep_moved X.
  - right. pose proof (sim_resume rcrc hcrc k n s U D R) as X. keep_moved X.
  - right. pose proof (sim_write rcrc hcrc k n s U D off bs R) as X. keep_moved X.
  - right. pose proof (sim_commit rcrc hcrc k n s U D R) as X. keep_moved X.
  - right. pose proof (sim_register_producer rcrc hcrc k n s U D R) as X. keep_moved X.
  - right. pose proof (sim_drop_producer rcrc hcrc k n s U D R) as X. keep_moved X.
  - right. pose proof (sim_register_consumer rcrc hcrc k n s U D R) as X. keep_moved X.
  - destruct (sim_register_cursor rcrc hcrc k n s U D R) as [X|X]; [left; left; exact X|right; keep_moved X].
  - right. pose proof (sim_drop_consumer rcrc hcrc k n s U D R) as X. keep_moved X.
  - destruct (sim_read rcrc hcrc k n s U D block R) as [X|X]; [left; left; exact X|right; keep_moved X].
  - right. destruct (sim_peek rcrc hcrc k n s U D R) as [X1 X2]. eexists _, U, D. split; [exact X1|]. split; [exact X2|]. intros _. apply moved_fields; reflexivity.
  - right. pose proof (sim_finish rcrc hcrc k n s U D R) as X. keep_moved X.
  - right. pose proof (sim_advance rcrc hcrc k n s U D R) as X. keep_moved X.
  - right. destruct (sim_drain rcrc hcrc k n s U D R) as [X1 X2]. eexists _, U, D. split; [exact X1|]. split; [exact X2|]. intros _.
    apply moved_fields; try reflexivity. cbn. unfold n_wait_for_drain, wait_for_drain.
    destruct (n_reading n || match c_nrs (n_c n) with Some _ => true | None => false end); reflexivity.
  - right. destruct (sim_lock rcrc hcrc k n s U D R) as [X1 X2]. eexists _, U, D. split; [exact X1|]. split; [exact X2|]. intros _. apply moved_fields; reflexivity.
  - right. destruct (sim_unlock rcrc hcrc k n s U D R) as [X1 X2]. eexists _, U, D. split; [exact X1|]. split; [exact X2|]. intros _. apply moved_fields; reflexivity.
  - right. destruct (sim_shutdown rcrc hcrc k n s U D R) as [X1 X2]. eexists _, U, D. split; [exact X1|]. split; [exact X2|]. intros _. apply moved_fields; try reflexivity.
    cbn. unfold shutdown_common. repeat dmatch; reflexivity.
  - right. pose proof (sim_reopen rcrc hcrc k n s U D R) as X. keep_moved X.
  - destruct (sim_crash k n s U D o k0 R Ho) as [X|(s' & U' & D' & X1 & X2)]; [left; right; eauto|right]. exists s', U', D'. split; [exact X1|]. split; [exact X2|].
    intros H. exfalso. exact (H _ _ eq_refl).
Qed.
Lemma sim_step : forall k n s U D o, rel k n s U D -> nop_ok o ->
  trouble k n s o \/ exists s' U' D', step k sum_of s o (snd (n_step n o)) s' /\ rel k (fst (n_step n o)) s' U' D'.
Proof.
  intros k n s U D o R Ho. destruct (sim_step_counted k n s U D o R Ho) as [X|(s' & U' & D' & X1 & X2 & _)]; [left; exact X|right; eauto].
Qed.

Local Notation n_run := (n_run rcrc hcrc).
Lemma sim_run : forall l k n s U D, rel k n s U D -> Forall nop_ok l ->
  (exists s' U' D', run k sum_of s l (snd (n_run n l)) s' /\ rel k (fst (n_run n l)) s' U' D') \/
  (exists l1 o l2 s1 U1 D1, l = l1 ++ o :: l2 /\ run k sum_of s l1 (snd (n_run n l1)) s1 /\ rel k (fst (n_run n l1)) s1 U1 D1 /\ trouble k (fst (n_run n l1)) s1 o).
Proof.
  induction l as [|o l IH]; intros k n s U D R Hl.
  - left. exists s, U, D. split; [constructor|exact R].
  - inv Hl. destruct (sim_step k n s U D o R) as [T|(s1 & U1 & D1 & S1 & R1)]; [assumption| |].
    + right. exists [], o, l, s, U, D. split; [reflexivity|]. split; [constructor|]. split; [exact R|exact T].
    + cbn [Nonvolatile_Model.n_run]. destruct (n_step n o) as [n1 out] eqn:E. cbn [fst snd] in *.
      destruct (IH k n1 s1 U1 D1 R1) as [(s' & U' & D' & H3 & H4)|(l1 & o1 & l2 & s2 & U2 & D2 & H3 & H4 & H5 & H6)]; [assumption| |].
      * left. exists s', U', D'. destruct (n_run n1 l) as [n2 outs]. cbn [fst snd] in *. split; [econstructor; eassumption|exact H4].
      * right. exists (o :: l1), o1, l2, s2, U2, D2. split; [rewrite H3; reflexivity|]. cbn [Nonvolatile_Model.n_run]. rewrite E.
        destruct (n_run n1 l1) as [n2 outs]. cbn [fst snd] in *. split; [econstructor; eassumption|]. split; assumption.
Qed.

(** Without crashes, with the counters. *)
Lemma sim_run_counted : forall l k n s U D b, rel k n s U D -> Forall nop_ok l -> Forall (fun o => forall o' j, o <> NCrash o' j) l ->
  counted (k_extra k) b (c_stats (n_c n)) s ->
  (exists s' U' D', run k sum_of s l (snd (n_run n l)) s' /\ rel k (fst (n_run n l)) s' U' D' /\ counted (k_extra k) b (c_stats (n_c (fst (n_run n l)))) s') \/
  (exists l1 o l2 s1 U1 D1, l = l1 ++ o :: l2 /\ run k sum_of s l1 (snd (n_run n l1)) s1 /\ rel k (fst (n_run n l1)) s1 U1 D1 /\ trouble k (fst (n_run n l1)) s1 o).
Proof.
  induction l as [|o l IH]; intros k n s U D b R Hl Hc C.
  - left. exists s, U, D. split; [constructor|]. split; [exact R|exact C].
  - inv Hl. inv Hc. destruct (sim_step_counted k n s U D o R) as [T|(s1 & U1 & D1 & S1 & R1 & M1)]; [assumption| |].
    + right. exists [], o, l, s, U, D. split; [reflexivity|]. split; [constructor|]. split; [exact R|exact T].
    + specialize (M1 ltac:(assumption) b C).
      cbn [Nonvolatile_Model.n_run]. destruct (n_step n o) as [n1 out] eqn:E. cbn [fst snd] in *.
      destruct (IH k n1 s1 U1 D1 b R1) as [(s' & U' & D' & H5 & H6 & H7)|(l1 & o1 & l2 & s2 & U2 & D2 & H5 & H6 & H7 & H8)]; [assumption|assumption|exact M1| |].
      * left. exists s', U', D'. destruct (n_run n1 l) as [n2 outs]. cbn [fst snd] in *. split; [econstructor; eassumption|]. split; assumption.
      * right. exists (o :: l1), o1, l2, s2, U2, D2. split; [rewrite H5; reflexivity|]. cbn [Nonvolatile_Model.n_run]. rewrite E.
        destruct (n_run n1 l1) as [n2 outs]. cbn [fst snd] in *. split; [econstructor; eassumption|]. split; assumption.
Qed.
End Checksums.
