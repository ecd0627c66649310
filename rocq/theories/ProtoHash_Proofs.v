From Verif Require Import Base Str_Base ProtoHash_Model ProtoHash_Spec.
Local Open Scope string_scope.
Local Open Scope list_scope.
Local Open Scope Z_scope.

Lemma lt_iff : forall a b, str_lt a b = true <-> str_cmp a b = Lt.
Proof. intros a b. unfold str_lt. destruct (str_cmp a b); split; congruence. Qed.
Lemma lt_trans : forall a b c, str_lt a b = true -> str_lt b c = true -> str_lt a c = true.
Proof. intros a b c. rewrite !lt_iff. apply str_cmp_trans. Qed.
Lemma lt_antisym : forall a b, str_lt a b = true -> str_lt b a = false.
Proof. intros a b H. apply lt_iff in H. unfold str_lt. rewrite str_cmp_antisym, H. reflexivity. Qed.
Lemma lt_total : forall a b, a <> b -> str_lt a b = false -> str_lt b a = true.
Proof.
  intros a b N H. unfold str_lt in *. rewrite str_cmp_antisym. destruct (str_cmp a b) eqn:E; cbn; [|discriminate|reflexivity].
  apply str_cmp_eq in E. congruence.
Qed.
Lemma le_lt_trans : forall a b c, str_lt b a = false -> str_lt b c = true -> str_lt a c = true.
Proof.
  intros a b c H1 H2. destruct (string_dec a b) as [->|N]; [exact H2|]. apply (lt_trans _ b); [|exact H2]. apply lt_total; [congruence|exact H1].
Qed.

Lemma insert_comm : forall x y l, fst x <> fst y -> insert x (insert y l) = insert y (insert x l).
Proof.
  intros x y l N. induction l as [|z l IH]; cbn [insert].
  - destruct (str_lt (fst y) (fst x)) eqn:E1, (str_lt (fst x) (fst y)) eqn:E2; try reflexivity.
    + apply lt_antisym in E1. congruence.
    + apply lt_total in E1; congruence.
  - destruct (str_lt (fst z) (fst y)) eqn:E1, (str_lt (fst z) (fst x)) eqn:E2; cbn [insert]; rewrite ?E1, ?E2.
    + rewrite IH. reflexivity.
    + rewrite (le_lt_trans (fst x) (fst z) (fst y)) by assumption. reflexivity.
    + rewrite (le_lt_trans (fst y) (fst z) (fst x)) by assumption. reflexivity.
    + destruct (str_lt (fst y) (fst x)) eqn:E3, (str_lt (fst x) (fst y)) eqn:E4; try reflexivity.
      * apply lt_antisym in E3. congruence.
      * apply lt_total in E3; congruence.
Qed.

Lemma sorted_perm : forall l l', Permutation l l' -> NoDup (map fst l) -> sorted l = sorted l'.
Proof.
  intros l l' P. induction P as [|x l l' P IH|x y l|l1 l2 l3 P1 IH1 P2 IH2]; intros N; [reflexivity| | |].
  - cbn. inv N. change (fold_right insert [] l) with (sorted l). rewrite IH by assumption. reflexivity.
  - cbn. apply insert_comm. inv N. intros E. match goal with H: ~ In _ _ |- _ => apply H end. left. congruence.
  - rewrite IH1 by exact N. apply IH2. eapply Permutation_NoDup; [|exact N]. apply Permutation_map. exact P1.
Qed.

Lemma int_string_inj : forall a b, int_string a = int_string b -> a = b.
Proof.
  intros a b. unfold int_string.
  assert (F: forall n s, dec_string n = String.append "-" s -> False).
  { intros n s E. assert (H: has "-" (dec_string n) = false) by (apply dec_has; intros k Hk; cbn; lia). rewrite E in H. discriminate. }
  destruct (Z.ltb_spec a 0), (Z.ltb_spec b 0); intros E.
  - injection E as E. apply dec_inj in E. lia.
  - symmetry in E. apply F in E. contradiction.
  - apply F in E. contradiction.
  - apply dec_inj in E. lia.
Qed.

Lemma show_nodup : forall l ty, (forall k v, In (k, v) l -> has_type ty k) -> (ty = KInt -> NoDup (map (fun e : pval * pval => key_int (fst e)) l)) -> NoDup (map fst l) ->
  NoDup (map (fun e => show (fst e)) l).
Proof.
  intros l ty. induction l as [|[k v] l IH]; intros T Ni N; [constructor|]. cbn [map fst] in *.
  constructor; [|apply IH; [intros k' v' H; apply (T k' v'); now right|intros E; specialize (Ni E); now inv Ni|now inv N] ].
  intros H. apply in_map_iff in H. destruct H as ([k' v'] & E & H). cbn [fst] in E.
  pose proof (T k v (or_introl eq_refl)) as T1. pose proof (T k' v' (or_intror H)) as T2. destruct ty.
  - specialize (Ni eq_refl). inv Ni. match goal with Hn: ~ In _ (map _ l) |- _ => apply Hn end. apply in_map_iff. exists (k', v'). split; [|exact H]. cbn [fst].
    destruct k, k'; try contradiction; cbn in *; apply int_string_inj; exact E.
  - inv N. match goal with Hn: ~ In _ (map fst l) |- _ => apply Hn end. apply in_map_iff. exists (k', v'). split; [|exact H]. cbn [fst].
    destruct k, k'; try contradiction; cbn in *. destruct b, b0; congruence.
  - inv N. match goal with Hn: ~ In _ (map fst l) |- _ => apply Hn end. apply in_map_iff. exists (k', v'). split; [|exact H]. cbn [fst].
    destruct k, k'; try contradiction; cbn in *. congruence.
Qed.

Scheme same_ind' := Induction for same Sort Prop
  with same_fields_ind' := Induction for same_fields Sort Prop
  with same_list_ind' := Induction for same_list Sort Prop
  with same_entries_ind' := Induction for same_entries Sort Prop.
Combined Scheme same_mut from same_ind', same_fields_ind', same_list_ind', same_entries_ind'.

Definition entry_bytes (e : pval * pval) : string * string := match e with (k, v) => (show k, String.append (hash_value k) (hash_value v)) end.

Lemma same_hash_all :
  (forall v v' (S : same v v'), well v -> hash_value v = hash_value v') /\
  (forall m m' (S : same_fields m m'), well (VMsg m) -> cat (map hash_field m) = cat (map hash_field m')) /\
  (forall l l' (S : same_list l l'), fold_right (fun v p => well v /\ p) True l -> map hash_value l = map hash_value l' /\ List.length l = List.length l') /\
  (forall l l' (S : same_entries l l'), fold_right (fun e p => well (snd e) /\ p) True l -> map entry_bytes l = map entry_bytes l').
Proof.
  apply same_mut.
  - reflexivity.
  - intros m m' _ IH W. cbn [hash_value]. apply IH. exact W.
  - reflexivity.
  - intros n m m' _ IH [_ W]. cbn. apply IH. exact W.
  - intros n v v' m m' _ IHv _ IH [Wv W]. cbn [map cat fold_right hash_field]. rewrite IHv by exact Wv. f_equal. apply IH. exact W.
  - intros l l' m m' _ IHl _ IH [Wl W]. destruct (IHl Wl) as [E1 E2]. cbn [map cat fold_right]. f_equal; [|apply IH; exact W].
    cbn [hash_field]. destruct l, l'; try discriminate; [reflexivity|]. rewrite E1, E2. reflexivity.
  - intros l l' l'' m m' _ IHl P _ IH [[(ty & T & Ni & N) Wl] W]. cbn [map cat fold_right]. f_equal; [|apply IH; exact W].
    cbn [hash_field]. fold entry_bytes. f_equal. f_equal. rewrite (IHl Wl). apply sorted_perm; [apply Permutation_map; exact P|].
    rewrite <- (IHl Wl). rewrite map_map. pose proof (show_nodup l ty T Ni N) as Hn.
    replace (map (fun x => fst (entry_bytes x)) l) with (map (fun e => show (fst e)) l); [exact Hn|]. apply map_ext. intros [k v]. reflexivity.
  - split; reflexivity.
  - intros v v' l l' _ IHv _ IHl [Wv W]. destruct (IHl W) as [E1 E2]. cbn. rewrite IHv by exact Wv. rewrite E1, E2. split; reflexivity.
  - reflexivity.
  - intros k v v' l l' _ IHv _ IHl [Wv W]. cbn [map entry_bytes]. rewrite IHv by exact Wv. f_equal. apply IHl. exact W.
Qed.

Lemma same_hash : forall m m', well (VMsg m) -> same_fields m m' -> hash_message m = hash_message m'.
Proof. intros m m' W S. apply (proj1 (proj2 same_hash_all)); assumption. Qed.

(** Flat messages. *)
Lemma le_length : forall n z, String.length (le n z) = n.
Proof. induction n as [|n IH]; intros z; cbn; [reflexivity|]. rewrite IH. reflexivity. Qed.

Lemma le_inj : forall n a b, le n a = le n b -> a mod 256 ^ Z.of_nat n = b mod 256 ^ Z.of_nat n.
Proof.
  induction n as [|n IH]; intros a b E; [cbn; rewrite !Z.mod_1_r; reflexivity|]. cbn [le] in E. injection E as E1 E2.
  apply IH in E2. rewrite Nat2Z.inj_succ, Z.pow_succ_r by lia.
  assert (M: a mod 256 = b mod 256).
  { assert (Ha: 0 <= a mod 256 < 256) by (apply Z.mod_pos_bound; lia). assert (Hb: 0 <= b mod 256 < 256) by (apply Z.mod_pos_bound; lia).
    clear -E1 Ha Hb. generalize dependent (a mod 256). generalize dependent (b mod 256). clear. intros v Hv u E1 Hu. apply (f_equal N_of_ascii) in E1. rewrite !N_ascii_embedding in E1 by lia. lia. }
  assert (P: 256 ^ Z.of_nat n > 0) by (apply Z.lt_gt, Z.pow_pos_nonneg; lia).
  rewrite !Z.rem_mul_r by lia. rewrite M, E2. reflexivity.
Qed.

Lemma str_app_inj : forall a b c d, String.length a = String.length b -> String.append a c = String.append b d -> a = b /\ c = d.
Proof.
  induction a as [|x a IH]; intros [|y b] c d L E; try discriminate; [split; [reflexivity|exact E]|]. cbn in *. injection E as -> E.
  injection L as L. destruct (IH b c d L E) as [-> ->]. split; reflexivity.
Qed.

Lemma hash_fixed : forall k v w c d, of_kind k v -> of_kind k w -> String.append (hash_value v) c = String.append (hash_value w) d -> v = w /\ c = d.
Proof.
  intros k v w c d Hv Hw E. destruct k, v, w; cbn [of_kind] in *; try contradiction; cbn [hash_value] in E.
  1-4: apply str_app_inj in E; [|rewrite !le_length; reflexivity]; destruct E as [E ->]; split; [|reflexivity]; f_equal; apply le_inj in E;
    cbn [Z.of_nat Pos.of_succ_nat Pos.succ] in E.
  - change (256 ^ 4) with (2 ^ 32) in E. rewrite !Z.mod_small in E by assumption. exact E.
  - change (256 ^ 8) with (2 ^ 64) in E. rewrite !Z.mod_small in E by assumption. exact E.
  - change (256 ^ 4) with 4294967296 in E. change (2 ^ 31) with 2147483648 in *. lia.
  - change (256 ^ 8) with 18446744073709551616 in E. change (2 ^ 63) with 9223372036854775808 in *. lia.
  - assert (L: forall b : bool, String.length (if b then le 1 1 else le 1 0) = 1%nat) by (intros []; reflexivity).
    apply str_app_inj in E; [|rewrite !L; reflexivity]. destruct E as [E ->]. split; [|reflexivity]. destruct b, b0; try reflexivity; discriminate.
Qed.

Lemma append_empty : forall a b, String.append a b = "" -> a = "" /\ b = "".
Proof. intros [|x a] b E; [split; [reflexivity|exact E]|discriminate]. Qed.

(** A field whose number is not among those of a message does not begin its bytes. *)
Lemma flat_start : forall ds m n s, flat ds m -> (forall d, In d ds -> 0 <= fst d < 2 ^ 31) -> 0 <= n < 2 ^ 31 ->
  cat (map hash_field m) = String.append (le 4 n) s -> exists k, In (n, k) ds.
Proof.
  intros ds m n s F R Hn E. induction F as [|d f ds m (v & -> & Hv) F IH]; [discriminate|].
  cbn [map cat fold_right hash_field] in E. destruct v as [v|].
  - assert (A: forall a b c, String.append (String.append a b) c = String.append a (String.append b c)) by (intros a b c; induction a; cbn; congruence).
    rewrite A in E. apply str_app_inj in E; [|rewrite !le_length; reflexivity]. destruct E as [E _]. apply le_inj in E.
    cbn [Z.of_nat Pos.of_succ_nat Pos.succ] in E. change (256 ^ 4) with 4294967296 in E.
    specialize (R d (or_introl eq_refl)). change (2 ^ 31) with 2147483648 in *. rewrite !Z.mod_small in E by lia. exists (snd d). left. destruct d. cbn in *. congruence.
  - cbn in E. destruct IH as (k & Hk); [intros x Hx; apply R; now right|exact E|]. exists k. now right.
Qed.

Lemma flat_injective : forall ds m m', NoDup (map fst ds) -> (forall d, In d ds -> 0 <= fst d < 2 ^ 31) -> flat ds m -> flat ds m' ->
  hash_message m = hash_message m' -> m = m'.
Proof.
  intros ds m m' N R F. revert m'. unfold hash_message. cbn [hash_value].
  assert (A: forall a b c, String.append (String.append a b) c = String.append a (String.append b c)) by (intros a b c; induction a; cbn; congruence).
  induction F as [|d f ds m (v & -> & Hv) F IH]; intros m' F' E; [inv F'; reflexivity|]. inv F'.
  match goal with H: flat_field d _ |- _ => destruct H as (w & -> & Hw) end. inv N.
  assert (R': forall x, In x ds -> 0 <= fst x < 2 ^ 31) by (intros x Hx; apply R; now right).
  pose proof (R d (or_introl eq_refl)) as Hd.
  cbn [map cat fold_right hash_field] in E. destruct v as [v|], w as [w|]; rewrite ?A in E; cbn [String.append] in E.
  - apply str_app_inj in E; [|reflexivity]. destruct E as [_ E]. destruct (hash_fixed (snd d) v w _ _ Hv Hw E) as [-> E'].
    f_equal. apply IH; assumption.
  - exfalso. symmetry in E. eapply flat_start in E; [|eassumption..]. destruct E as (k & Hk). match goal with H: ~ In _ _ |- _ => apply H end.
    apply in_map_iff. exists (fst d, k). split; [reflexivity|exact Hk].
  - exfalso. eapply flat_start in E; [|eassumption..]. destruct E as (k & Hk). match goal with H: ~ In _ _ |- _ => apply H end.
    apply in_map_iff. exists (fst d, k). split; [reflexivity|exact Hk].
  - f_equal. apply IH; assumption.
Qed.

(** One list of numbers, or of empty messages. *)
Lemma hash_list k : forall l l', Forall (of_kind k) l -> Forall (of_kind k) l' -> List.length l = List.length l' -> cat (map hash_value l) = cat (map hash_value l') -> l = l'.
Proof.
  induction l as [|v l IH]; intros [|w l'] F F' L E; try discriminate; [reflexivity|]. inv F. inv F'. injection L as L. cbn [map cat fold_right] in E.
  apply (hash_fixed k) in E as [-> E]; [|assumption|assumption]. f_equal. apply IH; assumption.
Qed.
Lemma list_injective : forall k l l', Z.of_nat (List.length l) < 2 ^ 64 -> Z.of_nat (List.length l') < 2 ^ 64 ->
  match k with Some k => Forall (of_kind k) l /\ Forall (of_kind k) l' | None => Forall (eq (VMsg [])) l /\ Forall (eq (VMsg [])) l' end ->
  hash_message [FRepeated l] = hash_message [FRepeated l'] -> l = l'.
Proof.
  intros k l l' B B' K E. unfold hash_message in E. cbn [hash_value map cat fold_right hash_field] in E.
  assert (A : forall s, String.append s "" = s) by (induction s; cbn; congruence). rewrite !A in E.
  assert (X : List.length l = List.length l' /\ cat (map hash_value l) = cat (map hash_value l')).
  { destruct l as [|v l], l' as [|w l']; [auto|exfalso; discriminate E|exfalso; discriminate E|].
    apply str_app_inj in E as [E1 E2]; [|rewrite !le_length; reflexivity]. split; [|exact E2]. apply le_inj in E1. cbn [Z.of_nat Pos.of_succ_nat Pos.succ] in E1.
    change (256 ^ 8) with (2 ^ 64) in E1. rewrite !Z.mod_small in E1 by lia. lia. }
  destruct X as [L C]. destruct k as [k|]; destruct K as [K K'].
  - apply (hash_list k); assumption.
  - clear B B' E C. revert l' L K'. induction K as [|v l <- K IH]; intros [|w l'] L K'; try discriminate; [reflexivity|]. inv K'. f_equal. apply IH; [|assumption]. cbn in L. lia.
Qed.
