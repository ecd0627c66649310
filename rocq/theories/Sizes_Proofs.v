From Verif Require Import Base MemoryBound_Model MemoryBound_Spec MemoryBound_Proofs PreConfig_Model PreConfig_Spec PreConfig_Proofs Sizes_Model Sizes_Spec.
Local Open Scope N_scope.

Section Proofs.
Variable z : layout.
Lemma value_text v : value_content v <= value_size z v.
Proof. unfold value_size. destruct v as [x|x]; unfold value_content, x_cap; lia. Qed.
Lemma field_text f : field_content f <= field_size z f.
Proof. unfold field_content, field_size. pose proof (value_text (f_value f)). lia. Qed.
Lemma sum_text (g : field -> N) l : (forall f, field_content f <= g f) -> fold_right (fun f n => field_content f + n) 0 l <= sum g l.
Proof. intros H. induction l as [|f l IH]; cbn [fold_right sum]; [lia|]. specialize (H f). lia. Qed.
Lemma fields_text v : fields_content v <= fields_size z v.
Proof. unfold fields_content, fields_size. pose proof (sum_text (field_size z) (v_items v) field_text). lia. Qed.
Lemma annotated_text v : fields_content v <= annotated_fields_size z v.
Proof. unfold fields_content, annotated_fields_size. assert (H : forall f, field_content f <= annotated_size z f) by (intros f; unfold annotated_size; pose proof (field_text f); lia). pose proof (sum_text _ (v_items v) H). lia. Qed.
Lemma log_text g : log_content g <= log_size z g.
Proof. unfold log_content, log_size. pose proof (value_text (g_message g)). pose proof (fields_text (g_fields g)). pose proof (fields_text (g_matching g)). lia. Qed.
Lemma message_text m : message_content m <= message_size z m + message_hint m.
Proof.
  unfold message_size. destruct m as [l|f|x|]; cbn [message_content message_hint]; try lia.
  - unfold line_size. pose proof (value_text (l_message l)). pose proof (annotated_text (l_fields l)). pose proof (annotated_text (l_matching l)). lia.
  - pose proof (field_text f). lia.
Qed.

Lemma value_mem v : tight_value v -> value_heap v <= value_size z v.
Proof. unfold value_size. destruct v as [x|x]; unfold value_heap, x_cap; cbn [tight_value]; unfold tight; lia. Qed.
Lemma field_mem f : tight_field f -> z_field z + field_heap f <= field_size z f.
Proof. intros [K V]. unfold field_heap, field_size, x_cap. unfold tight in K. pose proof (value_mem _ V). lia. Qed.
Lemma sum_mem l : Forall tight_field l -> fold_right (fun f n => z_field z + field_heap f + n) 0 l <= sum (field_size z) l.
Proof. induction 1 as [|f l T _ IH]; cbn [fold_right sum]; [lia|]. pose proof (field_mem f T). lia. Qed.
Lemma fields_mem v : z_pair z = z_field z -> tight_fields v -> fields_heap (z_field z) v <= fields_size z v.
Proof. intros E T. unfold fields_heap, fields_size. rewrite E. pose proof (sum_mem _ T). lia. Qed.
Lemma log_mem g : z_pair z = z_field z -> tight_log g -> log_heap z g <= log_size z g.
Proof.
  intros E (A & B & C & D). unfold log_heap, log_size, x_cap. unfold tight in D. pose proof (value_mem _ A). pose proof (fields_mem _ E B). pose proof (fields_mem _ E C). lia.
Qed.
Lemma sum_ann l : Forall tight_field l -> fold_right (fun f n => z_annotated z + field_heap f + n) 0 l + N.of_nat (length l) * z_field z <= sum (annotated_size z) l.
Proof.
  induction 1 as [|f l T _ IH]; cbn [fold_right sum length]; [lia|]. pose proof (field_mem f T). rewrite Nat2N.inj_succ, N.mul_succ_l. unfold annotated_size at 1. lia.
Qed.
Lemma annotated_mem v : sound z -> tight_fields v -> v_spare v <= N.of_nat (length (v_items v)) -> fields_heap (z_annotated z) v <= annotated_fields_size z v.
Proof.
  intros [E S] T L. unfold fields_heap, annotated_fields_size. pose proof (sum_ann _ T) as H. assert (v_spare v * z_annotated z <= v_spare v * z_pair z + v_spare v * z_field z) by (rewrite <- N.mul_add_distr_l; apply N.mul_le_mono_l; exact S).
  assert (v_spare v * z_field z <= N.of_nat (length (v_items v)) * z_field z) by (apply N.mul_le_mono_r; exact L). lia.
Qed.
Lemma message_mem m : sound z -> tight_message m -> message_heap z m <= message_size z m.
Proof.
  intros S T. unfold message_size. destruct m as [l|f|x|]; cbn [message_heap tight_message] in *; try lia.
  - destruct T as (H & A & (B1 & B2) & C1 & C2). rewrite H. cbn [hint_heap]. unfold line_size. pose proof (value_mem _ A). pose proof (annotated_mem _ S B1 B2). pose proof (annotated_mem _ S C1 C2). lia.
  - pose proof (field_mem f T). lia.
  - unfold x_cap. unfold tight in T. lia.
Qed.

(** In the channel and in the buffer. *)
Lemma held_total {A} (f : A -> N) l : held f l = total f l.
Proof. induction l as [|m l IH]; cbn; [reflexivity|]. unfold held in IH. rewrite IH. reflexivity. Qed.
Lemma held_bytes {A} (f : A -> N) l : held f l = bytes f l.
Proof. induction l as [|m l IH]; cbn; [reflexivity|]. unfold held in IH. rewrite IH. reflexivity. Qed.
Lemma held_le {A} (P : A -> Prop) (f g : A -> N) l : (forall m, P m -> f m <= g m) -> Forall P l -> held f l <= held g l.
Proof. intros H. induction 1 as [|m l Pm _ IH]; cbn [held fold_right]; [lia|]. specialize (H m Pm). unfold held in IH. lia. Qed.
Lemma channel_text count_cap mem_cap l c ev : MemoryBound_Model.run (message_size z) count_cap mem_cap chan_new l = (c, ev) ->
  held message_content (ch_queue c) <= mem_cap + held message_hint (ch_queue c).
Proof.
  intros H. destruct (channel_bounded _ _ _ _ _ _ H) as [B _]. rewrite <- held_total in B. revert B. generalize (ch_queue c) as q. intros q B.
  assert (X : held message_content q <= held (message_size z) q + held message_hint q); [|lia]. clear. induction q as [|m q IH]; cbn [held fold_right]; [lia|]. pose proof (message_text m). unfold held in IH. lia.
Qed.
Lemma channel_mem count_cap mem_cap l c ev : sound z -> MemoryBound_Model.run (message_size z) count_cap mem_cap chan_new l = (c, ev) -> Forall tight_message (ch_queue c) ->
  held (message_heap z) (ch_queue c) <= mem_cap.
Proof.
  intros S H T. destruct (channel_bounded _ _ _ _ _ _ H) as [B _]. rewrite <- held_total in B. pose proof (held_le tight_message (message_heap z) (message_size z) _ (fun m => message_mem m S) T). lia.
Qed.
Lemma buffer_text (M F C : Type) (build : F -> M -> option log) (h : list (msg M F C)) f max_count max_size : no_config h ->
  exists p, a_state (PreConfig_Model.run (log_size z) build (alb_new max_count max_size f) h) = Uninitialized p /\ held log_content (p_items p) <= max_size /\
    (z_pair z = z_field z -> Forall tight_log (p_items p) -> held (log_heap z) (p_items p) <= max_size).
Proof.
  intros H. destruct (nothing_before (log_size z) build h f max_count max_size H) as (p & P1 & _ & _ & P2 & _). exists p. rewrite <- held_bytes in P2. split; [exact P1|]. split.
  - pose proof (held_le (fun _ => True) log_content (log_size z) (p_items p) (fun m _ => log_text m)) as X. rewrite Forall_forall in X. specialize (X ltac:(auto)). lia.
  - intros E T. pose proof (held_le tight_log (log_heap z) (log_size z) _ (fun m => log_mem m E) T). lia.
Qed.
End Proofs.
