(** Writers and readers of non-volatile buffers: whole calls. *)
From Verif Require Import Base Ring_Model Nonvolatile_Model Nonvolatile_Spec NonvolatileClient_Spec Nonvolatile_Proofs NonvolatileCrash_Proofs NonvolatileStores_Proofs
  NonvolatileQueue_Proofs.
Open Scope Z_scope.

Lemma fill_all : forall init d, length init = length d -> overwrite_bytes init 0 d = d.
Proof.
  intros init d H. unfold overwrite_bytes. cbn [Z.to_nat firstn app Nat.add]. rewrite skipn_all2 by lia. apply app_nil_r.
Qed.
Lemma fill_ok : forall d : list Z, forall init : list Z, length init = length d ->
  (0 <=? 0) && (0 + Z.of_nat (length d) <=? Z.of_nat (length init)) = true.
Proof. intros d init H. rewrite H. lia. Qed.

Section Spec.
Variable k : config.
Variable sum : list Z -> Z.
Hypothesis sum_range : forall d, 0 <= sum d < U32.

Definition ready (s : queue) : Prop :=
  q_slot s = None /\ q_prod s = true /\ q_wait s = None /\ q_reader s = Regular false /\ q_locks s = 0 /\ q_shut s = false.

Lemma ready_not_reading : forall s, ready s -> ~ reading s.
Proof. intros s (_ & _ & _ & R & _) H. unfold reading in H. rewrite R in H. discriminate. Qed.
Lemma ready_idle : forall s, ready s -> idle s.
Proof. intros s (_ & P & W & _). split; assumption. Qed.

(** A reservation made. *)
Definition reserved_from (s : queue) (size : Z) (s1 : queue) : Prop :=
  exists i init lost, q_slot s1 = Some (i, init) /\ Z.of_nat (length init) = size /\ q_unread s = lost ++ q_unread s1 /\
    (k_ow k = OBlock -> lost = []) /\
    (forall pre x, lost = pre ++ [x] -> short_of_room k (x :: q_unread s1 ++ q_gone s) size) /\
    (q_gone s1 = q_gone s \/ q_unread s1 = [] /\ q_gone s1 = []) /\
    q_prod s1 = true /\ q_wait s1 = None /\ q_reader s1 = Regular false /\ q_locks s1 = 0 /\ q_shut s1 = false /\
    (q_gone s = [] -> q_past s1 = q_past s ++ map (pair Overwritten) lost).

Lemma reserve_inv : forall s size out s1, ready s -> step k sum s (NReserve size false) out s1 ->
  (exists r, out = NRange (Ok r) /\ 0 < size /\ size + k_extra k <= k_cap k /\ reserved_from s size s1) \/
  (exists e, out = NRange (Err e) /\ s1 = s /\ (size = 0 \/ k_cap k < size + k_extra k \/ k_ow k = OBlock /\ short_of_room k (q_unread s ++ q_gone s) size)).
Proof.
  intros s size out s1 HR H. pose proof (ready_not_reading s HR) as NR. pose proof (ready_idle s HR) as ID. destruct HR as (Q & P & W & R & L & Sh).
  inv H; try congruence; try (rewrite L in *; lia).
  - match goal with A : attempt _ _ _ _ _ _ _ |- _ => inv A end; try congruence; try contradiction.
    + left. eexists. splits; try reflexivity; auto.
      set (s0 := leave (map (pair Overwritten) lost) kept s).
      assert (E: q_unread s0 = kept /\ (q_gone s0 = q_gone s \/ kept = [] /\ q_gone s0 = []) /\ q_prod s0 = true /\ q_reader s0 = Regular false /\ q_locks s0 = 0 /\ q_shut s0 = false /\
        (q_gone s = [] -> q_past s0 = q_past s ++ map (pair Overwritten) lost))
        by (unfold s0, leave; destruct kept; cbn; splits; auto; intros ->; cbn; rewrite ?app_nil_r; reflexivity).
      destruct E as (E1 & E2 & E3 & E4 & E5 & E6 & E7). clearbody s0.
      exists (q_next s0), init, lost. unfold set_qwait, take_slot. cbn. rewrite E1. splits; auto.
    + right. eexists. splits; [reflexivity| |]; auto. unfold set_qwait. destruct s; cbn in *; subst; reflexivity.
  - right. eexists. splits; [reflexivity| |]; auto. match goal with A : _ \/ _ |- _ => destruct A; auto end.
Qed.

Lemma run_inv_cons : forall s o l outs s', run k sum s (o :: l) outs s' -> exists out outs' s1, outs = out :: outs' /\ step k sum s o out s1 /\ run k sum s1 l outs' s'.
Proof. intros s o l outs s' H. inv H. eauto 10. Qed.
Lemma run_inv_nil : forall s outs s', run k sum s [] outs s' -> outs = [] /\ s' = s.
Proof. intros s outs s' H. inv H. auto. Qed.

(** The three steps of a [put]. *)
Lemma write_inv : forall s d i init out s1, idle s -> q_slot s = Some (i, init) -> length init = length d ->
  step k sum s (NWrite 0 d) out s1 -> out = NUnit /\ s1 = set_slot (Some (i, d)) s.
Proof.
  intros s d i init out s1 ID Q L H. inv H; try congruence; try contradiction. rewrite Q in H5. inv H5. rewrite fill_ok by exact L. rewrite fill_all by exact L. auto.
Qed.
Lemma commit_inv : forall s i d out s1, idle s -> q_slot s = Some (i, d) -> step k sum s NCommit out s1 ->
  out = NRes (Ok tt) /\ s1 = mkQ (q_unread s ++ q_gone s ++ [mkEntry i d (sum d) true]) [] None (q_next s) (q_prod s) (q_wait s) (q_reader s) (q_sync s)
           (q_locks s) (q_shut s) (q_past s).
Proof. intros s i d out s1 ID Q H. inv H; try congruence; try contradiction. match goal with A : q_slot s = Some (?a, ?b) |- context [mkEntry ?a ?b] => rewrite Q in A; inv A end. auto. Qed.

Lemma put_inv : forall s d outs s', ready s -> run k sum s (steps (Put d)) outs s' ->
  (exists r s1 i, outs = [NRange (Ok r); NUnit; NRes (Ok tt)] /\ fits k d /\ reserved_from s (Z.of_nat (length d)) s1 /\ ready s' /\
     q_unread s' = q_unread s1 ++ q_gone s1 ++ [mkEntry i d (sum d) true] /\ q_gone s' = [] /\ q_past s' = q_past s1) \/
  (exists e e', outs = [NRange (Err e); NUnit; NRes (Err e')] /\ s' = s /\
     (~ fits k d \/ k_ow k = OBlock /\ short_of_room k (q_unread s ++ q_gone s) (Z.of_nat (length d)))).
Proof.
  intros s d outs s' HR H. cbn [steps] in H.
  apply run_inv_cons in H. destruct H as (o1 & outs1 & s1 & -> & H1 & H). apply run_inv_cons in H. destruct H as (o2 & outs2 & s2 & -> & H2 & H).
  apply run_inv_cons in H. destruct H as (o3 & outs3 & s3 & -> & H3 & H). apply run_inv_nil in H. destruct H as [-> ->].
  destruct (reserve_inv _ _ _ _ HR H1) as [(r & -> & Z1 & Z2 & RF)|(e & -> & -> & Why)].
  - left. pose proof RF as (i & init & lost & Q1 & Q2 & Q3 & Q4 & Q5 & Q6 & P & W & R & L & Sh & Pa).
    apply (write_inv _ _ i init) in H2; [|split; assumption|exact Q1|lia]. destruct H2 as [-> ->].
    apply (commit_inv _ i d) in H3; [|split; assumption|reflexivity]. destruct H3 as [-> ->].
    exists r, s1, i. splits; auto.
    + split; [|exact Z2]. intros ->. cbn in Z1. lia.
    + unfold ready. cbn. splits; auto.
  - right. pose proof (ready_idle s HR) as ID. destruct HR as (Q & _). inv H2; try congruence; try contradiction. inv H3; try congruence; try contradiction. exists e, InvalidArgument. splits; auto.
    destruct Why as [Why|[Why|Why] ]; [left|left|right; exact Why].
    + intros [F _]. destruct d; [auto|]. cbn in Why. lia.
    + intros [_ F]. lia.
Qed.

(** The three steps of a [get]. *)
Lemma start_inv : forall s out s1, ready s -> step k sum s (NStartRead false) out s1 ->
  (exists r skip x l, out = NRange (Ok r) /\ q_unread s = skip ++ x :: l /\ Forall (fun e => ~ shown k sum e) skip /\ shown k sum x /\
     s1 = set_reader (Regular true) (leave (map (pair Skipped) skip) (dim k x :: l) s)) \/
  (exists e, out = NRange (Err e) /\ Forall (fun e => ~ shown k sum e) (q_unread s) /\ s1 = leave (map (pair Skipped) (q_unread s)) [] s).
Proof.
  intros s out s1 (Q & P & W & R & L & Sh) H. inv H; try congruence.
  - left. eexists. exists skip, x, l. auto.
  - right. unfold nothing. eauto.
Qed.

Lemma get_inv : forall s outs s', ready s -> run k sum s (steps Get) outs s' ->
  (exists r b skip x l, outs = [NRange (Ok r); NBytes (Some (e_data x)); NFin (Ok b)] /\ q_unread s = skip ++ x :: l /\
     Forall (fun e => ~ shown k sum e) skip /\ shown k sum x /\ ready s' /\ q_unread s' = l /\ (q_gone s' = q_gone s \/ q_gone s' = []) /\
     (q_gone s = [] -> q_past s' = q_past s ++ map (pair Skipped) skip ++ [(Consumed, dim k x)])) \/
  (exists e e', outs = [NRange (Err e); NBytes None; NFin (Err e')] /\ Forall (fun e => ~ shown k sum e) (q_unread s) /\ ready s' /\
     q_unread s' = [] /\ q_gone s' = [] /\ (q_gone s = [] -> q_past s' = q_past s ++ map (pair Skipped) (q_unread s))).
Proof.
  intros s outs s' HR H. cbn [steps] in H.
  apply run_inv_cons in H. destruct H as (o1 & outs1 & s1 & -> & H1 & H). apply run_inv_cons in H. destruct H as (o2 & outs2 & s2 & -> & H2 & H).
  apply run_inv_cons in H. destruct H as (o3 & outs3 & s3 & -> & H3 & H). apply run_inv_nil in H. destruct H as [-> ->].
  destruct (start_inv _ _ _ HR H1) as [(r & skip & x & l & -> & E1 & E2 & E3 & ->)|(e & -> & E1 & ->)]; destruct HR as (Q & P & W & R & L & Sh).
  - left. cbn [leave map] in *. inv H2; cbn in *; try congruence.
    inv H3; cbn in *; try congruence.
    repeat match goal with A : _ :: _ = _ :: _ |- _ => inv A end.
    exists r, b, skip, x, l0. assert (ED: e_data (dim k x) = e_data x) by (unfold dim; destruct (k_check k); reflexivity). rewrite ED. splits; auto.
    + unfold ready. destruct l0; cbn; auto 10.
    + destruct l0; reflexivity.
    + destruct l0; cbn; auto.
    + intros HG. destruct l0; cbn; rewrite ?HG; cbn; rewrite ?app_nil_r, <- ?app_assoc; reflexivity.
  - right. cbn [leave map] in *. inv H2; cbn in *; try congruence. inv H3; cbn in *; try congruence.
    exists e, InvalidArgument. splits; auto.
    + unfold ready. cbn. auto 10.
    + intros HG. cbn. rewrite HG. cbn. rewrite app_nil_r. reflexivity.
Qed.

(** Opening again. *)
Lemma reopened_unread : forall b s, q_unread (reopened b s) = q_unread s.
Proof. intros b s. unfold reopened, abandon. destruct (q_slot s) as [ [i d]|]; [destruct (q_unread s) eqn:E|]; cbn; auto. Qed.
Lemma attach_inv : forall s outs s', q_slot s = None -> q_prod s = false -> q_wait s = None -> q_reader s = Nobody -> q_locks s = 0 -> q_shut s = false ->
  run k sum s attach outs s' -> outs = [NRes (Ok tt); NRes (Ok tt)] /\ ready s' /\ q_unread s' = q_unread s /\ q_gone s' = q_gone s /\ q_past s' = q_past s.
Proof.
  intros s outs s' Q P W R L Sh H. unfold attach in H.
  apply run_inv_cons in H. destruct H as (o1 & outs1 & s1 & -> & H1 & H). apply run_inv_cons in H. destruct H as (o2 & outs2 & s2 & -> & H2 & H).
  apply run_inv_nil in H. destruct H as [-> ->]. inv H1; try congruence. inv H2; cbn in *; try congruence. unfold ready. cbn. auto 10.
Qed.

(** * Without crashes *)
Definition plain (s : queue) (q : list (list Z)) : Prop :=
  ready s /\ q_gone s = [] /\ Forall (shown k sum) (q_unread s) /\ map e_data (q_unread s) = q.

Lemma Forall_contra : forall (A : Type) (P : A -> Prop) l, Forall P l -> Forall (fun x => ~ P x) l -> l = [].
Proof. intros A P l H N. destruct l; [reflexivity|]. inv H. inv N. contradiction. Qed.

Lemma event_fifo : forall s q e outs s', plain s q -> crashes e = false -> run k sum s (script e) outs s' ->
  exists q', fifo k q e (answer_of e outs) q' /\ plain s' q'.
Proof.
  intros s q e outs s' (HR & HG & HS & HQ) NC H. destruct e as [ [d|] | | ]; try discriminate; cbn [script] in H.
  - destruct (put_inv _ _ _ _ HR H) as [(r & s1 & i & -> & F & RF & HR' & HU & HG' & HP)|(e & e' & -> & -> & Why)].
    + destruct RF as (_ & _ & lost & _ & _ & Q3 & Q4 & Q5 & Q6 & _). assert (G1: q_gone s1 = []) by (destruct Q6 as [Q6|[_ Q6] ]; congruence).
      rewrite G1 in HU. cbn [app] in HU. rewrite Q3 in HQ, HS. apply Forall_app in HS. destruct HS as [HS1 HS2].
      exists (map e_data (q_unread s1) ++ [d]). split.
      * cbn. rewrite map_app in HQ. apply F_put with (lost := map e_data lost); auto.
        -- intros HB. rewrite (Q4 HB). reflexivity.
        -- intros pre x Ex. assert (exists pre0 x0, lost = pre0 ++ [x0] /\ e_data x0 = x) as (pre0 & x0 & El & <-).
           { destruct lost as [|y lost _] using rev_ind; [destruct pre; discriminate|]. exists lost, y. split; [reflexivity|]. rewrite map_app in Ex. cbn in Ex.
             apply app_inj_tail in Ex. destruct Ex. assumption. }
           specialize (Q5 _ _ El). rewrite HG, app_nil_r in Q5. split; [discriminate|exact (proj2 Q5)].
      * unfold plain. splits; auto; rewrite HU.
        -- apply Forall_app. split; [exact HS2|]. constructor; [|constructor]. intros _. reflexivity.
        -- rewrite map_app. reflexivity.
    + exists q. split; [|unfold plain; auto]. cbn. destruct Why as [Why|[Why1 Why2] ]; [apply F_unfit; exact Why|apply F_full; [exact Why1|] ].
      rewrite HG, app_nil_r in Why2. destruct Why2 as [N2 Why2]. rewrite HQ in Why2. split; [intros E2; apply N2; rewrite <- HQ in E2; apply map_eq_nil in E2; exact E2|exact Why2].
  - destruct (get_inv _ _ _ HR H) as [(r & b & skip & x & l & -> & E1 & E2 & E3 & HR' & HU & HG' & HP)|(e & e' & -> & E1 & HR' & HU & HG' & HP)].
    + rewrite E1 in HS, HQ. apply Forall_app in HS. destruct HS as [HS1 HS2]. rewrite (Forall_contra _ _ _ HS1 E2) in HQ. inv HS2.
      exists (map e_data (q_unread s')). split; [apply F_get; reflexivity|]. unfold plain. splits; auto. destruct HG'; congruence.
    + exists []. pose proof (Forall_contra _ _ _ HS E1) as E. split.
      * rewrite E in HQ. cbn in HQ. subst q. apply F_nothing. reflexivity.
      * unfold plain. rewrite HU. splits; auto.
  - apply run_inv_cons in H. destruct H as (o1 & outs1 & s1 & -> & H1 & H). inv H1. pose proof HR as (Q & _).
    apply attach_inv in H; try reflexivity. destruct H as (-> & HR' & HU & HG' & HP). rewrite reopened_unread in HU.
    exists (map e_data (q_unread s)). split; [apply F_restart|]. unfold plain. rewrite HU. splits; auto. rewrite HG'. cbn. unfold abandon. rewrite Q. exact HG.
Qed.

(** The history of the queue: all that was accepted, and what became of it. *)
Definition books (s : queue) (put got : list (list Z)) : Prop :=
  map e_data (map snd (q_past s) ++ q_unread s) = put /\ Forall (fun e => e_done e = true) (map snd (q_past s) ++ q_unread s) /\
  map e_data (map snd (filter (fun p => fate_is Consumed (fst p)) (q_past s))) = got /\
  Forall (fun p => fst p = Consumed \/ fst p = Overwritten) (q_past s).

Lemma snd_pair : forall (f : fate) (l : list entry), map snd (map (pair f) l) = l.
Proof. intros f l. rewrite map_map. apply map_id. Qed.
Lemma consumed_lost : forall l : list entry, filter (fun p => fate_is Consumed (fst p)) (map (pair Overwritten) l) = [].
Proof. induction l; cbn; auto. Qed.

Lemma event_books : forall s q e outs s' put got, plain s q -> books s put got -> crashes e = false -> run k sum s (script e) outs s' ->
  books s' (put ++ accepted [e] [answer_of e outs]) (got ++ delivered [answer_of e outs]).
Proof.
  intros s q e outs s' put got (HR & HG & HS & HQ) (B1 & B2 & B3 & B4) NC H. destruct e as [ [d|] | | ]; try discriminate; cbn [script] in H.
  - destruct (put_inv _ _ _ _ HR H) as [(r & s1 & i & -> & F & RF & HR' & HU & HG' & HP)|(e & e' & -> & -> & Why)].
    + destruct RF as (_ & _ & lost & _ & _ & Q3 & Q4 & Q5 & Q6 & _ & _ & _ & _ & _ & Pa). assert (G1: q_gone s1 = []) by (destruct Q6 as [Q6|[_ Q6] ]; congruence).
      rewrite G1 in HU. cbn [app] in HU. rewrite (Pa HG) in HP. rewrite Q3 in B1, B2. cbn [answer_of accepted delivered]. rewrite app_nil_r.
      unfold books. rewrite HU, HP, filter_app, !map_app, consumed_lost, snd_pair. cbn [map e_data]. rewrite app_nil_r.
      splits; auto.
      * rewrite <- B1, !map_app, <- !app_assoc. reflexivity.
      * rewrite !Forall_app in *. intuition auto.
      * apply Forall_app. split; [exact B4|]. apply Forall_map. apply Forall_forall. cbn. auto.
    + cbn. rewrite !app_nil_r. unfold books. auto.
  - destruct (get_inv _ _ _ HR H) as [(r & b & skip & x & l & -> & E1 & E2 & E3 & HR' & HU & HG' & HP)|(e & e' & -> & E1 & HR' & HU & HG' & HP)].
    + rewrite E1 in HS, B1, B2. apply Forall_app in HS. destruct HS as [HS1 HS2]. assert (Sk: skip = []) by (exact (Forall_contra _ _ _ HS1 E2)). subst skip.
      specialize (HP HG). cbn [map app] in HP, B1, B2. cbn [answer_of accepted delivered]. rewrite app_nil_r.
      assert (ED: e_data (dim k x) = e_data x) by (unfold dim; destruct (k_check k); reflexivity).
      assert (EN: e_done (dim k x) = e_done x) by (unfold dim; destruct (k_check k); reflexivity).
      unfold books. rewrite HU, HP, filter_app, !map_app. cbn [map snd filter fate_is fst]. rewrite ED.
      rewrite !Forall_app in *. destruct B2 as [B2 B2']. inv B2'. splits; auto.
      * rewrite map_app, <- app_assoc. reflexivity.
      * constructor; [congruence|constructor].
    + pose proof (Forall_contra _ _ _ HS E1) as E. specialize (HP HG). rewrite E in HP, B1, B2. cbn [map app] in HP. rewrite app_nil_r in HP.
      cbn. rewrite !app_nil_r. unfold books. rewrite HU, HP. auto.
  - apply run_inv_cons in H. destruct H as (o1 & outs1 & s1 & -> & H1 & H). inv H1. pose proof HR as (Q & _).
    apply attach_inv in H; try reflexivity. destruct H as (-> & HR' & HU & HG' & HP). rewrite reopened_unread in HU.
    assert (EP: q_past s' = q_past s) by (rewrite HP; cbn; unfold abandon; rewrite Q; reflexivity).
    cbn. rewrite !app_nil_r. unfold books. rewrite HU, EP. auto.
Qed.

Lemma filter_done : forall l, Forall (fun e => e_done e = true) l -> filter e_done l = l.
Proof. induction 1; cbn; [reflexivity|]. rewrite H, IHForall. reflexivity. Qed.
Lemma weigh_total : forall w l, weigh w l = total w (map e_data l).
Proof. induction l; cbn; [reflexivity|]. unfold weigh, total in IHl. rewrite IHl. reflexivity. Qed.
Lemma total_one : forall l, total one l = Z.of_nat (length l).
Proof. induction l as [|x l IH]; [reflexivity|]. change (total one (x :: l)) with (1 + total one l). rewrite IH. cbn [length]. lia. Qed.
Lemma total_app : forall w a b, total w (a ++ b) = total w a + total w b.
Proof.
  induction a as [|x a IH]; intros b; [reflexivity|]. change (total w ((x :: a) ++ b)) with (w x + total w (a ++ b)).
  change (total w (x :: a)) with (w x + total w a). rewrite IH. lia.
Qed.

Lemma books_balance : forall ex b st s q put got, plain s q -> books s put got -> counted ex b st s -> balanced ex b st put got q.
Proof.
  intros ex b st s q put got (HR & HG & HS & HQ) (B1 & B2 & B3 & B4) C.
  assert (W: forall w, committed w s = total w put).
  { intros w. unfold committed. rewrite HG, app_nil_r, filter_done by exact B2. rewrite weigh_total, B1. reflexivity. }
  assert (T: forall w, tally Consumed w s = total w got) by (intros w; unfold tally; rewrite weigh_total, B3; reflexivity).
  assert (K: forall w, tally Skipped w s = 0 /\ tally Consumed w s + tally Overwritten w s = weigh w (map snd (q_past s))).
  { intros w. unfold tally. clear - B4. induction B4 as [|[f e] l Hf _ [IH1 IH2] ]; [auto|]. cbn in Hf.
    destruct Hf as [-> | ->]; cbn [filter fate_is fst map snd weigh fold_right] in *; (split; [exact IH1|]); unfold weigh in *; lia. }
  assert (O: forall w, tally Overwritten w s = total w put - total w got - total w q).
  { intros w. destruct (K w) as [_ K2]. rewrite T in K2. rewrite weigh_total in K2. subst put q. rewrite map_app, total_app. lia. }
  destruct C. constructor; rewrite ?W, ?T, ?O, ?(proj1 (K one)), ?(proj1 (K size_of)), ?(proj1 (K (need ex))), ?total_one in *; lia.
Qed.

(** * With crashes *)
Definition seen (e : entry) : bool := e_sum e =? sum (e_data e).
Definition items (l : list entry) : list (bool * list Z) := map (fun e => (e_done e, e_data e)) (filter seen l).
Definition safe (s : queue) (q : list (bool * list Z)) : Prop := ready s /\ entries_ok sum s /\ items (q_unread s) = q.

Lemma items_app : forall a b, items (a ++ b) = items a ++ items b.
Proof. intros a b. unfold items. rewrite filter_app, map_app. reflexivity. Qed.

Section Checked.
Hypothesis checked : k_check k = true.

Lemma seen_shown : forall e, seen e = true <-> shown k sum e.
Proof. intros e. unfold seen, shown. rewrite Z.eqb_eq. split; auto. Qed.
Lemma items_hidden : forall l, Forall (fun e => ~ shown k sum e) l -> items l = [].
Proof.
  intros l H. unfold items. induction H as [|e l H _ IH]; [reflexivity|]. cbn. destruct (seen e) eqn:E; [|exact IH]. apply seen_shown in E. contradiction.
Qed.
Lemma items_shown : forall e l, shown k sum e -> items (e :: l) = (e_done e, e_data e) :: items l.
Proof. intros e l H. unfold items. cbn. apply seen_shown in H. rewrite H. reflexivity. Qed.
Lemma items_gone : forall l, Forall (entry_ok sum) l -> Forall (fun e => e_done e = false) l -> Forall (leftover sum) (items l).
Proof.
  intros l H. unfold items. induction H as [|e l H _ IH]; intros D; [constructor|]. inv D. cbn. destruct (seen e) eqn:E; [|auto]. cbn. constructor; [|auto].
  split; cbn; [assumption|]. apply seen_shown in E. destruct (shown_done k sum e checked H E); congruence.
Qed.
Lemma items_torn : forall e e' l, entry_ok sum e -> torn e e' -> exists lost, items (e :: l) = lost ++ items (e' :: l) /\ (length lost <= 1)%nat.
Proof.
  intros e e' l H T. pose proof (torn_ok k sum sum_range e e' H T) as [_ HS]. pose proof T as (_ & T1 & T2 & _). unfold items. cbn.
  destruct (seen e') eqn:E'.
  - apply seen_shown in E'. apply HS in E'; [|exact checked]. apply seen_shown in E'. rewrite E'. exists []. cbn. rewrite T1, T2. split; [reflexivity|lia].
  - destruct (seen e); [exists [(e_done e, e_data e)]|exists []]; cbn; split; try reflexivity; lia.
Qed.
Lemma items_dim : forall e l, shown k sum e -> exists lost, items (e :: l) = lost ++ items (dim k e :: l) /\ (length lost <= 1)%nat.
Proof.
  intros e l H. rewrite items_shown by exact H. unfold items. cbn. destruct (seen (dim k e)) eqn:E'.
  - exists []. unfold dim. rewrite checked. cbn. split; [reflexivity|lia].
  - exists [(e_done e, e_data e)]. cbn. split; [reflexivity|lia].
Qed.

(** A crash. *)
Lemma crash_inv : forall s o j out s', step k sum s (NCrash o j) out s' ->
  q_slot s' = None /\ q_prod s' = false /\ q_wait s' = None /\ q_reader s' = Nobody /\ q_locks s' = 0 /\ q_shut s' = false /\
  ((out = NOpened true /\ q_unread s' = [] /\ storing o /\ j <> 0%nat) \/
   (out = NOpened false /\ exists out1 s1, step k sum s o out1 s1 /\ q_unread s' = q_unread s1) \/
   (out = NOpened false /\ exists skip u u', q_unread s = skip ++ u /\ Forall (fun e => ~ shown k sum e) skip /\ (skip <> [] -> passing o) /\
      (u' = u \/ clearing k o /\ exists e e' r, u = e :: r /\ u' = e' :: r /\ torn e e') /\ q_unread s' = u')).
Proof.
  intros s o j out s' H. inv H.
  - splits; try reflexivity. right. left. split; [reflexivity|]. exists out0, s1. split; [assumption|]. apply reopened_unread.
  - splits; try reflexivity. right. right. split; [reflexivity|]. exists skip, u, u'. splits; auto. rewrite reopened_unread. unfold s1. cbn. unfold leave. destruct u'; reflexivity.
  - splits; try reflexivity. left. auto.
Qed.

Lemma run_split : forall l1 l2 s outs s', run k sum s (l1 ++ l2) outs s' ->
  exists o1 o2 s1, outs = o1 ++ o2 /\ length o1 = length l1 /\ run k sum s l1 o1 s1 /\ run k sum s1 l2 o2 s'.
Proof.
  induction l1 as [|o l1 IH]; intros l2 s outs s' H; cbn in H.
  - exists [], outs, s. splits; auto. constructor.
  - apply run_inv_cons in H. destruct H as (out & outs' & s1 & -> & H1 & H). apply IH in H. destruct H as (o1 & o2 & s2 & -> & L & H2 & H3).
    exists (out :: o1), o2, s2. splits; auto; [cbn; congruence|]. econstructor; eassumption.
Qed.
Lemma run_one : forall l1 o s o1 out s1 s2, run k sum s l1 o1 s1 -> step k sum s1 o out s2 -> run k sum s (l1 ++ [o]) (o1 ++ [out]) s2.
Proof.
  intros l1 o s o1 out s1 s2 H. revert s2. induction H; intros s2 Hs; cbn; econstructor; eauto. constructor.
Qed.

(** How far a [put] got. *)
Definition putting (s : queue) (d : list Z) (i : nat) (s1 : queue) : Prop :=
  q_reader s1 = Regular false /\ exists lost kept, q_unread s = lost ++ kept /\ (k_ow k = OBlock -> lost = []) /\
  (q_unread s1 = kept \/ (3 <= i)%nat /\ exists gone n, Forall (fun e => In e (q_gone s)) gone /\ q_unread s1 = kept ++ gone ++ [mkEntry n d (sum d) true]).

Lemma reserved_putting : forall s d i s1, ready s -> reserved_from s (Z.of_nat (length d)) s1 -> putting s d i s1.
Proof. intros s d i s1 HR (_ & _ & lost & _ & _ & Q3 & Q4 & _ & _ & _ & _ & R & _). split; [exact R|]. exists lost, (q_unread s1). auto. Qed.
Lemma same_putting : forall s d i, ready s -> putting s d i s.
Proof. intros s d i HR. split; [apply HR|]. exists [], (q_unread s). auto. Qed.

Lemma put_prefix : forall s d i outs s1, ready s -> run k sum s (firstn i (steps (Put d))) outs s1 -> putting s d i s1.
Proof.
  intros s d i outs s1 HR H. destruct i as [|[|[|i]]]; cbn [firstn steps] in H.
  - apply run_inv_nil in H. destruct H as [-> ->]. apply same_putting. exact HR.
  - apply run_inv_cons in H. destruct H as (o1 & outs1 & s2 & -> & H1 & H). apply run_inv_nil in H. destruct H as [-> ->].
    destruct (reserve_inv _ _ _ _ HR H1) as [(r & -> & Z1 & Z2 & RF)|(e & -> & -> & Why)]; [apply reserved_putting|apply same_putting]; assumption.
  - apply run_inv_cons in H. destruct H as (o1 & outs1 & s2 & -> & H1 & H). apply run_inv_cons in H. destruct H as (o2 & outs2 & s3 & -> & H2 & H).
    apply run_inv_nil in H. destruct H as [-> ->].
    destruct (reserve_inv _ _ _ _ HR H1) as [(r & -> & Z1 & Z2 & RF)|(e & -> & -> & Why)].
    + pose proof RF as (n & init & lost & Q1 & Q2 & Q3 & Q4 & Q5 & Q6 & P & W & R & L & Sh).
      apply (write_inv _ _ n init) in H2; [|split; assumption|exact Q1|lia]. destruct H2 as [_ ->].
      apply (reserved_putting s d 2) in RF; [|exact HR]. exact RF.
    + pose proof (ready_idle s HR) as ID. pose proof HR as (Q & _). inv H2; try congruence; try contradiction. apply same_putting. exact HR.
  - assert (E: match i with 0%nat => @nil nop | S _ => [] end = []) by (destruct i; reflexivity). 
    assert (H': run k sum s (steps (Put d)) outs s1) by (cbn [steps]; destruct i; exact H). clear H E.
    destruct (put_inv _ _ _ _ HR H') as [(r & s2 & n & -> & F & RF & HR' & HU & HG' & HP)|(e & e' & -> & -> & Why)]; [|apply same_putting; exact HR].
    destruct RF as (_ & _ & lost & _ & _ & Q3 & Q4 & _ & Q6 & _). split; [apply HR'|]. exists lost, (q_unread s2). splits; auto. right. split; [lia|].
    exists (q_gone s2), n. split; [|exact HU]. destruct Q6 as [->|[_ ->] ]; [|constructor]. apply Forall_forall. auto.
Qed.

Lemma firstn_nth : forall (A : Type) (l : list A) i d, (i < length l)%nat -> firstn (S i) l = firstn i l ++ [nth i l d].
Proof. induction l as [|x l IH]; intros i d H; cbn in H; [lia|]. destruct i; [reflexivity|]. cbn [nth app]. change (firstn (S (S i)) (x :: l)) with (x :: firstn (S i) l). rewrite (IH i d) by lia. reflexivity. Qed.

Lemma peek_inv : forall s out s', step k sum s NPeek out s' -> s' = s.
Proof. intros s out s' H. inv H; reflexivity. Qed.

Lemma peek_bytes : forall s out s', step k sum s NPeek out s' -> exists b, out = NBytes b.
Proof. intros s out s' H. inv H; eauto. Qed.

Lemma putting_items : forall s q d i s1 q', safe s q -> putting s d (S i) s1 -> q' = items (q_unread s1) ->
  exists lost kept, q = lost ++ kept /\ (k_ow k = OBlock -> lost = []) /\
  (q' = kept \/ (2 <= i)%nat /\ exists left_, Forall (leftover sum) left_ /\ q' = kept ++ left_ ++ [(true, d)]).
Proof.
  intros s q d i s1 q' (HR & [E G] & HQ) (_ & lost & kept & L1 & L2 & L3) ->. rewrite L1, items_app in HQ.
  exists (items lost), (items kept). splits; auto.
  - intros HB. rewrite (L2 HB). reflexivity.
  - destruct L3 as [-> |(L3 & gone & n & L4 & ->)]; [auto|right]. split; [lia|]. exists (items gone). apply Forall_app in E. destruct E as [_ E]. split.
    + apply items_gone; rewrite Forall_forall in *; auto.
    + rewrite !items_app. rewrite (items_shown (mkEntry n d (sum d) true)) by (intros _; reflexivity). reflexivity.
Qed.

Lemma crash_put : forall s q d i j outs s', safe s q -> run k sum s (script (CrashIn (Put d) i j)) outs s' ->
  exists q', durable k sum q (CrashIn (Put d) i j) (answer_of (CrashIn (Put d) i j) outs) q' /\ safe s' q'.
Proof.
  intros s q d i j outs s' HS H. pose proof HS as (HR & HE & HQ).
  assert (HE': entries_ok sum s') by (eapply run_entries; eassumption).
  cbn [script] in H. apply run_split in H. destruct H as (o1 & o2 & s1 & -> & Lo & H1 & H). apply run_inv_cons in H. destruct H as (out & outs' & s2 & -> & H2 & H).
  pose proof (put_prefix _ _ _ _ _ HR H1) as P1.
  destruct (crash_inv _ _ _ _ _ H2) as (C1 & C2 & C3 & C4 & C5 & C6 & C7). apply attach_inv in H; try assumption. destruct H as (-> & HR' & HU & HG' & HP).
  assert (EA: forall b, out = NOpened b -> answer_of (CrashIn (Put d) i j) (o1 ++ [out; NRes (Ok tt); NRes (Ok tt)]) = Started b).
  { intros b ->. cbn [answer_of]. rewrite <- Lo, skipn_app, skipn_all2, Nat.sub_diag by lia. reflexivity. }
  exists (items (q_unread s2)). split; [|unfold safe; rewrite HU; auto].
  destruct C7 as [(-> & C7 & C8 & C9)|[(-> & out1 & s3 & C7 & C8)|(-> & skip & u & u' & C7 & C8 & C9 & C10 & C11)] ]; rewrite (EA _ eq_refl).
  - rewrite C7. apply D_destroyed; assumption.
  - rewrite C8. assert (P3: putting s d (S i) s3).
    { destruct (Nat.lt_ge_cases i 3) as [Hi|Hi].
      - eapply put_prefix; [exact HR|]. rewrite (firstn_nth _ _ i NPeek) by exact Hi. eapply run_one; eassumption.
      - assert (En: nth i (steps (Put d)) NPeek = NPeek) by (apply nth_overflow; exact Hi). rewrite En in C7. apply peek_inv in C7. subst s3.
        destruct P1 as [P1 (lost & kept & P2 & P3 & P4)]. split; [exact P1|]. exists lost, kept. splits; auto. destruct P4 as [P4|[P4 P5] ]; auto. }
    destruct (putting_items _ _ _ _ _ _ HS P3 eq_refl) as (lost & kept & D1 & D2 & D3). eapply D_crash_put; eassumption.
  - assert (skip = []).
    { destruct skip; [reflexivity|]. specialize (C9 ltac:(discriminate)). destruct i as [|[|[|i]]]; try contradiction. destruct i; contradiction. }
    subst skip. cbn [app] in C7. rewrite C11. destruct C10 as [->|(C10 & e & e' & r & -> & -> & T)].
    + rewrite <- C7. assert (P3: putting s d (S i) s1) by (destruct P1 as [P1 (lost & kept & P2 & P3 & P4)]; split; [exact P1|]; exists lost, kept; splits; auto; destruct P4 as [P4|[P4 P5] ]; auto).
      destruct (putting_items _ _ _ _ _ _ HS P3 eq_refl) as (lost & kept & D1 & D2 & D3). eapply D_crash_put; eassumption.
    + destruct i as [|[|[|i]]]; try contradiction; [|destruct i; contradiction]. cbn in C10. cbn [firstn] in H1. apply run_inv_nil in H1. destruct H1 as [-> ->].
      destruct HE as [E _]. rewrite C7 in E. inv E. destruct (items_torn e e' r) as (lost & I1 & I2); [assumption..|].
      eapply D_crash_put with (lost := lost); [rewrite C7; exact I1|congruence|left; reflexivity].
Qed.

Lemma crash_get : forall s q i j outs s', safe s q -> run k sum s (script (CrashIn Get i j)) outs s' ->
  exists q', durable k sum q (CrashIn Get i j) (answer_of (CrashIn Get i j) outs) q' /\ safe s' q'.
Proof.
  intros s q i j outs s' HS H. pose proof HS as (HR & HE & HQ).
  assert (HE': entries_ok sum s') by (eapply run_entries; eassumption).
  cbn [script] in H. apply run_split in H. destruct H as (o1 & o2 & s1 & -> & Lo & H1 & H). apply run_inv_cons in H. destruct H as (out & outs' & s2 & -> & H2 & H).
  destruct (crash_inv _ _ _ _ _ H2) as (C1 & C2 & C3 & C4 & C5 & C6 & C7). apply attach_inv in H; try assumption. destruct H as (-> & HR' & HU & HG' & HP).
  assert (EA: forall b, out = NOpened b -> answer_of (CrashIn Get i j) (o1 ++ [out; NRes (Ok tt); NRes (Ok tt)]) = Started b).
  { intros b ->. cbn [answer_of]. rewrite <- Lo, skipn_app, skipn_all2, Nat.sub_diag by lia. reflexivity. }
  exists (items (q_unread s2)). split; [|unfold safe; rewrite HU; auto].
  assert (PG: forall i outs s1, run k sum s (firstn i (steps Get)) outs s1 -> exists lost, q = lost ++ items (q_unread s1) /\ (length lost <= 1)%nat).
  { clear - HS HR HE HQ sum_range checked. intros i outs s1 H.
    assert (ST: forall o s2, step k sum s (NStartRead false) o s2 -> exists lost, q = lost ++ items (q_unread s2) /\ (length lost <= 1)%nat).
    { intros o s2 Hs. destruct (start_inv _ _ _ HR Hs) as [(r & skip & x & l & -> & E1 & E2 & E3 & ->)|(e & -> & E1 & ->)].
      - cbn [leave set_reader q_unread]. rewrite E1, items_app, (items_hidden skip E2) in HQ. cbn [app] in HQ. destruct (items_dim x l E3) as (lost & I1 & I2). exists lost. split; [congruence|exact I2].
      - rewrite (items_hidden _ E1) in HQ. exists []. cbn. auto. }
    destruct i as [|[|[|i]]]; cbn [firstn steps] in H.
    - apply run_inv_nil in H. destruct H as [-> ->]. exists []. cbn. auto.
    - apply run_inv_cons in H. destruct H as (p1 & outs1 & s2 & -> & H1 & H). apply run_inv_nil in H. destruct H as [-> ->]. eapply ST; eassumption.
    - apply run_inv_cons in H. destruct H as (p1 & outs1 & s2 & -> & H1 & H). apply run_inv_cons in H. destruct H as (p2 & outs2 & s3 & -> & H2 & H).
      apply run_inv_nil in H. destruct H as [-> ->]. apply peek_inv in H2. subst s3. eapply ST; eassumption.
    - assert (H': run k sum s (steps Get) outs s1) by (cbn [steps]; destruct i; exact H). clear H.
      destruct (get_inv _ _ _ HR H') as [(r & b & skip & x & l & -> & E1 & E2 & E3 & HR' & HU & HG' & HP)|(e & e' & -> & E1 & HR' & HU & HG' & HP)].
      + rewrite E1, items_app, (items_hidden skip E2), (items_shown _ _ E3) in HQ. rewrite HU. exists [(e_done x, e_data x)]. cbn in *. auto.
      + rewrite (items_hidden _ E1) in HQ. rewrite HU. exists []. cbn. auto. }
  destruct C7 as [(-> & C7 & C8 & C9)|[(-> & out1 & s3 & C7 & C8)|(-> & skip & u & u' & C7 & C8 & C9 & C10 & C11)] ]; rewrite (EA _ eq_refl).
  - rewrite C7. apply D_destroyed; assumption.
  - rewrite C8. assert (P3: exists lost, q = lost ++ items (q_unread s3) /\ (length lost <= 1)%nat).
    { destruct (Nat.lt_ge_cases i 3) as [Hi|Hi].
      - eapply (PG (S i)). rewrite (firstn_nth _ _ i NPeek) by exact Hi. eapply run_one; eassumption.
      - assert (En: nth i (steps Get) NPeek = NPeek) by (apply nth_overflow; exact Hi). rewrite En in C7. apply peek_inv in C7. subst s3. eapply PG; eassumption. }
    destruct P3 as (lost & D1 & D2). eapply D_crash_get; eassumption.
  - rewrite C11. destruct i as [|i].
    + cbn [firstn] in H1. apply run_inv_nil in H1. destruct H1 as [-> ->]. rewrite C7, items_app, (items_hidden skip C8) in HQ. cbn [app] in HQ.
      destruct C10 as [->|(C10 & e & e' & r & -> & -> & T)].
      * eapply (D_crash_get _ _ _ _ _ []); [cbn; congruence|cbn; lia].
      * destruct HE as [E _]. rewrite C7 in E. apply Forall_app in E. destruct E as [E _]. apply Forall_app in E. destruct E as [_ E]. inv E.
        destruct (items_torn e e' r) as (lost & I1 & I2); [assumption..|]. eapply D_crash_get; eassumption.
    + assert (NP: ~ passing (nth (S i) (steps Get) NPeek) /\ ~ clearing k (nth (S i) (steps Get) NPeek)) by (destruct i as [|[|[|i]]]; cbn; auto).
      destruct NP as [NP NC]. assert (skip = []) by (destruct skip; [reflexivity|]; exfalso; apply NP, C9; discriminate). subst skip. cbn [app] in C7.
      destruct C10 as [->|(C10 & _)]; [|contradiction]. rewrite <- C7. destruct (PG _ _ _ H1) as (lost & D1 & D2). eapply D_crash_get; eassumption.
Qed.

Lemma event_durable : forall s q e outs s', safe s q -> run k sum s (script e) outs s' ->
  exists q', durable k sum q e (answer_of e outs) q' /\ safe s' q'.
Proof.
  intros s q e outs s' HS H. destruct e as [ [d|] | |[d|] i j].
  - pose proof HS as (HR & HE & HQ). assert (HE': entries_ok sum s') by (eapply run_entries; eassumption). cbn [script] in H.
    destruct (put_inv _ _ _ _ HR H) as [(r & s1 & i & -> & F & RF & HR' & HU & HG' & HP)|(e & e' & -> & -> & Why)].
    + exists (items (q_unread s')). split; [|unfold safe; auto]. destruct RF as (_ & _ & lost & _ & _ & Q3 & Q4 & _ & Q6 & _).
      rewrite HU, !items_app. rewrite (items_shown (mkEntry i d (sum d) true)) by (intros _; reflexivity). rewrite Q3, items_app in HQ.
      apply (D_put k sum q d (items lost)); [auto| |].
      * intros HB. rewrite (Q4 HB). reflexivity.
      * destruct HE as [E G]. apply Forall_app in E. destruct E as [_ E]. apply items_gone; destruct Q6 as [->|[_ ->] ]; auto.
    + exists q. split; [|exact HS]. apply D_refused. destruct Why as [Why|[Why _] ]; auto.
  - pose proof HS as (HR & HE & HQ). assert (HE': entries_ok sum s') by (eapply run_entries; eassumption). cbn [script] in H.
    exists (items (q_unread s')). destruct (get_inv _ _ _ HR H) as [(r & b & skip & x & l & -> & E1 & E2 & E3 & HR' & HU & HG' & HP)|(e & e' & -> & E1 & HR' & HU & HG' & HP)].
    + split; [|unfold safe; auto]. rewrite E1, items_app, (items_hidden skip E2), (items_shown _ _ E3) in HQ. rewrite HU. cbn [app] in HQ. apply (D_get k sum q (e_done x, e_data x)). auto.
    + split; [|unfold safe; auto]. rewrite (items_hidden _ E1) in HQ. rewrite HU. cbn. subst q. apply D_nothing. reflexivity.
  - pose proof HS as (HR & HE & HQ). assert (HE': entries_ok sum s') by (eapply run_entries; eassumption). cbn [script] in H.
    apply run_inv_cons in H. destruct H as (o1 & outs1 & s1 & -> & H1 & H). inv H1.
    apply attach_inv in H; try reflexivity. destruct H as (-> & HR' & HU & HG' & HP). rewrite reopened_unread in HU.
    exists (items (q_unread s)). split; [apply D_restart|]. unfold safe. rewrite HU. auto.
  - eapply crash_put; eassumption.
  - eapply crash_get; eassumption.
Qed.
End Checked.
End Spec.

(** * The buffer *)
Section Buffer.
Variable rcrc : list Z -> Z.
Variable hcrc : Z -> option Z -> option Z -> option Z -> Z.
Local Notation rel := (rel rcrc hcrc).
Local Notation sum := (record_sum rcrc).
Local Notation client := (client rcrc hcrc).

Lemma script_ok : forall e, event_ok e -> Forall nop_ok (script e).
Proof.
  intros e H. assert (SO: forall c, call_ok c -> Forall nop_ok (steps c)).
  { intros c Hc. destruct c; cbn in *; repeat constructor; cbn; auto; lia. }
  destruct e as [c| |c i j]; cbn in *; auto.
  - repeat constructor; cbn; auto.
  - apply Forall_app. specialize (SO c H). split.
    + rewrite Forall_forall in *. intros x Hx. apply SO. rewrite <- (firstn_skipn i). apply in_or_app. left. exact Hx.
    + constructor; [|repeat constructor; cbn; auto]. cbn. rewrite Forall_forall in SO. destruct (nth_in_or_default i (steps c) NPeek) as [Hn| ->]; [apply SO; exact Hn|exact Logic.I].
Qed.
Lemma script_no_cursor : forall e, Forall (fun o => o <> NRegisterCursor) (script e).
Proof.
  intros e. assert (SO: forall c, Forall (fun o => o <> NRegisterCursor) (steps c)) by (intros [d|]; repeat constructor; discriminate).
  destruct e as [c| |c i j]; cbn; auto.
  - repeat constructor; discriminate.
  - apply Forall_app. split; [|repeat constructor; discriminate]. specialize (SO c). rewrite Forall_forall in *. intros x Hx. apply SO. rewrite <- (firstn_skipn i). apply in_or_app. left. exact Hx.
Qed.
Lemma run_no_cursor : forall k s l outs s', run k sum s l outs s' -> Forall (fun o => o <> NRegisterCursor) l -> no_cursor s -> no_cursor s'.
Proof. intros k s l outs s' H. induction H; intros F N; [exact N|]. inv F. apply IHrun; [assumption|]. eapply step_no_cursor; eassumption. Qed.

Lemma crash_position : forall c i j l1 o' j' l2, firstn i (steps c) ++ NCrash (nth i (steps c) NPeek) j :: attach = l1 ++ NCrash o' j' :: l2 ->
  l1 = firstn i (steps c) /\ o' = nth i (steps c) NPeek /\ j' = j.
Proof.
  intros c i j l1 o' j' l2 H.
  assert (NS: Forall (fun o => forall a b, o <> NCrash a b) (firstn i (steps c))).
  { assert (SO: Forall (fun o => forall a b, o <> NCrash a b) (steps c)) by (destruct c; repeat constructor; discriminate).
    rewrite Forall_forall in *. intros x Hx. apply SO. rewrite <- (firstn_skipn i). apply in_or_app. left. exact Hx. }
  remember (firstn i (steps c)) as p. remember (nth i (steps c) NPeek) as o. clear Heqp Heqo. revert l1 H.
  induction NS as [|x p Hx _ IH]; intros l1 H; cbn in H.
  - destruct l1 as [|y l1]; cbn in H; [inv H; auto|]. injection H as _ H. exfalso. unfold attach in H.
    destruct l1 as [|y1 l1]; [discriminate|]. destruct l1 as [|y2 l1]; [discriminate|]. destruct l1; discriminate.
  - destruct l1 as [|y l1]; cbn in H; [inv H; exfalso; eapply Hx; reflexivity|]. inv H. destruct (IH _ H2) as (-> & E). auto.
Qed.

Lemma event_sim : forall k n s U D e, rel k n s U D -> no_cursor s -> event_ok e ->
  unlucky rcrc hcrc n e \/
  exists s' U' D', run k sum s (script e) (snd (n_run rcrc hcrc n (script e))) s' /\ rel k (fst (n_run rcrc hcrc n (script e))) s' U' D' /\ no_cursor s'.
Proof.
  intros k n s U D e R N He. destruct (sim_run rcrc hcrc (script e) k n s U D R (script_ok e He)) as [(s' & U' & D' & H1 & H2)|(l1 & o & l2 & s1 & U1 & D1 & E & H1 & H2 & T)].
  - right. exists s', U', D'. split; [exact H1|]. split; [exact H2|]. eapply run_no_cursor; [exact H1|apply script_no_cursor|exact N].
  - left. pose proof (script_no_cursor e) as NC. rewrite E in NC. apply Forall_app in NC. destruct NC as [NC1 NC2]. inv NC2.
    assert (N1: no_cursor s1) by (eapply run_no_cursor; eassumption).
    destruct T as [ [_ M]|(o' & j & -> & Un)].
    + destruct o; try contradiction; try congruence. destruct M as [m M]. exfalso. eapply N1. exact M.
    + destruct e as [c| |c i j'].
      * exfalso. cbn [script] in E. destruct c as [d|]; cbn [steps] in E; destruct l1 as [|x1 [|x2 [|x3 [|x4 l1]]]]; discriminate.
      * exfalso. cbn [script attach] in E. destruct l1 as [|x1 [|x2 [|x3 [|x4 l1]]]]; discriminate.
      * cbn [script] in E. apply crash_position in E. destruct E as (-> & -> & ->). exact Un.
Qed.

Lemma client_fifo : forall l k n s U D q, rel k n s U D -> plain k sum s q -> Forall event_ok l -> Forall (fun e => crashes e = false) l ->
  exists q', fifo_run k q l (snd (client n l)) q'.
Proof.
  induction l as [|e l IH]; intros k n s U D q R P Ho Hc.
  - exists q. constructor.
  - inv Ho. inv Hc. assert (N: no_cursor s) by (destruct P as [ (_ & _ & _ & Rd & _) _]; intros m; congruence).
    destruct (event_sim k n s U D e R N) as [Un|(s1 & U1 & D1 & H5 & H6 & H7)]; [assumption|destruct e; try contradiction; discriminate|].
    destruct (event_fifo k sum (sum_of_range rcrc) s q e _ _ P H3 H5) as (q1 & F1 & P1).
    destruct (IH k _ s1 U1 D1 q1 H6 P1) as (q' & F'); [assumption..|]. exists q'. cbn [NonvolatileClient_Spec.client].
    destruct (n_run rcrc hcrc n (script e)) as [n1 outs]. cbn [fst snd] in *. destruct (client n1 l) as [n2 al]. cbn [snd] in *. econstructor; eassumption.
Qed.

Lemma script_no_crash : forall e, crashes e = false -> Forall (fun o => forall o' j, o <> NCrash o' j) (script e).
Proof. intros [ [d|] | | ]; cbn; intros H; try discriminate; repeat constructor; discriminate. Qed.
Lemma event_sim_counted : forall k n s U D e b, rel k n s U D -> no_cursor s -> event_ok e -> crashes e = false ->
  counted (k_extra k) b (c_stats (n_c n)) s ->
  exists s' U' D', run k sum s (script e) (snd (n_run rcrc hcrc n (script e))) s' /\ rel k (fst (n_run rcrc hcrc n (script e))) s' U' D' /\
    counted (k_extra k) b (c_stats (n_c (fst (n_run rcrc hcrc n (script e))))) s'.
Proof.
  intros k n s U D e b R N He Hc C. pose proof (script_no_crash e Hc) as NC.
  destruct (sim_run_counted rcrc hcrc (script e) k n s U D b R (script_ok e He) NC C) as [H|(l1 & o & l2 & s1 & U1 & D1 & E & H1 & H2 & T)]; [exact H|].
  exfalso. pose proof (script_no_cursor e) as NK. rewrite E in NK, NC. apply Forall_app in NK. destruct NK as [NK1 NK2]. inv NK2.
  apply Forall_app in NC. destruct NC as [_ NC]. inv NC.
  assert (N1: no_cursor s1) by (eapply run_no_cursor; eassumption).
  destruct T as [ [_ M]|(o' & j & -> & Un)].
  - destruct o; try contradiction; try congruence. destruct M as [m M]. eapply N1. exact M.
  - match goal with A : forall o'' j'', NCrash _ _ <> _ |- _ => eapply A; reflexivity end.
Qed.

Lemma accepted_cons : forall e l a al, accepted (e :: l) (a :: al) = accepted [e] [a] ++ accepted l al.
Proof. intros e l a al. destruct e as [ [d|] | | ]; cbn; try reflexivity. destruct a; reflexivity. Qed.
Lemma delivered_cons : forall a al, delivered (a :: al) = delivered [a] ++ delivered al.
Proof. intros a al. destruct a; reflexivity. Qed.

Lemma client_balanced : forall l k n s U D q b put got, rel k n s U D -> plain k sum s q -> books s put got -> counted (k_extra k) b (c_stats (n_c n)) s ->
  Forall event_ok l -> Forall (fun e => crashes e = false) l ->
  exists q', fifo_run k q l (snd (client n l)) q' /\
    balanced (k_extra k) b (c_stats (n_c (fst (client n l)))) (put ++ accepted l (snd (client n l))) (got ++ delivered (snd (client n l))) q'.
Proof.
  induction l as [|e l IH]; intros k n s U D q b put got R P B C Ho Hc.
  - exists q. split; [constructor|]. cbn. rewrite !app_nil_r. eapply (books_balance k sum (sum_of_range rcrc)); [exact P|exact B|exact C].
  - inv Ho. inv Hc. assert (N: no_cursor s) by (destruct P as [ (_ & _ & _ & Rd & _) _]; intros m; congruence).
    destruct (event_sim_counted k n s U D e b R N) as (s1 & U1 & D1 & H5 & H6 & H7); [assumption..|].
    destruct (event_fifo k sum (sum_of_range rcrc) s q e _ _ P H3 H5) as (q1 & F1 & P1).
    pose proof (event_books k sum (sum_of_range rcrc) s q e _ _ put got P B H3 H5) as B1.
    destruct (IH k _ s1 U1 D1 q1 b _ _ H6 P1 B1 H7) as (q' & F' & L'); [assumption..|]. exists q'. cbn [NonvolatileClient_Spec.client].
    destruct (n_run rcrc hcrc n (script e)) as [n1 outs]. cbn [fst snd] in *. destruct (client n1 l) as [n2 al]. cbn [fst snd] in *.
    split; [econstructor; eassumption|]. rewrite accepted_cons, delivered_cons, !app_assoc. exact L'.
Qed.

Lemma client_durable : forall l k n s U D q, k_check k = true -> rel k n s U D -> safe sum s q -> Forall event_ok l ->
  (exists q', durable_run k sum q l (snd (client n l)) q') \/
  (exists l1 e l2 q', l = l1 ++ e :: l2 /\ durable_run k sum q l1 (snd (client n l1)) q' /\ unlucky rcrc hcrc (fst (client n l1)) e).
Proof.
  induction l as [|e l IH]; intros k n s U D q Ck R P Ho.
  - left. exists q. constructor.
  - inv Ho. assert (N: no_cursor s) by (destruct P as [ (_ & _ & _ & Rd & _) _]; intros m; congruence).
    destruct (event_sim k n s U D e R N) as [Un|(s1 & U1 & D1 & H5 & H6 & H7)]; [assumption| |].
    { right. exists [], e, l, q. split; [reflexivity|]. split; [constructor|exact Un]. }
    destruct (event_durable k sum (sum_of_range rcrc) Ck _ _ _ _ _ P H5) as (q1 & F1 & P1).
    cbn [NonvolatileClient_Spec.client].
    destruct (IH k _ s1 U1 D1 q1 Ck H6 P1) as [(q' & F')|(l1 & e1 & l2 & q' & -> & F' & Un)]; [assumption| |].
    + left. exists q'. destruct (n_run rcrc hcrc n (script e)) as [n1 outs]. cbn [fst snd] in *. destruct (client n1 l) as [n2 al]. cbn [snd] in *. econstructor; eassumption.
    + right. exists (e :: l1), e1, l2, q'. split; [reflexivity|]. cbn [NonvolatileClient_Spec.client].
      destruct (n_run rcrc hcrc n (script e)) as [n1 outs]. cbn [fst snd] in *. destruct (client n1 l1) as [n2 al]. cbn [fst snd] in *. split; [econstructor; eassumption|exact Un].
Qed.

Lemma created_rel : forall k st n, 0 <= k_cap k < 2147483648 -> created rcrc hcrc k st = Some n ->
  exists s U D, rel k n s U D /\ ready s /\ q_unread s = [] /\ q_gone s = [].
Proof.
  intros k st n Hc H. unfold created in H. destruct (n_open _ _ _ _ _ _ _) as [n0|e|] eqn:E; try discriminate. inv H.
  assert (R0: rel k n0 (queue_init k) [] []).
  { eapply (rel_init rcrc hcrc k st); try reflexivity; [exact Hc|]. unfold n_open in E. cbn in E. replace (k_cap k + header_size - header_size) with (k_cap k) in E by lia.
    unfold fresh_file in E. cbn [fl_nws fl_cws fl_lwe fl_nrs fl_crc fl_mem] in E. rewrite Z.eqb_refl in E. destruct (k_cap k + header_size <? header_size); [discriminate|]. cbn [negb] in E. inv E. reflexivity. }
  destruct (sim_run rcrc hcrc attach k n0 _ _ _ R0) as [(s' & U' & D' & H1 & H2)|(l1 & o & l2 & s1 & U1 & D1 & El & H1 & H2 & T)].
  - repeat constructor; cbn; auto.
  - apply attach_inv in H1; try reflexivity. destruct H1 as (_ & HR & HU & HG & HP). exists s', U', D'. auto.
  - exfalso. destruct T as [ [_ M]|(o' & j & -> & _)].
    + unfold attach in El. destruct l1 as [|x1 [|x2 [|x3 l1]]]; inv El; contradiction.
    + unfold attach in El. destruct l1 as [|x1 [|x2 [|x3 l1]]]; discriminate.
Qed.

Lemma new_fifo : forall k st n l, 0 <= k_cap k < 2147483648 -> created rcrc hcrc k st = Some n ->
  Forall event_ok l -> Forall (fun e => crashes e = false) l -> exists q, fifo_run k [] l (snd (client n l)) q.
Proof.
  intros k st n l Hc H Ho Hl. destruct (created_rel k st n Hc H) as (s & U & D & R & HR & HU & HG). eapply client_fifo; try eassumption.
  unfold plain. rewrite HU. splits; auto.
Qed.
Lemma new_balanced : forall k st n l, 0 <= k_cap k < 2147483648 -> created rcrc hcrc k st = Some n ->
  Forall event_ok l -> Forall (fun e => crashes e = false) l ->
  exists q, fifo_run k [] l (snd (client n l)) q /\
    balanced (k_extra k) st (c_stats (n_c (fst (client n l)))) (accepted l (snd (client n l))) (delivered (snd (client n l))) q.
Proof.
  intros k st n l Hc H Ho Hl. unfold created in H. destruct (n_open _ _ _ _ _ _ _) as [n0|e|] eqn:E; try discriminate. inv H.
  assert (R0: rel k n0 (queue_init k) [] [] /\ c_stats (n_c n0) = st).
  { unfold n_open in E. cbn in E. replace (k_cap k + header_size - header_size) with (k_cap k) in E by lia.
    unfold fresh_file in E. cbn [fl_nws fl_cws fl_lwe fl_nrs fl_crc fl_mem] in E. rewrite Z.eqb_refl in E. destruct (k_cap k + header_size <? header_size); [discriminate|].
    cbn [negb] in E. inv E. split; [|reflexivity]. eapply (rel_init rcrc hcrc k st); try reflexivity. exact Hc. }
  destruct R0 as [R0 Es].
  assert (C0: counted (k_extra k) st (c_stats (n_c n0)) (queue_init k)) by (rewrite Es; constructor; cbn; lia).
  destruct (sim_run_counted rcrc hcrc attach k n0 _ _ _ st R0) as [(s & U & D & H1 & H2 & H3)|(l1 & o & l2 & s1 & U1 & D1 & El & H1 & H2 & T)]; auto.
  - repeat constructor; cbn; auto.
  - repeat constructor; discriminate.
  - apply attach_inv in H1; try reflexivity. destruct H1 as (_ & HR & HU & HG & HP). cbn in HU, HG, HP.
    apply (client_balanced l k _ s U D [] st [] [] H2); auto.
    + unfold plain. rewrite HU. splits; auto.
    + unfold books. rewrite HU, HP. cbn. auto.
  - exfalso. destruct T as [ [_ M]|(o' & j & -> & _)].
    + unfold attach in El. destruct l1 as [|x1 [|x2 [|x3 l1]]]; inv El; contradiction.
    + unfold attach in El. destruct l1 as [|x1 [|x2 [|x3 l1]]]; discriminate.
Qed.
Lemma new_durable : forall k st n l, 0 <= k_cap k < 2147483648 -> k_check k = true -> created rcrc hcrc k st = Some n -> Forall event_ok l ->
  (exists q, durable_run k sum [] l (snd (client n l)) q) \/
  (exists l1 e l2 q, l = l1 ++ e :: l2 /\ durable_run k sum [] l1 (snd (client n l1)) q /\ unlucky rcrc hcrc (fst (client n l1)) e).
Proof.
  intros k st n l Hc Ck H Ho. destruct (created_rel k st n Hc H) as (s & U & D & R & HR & HU & HG). eapply client_durable; try eassumption.
  unfold safe, entries_ok. rewrite HU, HG. splits; auto; constructor.
Qed.

(** * Consequences for whole histories *)
Lemma fifo_exact : forall k q l al q', fifo_run k q l al q' -> k_ow k = OBlock -> q ++ accepted l al = delivered al ++ q'.
Proof.
  intros k q l al q' H Ow. induction H as [q|q e a q1 l al q' S _ IH]; [cbn; rewrite app_nil_r; reflexivity|].
  inv S; cbn [accepted delivered app]; rewrite <- IH; auto.
  rewrite (H1 Ow). cbn. rewrite <- app_assoc. reflexivity.
Qed.
Lemma sublist_refl : forall (A : Type) (l : list A), sublist l l.
Proof. induction l; constructor; assumption. Qed.
Lemma sublist_nil : forall (A : Type) (l : list A), sublist [] l.
Proof. induction l; constructor; assumption. Qed.
Lemma sublist_app : forall (A : Type) (a b c d : list A), sublist a b -> sublist c d -> sublist (a ++ c) (b ++ d).
Proof. intros A a b c d H. revert c d. induction H; intros c d Hc; cbn; [exact Hc|constructor; auto|constructor; auto]. Qed.
Lemma sublist_drop : forall (A : Type) (p a b : list A), sublist a b -> sublist a (p ++ b).
Proof. intros A p a b H. induction p; cbn; [exact H|constructor; assumption]. Qed.
Lemma sublist_trans : forall (A : Type) (b c : list A), sublist b c -> forall a, sublist a b -> sublist a c.
Proof.
  intros A b c H. induction H; intros a0 Ha.
  - exact Ha.
  - inv Ha; [apply sub_keep|apply sub_drop]; auto.
  - apply sub_drop. auto.
Qed.
Lemma sublist_cons_l : forall (A : Type) (x : A) a b, sublist (x :: a) b -> sublist a b.
Proof. intros A x a b H. eapply sublist_trans; [exact H|]. apply sub_drop, sublist_refl. Qed.
Lemma sublist_app_l : forall (A : Type) (p a b : list A), sublist (p ++ a) b -> sublist a b.
Proof. intros A p. induction p as [|x p IH]; intros a b H; [exact H|]. apply IH. eapply sublist_cons_l. exact H. Qed.
Lemma fifo_sublist : forall k q l al q', fifo_run k q l al q' -> sublist (delivered al ++ q') (q ++ accepted l al).
Proof.
  intros k q l al q' H. induction H as [q|q e a q1 l al q' S _ IH]; [cbn; rewrite app_nil_r; apply sublist_refl|].
  inv S; cbn [accepted delivered app]; auto.
  - rewrite <- app_assoc in IH. rewrite <- app_assoc. apply sublist_drop. exact IH.
  - apply sub_keep. exact IH.
Qed.

(** Everything delivered was offered, in that order, each record at most once; except bytes with checksum 0. *)
Definition solid (sum : list Z -> Z) (d : list Z) : bool := negb (sum d =? 0).
Lemma durable_sublist : forall k sum q l al q', durable_run k sum q l al q' -> Forall (fun x => fst x = false -> sum (snd x) = 0) q ->
  sublist (filter (solid sum) (delivered al ++ map snd q')) (filter (solid sum) (map snd q) ++ offered l).
Proof.
  intros k sum0 q l al q' H.
  assert (SF: forall (A : Type) (f : A -> bool) (l : list A), sublist (filter f l) l) by (intros A f l0; induction l0; cbn; [constructor|destruct (f a); constructor; assumption]).
  assert (LN: forall left_, Forall (leftover sum0) left_ -> filter (solid sum0) (map snd left_) = []).
  { intros left_ F. induction F as [|x left_ [_ Hx] _ IH]; [reflexivity|]. cbn. unfold solid at 1. rewrite Hx. exact IH. }
  assert (LF: forall left_, Forall (leftover sum0) left_ -> Forall (fun x => fst x = false -> sum0 (snd x) = 0) left_)
    by (intros left_ F; eapply Forall_impl; [|exact F]; intros x [_ Hx] _; exact Hx).
  induction H as [q|q e a q1 l al q' S _ IH]; intros F.
  - cbn. rewrite app_nil_r. apply sublist_refl.
  - inv S; cbn [offered delivered app]; auto.
    + remember (filter (solid sum0) (delivered al ++ map snd q')) as X eqn:EX; clear EX. apply Forall_app in F. destruct F as [F1 F2]. specialize (IH ltac:(apply Forall_app; split; [exact F2|apply Forall_app; split; [apply LF; assumption|constructor; [discriminate|constructor] ] ])).
      rewrite !map_app, !filter_app, (LN left_) in IH by assumption. rewrite map_app, filter_app, <- app_assoc. apply sublist_drop. cbn [app] in IH.
      rewrite <- app_assoc in IH. eapply sublist_trans; [|exact IH]. apply sublist_app; [apply sublist_refl|]. cbn. destruct (solid sum0 d); [apply sublist_refl|apply sub_drop, sublist_refl].
    + rewrite <- ?app_assoc. eapply sublist_trans; [|apply IH; exact F]. apply sublist_app; [apply sublist_refl|]. apply sub_drop, sublist_refl.
    + inv F. cbn. destruct (solid sum0 (snd x)) eqn:Es; [apply sub_keep|]; auto.
    + remember (filter (solid sum0) (delivered al ++ map snd q')) as X eqn:EX; clear EX. apply Forall_app in F. destruct F as [F1 F2]. rewrite map_app, filter_app, <- app_assoc. apply sublist_drop. destruct H1 as [->|(_ & left_ & H3 & ->)].
      * eapply sublist_trans; [|apply IH; exact F2]. apply sublist_app; [apply sublist_refl|]. apply sub_drop, sublist_refl.
      * specialize (IH ltac:(apply Forall_app; split; [exact F2|apply Forall_app; split; [apply LF; assumption|constructor; [discriminate|constructor] ] ])).
        rewrite !map_app, !filter_app, (LN left_) in IH by assumption. cbn [app] in IH.
        rewrite <- app_assoc in IH. eapply sublist_trans; [|exact IH]. apply sublist_app; [apply sublist_refl|]. cbn. destruct (solid sum0 d); [apply sublist_refl|apply sub_drop, sublist_refl].
    + remember (filter (solid sum0) (delivered al ++ map snd q')) as X eqn:EX; clear EX. apply Forall_app in F. destruct F as [F1 F2]. rewrite map_app, filter_app, <- app_assoc. apply sublist_drop. auto.
    + specialize (IH ltac:(constructor)). cbn [map filter app] in IH. eapply sublist_trans; [|exact IH]. apply sublist_drop. destruct c; [apply sub_drop|]; apply sublist_refl.
Qed.

(** In a non-overwriting buffer whose file was never found damaged, a crash in a [get] loses at most the record being read, nothing else is lost. *)
Definition get_crash (e : event) : bool := match e with CrashIn Get _ _ => true | _ => false end.
Lemma durable_keeps : forall k sum q l al q', durable_run k sum q l al q' -> k_ow k = OBlock -> ~ In (Started true) al ->
  exists gone, sublist (map snd q ++ accepted l al) (gone ++ map snd q') /\ sublist (delivered al) gone /\
    (length gone <= length (delivered al) + length (filter get_crash l))%nat.
Proof.
  intros k sum0 q l al q' H Ow. induction H as [q|q e a q1 l al q' S _ IH]; intros N.
  - exists []. cbn. rewrite app_nil_r. splits; [apply sublist_refl|constructor|lia].
  - destruct IH as (gone & I1 & I2 & I3); [intros X; apply N; right; exact X|]. inv S; cbn [accepted delivered app].
    + assert (lost = []) by auto. subst lost. cbn. exists gone. splits; auto. rewrite !map_app in I1. eapply sublist_trans; [exact I1|]. rewrite <- app_assoc. apply sublist_app; [apply sublist_refl|].
      rewrite <- app_assoc. apply sublist_drop. apply sublist_refl.
    + exists gone. auto.
    + exists (snd x :: gone). cbn [filter get_crash length app map]. splits; [|apply sub_keep; exact I2|lia]. apply sub_keep. exact I1.
    + exists gone. auto.
    + exists gone. auto.
    + assert (lost = []) by auto. subst lost. cbn [app] in *. exists gone. splits; auto. eapply sublist_trans; [exact I1|]. apply sublist_app; [|apply sublist_refl].
      match goal with A : _ = kept \/ _ |- _ => destruct A as [->|(_ & left_ & _ & ->)] end; [apply sublist_refl|]. rewrite map_app. rewrite <- (app_nil_r (map snd kept)) at 1. apply sublist_app; [apply sublist_refl|apply sublist_nil].
    + exists (map snd lost ++ gone). cbn [filter get_crash]. rewrite map_app, app_length, map_length, <- !app_assoc. cbn [length]. splits; [|apply sublist_drop; exact I2|lia].
      apply sublist_app; [apply sublist_refl|exact I1].
    + exfalso. apply N. left. reflexivity.
Qed.

(** * Cursors *)
Definition cready (k : config) (s : queue) (q : list (list Z)) (r : nat) : Prop :=
  k_ow k = OBlock /\ k_hold k = false /\ q_slot s = None /\ q_prod s = true /\ q_wait s = None /\ q_reader s = Cursor r /\ q_sync s = true /\ q_locks s = 0 /\ q_shut s = false /\
  q_gone s = [] /\ Forall (shown k sum) (q_unread s) /\ map e_data (q_unread s) = q.

Lemma cput_inv : forall k s q r d outs s', cready k s q r -> run k sum s (steps (Put d)) outs s' ->
  exists q', cursor_step k q r (CCall (CPut d)) (canswer_of (CCall (CPut d)) outs) q' r /\ cready k s' q' r.
Proof.
  intros k s q r d outs s' CR H. pose proof CR as (Ow & Hh & Q & P & W & R & Sy & L & Sh & G & HS & HQ). cbn [steps] in H.
  apply run_inv_cons in H. destruct H as (o1 & outs1 & s1 & -> & H1 & H). apply run_inv_cons in H. destruct H as (o2 & outs2 & s2 & -> & H2 & H).
  apply run_inv_cons in H. destruct H as (o3 & outs3 & s3 & -> & H3 & H). apply run_inv_nil in H. destruct H as [-> ->].
  assert (BAD: forall e, o1 = NRange (Err e) -> s1 = s -> (~ fits k d \/ short_of_room k (q_unread s ++ q_gone s) (Z.of_nat (length d))) ->
    exists q', cursor_step k q r (CCall (CPut d)) (canswer_of (CCall (CPut d)) [o1; o2; o3]) q' r /\ cready k s3 q' r).
  { intros e -> -> Why. inv H2; try congruence; try (exfalso; match goal with A : ~ idle _ |- _ => apply A end; split; assumption).
    inv H3; try congruence; try (exfalso; match goal with A : ~ idle _ |- _ => apply A end; split; assumption).
    exists (map e_data (q_unread s3)). split; [|unfold cready; splits; auto]. cbn. destruct Why as [Why|Why]; [apply H_unfit; exact Why|apply H_full].
    rewrite G, app_nil_r in Why. destruct Why as [N2 Why]. split; [intros E2; apply N2; apply map_eq_nil in E2; exact E2|exact Why]. }
  inv H1; try congruence; try (rewrite L in *; lia); try (exfalso; match goal with A : ~ idle _ |- _ => apply A end; split; assumption).
  - match goal with A : attempt _ _ _ _ _ _ _ |- _ => inv A end; try congruence.
    + assert (lost = []) by auto. subst lost. cbn [app map] in *. subst kept.
      set (s0 := leave [] (q_unread s) s) in *.
      assert (E: q_unread s0 = q_unread s /\ q_gone s0 = [] /\ q_prod s0 = true /\ q_reader s0 = q_reader s /\ q_sync s0 = q_sync s /\ q_locks s0 = q_locks s /\ q_shut s0 = q_shut s)
        by (unfold s0, leave; destruct (q_unread s) eqn:Eu; cbn; auto 10).
      destruct E as (E1 & E2 & E3 & E4 & E5 & E6 & E7). clearbody s0.
      apply (write_inv k sum _ _ (q_next s0) init) in H2; [|split; [exact E3|reflexivity]|reflexivity|lia]. destruct H2 as [-> ->].
      apply (commit_inv k sum _ (q_next s0) d) in H3; [|split; [exact E3|reflexivity]|reflexivity]. destruct H3 as [-> ->].
      cbn. rewrite E1, E2. cbn [app]. exists (map e_data (q_unread s) ++ [d]). split.
      * apply H_put. split; [|assumption]. intros ->. cbn in *. lia.
      * unfold cready. cbn. rewrite E3, E4, E5, E6, E7. splits; auto.
        -- apply Forall_app. split; [exact HS|]. constructor; [intros _; reflexivity|constructor].
        -- rewrite map_app. reflexivity.
    + eapply BAD; [reflexivity| |right; assumption]. unfold set_qwait. destruct s; cbn in *; subst; reflexivity.
    + eapply BAD; [reflexivity| |right; assumption]. unfold set_qwait. destruct s; cbn in *; subst; reflexivity.
  - eapply BAD; [reflexivity|reflexivity|left]. intros [F1 F2]. match goal with A : _ \/ _ |- _ => destruct A; [|lia] end. destruct d; [auto|]. cbn in *. lia.
Qed.

Lemma cevent_inv : forall k s q r e outs s', cready k s q r -> run k sum s (cscript e) outs s' ->
  exists q' r', cursor_step k q r e (canswer_of e outs) q' r' /\ cready k s' q' r'.
Proof.
  intros k s q r e outs s' CR H. pose proof CR as (Ow & Hh & Q & P & W & R & Sy & L & Sh & G & HS & HQ). destruct e as [ [d| |]|]; cbn [cscript] in H.
  - destruct (cput_inv _ _ _ _ _ _ _ CR H) as (q' & H1 & H2). eauto.
  - apply run_inv_cons in H. destruct H as (o1 & outs1 & s1 & -> & H1 & H). apply run_inv_cons in H. destruct H as (o2 & outs2 & s2 & -> & H2 & H).
    apply run_inv_nil in H. destruct H as [-> ->]. inv H1; try congruence.
    + match goal with A : q_reader ?z = Cursor ?a, B : q_reader ?z = Cursor ?b |- _ => rewrite A in B; inv B end.
      inv H2; cbn in *; try congruence; try (exfalso; match goal with A : ~ (S _ <> 0%nat) |- _ => apply A; discriminate end).
      match goal with A : Cursor _ = Cursor _ |- _ => inv A end. match goal with A : nth_error ?l ?i = Some ?x, B : nth_error ?l ?i = Some ?y |- _ => rewrite A in B; inv B end.
      exists (map e_data (q_unread s)), (S n0). split; [|unfold cready; cbn; splits; auto]. apply H_read. rewrite nth_error_map.
      match goal with A : nth_error _ _ = Some _ |- _ => rewrite A end. reflexivity.
    + match goal with A : q_reader ?z = Cursor ?a, B : q_reader ?z = Cursor ?b |- _ => rewrite A in B; inv B end.
      pose proof (peek_bytes _ _ _ _ _ H2) as [b ->]. apply peek_inv in H2. subst s2. exists (map e_data (q_unread s1)), n. split; [|unfold cready; splits; auto].
       cbn. apply H_nothing. rewrite nth_error_map. match goal with A : nth_error _ _ = None |- _ => rewrite A end. reflexivity.
  - apply run_inv_cons in H. destruct H as (o1 & outs1 & s1 & -> & H1 & H). apply run_inv_nil in H. destruct H as [-> ->]. inv H1; try congruence.
    + match goal with A : q_reader ?z = Cursor ?a, B : q_reader ?z = Cursor ?b |- _ => rewrite A in B; inv B end. match goal with A : q_unread s = _ |- _ => rewrite A in * end.
      exists (map e_data l), n. split; [eapply H_release; reflexivity|]. inv HS. unfold cready, leave. destruct l; cbn; splits; auto.
    + match goal with A : q_reader ?z = Cursor ?a, B : q_reader ?z = Cursor ?b |- _ => rewrite A in B; inv B end. exists (map e_data (q_unread s1)), 0%nat. split; [apply H_none; reflexivity|unfold cready; splits; auto].
  - apply run_inv_cons in H. destruct H as (o1 & outs1 & s1 & -> & H1 & H). apply run_inv_cons in H. destruct H as (o2 & outs2 & s2 & -> & H2 & H).
    apply run_inv_cons in H. destruct H as (o3 & outs3 & s3 & -> & H3 & H). apply run_inv_nil in H. destruct H as [-> ->].
    inv H1. assert (b = true) by (match goal with A : b = true <-> _ |- _ => apply A end; unfold cursor_usable, abandon; rewrite Q; auto). subst b.
    inv H2; cbn in *; try congruence. inv H3; cbn in *; try congruence.
    exists (map e_data (q_unread s)), 0%nat. split; [apply H_restart|]. unfold cready, reopened, abandon. rewrite Q. cbn. splits; auto.
Qed.

Lemma cscript_ok : forall e, cevent_ok e -> Forall nop_ok (cscript e).
Proof. intros e H. destruct e as [ [d| |]|]; cbn in *; repeat constructor; cbn; auto; lia. Qed.

Lemma cclient_run : forall l k n s U D q r, rel k n s U D -> cready k s q r -> Forall cevent_ok l ->
  exists q' r', cursor_run k q r l (snd (cclient rcrc hcrc n l)) q' r'.
Proof.
  induction l as [|e l IH]; intros k n s U D q r R C Ho.
  - exists q, r. constructor.
  - inv Ho. destruct (sim_run rcrc hcrc (cscript e) k n s U D R (cscript_ok e H1)) as [(s1 & U1 & D1 & H3 & H4)|(l1 & o & l2 & s1 & U1 & D1 & E & H3 & H4 & T)].
    + destruct (cevent_inv _ _ _ _ _ _ _ C H3) as (q1 & r1 & F1 & C1). destruct (IH k _ s1 U1 D1 q1 r1 H4 C1 H2) as (q' & r' & F'). exists q', r'. cbn [cclient].
      destruct (n_run rcrc hcrc n (cscript e)) as [n1 outs]. cbn [fst snd] in *. destruct (cclient rcrc hcrc n1 l) as [n2 al]. cbn [snd] in *. econstructor; eassumption.
    + exfalso. pose proof C as (Ow & Hh & Q & P & W & Rd & Sy & L & Sh & G & HS & HQ).
      destruct T as [ [M1 M2]|(o' & j & -> & _)].
      * destruct e as [ [d| |]|]; cbn [cscript steps] in E; destruct l1 as [|x1 [|x2 [|x3 [|x4 l1]]]]; inv E; try contradiction.
        -- apply run_inv_nil in H3. destruct H3 as [_ ->]. congruence.
        -- apply run_inv_cons in H3. destruct H3 as (o1 & outs1 & s2 & _ & H5 & H3). apply run_inv_cons in H3. destruct H3 as (o2 & outs2 & s3 & _ & H6 & H3). apply run_inv_nil in H3. destruct H3 as [_ ->].
           inv H5. assert (b = true) by (match goal with A : b = true <-> _ |- _ => apply A end; unfold cursor_usable, abandon; rewrite Q; auto). subst b. inv H6; cbn in *; congruence.
      * destruct e as [ [d| |]|]; cbn [cscript steps] in E; destruct l1 as [|x1 [|x2 [|x3 [|x4 l1]]]]; discriminate.
Qed.

Lemma new_cursor_client : forall k st n l, 0 <= k_cap k < 2147483648 -> k_ow k = OBlock -> k_hold k = false -> ccreated rcrc hcrc k st = Some n -> Forall cevent_ok l ->
  exists q r, cursor_run k [] 0 l (snd (cclient rcrc hcrc n l)) q r.
Proof.
  intros k st n l Hc Ow Hh H Ho. unfold ccreated in H. destruct (n_open _ _ _ _ _ _ _) as [n0|e|] eqn:E; try discriminate. inv H.
  assert (R0: rel k n0 (queue_init k) [] []).
  { eapply (rel_init rcrc hcrc k st); try reflexivity; [exact Hc|]. unfold n_open in E. cbn in E. replace (k_cap k + header_size - header_size) with (k_cap k) in E by lia.
    unfold fresh_file in E. cbn [fl_nws fl_cws fl_lwe fl_nrs fl_crc fl_mem] in E. rewrite Z.eqb_refl in E. destruct (k_cap k + header_size <? header_size); [discriminate|]. cbn [negb] in E. inv E. reflexivity. }
  destruct (sim_run rcrc hcrc [NRegisterProducer; NRegisterCursor] k n0 _ _ _ R0) as [(s & U & D & H3 & H4)|(l1 & o & l2 & s1 & U1 & D1 & El & H3 & H4 & T)].
  - repeat constructor; cbn; auto.
  - eapply cclient_run; [exact H4| |exact Ho]. apply run_inv_cons in H3. destruct H3 as (o1 & outs1 & s2 & _ & H5 & H3). apply run_inv_cons in H3. destruct H3 as (o2 & outs2 & s3 & _ & H6 & H3).
    apply run_inv_nil in H3. destruct H3 as [_ ->]. inv H5; cbn in *; try congruence. inv H6; cbn in *; try congruence. unfold cready. cbn. rewrite Ow. splits; auto.
  - exfalso. destruct T as [ [M1 M2]|(o' & j & -> & _)].
    + destruct l1 as [|x1 [|x2 [|x3 l1]]]; inv El; try contradiction. apply run_inv_cons in H3. destruct H3 as (o1 & outs1 & s2 & _ & H5 & H3). apply run_inv_nil in H3. destruct H3 as [_ ->].
      inv H5; cbn in *; try congruence. rewrite Ow in M1. discriminate.
    + destruct l1 as [|x1 [|x2 [|x3 l1]]]; discriminate.
Qed.
End Buffer.

Section Histories.
Variable rcrc : list Z -> Z.
Variable hcrc : Z -> option Z -> option Z -> option Z -> Z.
Local Notation client := (client rcrc hcrc).

Lemma new_exact : forall k st n l, 0 <= k_cap k < 2147483648 -> k_ow k = OBlock -> created rcrc hcrc k st = Some n ->
  Forall event_ok l -> Forall (fun e => crashes e = false) l ->
  exists q, fifo_run k [] l (snd (client n l)) q /\ accepted l (snd (client n l)) = delivered (snd (client n l)) ++ q.
Proof.
  intros k st n l Hc Ow H Ho Hl. destruct (new_fifo rcrc hcrc k st n l Hc H Ho Hl) as (q & F). exists q. split; [exact F|]. apply (fifo_exact _ _ _ _ _ F Ow).
Qed.
Lemma new_lossy : forall k st n l, 0 <= k_cap k < 2147483648 -> created rcrc hcrc k st = Some n ->
  Forall event_ok l -> Forall (fun e => crashes e = false) l ->
  exists q, fifo_run k [] l (snd (client n l)) q /\ sublist (delivered (snd (client n l)) ++ q) (accepted l (snd (client n l))).
Proof.
  intros k st n l Hc H Ho Hl. destruct (new_fifo rcrc hcrc k st n l Hc H Ho Hl) as (q & F). exists q. split; [exact F|]. apply (fifo_sublist _ _ _ _ _ F).
Qed.
Lemma client_app : forall l1 l2 n, snd (client n (l1 ++ l2)) = snd (client n l1) ++ snd (client (fst (client n l1)) l2).
Proof.
  induction l1 as [|e l1 IH]; intros l2 n; [reflexivity|]. cbn [app NonvolatileClient_Spec.client]. destruct (n_run rcrc hcrc n (script e)) as [n1 outs].
  specialize (IH l2 n1). destruct (client n1 (l1 ++ l2)) as [n2 al]. destruct (client n1 l1) as [n3 al3]. cbn [fst snd] in *. rewrite IH. reflexivity.
Qed.
Lemma client_length : forall l n, length (snd (client n l)) = length l.
Proof. induction l as [|e l IH]; intros n; [reflexivity|]. cbn. destruct (n_run rcrc hcrc n (script e)) as [n1 outs]. specialize (IH n1). destruct (client n1 l). cbn in *. congruence. Qed.
Lemma fifo_split : forall k l1 l2 a1 a2 q q', length a1 = length l1 -> fifo_run k q (l1 ++ l2) (a1 ++ a2) q' -> exists q1, fifo_run k q l1 a1 q1 /\ fifo_run k q1 l2 a2 q'.
Proof.
  intros k. induction l1 as [|e l1 IH]; intros l2 a1 a2 q q' L H; destruct a1 as [|a a1]; try discriminate; cbn in H.
  - exists q. split; [constructor|exact H].
  - inv H. destruct (IH l2 a1 a2 q1 q') as (q2 & H1 & H2); [cbn in L; congruence|assumption|]. exists q2. split; [econstructor; eassumption|exact H2].
Qed.
Lemma new_restart : forall k st n l1 l2, 0 <= k_cap k < 2147483648 -> created rcrc hcrc k st = Some n ->
  Forall event_ok (l1 ++ Restart :: l2) -> Forall (fun e => crashes e = false) (l1 ++ Restart :: l2) ->
  exists a1 a2 q q', snd (client n (l1 ++ Restart :: l2)) = a1 ++ Started false :: a2 /\ a1 = snd (client n l1) /\ fifo_run k [] l1 a1 q /\ fifo_run k q l2 a2 q'.
Proof.
  intros k st n l1 l2 Hc H Ho Hl. destruct (new_fifo rcrc hcrc k st n _ Hc H Ho Hl) as (q & F). rewrite client_app in *.
  apply fifo_split in F; [|apply client_length]. destruct F as (q1 & F1 & F2). remember (snd (client (fst (client n l1)) (Restart :: l2))) as a eqn:Ea. clear Ea.
  inv F2. match goal with A : fifo _ _ Restart _ _ |- _ => inv A end. exists (snd (client n l1)), al. eexists. exists q. splits; [reflexivity|reflexivity|eassumption|eassumption].
Qed.
Lemma new_crashing : forall k st n l, 0 <= k_cap k < 2147483648 -> k_check k = true -> created rcrc hcrc k st = Some n -> Forall event_ok l ->
  (exists q, durable_run k (record_sum rcrc) [] l (snd (client n l)) q /\
     sublist (filter (fun d => negb (record_sum rcrc d =? 0)) (delivered (snd (client n l)))) (offered l)) \/
  (exists l1 e l2 q, l = l1 ++ e :: l2 /\ durable_run k (record_sum rcrc) [] l1 (snd (client n l1)) q /\ unlucky rcrc hcrc (fst (client n l1)) e).
Proof.
  intros k st n l Hc Ck H Ho. destruct (new_durable rcrc hcrc k st n l Hc Ck H Ho) as [(q & F)|T]; [left|right; exact T]. exists q. split; [exact F|].
  pose proof (durable_sublist _ _ _ _ _ _ F (Forall_nil _)) as Su. cbn [map filter app] in Su. rewrite filter_app in Su. eapply sublist_trans; [exact Su|].
  rewrite <- (app_nil_r (filter (fun d => negb (record_sum rcrc d =? 0)) (delivered (snd (client n l))))). apply sublist_app; [apply sublist_refl|apply sublist_nil].
Qed.
End Histories.
