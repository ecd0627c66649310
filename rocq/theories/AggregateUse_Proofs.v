(** Histories of a new aggregate ring buffer. *)
From Verif Require Import Base Ring_Model Volatile_Model Volatile_Spec Nonvolatile_Model Nonvolatile_Spec Aggregate_Model Aggregate_Spec Aggregate_Proofs.
From Verif Require NonvolatileClient_Spec Volatile_Proofs Nonvolatile_Proofs NonvolatileStores_Proofs NonvolatileQueue_Proofs NonvolatileUse_Proofs.
Open Scope Z_scope.

Section P.
Variable rcrc : list Z -> Z.
Variable hcrc : Z -> option Z -> option Z -> option Z -> Z.
Local Notation sum := (NonvolatileClient_Spec.record_sum rcrc).
Local Notation g_step := (g_step rcrc hcrc).
Local Notation g_run := (g_run rcrc hcrc).
Local Notation thread_step := (thread_step rcrc hcrc).
Local Notation inv_ := (inv_ rcrc hcrc).
Local Notation explains := (explains rcrc).


Lemma new_inv : forall plain mem vsize nsize ow check st g, 0 <= vsize -> nsize - header_size < 2147483648 -> g_new hcrc None mem vsize nsize ow check st = Ok g ->
  inv_ vsize (cfg nsize ow check) plain g fifo_init (queue_init (cfg nsize ow check)) /\ vsize < 4294967296.
Proof.
  intros plain mem vsize nsize ow check st g H1 H2 E. unfold g_new in E. destruct (_ || _) eqn:G; [discriminate|].
  apply orb_false_elim in G. destruct G as [G1 G2]. apply Z.ltb_ge in G1, G2. split; [|lia].
  destruct (n_open hcrc None nsize ow true check st) as [n|e|] eqn:En; inv E.
  assert (R: Nonvolatile_Proofs.rel rcrc hcrc (cfg nsize ow check) n (queue_init (cfg nsize ow check)) [] []).
  { eapply (NonvolatileUse_Proofs.new_rel rcrc hcrc (cfg nsize ow check) st); cbn [cfg k_cap k_ow k_hold k_check]; [lia|]. replace (nsize - header_size + header_size) with nsize by lia. exact En. }
  constructor; cbn [g_v g_n g_pos].
  - split; [|split; [apply Volatile_Proofs.history_init|constructor]]. exists []. apply Volatile_Proofs.rel_init. lia.
  - split; [eauto|]. split; [apply NonvolatileQueue_Proofs.init_order|]. destruct plain; cbn [J].
    + intros m. discriminate.
    + split; [intros HB; cbn in *; rewrite HB; reflexivity|intros _ m; discriminate].
  - reflexivity.
  - constructor.
  - cbn [pos_inv]. splits; reflexivity.
  - constructor; cbn; auto; try discriminate.
Qed.

Lemma kinds : forall l, Forall label_ok l -> one_kind l -> exists plain, Forall (label_fine plain) l.
Proof.
  intros l Ho [H|H]; [exists true|exists false]; rewrite Forall_forall in *; intros x Hx; split; auto; apply H; exact Hx.
Qed.

Lemma new_run : forall mem vsize nsize ow check st g l, 0 <= vsize -> nsize - header_size < 2147483648 -> g_new hcrc None mem vsize nsize ow check st = Ok g ->
  Forall label_ok l -> one_kind l ->
  exists plain s q, explains vsize (cfg nsize ow check) fifo_init (queue_init (cfg nsize ow check)) (snd (g_run g l)) s q /\
    inv_ vsize (cfg nsize ow check) plain (fst (g_run g l)) s q.
Proof.
  intros mem vsize nsize ow check st g l H1 H2 E Ho Hk. destruct (kinds l Ho Hk) as [plain F].
  destruct (new_inv plain _ _ _ _ _ _ _ H1 H2 E) as [I0 Sm].
  destruct (run_inv rcrc hcrc vsize (cfg nsize ow check) eq_refl Sm plain l g _ _ I0 F) as (s & q & X & I1). eauto.
Qed.

Lemma new_records : forall mem vsize nsize ow check st g l, 0 <= vsize -> nsize - header_size < 2147483648 -> g_new hcrc None mem vsize nsize ow check st = Ok g ->
  Forall label_ok l -> one_kind l ->
  exists s q, explains vsize (cfg nsize ow check) fifo_init (queue_init (cfg nsize ow check)) (snd (g_run g l)) s q /\ linked s q.
Proof.
  intros mem vsize nsize ow check st g l H1 H2 E Ho Hk. destruct (new_run _ _ _ _ _ _ _ l H1 H2 E Ho Hk) as (plain & s & q & X & I1).
  exists s, q. split; [exact X|]. eapply inv_linked; exact I1.
Qed.

(** * Records of a non-overwriting buffer reach the consumer *)
Lemma run_app_inv : forall s0 a oa b ob s2 k, length a = length oa -> Nonvolatile_Spec.run k sum s0 (a ++ b) (oa ++ ob) s2 -> exists s1, Nonvolatile_Spec.run k sum s0 a oa s1 /\ Nonvolatile_Spec.run k sum s1 b ob s2.
Proof.
  intros s0 a. revert s0. induction a as [|x a IH]; intros s0 oa b ob s2 k L R; destruct oa as [|y oa]; try discriminate; cbn in R; [exists s0; split; [constructor|exact R]|].
  inv R. destruct (IH s' oa b ob s2 k) as (s1 & A & B); [cbn in L; lia|assumption|]. exists s1. split; [econstructor; eassumption|exact B].
Qed.

Definition keeps (k : config) (q : queue) : Prop :=
  Forall (fun p => fst p = Consumed) (q_past q) /\ q_gone q = [] /\
  (forall x u, q_unread q = x :: u -> Forall (shown k sum) u /\ (q_reader q <> Regular true -> shown k sum x)).

Definition never_dropped (o : nop) : Prop := match o with NDropConsumer | NDropProducer | NCrash _ _ | NReopen => False | _ => True end.

Lemma keeps_step : forall k q o out q', k_ow k = OBlock -> Nonvolatile_Spec.step k sum q o out q' -> never_dropped o -> keeps k q -> keeps k q'.
Proof.
  assert (SH: forall k e, k_check k = false -> shown k sum e) by (intros k e E H; congruence).
  assert (LV: forall fs u q, q_gone q = [] -> q_past (leave fs u q) = q_past q ++ fs /\ q_gone (leave fs u q) = [] /\ q_unread (leave fs u q) = u /\ q_reader (leave fs u q) = q_reader q).
  { intros fs u q G. unfold leave. destruct u; cbn; rewrite G; cbn; rewrite ?app_nil_r; auto. }
  intros k q o out q' Ow St D (K1 & K2 & K3).
  assert (AT: forall size block second out q', attempt k q size block second out q' -> keeps k q').
  { intros size block second out0 q0 A. destruct A; try (split; [exact K1|split; [exact K2|exact K3]]).
    assert (lost = []) by auto. subst lost. cbn [map app] in *. destruct (LV [] kept q K2) as (E1 & E2 & E3 & E4).
    split; [cbn; rewrite E1, app_nil_r; exact K1|]. split; [cbn; exact E2|]. intros x u Hx. cbn in Hx. rewrite E3 in Hx. subst kept. cbn [set_qwait take_slot q_reader]. rewrite E4. apply K3. assumption. }
  assert (Id: keeps k q) by (split; [exact K1|split; [exact K2|exact K3]]).
  destruct St; try contradiction; try exact Id; try (eapply AT; eassumption).
  - destruct (_ && _); exact Id.
  - split; [exact K1|]. split; [reflexivity|]. cbn. rewrite K2. cbn [app]. intros x u Hx. destruct (q_unread q) as [|y r] eqn:U.
    + cbn in Hx. inv Hx. split; [constructor|]. intros _ _. reflexivity.
    + cbn in Hx. inv Hx. destruct (K3 x r eq_refl) as [A B]. split; [apply Forall_app; split; [exact A|repeat constructor; intros _; reflexivity]|exact B].
  - split; [exact K1|]. split; [exact K2|]. intros x u Hx. destruct (K3 x u Hx) as [A B]. split; [exact A|]. intros _. apply B. congruence.
  - split; [exact K1|]. split; [exact K2|]. intros x u Hx. destruct (K3 x u Hx) as [A B]. split; [exact A|]. intros _. apply B. congruence.
  - assert (skip = []). { destruct skip as [|e skip]; [reflexivity|]. exfalso. destruct (K3 _ _ H0) as [_ B]. inv H1. apply H5. apply B. congruence. }
    subst skip. cbn [map app] in *. destruct (LV [] (dim k x :: l) q K2) as (E1 & E2 & E3 & E4).
    split; [cbn; rewrite app_nil_r; exact K1|]. split; [exact K2|]. intros y u Hy. cbn in Hy. inv Hy. destruct (K3 _ _ H0) as [A B]. split; [exact A|]. cbn. congruence.
  - assert (U: q_unread q = []). { destruct (q_unread q) as [|e r] eqn:U; [reflexivity|]. exfalso. destruct (K3 e r eq_refl) as [_ B]. inv H0. apply H3. apply B. congruence. }
    rewrite U. cbn [map]. destruct (LV [] [] q K2) as (E1 & E2 & E3 & E4). split; [rewrite E1, app_nil_r; exact K1|]. split; [exact E2|]. rewrite E3. discriminate.
  - split; [exact K1|]. split; [exact K2|]. intros y u Hy. destruct (K3 y u Hy) as [A B]. split; [exact A|]. intros _. apply B. congruence.
  - destruct (LV [(Consumed, x)] l q K2) as (E1 & E2 & E3 & E4). destruct (K3 x l H0) as [A B].
    split; [cbn; rewrite E1; apply Forall_app; split; [exact K1|repeat constructor]|]. split; [exact E2|]. intros y u Hy. cbn in Hy. rewrite E3 in Hy. subst l. inv A. split; auto.
  - destruct (LV [(Consumed, x)] l q K2) as (E1 & E2 & E3 & E4). destruct (K3 x l H0) as [A B].
    split; [cbn; rewrite E1; apply Forall_app; split; [exact K1|repeat constructor]|]. split; [exact E2|]. intros y u Hy. cbn in Hy. rewrite E3 in Hy. subst l. inv A. split; auto.
Qed.
Lemma keeps_run : forall k q l outs q', k_ow k = OBlock -> Nonvolatile_Spec.run k sum q l outs q' -> Forall never_dropped l -> keeps k q -> keeps k q'.
Proof. intros k q l outs q' Ow R. induction R; intros F K; [exact K|]. inv F. apply IHR; [assumption|]. eapply keeps_step; eassumption. Qed.

Ltac open_calls := repeat match goal with
  | |- context [on_v ?g ?o] => destruct (on_v g o)
  | |- context [on_n rcrc hcrc ?g ?o] => destruct (on_n rcrc hcrc g o)
  | |- context [on_n_signal rcrc hcrc ?g ?o] => destruct (on_n_signal rcrc hcrc g o)
  | |- context [match ?o with OUnit => _ | ORange _ => _ | ORes _ => _ | OBytes _ => _ | OFin _ => _ | OWait _ => _ end] => destruct o
  | |- context [match ?o with Some _ => _ | None => _ end] => destruct o
  | |- context [if ?b then _ else _] => destruct b
  | |- context [match ?o with O => _ | S _ => _ end] => destruct o
  end.
Lemma step_shape : forall g a, kept_label a -> nops (snd (g_step g a)) = [NDropProducer] /\ g_pos g = FExit \/ Forall never_dropped (nops (snd (g_step g a))).
Proof.
  intros g a K. destruct a; cbn [Aggregate_Model.g_step]; try (right; open_calls; cbn; repeat constructor; fail).
  - right. destruct (consumer_call o) eqn:C; [|constructor]. destruct (on_n_signal rcrc hcrc g o). cbn. repeat constructor. destruct o; try discriminate; cbn; auto.
  - right. unfold shutdown_step. destruct (g_shut g); open_calls; cbn; repeat constructor.
  - unfold Aggregate_Model.thread_step. destruct (g_pos g) eqn:P; try (right; open_calls; cbn; repeat constructor; fail).
    left. open_calls. cbn. auto.
Qed.

Lemma keeps_all : forall vcap k plain l g s q, k_ow k = OBlock -> k_hold k = true -> vcap < 4294967296 -> inv_ vcap k plain g s q -> keeps k q -> Forall (label_fine plain) l -> Forall kept_label l ->
  exists s' q', explains vcap k s q (snd (g_run g l)) s' q' /\ inv_ vcap k plain (fst (g_run g l)) s' q' /\ keeps k q'.
Proof.
  intros vcap k plain l. induction l as [|a l IH]; intros g s q Ow Hh Sm H K F Fk; cbn [Aggregate_Model.g_run]; [exists s, q; split; [apply explains_nil|auto]|]. inv F. inv Fk.
  destruct (step_all rcrc hcrc vcap k Hh Sm plain g s q a H ltac:(assumption)) as (s1 & q1 & X1 & G1).
  assert (K1: keeps k q1).
  { destruct (step_shape g a ltac:(assumption)) as [[E P]|E].
    - destruct X1 as [_ R]. rewrite E in R. inv R. match goal with A : Nonvolatile_Spec.run _ _ _ [] _ _ |- _ => inv A end.
      pose proof (i_pos _ _ _ _ _ _ _ _ H) as Q. rewrite P in Q. cbn [pos_inv] in Q. destruct Q as (_ & (_ & Q & _) & _).
      match goal with A : Nonvolatile_Spec.step _ _ _ _ _ _ |- _ => inv A end; [|exact K]. unfold abandon. rewrite Q. exact K.
    - destruct X1 as [_ R]. eapply keeps_run; eassumption. }
  destruct (g_step g a) as [g1 c1]. cbn [fst snd] in *.
  destruct (IH g1 s1 q1 Ow Hh Sm G1 K1 ltac:(assumption) ltac:(assumption)) as (s2 & q2 & X2 & G2 & K2). destruct (g_run g1 l) as [g2 c2]. cbn [fst snd] in *.
  exists s2, q2. split; [eapply explains_app; eassumption|auto].
Qed.

Lemma new_exactly_once : forall mem vsize nsize check st g l, 0 <= vsize -> nsize - header_size < 2147483648 -> g_new hcrc None mem vsize nsize OBlock check st = Ok g ->
  Forall label_ok l -> one_kind l -> Forall kept_label l ->
  exists s q, explains vsize (cfg nsize OBlock check) fifo_init (queue_init (cfg nsize OBlock check)) (snd (g_run g l)) s q /\ linked s q /\ q_gone q = [] /\
    Forall (fun p => fst p = Consumed) (q_past q).
Proof.
  intros mem vsize nsize check st g l H1 H2 E Ho Hk Hd. destruct (kinds l Ho Hk) as [plain F].
  destruct (new_inv plain _ _ _ _ _ _ _ H1 H2 E) as [I0 Sm].
  assert (K0: keeps (cfg nsize OBlock check) (queue_init (cfg nsize OBlock check))) by (split; [constructor|split; [reflexivity|discriminate]]).
  destruct (keeps_all vsize (cfg nsize OBlock check) plain l g _ _ eq_refl eq_refl Sm I0 K0 F Hd) as (s & q & X & I1 & K1 & K2 & _).
  exists s, q. split; [exact X|]. split; [eapply inv_linked; exact I1|auto].
Qed.

(** * Flush *)
Definition over (x : rec) (s : fifo) : Prop := In (rec_id x) (ids (f_consumed s) ++ ids (f_lost s)).
Lemma over_step : forall cap s o out s' x, Volatile_Spec.step cap s o out s' -> over x s -> over x s'.
Proof.
  intros cap s o out s' x St H. unfold over, ids in *. apply in_app_or in H. destruct St; cbn; apply in_or_app; try exact H; rewrite ?map_app;
    destruct H as [H|H]; auto; try (right; apply in_or_app; auto; fail). left. apply in_or_app. auto.
Qed.
Lemma over_run : forall cap s l outs s' x, Volatile_Spec.run cap s l outs s' -> over x s -> over x s'.
Proof. intros cap s l outs s' x R. induction R; intros H'; [exact H'|]. apply IHR. eapply over_step; eassumption. Qed.
Lemma waiting_step : forall cap s o out s' x k, Volatile_Spec.step cap s o out s' -> In x (f_unread s) -> In k (f_waits s) -> (rec_id x < k)%nat ->
  over x s' \/ In x (f_unread s') /\ In k (f_waits s') /\ out <> OFin (Ok true).
Proof.
  intros cap s o out s' x k St Hx Hk L. unfold over, ids. destruct St; cbn [f_unread f_waits f_consumed f_lost set_slots Volatile_Spec.set_reader set_flocks add_wait]; try (right; splits; auto; try discriminate; fail).
  - match goal with A : f_unread s = lost ++ kept |- _ => rewrite A in Hx end. apply in_app_or in Hx. destruct Hx as [Hx|Hx]; [left|right; splits; auto; discriminate].
    rewrite map_app. apply in_or_app. right. apply in_or_app. right. apply in_map. exact Hx.
  - right. splits; auto; [apply in_or_app; auto|discriminate].
  - match goal with A : f_unread s = x0 :: l |- _ => rewrite A in Hx end. destruct Hx as [->|Hx].
    + left. rewrite map_app. apply in_or_app. left. apply in_or_app. right. left. reflexivity.
    + destruct b; [|right; splits; auto; discriminate]. match goal with A : true = true -> _ |- _ => pose proof (A eq_refl k x Hk Hx) end. lia.
  - right. splits; auto; [right; exact Hk|discriminate].
Qed.
Lemma waiting_run : forall cap s l outs s' x k, Volatile_Spec.run cap s l outs s' -> In x (f_unread s) -> In k (f_waits s) -> (rec_id x < k)%nat -> In (OFin (Ok true)) outs -> over x s'.
Proof.
  intros cap s l outs s' x k R. induction R as [|s o out s' l outs s'' St R IH]; intros Hx Hk L Hr; [destruct Hr|].
  destruct (waiting_step _ _ _ _ _ _ _ St Hx Hk L) as [A|(A & B & C)]; [eapply over_run; eassumption|]. destruct Hr as [Hr|Hr]; [congruence|]. auto.
Qed.

Lemma in_release : forall t, In release t -> In (OFin (Ok true)) (vouts t).
Proof. induction t as [|c t IH]; intros H; [destruct H|]. destruct H as [->|H]; [left; reflexivity|]. unfold vouts in *. cbn. apply in_or_app. right. apply IH. exact H. Qed.

Lemma g_run_app : forall a b g, g_run g (a ++ b) = (fst (g_run (fst (g_run g a)) b), snd (g_run g a) ++ snd (g_run (fst (g_run g a)) b)).
Proof.
  induction a as [|x a IH]; intros b g; cbn [app Aggregate_Model.g_run fst snd]; [destruct (g_run g b); reflexivity|].
  destruct (g_step g x) as [g1 c1]. rewrite IH. destruct (g_run g1 a) as [g2 c2]. cbn [fst snd]. destruct (g_run g2 b). cbn [fst snd]. rewrite app_assoc. reflexivity.
Qed.

Lemma new_flush : forall mem vsize nsize ow check st g l1 l2, 0 <= vsize -> nsize - header_size < 2147483648 -> g_new hcrc None mem vsize nsize ow check st = Ok g ->
  Forall label_ok (l1 ++ Flush :: l2) -> one_kind (l1 ++ Flush :: l2) ->
  exists w s1 q1 s q, let t1 := snd (g_run g l1) in let t2 := snd (g_run (fst (g_step (fst (g_run g l1)) Flush)) l2) in
    snd (g_run g (l1 ++ Flush :: l2)) = t1 ++ VCall VWaitForDrain (OWait w) :: t2 /\
    explains vsize (cfg nsize ow check) fifo_init (queue_init (cfg nsize ow check)) t1 s1 q1 /\
    explains vsize (cfg nsize ow check) fifo_init (queue_init (cfg nsize ow check)) (t1 ++ VCall VWaitForDrain (OWait w) :: t2) s q /\ linked s q /\
    (w = false -> f_unread s1 = []) /\
    (w = true -> In release t2 -> forall x, In x (f_unread s1) -> In (rec_id x) (ids (f_consumed s) ++ ids (f_lost s))).
Proof.
  intros mem vsize nsize ow check st g l1 l2 H1 H2 E Ho Hk. destruct (kinds _ Ho Hk) as [plain F].
  destruct (new_inv plain _ _ _ _ _ _ _ H1 H2 E) as [I0 Sm]. apply Forall_app in F. destruct F as [F1 F2]. inv F2.
  destruct (run_inv rcrc hcrc vsize (cfg nsize ow check) eq_refl Sm plain l1 g _ _ I0 F1) as (s1 & q1 & X1 & I1).
  destruct (step_flush rcrc hcrc vsize (cfg nsize ow check) plain _ _ _ I1) as (sf & St & If).
  rewrite g_run_app. cbn [snd Aggregate_Model.g_run]. cbn [Aggregate_Model.g_step]. destruct (on_v (fst (g_run g l1)) VWaitForDrain) as [gf out] eqn:Ef. cbn [fst snd] in *.
  destruct (run_inv rcrc hcrc vsize (cfg nsize ow check) eq_refl Sm plain l2 gf _ _ If ltac:(assumption)) as (s & q & X2 & I2).
  assert (exists w, out = OWait w) as [w ->] by (inv St; eauto).
  destruct (g_run gf l2) as [g2 t2] eqn:E2. cbn [fst snd] in *.
  exists w, s1, q1, s, q. cbv zeta. split; [reflexivity|]. split; [exact X1|]. split.
  { eapply explains_app; [exact X1|]. change (VCall VWaitForDrain (OWait w) :: t2) with ([VCall VWaitForDrain (OWait w)] ++ t2). eapply explains_app; [apply explains_v; exact St|exact X2]. }
  split; [eapply inv_linked; exact I2|]. split.
  - intros ->. inv St. assumption.
  - intros -> Hr x Hx. destruct X2 as [R2 _].
    assert (exists k, (rec_id x < k)%nat /\ In k (f_waits sf) /\ f_unread sf = f_unread s1) as (m & L & Hm & Eu) by (inv St; eexists; splits; [eauto|left; reflexivity|reflexivity]).
    refine (waiting_run _ _ _ _ _ x m R2 _ Hm L (in_release _ Hr)). rewrite Eu. exact Hx.
Qed.

(** * The thread stays alive *)
Lemma new_alive : forall mem vsize nsize ow check st g l, 0 <= vsize -> nsize - header_size < 2147483648 -> g_new hcrc None mem vsize nsize ow check st = Ok g ->
  Forall label_ok l -> one_kind l -> (check = true -> vsize + 4 <= nsize - header_size) -> ending (g_pos (fst (g_run g l))) -> g_stop (fst (g_run g l)) = true.
Proof.
  intros mem vsize nsize ow check st g l H1 H2 E Ho Hk Hf He. destruct (new_run _ _ _ _ _ _ _ l H1 H2 E Ho Hk) as (plain & s & q & X & I1).
  apply (h_exit _ _ _ _ _ (i_shut _ _ _ _ _ _ _ _ I1)).
  - destruct He as [->|[->| ->]]; reflexivity.
  - unfold g_new in E. destruct (_ || _) eqn:G; [discriminate|]. apply orb_false_elim in G. destruct G as [G1 G2]. apply Z.ltb_ge in G1, G2.
    cbn [cfg k_extra k_cap k_check]. unfold k_extra. cbn. destruct check; [specialize (Hf eq_refl)|]; lia.
Qed.

(** * Shutdown *)
Lemma new_shutdown : forall mem vsize nsize check st g l, 0 <= vsize -> nsize - header_size < 2147483648 -> g_new hcrc None mem vsize nsize OYes check st = Ok g ->
  Forall label_ok l -> one_kind l -> past_flush (g_shut (fst (g_run g l))) ->
  exists s q, explains vsize (cfg nsize OYes check) fifo_init (queue_init (cfg nsize OYes check)) (snd (g_run g l)) s q /\ linked s q /\
    Permutation (ids (f_consumed s) ++ ids (f_lost s)) (seq 0 (f_next s)) /\ bytes_written q = bytes_consumed s /\
    forall p size block, 0 <= size < 4294967296 -> exists e, snd (g_step (fst (g_run g l)) (Produce (VReserve p size block))) = [VCall (VReserve p size block) (ORange (Err e))].
Proof.
  intros mem vsize nsize check st g l H1 H2 E Ho Hk Hp. destruct (new_run _ _ _ _ _ _ _ l H1 H2 E Ho Hk) as (plain & s & q & X & I1).
  exists s, q. split; [exact X|]. split; [eapply inv_linked; exact I1|]. destruct I1. destruct i_shut.
  assert (Fl: flushed (g_shut (fst (g_run g l))) = true) by (destruct Hp as [->|[->|[->| ->]]]; reflexivity).
  assert (U: f_unread s = []) by (apply h_past; auto). assert (Sl: f_slots s = []) by (apply h_slots; destruct Hp as [->|[->|[->| ->]]]; reflexivity).
  destruct i_v as (RR & Hi & Hs). split.
  - pose proof (h_all _ Hi) as A. rewrite U, Sl in A. cbn in A. rewrite app_nil_r in A. exact A.
  - split.
    + destruct (g_pos (fst (g_run g l))); cbn [pos_inv] in i_pos; unfold same in *; try tauto. destruct i_pos as ((_ & x & u & A & B) & _). congruence.
    + intros p size block Hsz. cbn [Aggregate_Model.g_step producer_call]. unfold on_v. destruct (v_step (g_v (fst (g_run g l))) (VReserve p size block)) as [v' out] eqn:Ev. cbn [snd].
      destruct (v_sim rcrc hcrc vsize (cfg nsize OYes check) _ _ (VReserve p size block) v' out (conj RR (conj Hi Hs)) Hsz Ev) as (s' & St & _).
      assert (L: 0 < f_locks s) by (rewrite h_locks; destruct Hp as [->|[->|[->| ->]]]; cbn; lia).
      inv St; try lia; eauto.
Qed.
End P.
