(** Histories of a new non-volatile buffer. *)
From Verif Require Import Base Ring_Model Nonvolatile_Model Nonvolatile_Spec NonvolatileClient_Spec Ring_Layout Ring_Proofs Nonvolatile_Proofs NonvolatileCrash_Proofs NonvolatileStores_Proofs
  NonvolatileQueue_Proofs.
Open Scope Z_scope.

(** * The queue *)
Section Spec.
Variable k : config.
Variable sum : list Z -> Z.
Hypothesis sum_range : forall d, 0 <= sum d < U32.

(** The record a consumer holds was committed. *)
Definition holding_ok (s : queue) : Prop :=
  q_reader s = Regular true -> exists x l, q_unread s = x :: l /\ (k_check k = true -> e_done x = true \/ sum (e_data x) = 0).

Lemma step_holding : forall s o out s', step k sum s o out s' -> entries_ok sum s -> holding_ok s -> holding_ok s'.
Proof.
  assert (LV: forall fs u s, q_unread (leave fs u s) = u) by (intros fs u s; unfold leave; destruct u; reflexivity).
  assert (AT: forall s size block second out s', attempt k s size block second out s' -> holding_ok s -> holding_ok s').
  { intros s size block second out s' A H. destruct A as [a init lost kept A1 A2 A3 A4| | | | |]; try exact H.
    intros Hr. cbn in Hr. rewrite leave_reader in Hr. cbn. rewrite LV. assert (lost = []) by (apply A3; left; unfold reading; rewrite Hr; reflexivity). subst lost.
    cbn in A2. rewrite <- A2. apply H. exact Hr. }
  intros s o out s' St E H. destruct St; try exact H; try (intros Hr; cbn in Hr; congruence); try (eapply AT; eassumption).
  - destruct (_ && _); exact H.
  - intros Hr. cbn in *. destruct (H Hr) as (x & l & -> & Hx). exists x, (l ++ q_gone s ++ [mkEntry i d (sum d) true]). auto.
  - intros Hr. cbn in *. rewrite abandon_reader in Hr. destruct (H Hr) as (x & l & Hu & Hx). exists x, l. unfold abandon. destruct (q_slot s) as [ [i d]|]; [|auto]. rewrite Hu. cbn. auto.
  - intros _. cbn. exists (dim k x), l. split; [reflexivity|]. intros Hc. unfold dim. rewrite Hc. cbn. apply (shown_done k); auto.
    destruct E as [E _]. rewrite Forall_forall in E. apply E. rewrite H1. apply in_or_app. left. apply in_or_app. right. left. reflexivity.
Qed.
Lemma run_holding : forall s l outs s', run k sum s l outs s' -> entries_ok sum s -> holding_ok s -> holding_ok s'.
Proof. intros s l outs s' H. induction H; intros E HH; [exact HH|]. apply IHrun; [eapply step_entries|eapply step_holding]; eassumption. Qed.

(** Locks. *)
Lemma step_locks : forall s o out s', step k sum s o out s' -> forall l, locks_after (q_locks s) (q_shut s) (o :: l) = locks_after (q_locks s') (q_shut s') l.
Proof.
  assert (LV: forall fs u s, q_locks (leave fs u s) = q_locks s /\ q_shut (leave fs u s) = q_shut s) by (intros fs u s; unfold leave; destruct u; auto).
  assert (AB: forall s, q_locks (abandon s) = q_locks s /\ q_shut (abandon s) = q_shut s) by (intros s; unfold abandon; destruct (q_slot s) as [ [i d]|]; [destruct (q_unread s)|]; auto).
  assert (AT: forall s size block second out s', attempt k s size block second out s' -> q_locks s' = q_locks s /\ q_shut s' = q_shut s)
    by (intros s size block second out s' A; destruct A; cbn; try apply LV; auto).
  intros s o out s' St l. destruct St; cbn [locks_after]; try reflexivity;
    try (destruct (AT _ _ _ _ _ _ H4) as [-> ->]; reflexivity); try (destruct (AT _ _ _ _ _ _ H1) as [-> ->]; reflexivity);
    try (cbn; match goal with |- context [leave ?a ?b ?c] => destruct (LV a b c) as [-> ->] end; reflexivity).
  - destruct (_ && _); reflexivity.
  - cbn. destruct (AB s) as [-> ->]. reflexivity.
Qed.
Lemma run_locks : forall s l outs s', run k sum s l outs s' -> q_locks s' = locks_after (q_locks s) (q_shut s) l.
Proof. intros s l outs s' H. induction H; [reflexivity|]. rewrite IHrun. symmetry. eapply step_locks. eassumption. Qed.

Lemma locked_step : forall s size block out s', 0 < q_locks s -> step k sum s (NReserve size block) out s' -> refused out /\ s' = s.
Proof. intros s size block out s' L H. inv H; try lia; split; try exact Logic.I; reflexivity. Qed.

(** A refused call. *)
Lemma refused_step : forall s o out s', step k sum s o out s' -> refused out ->
  q_slot s' = q_slot s /\ q_prod s' = q_prod s /\ q_reader s' = q_reader s /\ q_locks s' = q_locks s /\ q_next s' = q_next s /\
  exists skip, q_unread s = skip ++ q_unread s' /\ Forall (fun e => ~ shown k sum e) skip /\ (skip <> [] -> passing o).
Proof.
  assert (SM: forall s o s', q_unread s' = q_unread s -> exists skip, q_unread s = skip ++ q_unread s' /\ Forall (fun e => ~ shown k sum e) skip /\ (skip <> [] -> passing o))
    by (intros s o s' ->; exists []; splits; [reflexivity|constructor|congruence]).
  assert (AT: forall s size block second out s', attempt k s size block second out s' -> refused out ->
    q_slot s' = q_slot s /\ q_prod s' = q_prod s /\ q_reader s' = q_reader s /\ q_locks s' = q_locks s /\ q_next s' = q_next s /\ q_unread s' = q_unread s)
    by (intros s size block second out s' A F; destruct A; cbn in *; try contradiction; auto 10).
  intros s o out s' St F. destruct St; cbn [refused] in F; try contradiction; try (splits; auto; fail);
    try (destruct (AT _ _ _ _ _ _ H4 F) as (A1 & A2 & A3 & A4 & A5 & A6); splits; auto; fail);
    try (destruct (AT _ _ _ _ _ _ H1 F) as (A1 & A2 & A3 & A4 & A5 & A6); splits; auto; fail).
  cbn. splits; auto. exists (q_unread s). splits; [symmetry; apply app_nil_r|assumption|intros _; exact Logic.I].
Qed.

(** Cursors. *)
Definition cursor_fine (s : queue) : Prop := (k_ow k = OBlock -> q_sync s = true) /\ (k_ow k = OYes -> no_cursor s).
Lemma step_cursor_fine : forall s o out s', step k sum s o out s' -> cursor_op o -> cursor_fine s -> cursor_fine s'.
Proof.
  assert (LV: forall fs u s, q_sync (leave fs u s) = q_sync s) by (intros fs u s; unfold leave; destruct u; auto).
  assert (AT: forall s size block second out s', attempt k s size block second out s' -> q_sync s' = q_sync s)
    by (intros s size block second out s' A; destruct A; cbn; try apply LV; auto).
  intros s o out s' St C [F1 F2]. split.
  - intros HB. specialize (F1 HB). destruct St; try contradiction; auto; cbn; rewrite ?LV; auto; try (erewrite AT by eassumption; auto).
    destruct (_ && _); auto.
  - intros HY. specialize (F2 HY). destruct o; try (eapply step_no_cursor; try eassumption; discriminate). intros m. inv St; try congruence; try (apply F2).
Qed.
End Spec.

(** * The buffer *)
Section Buffer.
Variable rcrc : list Z -> Z.
Variable hcrc : Z -> option Z -> option Z -> option Z -> Z.
Local Notation rel := (rel rcrc hcrc).
Local Notation sum := (record_sum rcrc).
Local Notation n_run := (n_run rcrc hcrc).

(** A new buffer. *)
Lemma new_rel : forall k st n, 0 <= k_cap k < 2147483648 -> n_open hcrc None (k_cap k + header_size) (k_ow k) (k_hold k) (k_check k) st = Ok n -> rel k n (queue_init k) [] [].
Proof.
  intros k st n Hc E. eapply (rel_init rcrc hcrc k st); try reflexivity; [exact Hc|]. unfold n_open in E. cbn in E. replace (k_cap k + header_size - header_size) with (k_cap k) in E by lia.
  unfold fresh_file in E. cbn [fl_nws fl_cws fl_lwe fl_nrs fl_crc fl_mem] in E. rewrite Z.eqb_refl in E. destruct (k_cap k + header_size <? header_size); [discriminate|]. cbn [negb] in E. inv E. reflexivity.
Qed.

Lemma new_queue : forall k st n l, 0 <= k_cap k < 2147483648 -> n_open hcrc None (k_cap k + header_size) (k_ow k) (k_hold k) (k_check k) st = Ok n -> Forall nop_ok l ->
  (exists s, run k sum (queue_init k) l (snd (n_run n l)) s /\ in_order s /\ holding_ok k sum s /\ held_ok (k_cap k) (held (fst (n_run n l)))) \/
  troubled rcrc hcrc k sum n l.
Proof.
  intros k st n l Hc E Ho. pose proof (new_rel k st n Hc E) as R.
  destruct (sim_run rcrc hcrc l k n _ _ _ R Ho) as [(s & U & D & H1 & H2)|(l1 & o & l2 & s & U & D & H1 & H2 & H3 & H4)].
  - left. exists s. split; [exact H1|]. split.
    + eapply run_order; [exact H1|]. apply init_order.
    + split; [eapply run_holding; [apply sum_of_range|exact H1|apply init_entries|discriminate]|].
      pose proof (nr_ci _ _ _ _ _ _ _ H2) as I. pose proof (ci_layout _ _ _ I) as L. pose proof (nr_len _ _ _ _ _ _ _ H2) as Hl. rewrite Hl in L.
      assert (exists A B, held (fst (n_run n l)) = B ++ A /\ B = resv (fst (n_run n l)) /\ exists C, U = A ++ C) as (A & B & -> & EB & C & EC).
      { unfold held, resv. pose proof (nr_cons _ _ _ _ _ _ _ H2) as Hk. destruct (n_cons (fst (n_run n l))) as [ [ [r|]|q]|].
        - exists [r]. eexists. split; [reflexivity|]. split; [reflexivity|]. destruct Hk as [_ Hh]. destruct U; [discriminate|]. inv Hh. exists U. reflexivity.
        - exists []. eexists. split; [reflexivity|]. split; [reflexivity|]. exists U. reflexivity.
        - exists q. eexists. split; [reflexivity|]. split; [reflexivity|]. destruct Hk as (j & _ & _ & -> & _). exists (skipn j U). symmetry. apply firstn_skipn.
        - exists []. eexists. split; [reflexivity|]. split; [reflexivity|]. exists U. reflexivity. }
      rewrite EC in L. rewrite <- app_assoc in L. rewrite <- EB in L.
      assert (LB: forall r, In r (B ++ A) -> within (k_cap k) r).
      { intros r Hr. apply in_app_or in Hr. destruct (layout_bounds _ _ _ _ r L) as (X1 & X2 & X3); [|unfold within; auto].
        apply in_or_app. destruct Hr; [right|left; assumption]. apply in_or_app. right. apply in_or_app. right. assumption. }
      split; [apply Forall_forall; exact LB|]. intros a x b y c Eq.
      assert (DD: forall u v, disjoint u v -> disjunct u v) by (intros u v; unfold disjoint, disjunct; lia).
      assert (DS: forall u v, disjunct u v -> disjunct v u) by (intros u v; unfold disjunct; lia).
      assert (Hb: B = [] \/ exists r, B = [r]) by (subst B; unfold resv; destruct (n_prod (fst (n_run n l))) as [ [r|]|]; eauto).
      destruct Hb as [->|(r & ->)].
      * cbn in Eq. subst A. apply DD. rewrite <- !app_assoc in L. cbn in L. rewrite <- app_assoc in L. eapply layout_disjoint. exact L.
      * destruct a as [|x0 a]; cbn in Eq; inv Eq.
        -- apply DS, DD. match type of L with layout ?l _ _ _ => replace l with (b ++ y :: (c ++ C ++ D) ++ x :: []) in L by (rewrite <- ?app_assoc; cbn; rewrite <- ?app_assoc; reflexivity) end.
           eapply layout_disjoint. exact L.
        -- apply DD. rewrite <- !app_assoc in L. cbn in L. rewrite <- app_assoc in L. eapply layout_disjoint. exact L.
  - right. exists l1, o, l2, s. split; [exact H1|]. split; [exact H2|]. exact H4.
Qed.

(** Histories without crashes that stay clear of misuse. *)
Lemma clean_run : forall (J : queue -> Prop) (C : nop -> Prop) k,
  (forall s o out s', step k sum s o out s' -> C o -> J s -> J s') -> (forall s o, J s -> C o -> ~ misuse k s o) -> (forall o j, ~ C (NCrash o j)) ->
  forall n s U D l, rel k n s U D -> J s -> Forall C l -> Forall nop_ok l ->
  exists s' U' D', run k sum s l (snd (n_run n l)) s' /\ rel k (fst (n_run n l)) s' U' D' /\ J s'.
Proof.
  intros J C k HJ HM HC n s U D l R Js Fc Fo.
  assert (JR: forall s l outs s', run k sum s l outs s' -> Forall C l -> J s -> J s').
  { intros s0 l0 outs0 s0' H. induction H; intros F J0; [exact J0|]. inv F. apply IHrun; [assumption|]. eapply HJ; eassumption. }
  destruct (sim_run rcrc hcrc l k n s U D R Fo) as [(s' & U' & D' & H1 & H2)|(l1 & o & l2 & s1 & U1 & D1 & H1 & H2 & H3 & H4)].
  - exists s', U', D'. split; [exact H1|]. split; [exact H2|]. eapply JR; eassumption.
  - exfalso. subst l. apply Forall_app in Fc. destruct Fc as [Fc1 Fc2]. inv Fc2. assert (J1: J s1) by (eapply JR; eassumption).
    destruct H4 as [M|(o' & j & -> & _)]; [eapply HM; eassumption|eapply HC; eassumption].
Qed.

Lemma new_plain : forall k st n l, 0 <= k_cap k < 2147483648 -> n_open hcrc None (k_cap k + header_size) (k_ow k) (k_hold k) (k_check k) st = Ok n -> Forall nop_ok l -> Forall plain_op l ->
  exists s, run k sum (queue_init k) l (snd (n_run n l)) s /\ in_order s.
Proof.
  intros k st n l Hc E Ho Hp. pose proof (new_rel k st n Hc E) as R.
  destruct (clean_run no_cursor plain_op k) with (n := n) (s := queue_init k) (U := @nil range) (D := @nil range) (l := l) as (s & U & D & H1 & H2 & H3); auto.
  - intros s o out s' St Po. eapply step_no_cursor; [exact St|]. destruct o; try discriminate. contradiction.
  - intros s o N Po [_ M]. destruct o; try contradiction. destruct M as [m M]. eapply N. exact M.
  - intros m. discriminate.
  - exists s. split; [exact H1|]. eapply run_order; [exact H1|]. apply init_order.
Qed.

(** The statistics. *)
Lemma new_counted : forall k st n l, 0 <= k_cap k < 2147483648 -> n_open hcrc None (k_cap k + header_size) (k_ow k) (k_hold k) (k_check k) st = Ok n -> Forall nop_ok l ->
  Forall (fun o => forall o' j, o <> NCrash o' j) l ->
  (exists s, run k sum (queue_init k) l (snd (n_run n l)) s /\ in_order s /\ counted (k_extra k) st (c_stats (n_c (fst (n_run n l)))) s) \/
  troubled rcrc hcrc k sum n l.
Proof.
  intros k st n l Hc E Ho Hn. pose proof (new_rel k st n Hc E) as R.
  assert (Es: c_stats (n_c n) = st).
  { unfold n_open in E. cbn in E. replace (k_cap k + header_size - header_size) with (k_cap k) in E by lia.
    unfold fresh_file in E. cbn [fl_nws fl_cws fl_lwe fl_nrs fl_crc fl_mem] in E. rewrite Z.eqb_refl in E. destruct (k_cap k + header_size <? header_size); [discriminate|].
    cbn [negb] in E. inv E. reflexivity. }
  destruct (sim_run_counted rcrc hcrc l k n _ _ _ st R Ho Hn) as [(s & U & D & H1 & H2 & H3)|(l1 & o & l2 & s & U & D & H1 & H2 & H3 & H4)].
  - rewrite Es. constructor; cbn; lia.
  - left. exists s. split; [exact H1|]. split; [|exact H3]. eapply run_order; [exact H1|]. apply init_order.
  - right. exists l1, o, l2, s. auto.
Qed.
Lemma new_plain_counted : forall k st n l, 0 <= k_cap k < 2147483648 -> n_open hcrc None (k_cap k + header_size) (k_ow k) (k_hold k) (k_check k) st = Ok n -> Forall nop_ok l -> Forall plain_op l ->
  exists s, run k sum (queue_init k) l (snd (n_run n l)) s /\ in_order s /\ counted (k_extra k) st (c_stats (n_c (fst (n_run n l)))) s.
Proof.
  intros k st n l Hc E Ho Hp. destruct (new_counted k st n l Hc E Ho) as [H|(l1 & o & l2 & s & -> & H1 & T)]; [|exact H|exfalso].
  { eapply Forall_impl; [|exact Hp]. intros o Po o' j ->. exact Po. }
  apply Forall_app in Hp. destruct Hp as [Hp1 Hp2]. inv Hp2.
  destruct T as [ [_ M]|(o' & j & -> & _)]; [|contradiction].
  assert (N: no_cursor s).
  { clear - H1 Hp1. assert (N0: no_cursor (queue_init k)) by (intros m; discriminate). revert Hp1 N0. induction H1; intros F N; [exact N|]. inv F. apply IHrun; [assumption|].
    eapply step_no_cursor; [eassumption| |exact N]. intros ->. contradiction. }
  destruct o; try contradiction. destruct M as [m M]. eapply N. exact M.
Qed.

Lemma new_cursor : forall k st n l, 0 <= k_cap k < 2147483648 -> n_open hcrc None (k_cap k + header_size) (k_ow k) (k_hold k) (k_check k) st = Ok n -> Forall nop_ok l -> Forall cursor_op l ->
  exists s, run k sum (queue_init k) l (snd (n_run n l)) s /\ in_order s.
Proof.
  intros k st n l Hc E Ho Hp. pose proof (new_rel k st n Hc E) as R.
  destruct (clean_run (cursor_fine k) cursor_op k) with (n := n) (s := queue_init k) (U := @nil range) (D := @nil range) (l := l) as (s & U & D & H1 & H2 & H3); auto.
  - intros s o out s' St Po. eapply step_cursor_fine; eassumption.
  - intros s o [F1 F2] Po [Q M]. destruct o; try contradiction.
    + destruct M as [_ M]. rewrite (F1 M) in Q. discriminate.
    + destruct M as [m M]. destruct (k_ow k) eqn:Ow; [rewrite (F1 eq_refl) in Q; discriminate|]. eapply F2; [reflexivity|exact M].
  - split; [intros HB; cbn; rewrite HB; reflexivity|intros _ m; discriminate].
  - exists s. split; [exact H1|]. eapply run_order; [exact H1|]. apply init_order.
Qed.

Lemma n_run_app : forall l1 l2 n, n_run n (l1 ++ l2) = (fst (n_run (fst (n_run n l1)) l2), snd (n_run n l1) ++ snd (n_run (fst (n_run n l1)) l2)).
Proof.
  induction l1 as [|o l1 IH]; intros l2 n; cbn [app Nonvolatile_Model.n_run].
  - cbn [fst snd app]. destruct (n_run n l2); reflexivity.
  - destruct (n_step rcrc hcrc n o) as [n1 out]. rewrite IH. destruct (n_run n1 l1) as [n2 outs]. cbn [fst snd]. destruct (n_run n2 l2). reflexivity.
Qed.
Lemma run_snoc : forall k s l outs s1 o out s2, run k sum s l outs s1 -> step k sum s1 o out s2 -> run k sum s (l ++ [o]) (outs ++ [out]) s2.
Proof. intros k s l outs s1 o out s2 H. revert s2. induction H; intros s2 Hs; cbn; econstructor; eauto. constructor. Qed.
Lemma run_snoc_inv : forall k l s o outs s2, run k sum s (l ++ [o]) outs s2 -> exists outs1 s1 out, outs = outs1 ++ [out] /\ run k sum s l outs1 s1 /\ step k sum s1 o out s2.
Proof.
  intros k. induction l as [|x l IH]; intros s o outs s2 H; cbn in H.
  - inv H. inv H6. exists [], s, out. splits; auto. constructor.
  - inv H. destruct (IH _ _ _ _ H6) as (outs1 & s1 & out1 & -> & H7 & H8). exists (out :: outs1), s1, out1. splits; auto. econstructor; eassumption.
Qed.

(** The last call of a history. *)
Lemma new_last : forall k st n l o, 0 <= k_cap k < 2147483648 -> n_open hcrc None (k_cap k + header_size) (k_ow k) (k_hold k) (k_check k) st = Ok n -> Forall nop_ok (l ++ [o]) ->
  troubled rcrc hcrc k sum n (l ++ [o]) \/
  exists s s', run k sum (queue_init k) l (snd (n_run n l)) s /\ step k sum s o (snd (n_step rcrc hcrc (fst (n_run n l)) o)) s' /\
    run k sum (queue_init k) (l ++ [o]) (snd (n_run n (l ++ [o]))) s'.
Proof.
  intros k st n l o Hc E Ho. destruct (new_queue k st n (l ++ [o]) Hc E Ho) as [(s & H & _)|T]; [right|left; exact T].
  destruct (run_snoc_inv _ _ _ _ _ _ H) as (outs1 & s1 & out & Eo & H1 & H2). exists s1, s.
  rewrite n_run_app in Eo. cbn [Nonvolatile_Model.n_run snd fst] in Eo. destruct (n_step rcrc hcrc (fst (n_run n l)) o) as [n2 out2] eqn:En. cbn [snd] in Eo.
  apply app_inj_tail in Eo. destruct Eo as [E1 E2]. rewrite E1, E2 in *. cbn [snd]. splits; auto.
Qed.

Lemma new_locked : forall k st n l size block, 0 <= k_cap k < 2147483648 -> n_open hcrc None (k_cap k + header_size) (k_ow k) (k_hold k) (k_check k) st = Ok n ->
  Forall nop_ok l -> 0 <= size < 4294967296 -> 0 < locks_after 0 false l ->
  troubled rcrc hcrc k sum n (l ++ [NReserve size block]) \/
  refused (snd (n_step rcrc hcrc (fst (n_run n l)) (NReserve size block))) /\
  exists s, run k sum (queue_init k) l (snd (n_run n l)) s /\ run k sum (queue_init k) (l ++ [NReserve size block]) (snd (n_run n (l ++ [NReserve size block]))) s.
Proof.
  intros k st n l size block Hc E Ho Hs Hl. destruct (new_last k st n l (NReserve size block) Hc E) as [T|(s & s' & H1 & H2 & H3)]; auto.
  - apply Forall_app. split; [exact Ho|]. constructor; [exact Hs|constructor].
  - right. pose proof (run_locks _ _ _ _ _ _ H1) as L. cbn in L. assert (LS: 0 < q_locks s) by (rewrite L; exact Hl). destruct (locked_step k sum _ _ _ _ _ LS H2) as [F ->]. split; [exact F|]. exists s. auto.
Qed.

Lemma new_unlocked : forall k st n l size block, 0 <= k_cap k < 2147483648 -> n_open hcrc None (k_cap k + header_size) (k_ow k) (k_hold k) (k_check k) st = Ok n ->
  Forall nop_ok l -> 0 <= size < 4294967296 -> locks_after 0 false l <= 0 ->
  troubled rcrc hcrc k sum n (l ++ [NReserve size block]) \/
  exists s, run k sum (queue_init k) l (snd (n_run n l)) s /\
  (idle s -> q_slot s = None -> 0 < size -> size + k_extra k <= k_cap k -> (~ reading s /\ k_ow k = OYes \/ ~ short_of_room k (q_unread s ++ q_gone s) size) ->
   exists a, snd (n_step rcrc hcrc (fst (n_run n l)) (NReserve size block)) = NRange (Ok (mkRange a size))).
Proof.
  intros k st n l size block Hc E Ho Hs Hl. destruct (new_last k st n l (NReserve size block) Hc E) as [T|(s & s' & H1 & H2 & H3)]; auto.
  - apply Forall_app. split; [exact Ho|]. constructor; [exact Hs|constructor].
  - right. exists s. split; [exact H1|]. intros ID Sl Sz Fit Room. pose proof (run_locks _ _ _ _ _ _ H1) as L. cbn in L.
    remember (snd (n_step rcrc hcrc (fst (n_run n l)) (NReserve size block))) as out. clear Heqout.
    inv H2; try contradiction; try lia; try congruence. match goal with A : attempt _ _ _ _ _ _ _ |- _ => inv A end; try (exists a; reflexivity); exfalso;
      destruct Room as [ [R1 R2]|R]; try contradiction; try congruence.
Qed.

Lemma new_failed : forall k st n l o, 0 <= k_cap k < 2147483648 -> n_open hcrc None (k_cap k + header_size) (k_ow k) (k_hold k) (k_check k) st = Ok n -> Forall nop_ok (l ++ [o]) ->
  refused (snd (n_step rcrc hcrc (fst (n_run n l)) o)) ->
  troubled rcrc hcrc k sum n (l ++ [o]) \/
  exists s s', run k sum (queue_init k) l (snd (n_run n l)) s /\ run k sum (queue_init k) (l ++ [o]) (snd (n_run n (l ++ [o]))) s' /\
    q_slot s' = q_slot s /\ q_prod s' = q_prod s /\ q_reader s' = q_reader s /\ q_locks s' = q_locks s /\ q_next s' = q_next s /\
    exists skip, q_unread s = skip ++ q_unread s' /\ Forall (fun e => ~ shown k sum e) skip /\ (skip <> [] -> passing o).
Proof.
  intros k st n l o Hc E Ho F. destruct (new_last k st n l o Hc E Ho) as [T|(s & s' & H1 & H2 & H3)]; auto. right. exists s, s'.
  destruct (refused_step _ _ _ _ _ _ H2 F) as (X1 & X2 & X3 & X4 & X5 & X6). splits; auto.
Qed.

Lemma new_held : forall k st n l, 0 <= k_cap k < 2147483648 ->
  n_open hcrc None (k_cap k + header_size) (k_ow k) (k_hold k) (k_check k) st = Ok n -> Forall nop_ok l ->
  held_ok (k_cap k) (held (fst (n_run n l))) \/ troubled rcrc hcrc k sum n l.
Proof. intros k st n l Hc E Ho. destruct (new_queue k st n l Hc E Ho) as [(s & _ & _ & _ & H)|T]; auto. Qed.
End Buffer.
