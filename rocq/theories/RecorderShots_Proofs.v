(** Proofs about screenshots and platform events: C85, C86. *)
From Verif Require Import Base Recorder_Model Recorder_Spec Recorder_Proofs.
Local Open Scope nat_scope.

Lemma srun_app : forall l1 l2 s, srun s (l1 ++ l2) =
  match srun s l1 with Some (s', e) => match srun s' l2 with Some (s'', e') => Some (s'', e ++ e') | None => None end | None => None end.
Proof.
  induction l1 as [|o l IH]; intros l2 s; simpl.
  - destruct (srun s l2) as [[? ?]|]; reflexivity.
  - destruct (sstep s o) as [[s1 b]|]; auto. rewrite IH. destruct (srun s1 l) as [[s2 e2]|]; auto.
    destruct (srun s2 l2) as [[s3 e3]|]; auto.
Qed.
Lemma srun_snoc : forall l o s s' e, srun s (l ++ [o]) = Some (s', e) ->
  exists s1 e1 b, srun s l = Some (s1, e1) /\ sstep s1 o = Some (s', b) /\ e = e1 ++ [(o, b)].
Proof.
  intros l o s s' e H. rewrite srun_app in H. destruct (srun s l) as [[s1 e1]|]; [|discriminate]. simpl in H.
  destruct (sstep s1 o) as [[s2 b]|] eqn:E; [|discriminate]. inv H. eauto 6.
Qed.
Lemma srun_fst : forall l s s' e, srun s l = Some (s', e) -> map fst e = l.
Proof.
  induction l as [|o l IH]; intros s s' e H; simpl in H; [inv H; reflexivity|].
  destruct (sstep s o) as [[s1 b]|]; [|discriminate]. destruct (srun s1 l) as [[s2 e2]|] eqn:E; [|discriminate]. inv H. simpl. f_equal. eauto.
Qed.

Lemma count_snoc : forall f l o, count f (l ++ [o]) = count f l + (if f o then 1 else 0).
Proof. intros f l o. unfold count. rewrite filter_app, app_length. simpl. destruct (f o); reflexivity. Qed.
Lemma captures_snoc : forall e o b, captures (e ++ [(o, b)]) = captures e + (if b then 1 else 0).
Proof. intros e o b. unfold captures. rewrite filter_app, app_length. simpl. destruct b; reflexivity. Qed.
Definition n1 (b : bool) : nat := if b then 1 else 0.

(** Without assumptions. *)
Record sinv (b0 : bool) (l : list sop) (s : shots) (e : list (sop * bool)) : Prop := mkSinv {
  si_sum : count is_request l = s_success s + s_full s + s_disabled s + s_not_ready s + n1 (s_queued s);
  si_cap : captures e = s_success s;
  si_log : count is_log l = s_received s;
  si_next : s_received s = count is_next l + n1 (s_next s) + s_unexpected s;
  si_flag : fl_value (s_flag s) = shots_now b0 l;
  si_le : fl_seen (s_flag s) <= fl_version (s_flag s);
  si_seen : changed (s_flag s) = false -> s_enabled s = fl_value (s_flag s) }.

Lemma shots_snoc : forall l b o, shots_now b (l ++ [o]) = match o with SSetEnabled b' => b' | _ => shots_now b l end.
Proof. induction l as [|x l IH]; intros b o; simpl. - destruct o; reflexivity. - destruct x; apply IH. Qed.

Ltac crush_s := rewrite ?count_snoc, ?captures_snoc, ?shots_snoc in *; simpl in *; unfold n1 in *; try lia; auto.
Lemma sinv_step : forall b0 l s e o s' b, sinv b0 l s e -> sstep s o = Some (s', b) -> sinv b0 (l ++ [o]) s' (e ++ [(o, b)]).
Proof.
  intros b0 l [en f rd q n c1 c2 c3 c4 c5 c6] e o s' b [H1 H2 H3 H4 H5 H6 H7] Hs. simpl in *.
  destruct o as [x| | | | |].
  - inv Hs. constructor; crush_s.
    + apply set_flag_value. + apply set_flag_le; auto.
    + intros Hc. pose proof (set_flag_same _ _ _ _ H6 Hc) as Hx. rewrite Hx in Hc |- *. auto.
  - destruct q; inv Hs; constructor; crush_s.
  - destruct n; inv Hs; constructor; crush_s.
  - destruct q; [|discriminate]. destruct en; simpl in Hs; [destruct rd; simpl in Hs|]; inv Hs; constructor; crush_s.
  - destruct n; [|discriminate]. inv Hs. constructor; crush_s.
  - destruct (changed f) eqn:Ec; inv Hs. constructor; crush_s.
Qed.
Lemma sinv_run : forall b0 l s e, srun (shots_new b0) l = Some (s, e) -> sinv b0 l s e.
Proof.
  intros b0 l. induction l as [|o l IH] using rev_ind; intros s e H.
  - simpl in H. inv H. constructor; simpl; auto.
  - apply srun_snoc in H. destruct H as (s1 & e1 & b & H1 & H2 & ->). exact (sinv_step _ _ _ _ _ _ _ (IH _ _ H1) H2).
Qed.

Theorem counts : forall b0 l s e, srun (shots_new b0) l = Some (s, e) ->
  count is_request l = s_success s + s_full s + s_disabled s + s_not_ready s + (if s_queued s then 1 else 0) /\
  captures e = s_success s /\ count is_log l = s_received s.
Proof. intros b0 l s e H. pose proof (sinv_run _ _ _ _ H) as [? ? ? ? ? ? ?]. auto. Qed.

(** With a polite platform. *)
Lemma polite_app : forall a b, polite (a ++ b) -> polite a.
Proof. intros a b H x y ->. apply (H x (y ++ b)). rewrite app_assoc. reflexivity. Qed.
Lemma polite_all : forall e, polite e -> count is_log (map fst e) <= captures e.
Proof. intros e H. apply (H e []). symmetry. apply app_nil_r. Qed.

Lemma balance : forall b0 l s e, srun (shots_new b0) l = Some (s, e) -> polite e ->
  captures e + n1 (s_next s) = count is_log l + n1 (negb (s_ready s)) /\ s_unexpected s = 0.
Proof.
  intros b0 l. induction l as [|o l IH] using rev_ind; intros s e H Hp.
  - simpl in H. inv H. simpl. auto.
  - apply srun_snoc in H. destruct H as (s1 & e1 & b & H1 & H2 & ->). pose proof (polite_app _ _ Hp) as Hp1.
    destruct (IH _ _ H1 Hp1) as [Hb Hu]. pose proof (polite_all _ Hp) as Hq. rewrite map_app in Hq. simpl in Hq.
    rewrite (srun_fst _ _ _ _ H1), count_snoc, captures_snoc in Hq. rewrite count_snoc, captures_snoc.
    destruct s1 as [en f rd q n c1 c2 c3 c4 c5 c6]. simpl in *. unfold n1 in *.
    destruct o as [x| | | | |]; simpl in *.
    + inv H2. simpl. split; lia.
    + destruct q; inv H2; simpl; split; lia.
    + destruct n; inv H2; simpl.
      * exfalso. destruct rd; simpl in *; lia.
      * split; [destruct rd; simpl in *; lia|reflexivity].
    + destruct q; [|discriminate]. destruct en; simpl in H2; [destruct rd; simpl in H2|]; inv H2; simpl in *; split; lia.
    + destruct n; [|discriminate]. inv H2. simpl. split; [|reflexivity]. destruct rd; simpl in *; lia.
    + destruct (changed f); inv H2. simpl. split; lia.
Qed.

Theorem one_at_a_time : forall b0 l s e a b c, srun (shots_new b0) l = Some (s, e) -> polite e ->
  e = a ++ (STake, true) :: b ++ (STake, true) :: c -> In SLog (map fst b).
Proof.
  intros b0 l s e a b c H Hp He.
  destruct (in_dec (fun x y : sop => ltac:(decide equality; apply bool_dec) : {x = y} + {x <> y}) SLog (map fst b)) as [|Hn]; auto. exfalso.
  assert (Hz : count is_log (map fst b) = 0).
  { clear - Hn. unfold count. induction b as [|[o x] b IH]; auto. simpl in *. destruct o; simpl; try (apply IH; tauto). exfalso. tauto. }
  set (pre := a ++ (STake, true) :: b ++ [(STake, true)]).
  assert (Hsplit : e = pre ++ c). { subst pre e. rewrite <- app_assoc. simpl. rewrite <- app_assoc. reflexivity. }
  pose proof (srun_fst _ _ _ _ H) as Hl. rewrite Hsplit, map_app in Hl. subst l. rewrite srun_app in H.
  destruct (srun (shots_new b0) (map fst pre)) as [[s1 e1]|] eqn:E1; [|discriminate].
  destruct (srun s1 (map fst c)) as [[s2 e2]|] eqn:E2; [|discriminate]. inv H.
  assert (Hx : e1 = pre).
  { pose proof (srun_fst _ _ _ _ E1) as Hf. assert (Hlen : length e1 = length pre) by (rewrite <- (map_length fst e1), Hf, map_length; reflexivity).
    assert (Hq : firstn (length e1) (e1 ++ e2) = firstn (length pre) (pre ++ c)) by congruence.
    rewrite !firstn_app, !Nat.sub_diag, !firstn_all in Hq. simpl in Hq. rewrite !app_nil_r in Hq. exact Hq. }
  subst e1. rewrite Hsplit in Hp. pose proof (polite_app _ _ Hp) as Hp1.
  destruct (balance _ _ _ _ E1 Hp1) as [Hb _].
  assert (Ha : count is_log (map fst a) <= captures a). { apply (Hp a ((STake, true) :: b ++ [(STake, true)] ++ c)). subst pre. rewrite <- app_assoc. simpl. rewrite <- app_assoc. reflexivity. }
  assert (Hcap : captures pre = captures a + 1 + captures b + 1).
  { unfold captures, pre. rewrite filter_app, app_length. simpl. rewrite filter_app, app_length. simpl. lia. }
  assert (Hlog : count is_log (map fst pre) = count is_log (map fst a)).
  { unfold count, pre in *. rewrite map_app, filter_app, app_length. simpl. rewrite map_app, filter_app, app_length. simpl. rewrite Hz. lia. }
  rewrite Hcap, Hlog in Hb. unfold n1 in Hb. destruct (s_next s1), (s_ready s1); simpl in Hb; lia.
Qed.

Theorem no_unexpected : forall b0 l s e, srun (shots_new b0) l = Some (s, e) -> polite e -> s_unexpected s = 0.
Proof. intros b0 l s e H Hp. exact (proj2 (balance _ _ _ _ H Hp)). Qed.

(** A request made when nothing is pending is passed on. *)
Theorem served : forall b0 l s e, srun (shots_new b0) l = Some (s, e) -> polite e ->
  captures e = count is_log l -> srun (shots_new b0) (l ++ [STake]) = None -> srun (shots_new b0) (l ++ [SNext]) = None -> srun (shots_new b0) (l ++ [SEnabled]) = None ->
  exists s', srun (shots_new b0) (l ++ [SRequest; STake]) = Some (s', e ++ [(SRequest, false); (STake, shots_now b0 l)]).
Proof.
  intros b0 l s e H Hp Hc H1 H2 H3. rewrite srun_app, H in H1, H2, H3. pose proof (sinv_run _ _ _ _ H) as [I1 I2 I3 I4 I5 I6 I7].
  destruct (balance _ _ _ _ H Hp) as [Hb _]. destruct s as [en f rd q n c1 c2 c3 c4 c5 c6]. simpl in *.
  destruct n; [discriminate|]. destruct (changed f); [discriminate|]. rewrite srun_app, H. simpl.
  destruct q; [destruct en; simpl in H1; [destruct rd|]; discriminate|]. rewrite <- I5, <- (I7 eq_refl).
  destruct rd; [|unfold n1 in Hb; simpl in Hb; lia]. destruct en; simpl; eauto.
Qed.

(** A screenshot that is never logged is the last one. *)
Lemma stuck : forall l s s' e, s_ready s = false -> s_next s = false -> ~ In SLog l -> srun s l = Some (s', e) -> captures e = 0.
Proof.
  induction l as [|o l IH]; intros s s' e Hr Hn Hl H; simpl in H; [inv H; reflexivity|].
  destruct (sstep s o) as [[s1 b]|] eqn:Es; [|discriminate]. destruct (srun s1 l) as [[s2 e2]|] eqn:E; [|discriminate]. inv H.
  assert (Hl' : ~ In SLog l) by (intros X; apply Hl; right; exact X).
  assert (Hx : b = false /\ s_ready s1 = false /\ s_next s1 = false).
  { destruct s as [en f rd q n c1 c2 c3 c4 c5 c6]. simpl in *. subst rd n. destruct o as [x| | | | |].
    - inv Es. auto.
    - destruct q; inv Es; auto.
    - exfalso. apply Hl. left. reflexivity.
    - destruct q; [|discriminate]. destruct en; simpl in Es; inv Es; auto.
    - discriminate.
    - destruct (changed f); inv Es. auto. }
  destruct Hx as (-> & H1 & H2). unfold captures. simpl. exact (IH _ _ _ H1 H2 Hl' E).
Qed.

Theorem stuck_forever : exists l s e, srun (shots_new true) l = Some (s, e) /\ polite e /\ captures e = 1 /\
  forall l', ~ In SLog l' -> forall s' e', srun (shots_new true) (l ++ l') = Some (s', e') -> captures e' = 1.
Proof.
  exists [SRequest; STake]. eexists _, _. split; [reflexivity|]. splits.
  - intros a b. destruct a as [|x [|y [|z a]]]; simpl; intros Hx; inversion Hx; subst; unfold count, captures; simpl; lia.
  - reflexivity.
  - intros l' Hl s' e' H. rewrite srun_app in H. simpl in H. destruct (srun _ l') as [[s2 e2]|] eqn:E; [|discriminate]. inv H.
    pose proof (fun A B => stuck _ _ _ _ A B Hl E) as Hx. specialize (Hx eq_refl eq_refl). unfold captures in *. simpl. rewrite Hx. reflexivity.
Qed.

(** ** Platform events *)
Lemma lrun_app : forall l1 l2 s, lrun s (l1 ++ l2) =
  match lrun s l1 with Some (s', e) => match lrun s' l2 with Some (s'', e') => Some (s'', e ++ e') | None => None end | None => None end.
Proof.
  induction l1 as [|o l IH]; intros l2 s; simpl.
  - destruct (lrun s l2) as [[? ?]|]; reflexivity.
  - destruct (lstep s o) as [[s1 b]|]; auto. rewrite IH. destruct (lrun s1 l) as [[s2 e2]|]; auto.
    destruct (lrun s2 l2) as [[s3 e3]|]; auto. rewrite app_assoc. reflexivity.
Qed.
Lemma events_snoc : forall l b o, events_now b (l ++ [o]) = match o with LSet b' => b' | _ => events_now b l end.
Proof. induction l as [|x l IH]; intros b o; simpl. - destruct o; reflexivity. - destruct x; apply IH. Qed.

Record linv (l : list lop) (s : listener) (e : list call) : Prop := mkLinv {
  lv_value : fl_value (li_flag s) = events_now false l;
  lv_le : fl_seen (li_flag s) <= fl_version (li_flag s);
  lv_on : changed (li_flag s) = false -> fl_value (li_flag s) = true -> exists e', e = e' ++ [Start];
  lv_off : changed (li_flag s) = false -> fl_value (li_flag s) = false -> e = [] \/ exists e', e = e' ++ [Stop];
  lv_first : li_has_seen s = false -> e = [] }.
Lemma linv_run : forall l s e, lrun (listener_new false) l = Some (s, e) -> linv l s e.
Proof.
  intros l. induction l as [|o l IH] using rev_ind; intros s e H.
  - simpl in H. inv H. constructor; simpl; auto. discriminate.
  - rewrite lrun_app in H. destruct (lrun (listener_new false) l) as [[s1 e1]|]; [|discriminate]. destruct (IH _ _ eq_refl) as [H1 H2 H3 H4 H5]. clear IH.
    destruct s1 as [f h]. simpl in *. destruct o as [b|]; simpl in H.
    + inv H. rewrite app_nil_r. constructor; simpl; rewrite ?events_snoc; auto.
      * apply set_flag_value.
      * apply set_flag_le; auto.
      * intros Hc. pose proof (set_flag_same _ _ _ _ H2 Hc) as Hx. rewrite Hx in Hc |- *. auto.
      * intros Hc. pose proof (set_flag_same _ _ _ _ H2 Hc) as Hx. rewrite Hx in Hc |- *. auto.
    + destruct (changed f) eqn:Ec; [|discriminate]. inv H. rewrite app_nil_r. constructor; simpl; rewrite ?events_snoc; auto.
      * intros _ Hv. rewrite Hv. eauto.
      * intros _ Hv. rewrite Hv. destruct h; [eauto|]. rewrite H5 by auto. auto.
      * discriminate.
Qed.

Theorem follows : forall l s e, lrun (listener_new false) l = Some (s, e) -> lrun (listener_new false) (l ++ [LArm]) = None ->
  if events_now false l then exists e', e = e' ++ [Start] else e = [] \/ exists e', e = e' ++ [Stop].
Proof.
  intros l s e H Hn. pose proof (linv_run _ _ _ H) as [H1 H2 H3 H4 H5]. rewrite lrun_app, H in Hn. simpl in Hn.
  destruct (changed (li_flag s)) eqn:Ec; [discriminate|]. rewrite <- H1. destruct (fl_value (li_flag s)); auto.
Qed.

(** The flag is looked at after each change. *)
Theorem looks : forall l s e, lrun (listener_new false) l = Some (s, e) -> lrun (listener_new false) (l ++ [LSet (negb (events_now false l)); LArm]) <> None.
Proof.
  intros l s e H. pose proof (linv_run _ _ _ H) as [H1 H2 H3 H4 H5]. rewrite lrun_app, H. simpl. unfold set_flag. rewrite H1.
  destruct (events_now false l); simpl; unfold changed; cbn [fl_version fl_seen];
    (destruct (Nat.eqb _ _) eqn:En; [apply Nat.eqb_eq in En; lia|]); simpl; discriminate.
Qed.

(** A flag that is already on when the listener is made is not acted on. *)
Theorem already_on : forall l, (forall b, In (LSet b) l -> b = true) -> forall s e, lrun (listener_new true) l = Some (s, e) -> e = [] /\ lrun (listener_new true) (l ++ [LArm]) = None.
Proof.
  intros l Hl s e H. enough (Hx : e = [] /\ s = listener_new true).
  { destruct Hx as [-> ->]. split; auto. rewrite lrun_app, H. reflexivity. }
  revert s e H. induction l as [|o l IH] using rev_ind; intros s e H.
  - simpl in H. inv H. auto.
  - rewrite lrun_app in H. destruct (lrun (listener_new true) l) as [[s1 e1]|]; [|discriminate].
    destruct (IH (fun b Hb => Hl b (in_or_app _ _ _ (or_introl Hb))) _ _ eq_refl) as [-> ->].
    destruct o as [b|]; simpl in H; [|discriminate]. inv H. assert (b = true) as -> by (apply Hl; apply in_or_app; right; left; reflexivity). auto.
Qed.

(** The reasons. *)
Lemma reasons_from : forall l s s' e, srun s l = Some (s', e) ->
  s_disabled s' = (s_disabled s + off_takes (fl_value (s_flag s)) (s_enabled s) l)%nat /\ s_full s' = (s_full s + full_requests (s_queued s) l)%nat.
Proof.
  induction l as [|o l IH]; intros s s' e H; simpl in H; [inversion H; subst; simpl; lia|].
  destruct (sstep s o) as [[s1 x]|] eqn:Es; [|discriminate]. destruct (srun s1 l) as [[s2 e2]|] eqn:Er; [|discriminate]. inversion H; subst.
  destruct (IH _ _ _ Er) as [I1 I2]. clear IH H Er. destruct s as [en f rd q n c1 c2 c3 c4 c5 c6].
  destruct o; simpl in Es |- *.
  - inversion Es; subst; simpl in *. unfold set_flag in I1. destruct (Bool.eqb (fl_value f) b) eqn:Eb; simpl in I1; [apply Bool.eqb_prop in Eb; rewrite <- Eb|]; split; assumption.
  - destruct q; inversion Es; subst; simpl in *; lia.
  - destruct n; inversion Es; subst; simpl in *; split; assumption.
  - destruct q; [|discriminate]. destruct en; simpl in Es; [destruct rd; simpl in Es|]; inversion Es; subst; simpl in *; lia.
  - destruct n; inversion Es; subst; simpl in *; split; assumption.
  - destruct (changed f); inversion Es; subst; simpl in *; split; assumption.
Qed.
Lemma reasons b0 l s e : srun (shots_new b0) l = Some (s, e) -> s_disabled s = off_takes b0 b0 l /\ s_full s = full_requests false l.
Proof. intros H. exact (reasons_from _ _ _ _ H). Qed.
