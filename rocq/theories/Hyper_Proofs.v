From Verif Require Import Base Hyper_Model Hyper_Spec.

Section P.
Context {B : Type}.
Implicit Types (s : st B) (l : label B) (tr : list (item B)).

Definition on (n : net B) : option nat := match n with NConnecting k | NStream k | NBody k _ | NEvent k _ | NClose k _ => Some k | _ => None end.
Definition starting (a : api B) : bool := match a with ATop | ASend (MStart _) _ _ => true | _ => false end.
Definition is_start (m : msg B) := match m with MStart _ => true | _ => false end.
Definition data_only (ms : list (msg B)) := forall m, In m ms -> is_start m = false.
Definition newborn s k := In (MStart k) (s_chan s) \/ exists r n, s_api s = ASend (MStart k) r n.
Definition api_ok s := match s_api s with
  | ASend (MStart k) rest next => S k = s_count s /\ (exists b, rest = [MData b]) /\ next = AWait
  | ASend (MData _) rest next => data_only rest /\ (next = AWait \/ next = AMain)
  | _ => True end.

Record inv1 s : Prop := {
  i_len : length (s_chan s) <= 1;
  i_api : api_ok s;
  i_start : forall k, In (MStart k) (s_chan s) -> S k = s_count s /\ ((exists b r n, s_api s = ASend (MData b) r n) \/ s_api s = APanicked);
  i_pos : starting (s_api s) = false -> 1 <= s_count s;
  i_on : forall k, on (s_net s) = Some k -> k < s_count s /\ (starting (s_api s) = false -> data_only (s_chan s) -> S k = s_count s) /\ ~ newborn s k }.

Inductive reach : st B -> list (item B) -> Prop :=
| r_init : reach init []
| r_step s tr l s' o : reach s tr -> step s l = Some (s', o) -> reach s' (tr ++ o).

Lemma run_app : forall ls1 ls2 s, run s (ls1 ++ ls2) = match run s ls1 with None => None | Some (s1, o1) => match run s1 ls2 with None => None | Some (s2, o2) => Some (s2, o1 ++ o2) end end.
Proof.
  induction ls1 as [|a ls1 IH]; intros ls2 s; cbn.
  - destruct (run s ls2) as [[s2 o2]|]; reflexivity.
  - destruct (step s a) as [[s1 o1]|]; [|reflexivity]. rewrite IH. destruct (run s1 ls1) as [[s2 o2]|]; [|reflexivity].
    destruct (run s2 ls2) as [[s3 o3]|]; [|reflexivity]. rewrite app_assoc. reflexivity.
Qed.

Lemma run_reach : forall ls s tr, run init ls = Some (s, tr) -> reach s tr.
Proof.
  induction ls as [|l ls IH] using rev_ind; intros s tr H.
  - cbn in H. inv H. constructor.
  - rewrite run_app in H. destruct (run init ls) as [[s1 o1]|] eqn:E; [|discriminate]. cbn in H.
    destruct (step s1 l) as [[s2 o2]|] eqn:E2; [|discriminate]. inv H. rewrite app_nil_r. econstructor; eauto.
Qed.

Lemma data_only_nil : data_only []. Proof. intros m []. Qed.
Lemma data_only_map : forall acks, data_only (map MData acks).
Proof. intros acks m H. apply in_map_iff in H as (b & <- & _). reflexivity. Qed.
Hint Resolve data_only_nil data_only_map : core.

Lemma chan_cases : forall s, length (s_chan s) <= 1 -> s_chan s = [] \/ (exists k, s_chan s = [MStart k]) \/ exists b, s_chan s = [MData b].
Proof. intros s H. destruct (s_chan s) as [|[k|b] [|x c] ]; cbn in H; try lia; eauto. Qed.

Ltac crush1 :=
  repeat match goal with
  | H : In _ [] |- _ => destruct H
  | H : In _ (_ :: _) |- _ => destruct H
  | H : MStart _ = MStart _ |- _ => injection H as ?; subst
  | H : MData _ = MStart _ |- _ => discriminate
  | H : _ \/ _ |- _ => destruct H
  | H : exists _, _ |- _ => destruct H
  | H : Some _ = Some _ |- _ => injection H as ?; subst
  | H : None = Some _ |- _ => discriminate
  | H : ASend _ _ _ = ASend _ _ _ |- _ => injection H as ?; subst
  end.

Lemma sending_start : forall acks (next : api B), starting next = false -> data_only acks -> starting (sending acks next) = false.
Proof. intros [|[k|b] a] next E D; cbn; auto. specialize (D (MStart k) (or_introl eq_refl)). discriminate. Qed.
Lemma sending_ok : forall s acks next, (next = AWait \/ next = AMain) -> data_only acks -> api_ok (set_api s (sending acks next)).
Proof.
  intros s [|[k|b] a] next E D; unfold api_ok; cbn.
  - destruct E; subst; exact I.
  - specialize (D (MStart k) (or_introl eq_refl)). discriminate.
  - split; [intros m Hm; apply D; right; exact Hm|exact E].
Qed.
Lemma sending_new : forall acks (next : api B) k r n, (next = AWait \/ next = AMain) -> data_only acks -> sending acks next = ASend (MStart k) r n -> False.
Proof.
  intros [|[k'|b] a] next k r n E D; cbn; intros H; [destruct E; subst; discriminate| |discriminate].
  specialize (D (MStart k') (or_introl eq_refl)). discriminate.
Qed.

Lemma inv1_init : inv1 init.
Proof. constructor; cbn; try lia; try discriminate; try easy. Qed.

Ltac parts s :=
  let n := fresh "n" in let a := fresh "a" in let c := fresh "c" in let cnt := fresh "cnt" in let rx := fresh "rx" in let body := fresh "body" in
  let op := fresh "op" in let sh := fresh "sh" in
  destruct s as [n a c cnt rx body op sh];
  cbn [s_net s_api s_chan s_count s_rx s_body s_open s_shutdown set_net set_api set_chan set_rx set_body drop_request] in *.

Ltac red_all := unfold api_ok, newborn, stream_of in *;
  cbn [s_net s_api s_chan s_count s_rx s_body s_open s_shutdown set_net set_api set_chan set_rx set_body drop_request on starting sending map] in *.
Ltac tail_nil :=
  match goal with L : length (_ :: ?l) <= 1 |- _ => let X := fresh in assert (X : l = []) by (destruct l; [reflexivity|cbn in L; lia]); subst l end.
Ltac more1 :=
  repeat match goal with
  | H : In _ [] |- _ => destruct H
  | H : In _ [_] |- _ => destruct H as [H|[] ]
  | H : MStart _ = MStart _ |- _ => injection H as H; subst
  | H : MData _ = MStart _ |- _ => discriminate
  | H : _ \/ _ |- _ => destruct H
  | H : exists _, _ |- _ => destruct H
  | H : _ /\ _ |- _ => destruct H
  | H : Some _ = Some _ |- _ => injection H as H; subst
  | H : None = Some _ |- _ => discriminate
  | H : ASend _ _ _ = ASend _ _ _ |- _ => injection H as; subst
  | H : sending (map MData _) AMain = ASend (MStart _) _ _ |- _ => exfalso; eapply sending_new in H; eauto
  | H : forall _, In _ [MStart _] -> _ |- _ => specialize (H _ (or_introl eq_refl))
  | H : forall _, Some _ = Some _ -> _ |- _ => specialize (H _ eq_refl)
  | H : forall k, on ?n = Some k -> _, X : on ?n = Some _ |- _ => specialize (H _ X)
  | H : forall k, In (MStart k) ?c -> _, X : In (MStart _) ?c |- _ => specialize (H _ X)
  | H : ?x = ?x -> _ |- _ => specialize (H eq_refl)
  end.

Lemma tell_some : forall s k e s', tell s k e = Some (Some s') ->
  exists q, s_rx s = Some q /\ S k = s_count s /\ length q < EVENT_CAP /\ s' = set_rx s (Some (q ++ [e])).
Proof.
  intros s k e s' H. unfold tell, events_of in H. destruct (Nat.eqb (s_count s) (S k)) eqn:E; [|discriminate]. apply Nat.eqb_eq in E.
  destruct (s_rx s) as [q|]; [|discriminate]. destruct (Nat.ltb (length q) EVENT_CAP) eqn:F; [|discriminate]. inv H. apply Nat.ltb_lt in F. eauto.
Qed.

Lemma gone_off : forall n : net B, net_gone n = true -> on n = None.
Proof. destruct n; cbn; congruence. Qed.

Lemma inv1_step : forall s l s' o, inv1 s -> step s l = Some (s', o) -> inv1 s'.
Proof.
  intros s l s' o I E. destruct I as [L A St P On].
  destruct l; cbn [step] in E; repeat dmatch_in E; inv E;
    try match goal with H : tell _ _ _ = Some (Some _) |- _ => apply tell_some in H as (? & ? & ? & ? & ->) end; parts s; subst; red_all.
  all: try tail_nil.
  all: try (constructor; red_all; [first [assumption|cbn; lia]| | | |]).
  all: try assumption.
  all: try exact I.
  all: try solve [intros; more1; repeat split; intros; more1; try congruence; try lia; eauto].
  all: try match goal with |- forall k, on ?n = Some k -> _ =>
    let k := fresh in let Hk := fresh in let X1 := fresh in let X2 := fresh in let X3 := fresh in let Y := fresh in
    intros k Hk; destruct (On k Hk) as (X1 & X2 & X3); split; [lia|split; [solve [intros; auto; discriminate]|
      intros [Y|(? & ? & Y)]; [exact (X3 (or_introl Y))|solve [discriminate|injection Y; intros; lia|eapply sending_new; eauto] ] ] ] end.
  all: try solve [match goal with |- context [sending (map MData ?a) AMain] => destruct a; cbn; auto end].
  all: try solve [intros k0 E0; injection E0 as <-; destruct (St k (or_introl eq_refl)) as (E1 & E2); split; [lia|split; [auto|] ];
    intros [ [] |(r & n0 & Y)]; subst; destruct E2 as [(b & r' & n' & E2)|E2]; discriminate].
  - intros k0 E0. injection E0 as <-. destruct (On k eq_refl) as (X1 & X2 & X3). split; [lia|split].
    + intros S1 _. apply X2; [exact S1|]. intros x [<-|[] ]. reflexivity.
    + intros [ [] |Y]. apply X3. right. exact Y.
  - intros _. match goal with A : match ?m with _ => _ end |- _ => destruct m; cbn in *; [lia|auto] end.
  - intros k Hk. rewrite gone_off in Hk by assumption. discriminate.
  - match goal with H : Nat.ltb _ CHAN_CAP = true |- _ => rename H into EC end. apply Nat.ltb_lt in EC. destruct c as [|x c]; [|cbn in EC; unfold CHAN_CAP in EC; lia]. destruct A as (E2 & (b & ->) & ->). cbn [app sending].
    constructor; red_all; try (cbn; lia); auto.
    + intros k' [X|[] ]. injection X as <-. eauto 6.
    + intros k' Hk'. destruct (On k' Hk') as (X1 & X2 & X3). split; [lia|split].
      * intros _ D. specialize (D (MStart k) (or_introl eq_refl)). discriminate.
      * intros [ [Y|[] ]|(r & n0 & Y)]; [|discriminate]. injection Y as <-. apply X3. eauto.
  - match goal with H : Nat.ltb _ CHAN_CAP = true |- _ => rename H into EC end. apply Nat.ltb_lt in EC. destruct c as [|x c]; [|cbn in EC; unfold CHAN_CAP in EC; lia]. destruct A as (D & N). cbn [app].
    constructor; red_all; try (cbn; lia); auto.
    + exact (sending_ok {| s_net := n; s_api := AMain; s_chan := []; s_count := cnt; s_rx := rx; s_body := body; s_open := op; s_shutdown := sh |} rest a N D).
    + intros k' [X|[] ]. discriminate.
    + intros k' Hk'. destruct (On k' Hk') as (X1 & X2 & X3). split; [lia|split].
      * intros _ _. auto.
      * intros [ [Y|[] ]|(r & n0 & Y)]; [discriminate|]. eapply sending_new; eauto.
Qed.

Lemma reach_inv1 : forall s tr, reach s tr -> inv1 s.
Proof. intros s tr H. induction H; [apply inv1_init|eapply inv1_step; eauto]. Qed.

Lemma sent_app : forall k tr1 tr2, sent k (tr1 ++ tr2) = sent k tr1 ++ sent k tr2.
Proof. intros k tr1 tr2. induction tr1 as [|x tr1 IH]; [reflexivity|]. cbn. destruct x; auto. destruct (Nat.eqb k0 k); [cbn; f_equal|]; auto. Qed.
Lemma wire_app : forall k tr1 tr2, wire k (tr1 ++ tr2) = wire k tr1 ++ wire k tr2.
Proof. intros k tr1 tr2. induction tr1 as [|x tr1 IH]; [reflexivity|]. cbn. destruct x; auto. destruct (Nat.eqb k0 k); [cbn; f_equal|]; auto. Qed.
Lemma frames_app : forall k tr1 tr2, frames k (tr1 ++ tr2) = frames k tr1 ++ frames k tr2.
Proof. intros k tr1 tr2. induction tr1 as [|x tr1 IH]; [reflexivity|]. cbn. destruct x; auto. destruct (Nat.eqb k0 k); [cbn; f_equal|]; auto. Qed.
Lemma got_app : forall k tr1 tr2, got k (tr1 ++ tr2) = got k tr1 ++ got k tr2.
Proof. intros k tr1 tr2. induction tr1 as [|x tr1 IH]; [reflexivity|]. cbn. destruct x; auto. destruct (Nat.eqb k0 k); [cbn; f_equal|]; auto. Qed.

(** The way out. *)
Definition pend (n : net B) : list B := match n with NBody _ b => [b] | _ => [] end.
Definition chan_data (c : list (msg B)) : list B := match c with [MData b] => [b] | _ => [] end.

Record inv2 s tr : Prop := {
  o_eq : forall k, live (s_net s) = Some k -> s_open s = true -> sent k tr = wire k tr ++ s_body s ++ pend (s_net s) ++ chan_data (s_chan s);
  o_pre : forall k, prefix (wire k tr) (sent k tr);
  o_new : forall k, s_count s <= k \/ newborn s k -> sent k tr = [];
  o_body : length (s_body s) <= BODY_CAP }.

Lemma prefix_nil : forall A (l : list A), prefix [] l. Proof. intros A l. exists l. reflexivity. Qed.
Lemma prefix_app : forall A (l1 l2 l3 : list A), prefix l1 l2 -> prefix l1 (l2 ++ l3).
Proof. intros A l1 l2 l3 [r ->]. exists (r ++ l3). rewrite app_assoc. reflexivity. Qed.

Lemma live_on : forall (n : net B) k, live n = Some k -> on n = Some k.
Proof. destruct n; cbn; congruence. Qed.

Ltac step_cases E :=
  cbn [step] in E; repeat dmatch_in E; inv E;
    try match goal with H : tell _ _ _ = Some (Some _) |- _ => apply tell_some in H as (? & ? & ? & ? & ->) end.

Lemma inv2_step : forall s tr l s' o, inv1 s -> inv2 s tr -> step s l = Some (s', o) -> inv2 s' (tr ++ o).
Proof.
  intros s tr l s' o I1 I E. pose proof (inv1_step _ _ _ _ I1 E) as I1'. destruct I1 as [L A St P On], I as [Q R N Bd].
  destruct l; step_cases E; parts s; subst; red_all; rewrite ?app_nil_r.
  all: try tail_nil.
  all: try (constructor; red_all; unfold BODY_CAP in *; cbn [live pend chan_data length] in *;
    [intros kk; rewrite ?sent_app, ?wire_app; cbn [sent wire]; rewrite ?app_nil_r in *
    |intros kk; rewrite ?sent_app, ?wire_app; cbn [sent wire]; rewrite ?app_nil_r in *
    |intros kk Hn; rewrite ?sent_app, ?wire_app; cbn [sent wire]; rewrite ?app_nil_r in *
    |first [assumption|lia] ]).
  all: try solve [auto].
  all: try solve [apply N; destruct Hn as [Hn|[Hn|(r & n0 & Hn)] ]; [left; lia|first [destruct Hn; fail|right; left; exact Hn]|
     first [discriminate|right; right; eauto; fail|exfalso; eapply sending_new in Hn; eauto; fail] ] ].
  all: try solve [intros Hk; try discriminate; try (injection Hk as <-); intros; try discriminate; auto].
  all: try solve [intros Hk _; injection Hk as <-; rewrite Nat.eqb_refl; rewrite (Q _ eq_refl eq_refl); rewrite <- !app_assoc; reflexivity].
  all: try solve [destruct (Nat.eqb_spec k kk) as [<-|]; [rewrite (Q _ eq_refl eq_refl); eexists; rewrite <- app_assoc; reflexivity|rewrite app_nil_r; auto] ].
  all: try (match goal with H : Nat.ltb (length ?c) CHAN_CAP = true |- _ => apply Nat.ltb_lt in H; destruct c; [|cbn in H; unfold CHAN_CAP in H; lia] end; cbn [app chan_data] in *;
    rewrite ?app_nil_r in *).
  - intros Hk _. injection Hk as <-. destruct (R k) as [r Hr]. rewrite N in Hr |- * by (right; left; left; reflexivity). symmetry in Hr. apply app_eq_nil in Hr. symmetry. tauto.
  - match goal with H : Nat.ltb (length ?c) BODY_CAP = true |- _ => apply Nat.ltb_lt in H; unfold BODY_CAP in H; destruct c; [|cbn in H; lia] end. cbn [app] in *.
    constructor; red_all; cbn [live pend] in *; [|auto|auto|unfold BODY_CAP; cbn; lia]. intros kk Hk _. injection Hk as <-. rewrite (Q _ eq_refl eq_refl). reflexivity.
  - destruct Hn as [Hn|[Hn|(r & n0 & Hn)] ]; [apply N; left; lia|apply N; right; left; exact Hn|]. injection Hn as <- _ _. apply N. left. lia.
  - apply Q.
  - apply N. destruct Hn as [Hn|[Hn|(r & n0 & Hn)] ]; [left; exact Hn| |].
    + destruct Hn as [Hn|[] ]. injection Hn as <-. right. right. eauto.
    + destruct A as (_ & (b & ->) & ->). discriminate.
  - intros Hk Ho. rewrite (Q _ Hk Ho). destruct (On kk (live_on _ _ Hk)) as (X1 & X2 & X3). rewrite <- X2; [|reflexivity|apply data_only_nil].
    cbn. rewrite Nat.eqb_refl. rewrite ?app_nil_r. rewrite <- !app_assoc. reflexivity.
  - apply prefix_app. apply R.
  - assert (cnt <= kk).
    { destruct Hn as [Hn|[Hn|(r & n0 & Hn)] ]; [exact Hn|destruct Hn as [Hn|[] ]; discriminate|]. exfalso. eapply sending_new in Hn; eauto; tauto. }
    specialize (P eq_refl). destruct (Nat.eqb_spec (pred cnt) kk); [lia|]. rewrite app_nil_r. apply N. left. assumption.
Qed.

(** The way in. *)
Definition pe (n : net B) (k : nat) : list (event B) := match n with NEvent k' b => if Nat.eqb k' k then [EData b] else [] | _ => [] end.

Record inv3 s tr : Prop := {
  e_cur : forall q k, s_rx s = Some q -> S k = s_count s -> exists tail, got k tr ++ q ++ pe (s_net s) k = map EData (frames k tr) ++ tail /\
    (tail = [] \/ (exists w, tail = [EClosed w]) /\ on (s_net s) <> Some k);
  e_all : forall k, (exists ds, got k tr = map EData ds /\ prefix ds (frames k tr)) \/ (exists w, got k tr = map EData (frames k tr) ++ [EClosed w] /\ on (s_net s) <> Some k);
  e_new : forall k, s_count s <= k \/ newborn s k -> frames k tr = [] /\ got k tr = [];
  e_rx : forall k q, newborn s k -> s_rx s = Some q -> q = [] }.

Lemma split_events : forall fs (es rest tail : list (event B)), es ++ rest = map EData fs ++ tail ->
  (exists ds, es = map EData ds /\ prefix ds fs) \/ (exists t1, t1 <> [] /\ es = map EData fs ++ t1 /\ t1 ++ rest = tail).
Proof.
  induction fs as [|f fs IH]; intros es rest tail H.
  - cbn in H. destruct es as [|e es].
    + left. exists []. split; [reflexivity|exists []; reflexivity].
    + right. exists (e :: es). repeat split; auto. discriminate.
  - destruct es as [|e es].
    + left. exists []. split; [reflexivity|apply prefix_nil].
    + cbn in H. injection H as -> H. destruct (IH _ _ _ H) as [(ds & -> & r & ->)|(t1 & T & -> & E)].
      * left. exists (f :: ds). split; [reflexivity|exists r; reflexivity].
      * right. exists t1. repeat split; auto.
Qed.

Lemma cur_all : forall fs (es rest tail : list (event B)) (P : Prop), es ++ rest = map EData fs ++ tail ->
  (tail = [] \/ (exists w, tail = [EClosed w]) /\ P) ->
  (exists ds, es = map EData ds /\ prefix ds fs) \/ (exists w, es = map EData fs ++ [EClosed w] /\ P).
Proof.
  intros fs es rest tail P E T. apply split_events in E as [E|(t1 & N & -> & E)]; [left; exact E|right].
  destruct T as [->|[(w & ->) HP] ].
  - apply app_eq_nil in E. tauto.
  - destruct t1 as [|e [|e' t1] ]; [congruence| |discriminate]. cbn in E. injection E as -> _. eauto.
Qed.

Lemma prefix_snoc : forall (ds fs : list B) b, prefix ds fs -> prefix ds (fs ++ [b]).
Proof. intros. apply prefix_app. assumption. Qed.

Lemma same_flow : forall s s' tr o, s_count s' = s_count s -> s_rx s' = s_rx s \/ s_rx s' = None -> (forall k, newborn s' k -> newborn s k) ->
  (forall k, on (s_net s') = Some k -> on (s_net s) = Some k) -> (forall k q, S k = s_count s -> s_rx s = Some q -> pe (s_net s') k = pe (s_net s) k) ->
  (forall k, frames k o = [] /\ got k o = []) -> inv3 s tr -> inv3 s' (tr ++ o).
Proof.
  intros s s' tr o Ec Er Hn Ho Hp Hz [C R N X].
  assert (Ef: forall k, frames k (tr ++ o) = frames k tr) by (intros k; rewrite frames_app; destruct (Hz k) as [-> _]; apply app_nil_r).
  assert (Eg: forall k, got k (tr ++ o) = got k tr) by (intros k; rewrite got_app; destruct (Hz k) as [_ ->]; apply app_nil_r).
  constructor; intros; rewrite ?Ef, ?Eg.
  - destruct Er as [Er|Er]; rewrite Er in H; [|discriminate]. rewrite Ec in H0. rewrite (Hp k q H0 H). destruct (C q k H H0) as (tail & E & T). exists tail. split; [exact E|].
    destruct T as [T|[T1 T2] ]; [left; exact T|right; split; [exact T1|intros G; apply T2, Ho, G] ].
  - destruct (R k) as [D|(w & D1 & D2)]; [left; exact D|right; exists w; split; [exact D1|intros G; apply D2, Ho, G] ].
  - apply N. rewrite Ec in H. destruct H; [left; assumption|right; auto].
  - destruct Er as [Er|Er]; rewrite Er in H0; [|discriminate]. eapply X; [apply Hn; exact H|exact H0].
Qed.

Lemma get_inv : forall s d q s' o, step s (LGet d q) = Some (s', o) ->
  exists e qs, s_rx s = Some (e :: qs) /\ o = [OEvent (stream_of s) e] /\ s_net s' = s_net s /\ s_chan s' = s_chan s /\ s_count s' = s_count s /\
    (s_rx s' = Some qs \/ s_rx s' = None) /\ (s_api s = AWait \/ s_api s = AMain) /\ (forall k r n, s_api s' <> ASend (MStart k) r n).
Proof.
  intros s d q s' o E. cbn [step] in E. destruct (s_rx s) as [ [|e qs]|] eqn:Er; try discriminate. exists e, qs.
  repeat dmatch_in E; inv E; cbn [s_net s_api s_chan s_count s_rx set_rx set_api]; repeat (split; auto); intros k r n H; try congruence; eapply sending_new in H; eauto.
Qed.

Lemma inv3_step : forall s tr l s' o, inv1 s -> inv3 s tr -> step s l = Some (s', o) -> inv3 s' (tr ++ o).
Proof.
  intros s tr l s' o I1 I E. pose proof (inv1_step _ _ _ _ I1 E) as I1'. pose proof I as II. destruct I1 as [L A St P On], I as [C R N X].
  Ltac flow s II := apply (same_flow s); [reflexivity|first [left; reflexivity|right; reflexivity]| | | | |exact II].
  Ltac easyflow s :=
    parts s; subst; red_all; cbn [pe] in *; intros; try (split; reflexivity); try discriminate; auto;
    repeat match goal with H : _ \/ _ |- _ => destruct H | H : exists _, _ |- _ => destruct H end; try discriminate; cbn [In] in *; auto; try tauto; try (right; eauto; fail); try (left; eauto; fail);
    try solve [exfalso; eapply sending_new; eauto].
  destruct l.
  - (* shutdown *) cbn [step] in E. inv E. flow s II; easyflow s.
  - (* recv *) cbn [step] in E. repeat dmatch_in E; inv E;
      match goal with H : s_chan s = _ :: ?l |- _ => assert (l = []) by (destruct l; [reflexivity|cbn in L; lia]); subst l end;
      try (flow s II; easyflow s; fail).
    { (* a start *)
      match goal with H : s_chan s = MStart ?k :: _ |- _ => rename k into k; rename H into Ec end.
      assert (Nk: newborn s k) by (left; rewrite Ec; left; reflexivity). destruct (N k (or_intror Nk)) as [Fk Gk].
      rewrite app_nil_r. constructor; cbn [s_net s_api s_chan s_count s_rx set_net set_chan set_body].
      - intros q k' Hq Hk'. destruct (St k (or_introl eq_refl)) as [Sk _]. assert (k' = k) by lia. subst k'.
        rewrite (X k q Nk Hq), Fk, Gk. exists []. cbn. auto.
      - intros k'. destruct (Nat.eq_dec k' k) as [->|D]; [left; exists []; rewrite Fk, Gk; split; [reflexivity|apply prefix_nil]|].
        destruct (R k') as [Y|(w & Y & _)]; [left; exact Y|right; exists w; split; [exact Y|cbn; congruence] ].
      - intros k' Hk'. apply N. destruct Hk' as [Hk'|[ [] |Hk'] ]; [left; exact Hk'|right; right; exact Hk'].
      - intros k' q [ [] |Hk'] Hq. apply (X k' q); [right; exact Hk'|exact Hq]. }
  - cbn [step] in E. repeat dmatch_in E; inv E; flow s II; easyflow s.
  - cbn [step] in E. repeat dmatch_in E; inv E; flow s II; easyflow s.
  - cbn [step] in E. repeat dmatch_in E; inv E; flow s II; easyflow s.
  - (* frame *) cbn [step] in E. destruct (s_net s) as [|j|k| | | | |] eqn:En; try discriminate. inv E. destruct (On k eq_refl) as (O1 & O2 & O3).
    constructor; cbn [s_net s_api s_chan s_count s_rx set_net].
    + intros q k' Hq Hk'. destruct (C q k' Hq Hk') as (tail & Y & T). cbn [pe on] in *. rewrite got_app, frames_app. cbn [got frames]. rewrite ?app_nil_r in *.
      destruct (Nat.eqb_spec k k') as [<-|D].
      * destruct T as [->|[_ T] ]; [|congruence]. exists []. split; [|left; reflexivity]. rewrite app_nil_r in *. rewrite map_app. cbn. rewrite app_assoc, Y. reflexivity.
      * exists tail. rewrite ?app_nil_r. auto.
    + intros k'. rewrite got_app, frames_app. cbn [got frames]. rewrite app_nil_r. destruct (Nat.eqb_spec k k') as [<-|D].
      * destruct (R k) as [(ds & Y1 & Y2)|(w & _ & Y)]; [|cbn in Y; congruence]. left. exists ds. split; [exact Y1|apply prefix_app; exact Y2].
      * rewrite app_nil_r. cbn [on] in *. apply R.
    + intros k' Hk'. rewrite got_app, frames_app. cbn [got frames]. rewrite app_nil_r. destruct (N k' Hk') as [Y1 Y2]. destruct (Nat.eqb_spec k k') as [<-|D].
      * exfalso. destruct Hk' as [Hk'|Hk']; [lia|]. apply O3. exact Hk'.
      * rewrite app_nil_r. auto.
    + exact X.
  - cbn [step] in E. repeat dmatch_in E; inv E; flow s II; easyflow s.
  - cbn [step] in E. repeat dmatch_in E; inv E; flow s II; easyflow s.
  - (* tell *) cbn [step] in E. destruct (s_net s) as [|j|j| |k b|k w| |] eqn:En; try discriminate.
    + destruct (tell s k (EData b)) as [ [s1|]|] eqn:Et; inv E; rewrite app_nil_r.
      * apply tell_some in Et as (q & Er & Ek & Lq & ->). destruct (On k eq_refl) as (O1 & O2 & O3).
        constructor; cbn [s_net s_api s_chan s_count s_rx set_net set_rx].
        -- intros q' k' Hq Hk'. injection Hq as <-. assert (k' = k) by lia. subst k'. destruct (C q k Er Hk') as (tail & Y & T). cbn [pe on] in *. rewrite Nat.eqb_refl in Y.
           exists tail. rewrite app_nil_r. auto.
        -- intros k'. cbn [on] in *. apply R.
        -- intros k' Hk'. apply N. exact Hk'.
        -- intros k' q' Hk' Hq. exfalso. apply O3. assert (k' = k). { destruct Hk' as [Hk'|(r & n0 & Hk')]; cbn in Hk'. - destruct (St k' Hk'). lia. - unfold api_ok in A. rewrite Hk' in A. lia. }
           subst. exact Hk'.
      * rewrite <- (app_nil_r tr). flow s II; try (intros; split; reflexivity).
        -- intros k' Hk'. exact Hk'.
        -- intros k' Hk'. discriminate.
        -- intros k' q Hk' Hq. rewrite En. cbn. unfold tell, events_of in Et. rewrite Hq in Et. destruct (Nat.eqb_spec (s_count s) (S k)) as [D|D].
           ++ destruct (Nat.ltb (length q) EVENT_CAP); discriminate.
           ++ destruct (Nat.eqb_spec k k'); [lia|reflexivity].
    + destruct (tell s k (EClosed w)) as [ [s1|]|] eqn:Et; inv E; rewrite app_nil_r.
      * apply tell_some in Et as (q & Er & Ek & Lq & ->). destruct (On k eq_refl) as (O1 & O2 & O3).
        constructor; cbn [s_net s_api s_chan s_count s_rx set_net set_rx].
        -- intros q' k' Hq Hk'. injection Hq as <-. assert (k' = k) by lia. subst k'. destruct (C q k Er Hk') as (tail & Y & T). cbn [pe on] in *. rewrite ?app_nil_r in *.
           destruct T as [->|[_ T] ]; [|congruence]. exists [EClosed w]. rewrite app_nil_r in Y. rewrite app_assoc, Y. split; [reflexivity|right; split; [eauto|discriminate] ].
        -- intros k'. cbn [on] in *. destruct (R k') as [Y|(w' & Y & _)]; [left; exact Y|right; exists w'; split; [exact Y|discriminate] ].
        -- intros k' Hk'. apply N. exact Hk'.
        -- intros k' q' Hk' Hq. exfalso. apply O3. assert (k' = k). { destruct Hk' as [Hk'|(r & n0 & Hk')]; cbn in Hk'. - destruct (St k' Hk'). lia. - unfold api_ok in A. rewrite Hk' in A. lia. }
           subst. exact Hk'.
      * rewrite <- (app_nil_r tr). flow s II; try (intros; split; reflexivity).
        -- intros k' Hk'. exact Hk'.
        -- intros k' Hk'. discriminate.
        -- intros k' q Hk' Hq. rewrite En. reflexivity.
  - cbn [step] in E. repeat dmatch_in E; inv E; flow s II; easyflow s.
  - cbn [step] in E. repeat dmatch_in E; inv E; flow s II; easyflow s.
  - (* start *) cbn [step] in E. destruct (s_api s) eqn:Ea; try discriminate. inv E. rewrite app_nil_r.
    assert (F: forall k, s_count s <= k -> on (s_net s) <> Some k) by (intros k Hk H; destruct (On k H); lia).
    constructor; cbn [s_net s_api s_chan s_count s_rx set_api].
    + intros q k Hq Hk. injection Hq as <-. assert (k = s_count s) by lia. subst k. destruct (N (s_count s) (or_introl (le_n _))) as [-> ->]. exists [].
      split; [|left; reflexivity]. unfold pe. destruct (s_net s) eqn:En; try reflexivity. destruct (Nat.eqb_spec k (s_count s)) as [->|]; [|reflexivity].
      exfalso. apply (F (s_count s)); [lia|reflexivity].
    + apply R.
    + intros k Hk. apply N. destruct Hk as [Hk|[Hk|(r & n0 & Hk)] ]; [left; lia|right; left; exact Hk|]. cbn in Hk. injection Hk as <- _ _. left. lia.
    + intros k q Hk Hq. congruence.
  - (* put *) cbn [step] in E. destruct (s_api s) as [|m rest next| | | | | |] eqn:Ea; try discriminate. destruct (net_gone (s_net s)) eqn:Eg.
    { inv E. flow s II; easyflow s. }
    destruct (Nat.ltb (length (s_chan s)) CHAN_CAP) eqn:El; [|discriminate]. apply Nat.ltb_lt in El. unfold CHAN_CAP in El. inv E.
    assert (Ec: s_chan s = []) by (destruct (s_chan s); [reflexivity|cbn in El; lia]). rewrite Ec in *. unfold api_ok in A. rewrite Ea in A.
    flow s II.
    + intros k [Hk|(r & n0 & Hk)]; cbn in Hk.
      * destruct Hk as [->|[] ]. right. eauto.
      * destruct m as [j|b]; [destruct A as (_ & (b & ->) & ->); discriminate|]. exfalso. eapply sending_new in Hk; eauto; tauto.
    + intros k Hk. exact Hk.
    + reflexivity.
    + intros k. destruct m; split; reflexivity.
  - (* get *) apply get_inv in E as (e & qs & Er & -> & En & Ec & Ek & Er' & Ea & Ea').
    assert (NB: forall k, newborn s' k -> newborn s k). { intros k [Hk|(r & n0 & Hk)]; [left; rewrite <- Ec; exact Hk|exfalso; eapply Ea'; eauto]. }
    assert (Po: 1 <= s_count s) by (apply P; destruct Ea as [-> | ->]; reflexivity).
    assert (Sk: S (stream_of s) = s_count s) by (unfold stream_of; lia).
    assert (NN: ~ newborn s (stream_of s)). { intros H. specialize (X _ _ H Er). discriminate. }
    destruct (C _ _ Er Sk) as (tail & Y & T).
    constructor; rewrite ?En, ?Ek.
    + intros q k Hq Hk. assert (k = stream_of s) by lia. subst k. rewrite got_app, frames_app. cbn [got frames]. rewrite Nat.eqb_refl, app_nil_r.
      destruct Er' as [Er'|Er']; [|congruence]. rewrite Er' in Hq. injection Hq as <-. exists tail. split; [|exact T]. rewrite <- app_assoc. exact Y.
    + intros k. rewrite got_app, frames_app. cbn [got frames]. rewrite app_nil_r. destruct (Nat.eqb_spec (stream_of s) k) as [<-|D]; [|rewrite app_nil_r; apply R].
      eapply cur_all with (rest := qs ++ pe (s_net s) (stream_of s)); [rewrite <- app_assoc; exact Y|exact T].
    + intros k Hk. rewrite got_app, frames_app. cbn [got frames]. rewrite app_nil_r. destruct (Nat.eqb_spec (stream_of s) k) as [<-|D].
      * exfalso. destruct Hk as [Hk|Hk]; [lia|]. apply NN, NB, Hk.
      * rewrite app_nil_r. apply N. destruct Hk; [left; assumption|right; auto].
    + intros k q Hk Hq. apply NB in Hk. specialize (X _ _ Hk Er). discriminate.
  - cbn [step] in E. repeat dmatch_in E; inv E; flow s II; easyflow s.
  - cbn [step] in E. repeat dmatch_in E; inv E; flow s II; easyflow s.
  - cbn [step] in E. repeat dmatch_in E; inv E; flow s II; easyflow s.
Qed.

Lemma inv2_init : inv2 init [].
Proof. constructor; cbn; try discriminate; auto; [|unfold BODY_CAP; lia]. intros k. apply prefix_nil. Qed.
Lemma inv3_init : inv3 init [].
Proof. constructor; cbn; try discriminate; auto. intros k. left. exists []. split; [reflexivity|apply prefix_nil]. Qed.

Lemma reach_inv : forall s tr, reach s tr -> inv1 s /\ inv2 s tr /\ inv3 s tr.
Proof.
  intros s tr H. induction H as [|s tr l s' o H (I1 & I2 & I3) E].
  - split; [apply inv1_init|split; [apply inv2_init|apply inv3_init] ].
  - split; [eapply inv1_step; eauto|split; [eapply inv2_step; eauto|eapply inv3_step; eauto] ].
Qed.

Lemma ordered : forall ls s tr, run init ls = Some (s, tr) -> forall k, prefix (wire k tr) (sent k tr) /\ well_delivered (frames k tr) (got k tr).
Proof.
  intros ls s tr H k. apply run_reach, reach_inv in H as (_ & I2 & I3). split; [apply (o_pre _ _ I2)|].
  destruct (e_all _ _ I3 k) as [H|(w & H & _)]; [left; exact H|right; eauto].
Qed.

Lemma nothing_lost : forall ls s tr k, run init ls = Some (s, tr) -> live (s_net s) = Some k -> s_open s = true ->
  exists lag, sent k tr = wire k tr ++ lag /\ length lag <= 3.
Proof.
  intros ls s tr k H Hl Ho. apply run_reach, reach_inv in H as (I1 & I2 & _). exists (s_body s ++ pend (s_net s) ++ chan_data (s_chan s)).
  split; [apply (o_eq _ _ I2); assumption|]. pose proof (o_body _ _ I2) as Hb. unfold BODY_CAP in Hb. rewrite !app_length.
  assert (length (pend (s_net s)) <= 1) by (destruct (s_net s); cbn; lia).
  assert (length (chan_data (s_chan s)) <= 1) by (destruct (s_chan s) as [|[j|b] [|y c] ]; cbn; lia). lia.
Qed.

(** Without an error shutdown before the handshake. *)
Inductive reachp : st B -> list (item B) -> Prop :=
| rp_init : reachp init []
| rp_step s tr l s' o : reachp s tr -> (forall q, l <> LGet DErrorShutdown q) -> step s l = Some (s', o) -> reachp s' (tr ++ o).

Lemma reachp_reach : forall s tr, reachp s tr -> reach s tr.
Proof. intros s tr H. induction H; econstructor; eauto. Qed.

Lemma run_reachp : forall ls s tr, polite ls -> run init ls = Some (s, tr) -> reachp s tr.
Proof.
  induction ls as [|l ls IH] using rev_ind; intros s tr Po H.
  - cbn in H. inv H. constructor.
  - rewrite run_app in H. destruct (run init ls) as [ [s1 o1]|] eqn:E; [|discriminate]. cbn in H.
    destruct (step s1 l) as [ [s2 o2]|] eqn:E2; [|discriminate]. inv H. rewrite app_nil_r. econstructor; eauto.
    + apply IH; [|reflexivity]. intros q Hq. apply (Po q). apply in_or_app. left. exact Hq.
    + intros q ->. apply (Po q). apply in_or_app. right. left. reflexivity.
Qed.

Definition away (a : api B) : bool := starting a || match a with ABackoff => true | _ => false end.
Definition done (a : api B) : bool := match a with ADone | AKilled | APanicked => true | _ => false end.
Definition holds_rx (a : api B) : bool := match a with ASend _ _ _ | AWait | AMain | ABackoff => true | _ => false end.

Record inv4 s : Prop := {
  j_away : away (s_api s) = true -> on (s_net s) = None;
  j_chan : forall k, In (MStart k) (s_chan s) -> on (s_net s) = None;
  j_rx : holds_rx (s_api s) = true -> s_rx s <> None;
  j_net : s_net s <> NPanicked;
  j_gone : s_net s = NDone -> s_shutdown s = true \/ done (s_api s) = true;
  j_api : s_api s = APanicked -> s_shutdown s = true }.

Lemma sending_away : forall acks, away (sending (map MData acks) AMain) = false.
Proof. intros [|a acks]; reflexivity. Qed.
Lemma sending_holds : forall acks (next : api B), next = AWait \/ next = AMain -> holds_rx (sending acks next) = true.
Proof. intros [|a acks] next [-> | ->]; reflexivity. Qed.
Lemma sending_not_panicked : forall acks (next : api B), next = AWait \/ next = AMain -> sending acks next <> APanicked.
Proof. intros [|a acks] next [-> | ->]; discriminate. Qed.

Lemma on_current : forall s k, inv1 s -> inv4 s -> on (s_net s) = Some k -> S k = s_count s /\ away (s_api s) = false.
Proof.
  intros s k I1 I4 H. assert (Aw: away (s_api s) = false). { destruct (away (s_api s)) eqn:E; [|reflexivity]. rewrite (j_away _ I4 E) in H. discriminate. }
  split; [|exact Aw]. destruct (i_on _ I1 k H) as (_ & Y & _). apply Y.
  - unfold away in Aw. apply Bool.orb_false_iff in Aw. tauto.
  - intros m Hm. destruct m as [j|b]; [|reflexivity]. rewrite (j_chan _ I4 j Hm) in H. discriminate.
Qed.

Lemma inv4_step : forall s tr l s' o, inv1 s -> inv3 s tr -> inv4 s -> (forall q, l <> LGet DErrorShutdown q) -> step s l = Some (s', o) -> inv4 s'.
Proof.
  intros s tr l s' o I1 I3 I4 Po E. pose proof (inv1_step _ _ _ _ I1 E) as I1'. pose proof (inv3_step _ _ _ _ _ I1 I3 E) as I3'.
  assert (OC: forall k, on (s_net s) = Some k -> S k = s_count s /\ away (s_api s) = false) by (intros k Hk; eapply on_current; eauto).
  destruct I4 as [J1 J2 J3 J4 J5 J6]. destruct l.
  - cbn [step] in E. inv E. constructor; cbn; auto.
  - cbn [step] in E. destruct (s_net s) eqn:En; try discriminate; destruct (s_chan s) as [|[j|b] c] eqn:Ec; try discriminate; inv E.
    + destruct (i_start _ I1 j) as [_ H]; [rewrite Ec; left; reflexivity|].
      assert (c = []). { pose proof (i_len _ I1) as L. rewrite Ec in L. destruct c; [reflexivity|cbn in L; lia]. } subst c.
      constructor; cbn; auto; try discriminate; try tauto.
      intros Aw. exfalso. destruct H as [(b & r & n & H)|H]; rewrite H in Aw; discriminate.
    + constructor; cbn; rewrite ?En; cbn in *; auto; try discriminate.
    + exfalso. specialize (J2 j (or_introl eq_refl)). discriminate.
    + constructor; cbn; auto; try discriminate. intros j Hj. exact (J2 j (or_intror Hj)).
  - cbn [step] in E. destruct (s_net s) eqn:En; try discriminate; destruct (s_chan s) eqn:Ec; try discriminate; destruct (hung_up (s_api s)) eqn:Eh; try discriminate; inv E.
    + constructor; cbn; auto; try discriminate. intros _. right. destruct (s_api s); try discriminate; reflexivity.
    + constructor; cbn; auto; try discriminate. intros _. right. destruct (s_api s); try discriminate; reflexivity.
  - cbn [step] in E. destruct (s_net s) eqn:En; try discriminate; destruct (s_shutdown s) eqn:Es; try discriminate; inv E; constructor; cbn; auto; try discriminate.
  - cbn [step] in E. destruct (s_net s) eqn:En; try discriminate. destruct r; inv E; constructor; cbn in *; auto; try discriminate.
  - cbn [step] in E. destruct (s_net s) eqn:En; try discriminate. inv E; constructor; cbn in *; auto; try discriminate.
  - cbn [step] in E. destruct (s_net s) eqn:En; try discriminate. inv E; constructor; cbn in *; auto; try discriminate.
  - cbn [step] in E. destruct (s_net s) eqn:En; try discriminate. repeat dmatch_in E; inv E; constructor; cbn in *; auto; try discriminate.
  - cbn [step] in E. assert (G: forall k e, on (s_net s) = Some k -> tell s k e = Some None -> done (s_api s) = true).
    { intros k e Hk Et. destruct (OC k Hk) as [Hc Ha]. unfold tell, events_of in Et. rewrite <- Hc, Nat.eqb_refl in Et. destruct (s_rx s) as [q|] eqn:Er.
      - destruct (Nat.ltb (length q) EVENT_CAP); discriminate.
      - destruct (s_api s); try reflexivity; try discriminate; exfalso; apply J3; reflexivity. }
    destruct (s_net s) as [|j|j| |k b|k w| |] eqn:En; try discriminate.
    + destruct (tell s k (EData b)) as [ [s1|]|] eqn:Et; inv E.
      * apply tell_some in Et as (q & Er & Ek & Lq & ->). constructor; cbn in *; auto; try discriminate.
      * constructor; cbn; auto; try discriminate. intros _. right. eapply G; [reflexivity|exact Et].
    + destruct (tell s k (EClosed w)) as [ [s1|]|] eqn:Et; inv E.
      * apply tell_some in Et as (q & Er & Ek & Lq & ->). constructor; cbn in *; auto; try discriminate.
      * constructor; cbn; auto; try discriminate. intros _. right. eapply G; [reflexivity|exact Et].
  - cbn [step] in E. repeat dmatch_in E; inv E; constructor; cbn in *; repeat match goal with H : s_net s = _ |- _ => rewrite H in * end; auto; try congruence.
  - cbn [step] in E. inv E; constructor; cbn; auto.
  - cbn [step] in E. destruct (s_api s) eqn:Ea; try discriminate. inv E. constructor; cbn in *; auto; try discriminate. 
  - cbn [step] in E. destruct (s_api s) as [|m rest next| | | | | |] eqn:Ea; try discriminate. destruct (net_gone (s_net s)) eqn:Eg.
    { inv E. constructor; cbn; auto; try discriminate. intros _. destruct (s_net s); try discriminate; try congruence. destruct (J5 eq_refl); [assumption|discriminate]. }
    destruct (Nat.ltb (length (s_chan s)) CHAN_CAP) eqn:El; [|discriminate]. apply Nat.ltb_lt in El. unfold CHAN_CAP in El. inv E.
    assert (Ec: s_chan s = []) by (destruct (s_chan s); [reflexivity|cbn in El; lia]). pose proof (i_api _ I1) as A. unfold api_ok in A. rewrite Ea in A.
    destruct m as [k|b].
    + destruct A as (Ek & (b & ->) & ->). constructor; cbn in *; auto; try discriminate. 
    + destruct A as (D & Nx). constructor; cbn [s_net s_api s_chan s_rx s_shutdown set_api set_chan]; auto.
      * intros Aw. exfalso. destruct rest as [|[j|b'] rest]; cbn in Aw; [destruct Nx; subst; discriminate| |discriminate]. specialize (D (MStart j) (or_introl eq_refl)). discriminate.
      * rewrite Ec. cbn. intros k [H|[] ]. discriminate.
      * intros H. rewrite H in Eg. discriminate.
      * intros H. exfalso. eapply sending_not_panicked; eauto.
  - destruct (get_inv _ _ _ _ _ E) as (e & qs & Er & Eo & En & Ec & Ek & Er' & Ea & Ea').
    assert (Hr: holds_rx (s_api s') = true -> s_rx s' <> None).
    { cbn [step] in E. rewrite Er in E. repeat dmatch_in E; inv E; cbn; try discriminate; congruence. }
    assert (Hp: s_api s' <> APanicked).
    { cbn [step] in E. rewrite Er in E. repeat dmatch_in E; inv E; cbn; try congruence; try (apply sending_not_panicked; auto). }
    assert (Sh: s_shutdown s' = s_shutdown s).
    { cbn [step] in E. rewrite Er in E. repeat dmatch_in E; inv E; reflexivity. }
    assert (Cl: away (s_api s') = true -> exists w, e = EClosed w).
    { cbn [step] in E. rewrite Er in E. destruct e as [b|w]; [|eauto]. repeat dmatch_in E; inv E; cbn [s_api set_api set_rx]; try discriminate; try congruence.
      all: try (rewrite sending_away; discriminate). all: try (match goal with H : s_api _ = _ |- _ => rewrite H; discriminate end). all: exfalso; eapply Po; reflexivity. }
    constructor; rewrite ?En, ?Ec, ?Sh; auto.
    + intros Aw. destruct (Cl Aw) as [w ->]. destruct (on (s_net s)) as [k|] eqn:Eon; [|reflexivity]. exfalso.
      destruct (OC k eq_refl) as [Hk _]. destruct (e_all _ _ I3' k) as [(ds & Y & _)|(w' & _ & Y)]; [|congruence].
      subst o. rewrite got_app in Y. cbn [got] in Y. assert (stream_of s = k) by (unfold stream_of; lia). subst k. rewrite Nat.eqb_refl in Y.
      assert (Hin: In (EClosed w) (map EData ds)) by (rewrite <- Y; apply in_or_app; right; left; reflexivity). apply in_map_iff in Hin as (? & ? & _). discriminate.
    + intros H. left. destruct (J5 H) as [X|X]; [exact X|]. exfalso. destruct Ea as [Ea|Ea]; rewrite Ea in X; discriminate.
  - cbn [step] in E. destruct (s_api s) eqn:Ea; try discriminate. inv E. constructor; cbn in *; auto; try discriminate.
  - cbn [step] in E. destruct (s_api s) eqn:Ea; try discriminate. inv E. constructor; cbn in *; auto; try discriminate.
  - cbn [step] in E. repeat dmatch_in E; inv E; constructor; cbn in *; auto; try discriminate.
Qed.

Lemma inv4_init : inv4 init.
Proof. constructor; cbn; try discriminate; auto. Qed.

Lemma reachp_inv4 : forall s tr, reachp s tr -> inv4 s.
Proof.
  intros s tr H. induction H as [|s tr l s' o H IH Po E]; [apply inv4_init|]. destruct (reach_inv _ _ (reachp_reach _ _ H)) as (I1 & _ & I3). eapply inv4_step; eauto.
Qed.

Lemma alive : forall ls s tr, polite ls -> run init ls = Some (s, tr) ->
  s_net s <> NPanicked /\ (s_shutdown s = false -> s_api s <> APanicked /\ (s_net s = NDone -> s_api s = ADone \/ s_api s = AKilled)).
Proof.
  intros ls s tr Po H. pose proof (reachp_inv4 _ _ (run_reachp _ _ _ Po H)) as I. split; [apply (j_net _ I)|]. intros Sh. split.
  - intros Ha. apply (j_api _ I) in Ha. congruence.
  - intros Hn. destruct (j_gone _ I Hn) as [X|X]; [congruence|]. destruct (s_api s) eqn:Ea; try discriminate; auto. pose proof (j_api _ I Ea). congruence.
Qed.

(** A send completes. *)
Lemma to_select : forall s tr, reachp s tr -> holds_rx (s_api s) = true -> net_gone (s_net s) = false -> (forall q, s_rx s = Some q -> length q < EVENT_CAP) ->
  exists ls s1 o, Forall (fun l => helpful l = true) ls /\ run s ls = Some (s1, o) /\ s_api s1 = s_api s /\ s_chan s1 = s_chan s /\ s_count s1 = s_count s
    /\ (s_net s1 = NIdle \/ exists k, s_net s1 = NStream k /\ on (s_net s) = Some k).
Proof.
  intros s tr R Ha Hn Hq. pose proof (reachp_inv4 _ _ R) as I4. destruct (reach_inv _ _ (reachp_reach _ _ R)) as (I1 & I2 & I3).
  assert (T: forall k e, on (s_net s) = Some k -> exists q, s_rx s = Some q /\ tell s k e = Some (Some (set_rx s (Some (q ++ [e]))))).
  { intros k e Hk. destruct (on_current _ _ I1 I4 Hk) as [Hc _]. destruct (s_rx s) as [q|] eqn:Er; [|exfalso; apply (j_rx _ I4 Ha); exact Er].
    exists q. split; [reflexivity|]. unfold tell, events_of. rewrite <- Hc, Nat.eqb_refl, Er. specialize (Hq q eq_refl). apply Nat.ltb_lt in Hq. rewrite Hq. reflexivity. }
  destruct (s_net s) as [|k|k|k b|k b|k w| |] eqn:En; try discriminate.
  - exists [], s, []. cbn. rewrite En. splits; auto.
  - exists [LResponse ROk]. cbn. rewrite En. do 2 eexists. splits; [repeat constructor|reflexivity|..]; try reflexivity. right. exists k. cbn. auto.
  - exists [], s, []. cbn. rewrite En. splits; auto. right. exists k. cbn. auto.
  - pose proof (o_body _ _ I2) as Hb. unfold BODY_CAP in Hb. destruct (s_open s) eqn:Eo.
    + destruct (s_body s) as [|b' [|]] eqn:Eb; [| |cbn in Hb; lia].
      * exists [LGive]. cbn. rewrite En, Eo, Eb. cbn. do 2 eexists. splits; [repeat constructor|reflexivity|..]; try reflexivity. right. exists k. cbn. auto.
      * exists [LTake; LGive]. cbn. rewrite En, Eo, Eb. cbn. rewrite En. cbn. do 2 eexists. splits; [repeat constructor|reflexivity|..]; try reflexivity. right. exists k. cbn. auto.
    + destruct (T k (EClosed WUpstreamClose) eq_refl) as (q & Er & Et). exists [LGive; LTell]. cbn -[Nat.ltb Nat.eqb EVENT_CAP]. rewrite En, Eo. cbn -[Nat.ltb Nat.eqb EVENT_CAP].
      unfold tell, events_of in *. cbn -[Nat.ltb Nat.eqb EVENT_CAP]. destruct (Nat.eqb (s_count s) (S k)); [|discriminate]. rewrite Er in *. destruct (Nat.ltb (length q) EVENT_CAP); [|discriminate].
      cbn. do 2 eexists. split; [constructor; [reflexivity|constructor; [reflexivity|constructor] ]|split; [reflexivity|cbn; auto] ].
  - destruct (T k (EData b) eq_refl) as (q & Er & Et). exists [LTell]. cbn. rewrite En, Et. do 2 eexists. splits; [repeat constructor|reflexivity|..]; try reflexivity. right. exists k. cbn. auto.
  - destruct (T k (EClosed w) eq_refl) as (q & Er & Et). exists [LTell]. cbn. rewrite En, Et. do 2 eexists. splits; [repeat constructor|reflexivity|..]; try reflexivity. left. reflexivity.
Qed.

Lemma progress : forall ls s tr m rest next, polite ls -> run init ls = Some (s, tr) -> s_api s = ASend m rest next -> s_net s <> NDone ->
  (forall q, s_rx s = Some q -> length q < EVENT_CAP) ->
  exists ls' s1 o1 s2, Forall (fun l => helpful l = true) ls' /\ run s ls' = Some (s1, o1)
    /\ step s1 LPut = Some (s2, [match m with MStart k => OStart k | MData b => OSent (pred (s_count s)) b end]).
Proof.
  intros ls s tr m rest next Po H Ha Hn Hq. pose proof (run_reachp _ _ _ Po H) as R. pose proof (reachp_inv4 _ _ R) as I4. destruct (reach_inv _ _ (reachp_reach _ _ R)) as (I1 & I2 & I3).
  assert (G: net_gone (s_net s) = false). { pose proof (j_net _ I4). destruct (s_net s); try reflexivity; congruence. }
  pose proof (i_len _ I1) as L.
  destruct (s_chan s) as [|c [|]] eqn:Ec; [| |cbn in L; lia].
  { exists [], s, []. eexists. split; [constructor|split; [reflexivity|] ]. cbn [step]. rewrite Ha, G, Ec. cbn. destruct m; reflexivity. }
  destruct (to_select s tr R) as (ls' & s1 & o1 & F & Hr & A1 & C1 & N1 & D); auto; [rewrite Ha; reflexivity|].
  assert (exists s2, step s1 LRecv = Some (s2, []) /\ s_api s2 = s_api s /\ s_chan s2 = [] /\ s_count s2 = s_count s /\ net_gone (s_net s2) = false) as (s2 & E2 & A2 & C2 & N2 & G2).
  { cbn [step]. rewrite C1, Ec. destruct D as [D|(k & D & Hk)]; rewrite D.
    - destruct c as [j|b]; eexists; (split; [reflexivity|]); cbn; rewrite ?D; auto.
    - destruct c as [j|b].
      + rewrite (j_chan _ I4 j) in Hk; [discriminate|]. rewrite Ec. left. reflexivity.
      + eexists; (split; [reflexivity|]); cbn; auto. }
  exists (ls' ++ [LRecv]), s2, (o1 ++ [] ++ []). eexists. split; [apply Forall_app; split; [exact F|repeat constructor]|split].
  - rewrite run_app, Hr. cbn [run]. rewrite E2. reflexivity.
  - cbn [step]. rewrite A2, Ha, G2, C2. cbn. unfold stream_of. rewrite N2. destruct m; reflexivity.
Qed.

(** The network waits for the API and the API for the network. *)
Lemma deadlock : forall ls s k b m rest next q x, s_net s = NEvent k b -> s_api s = ASend m rest next -> s_chan s = [x] -> s_count s = S k -> s_rx s = Some q ->
  length q = EVENT_CAP -> forall s' o, run s ls = Some (s', o) -> stuck (NEvent k b) (ASend m rest next) s'.
Proof.
  induction ls as [|l ls IH]; intros s k b m rest next q x Hn Ha Hc Hk Hr Hq s' o H.
  - cbn in H. inv H. split; assumption.
  - cbn [run] in H. destruct (step s l) as [ [s1 o1]|] eqn:E; [|discriminate]. destruct (run s1 ls) as [ [s2 o2]|] eqn:E2; [|discriminate]. inv H.
    eapply (IH s1 k b m rest next q x); [..|exact E2]; auto.
    all: destruct l; cbn [step] in E; unfold tell, events_of in E; rewrite ?Hn, ?Ha, ?Hc, ?Hk, ?Hr, ?Nat.eqb_refl, ?Hq in E; cbn in E; try discriminate;
         repeat dmatch_in E; inv E; cbn; auto.
Qed.

(** While it waits for the response the network does not look at the shutdown signal. *)
Lemma deaf : forall ls s k, s_net s = NConnecting k -> (forall l, In l ls -> from_peer l = false) -> forall s' o, run s ls = Some (s', o) -> s_net s' = NConnecting k.
Proof.
  induction ls as [|l ls IH]; intros s k Hn F s' o H.
  - cbn in H. inv H. assumption.
  - cbn [run] in H. destruct (step s l) as [ [s1 o1]|] eqn:E; [|discriminate]. destruct (run s1 ls) as [ [s2 o2]|] eqn:E2; [|discriminate]. inv H.
    eapply (IH s1 k); [|intros y Hy; apply F; right; exact Hy|exact E2]. specialize (F l (or_introl eq_refl)).
    destruct l; try discriminate; cbn [step] in E; rewrite ?Hn in E; try discriminate; repeat dmatch_in E; inv E; cbn; auto.
Qed.
(** A task that waits on a stream will hear of its end. *)
Definition engaged (a : api B) : bool := match a with ASend _ _ _ | AWait | AMain => true | _ => false end.
Definition told s := newborn s (stream_of s) \/ on (s_net s) = Some (stream_of s) \/ exists q w, s_rx s = Some q /\ In (EClosed w) q.

Lemma told_step : forall s tr l s' o, reachp s tr -> (forall q, l <> LGet DErrorShutdown q) -> step s l = Some (s', o) ->
  (s_shutdown s = false -> engaged (s_api s) = true -> told s) -> s_shutdown s' = false -> engaged (s_api s') = true -> told s'.
Proof.
  intros s tr l s' o R Po E IH Sh En. pose proof (reachp_inv4 _ _ R) as I4. destruct (reach_inv _ _ (reachp_reach _ _ R)) as (I1 & _ & _).
  pose proof (reachp_inv4 _ _ (rp_step _ _ _ _ _ R Po E)) as I4'.
  assert (Nd: s_net s' = NDone -> False). { intros H. destruct (j_gone _ I4' H) as [X|X]; [congruence|]. destruct (s_api s'); discriminate. }
  assert (Np: s_net s' = NPanicked -> False) by apply (j_net _ I4').
  assert (OC: forall k, on (s_net s) = Some k -> S k = s_count s) by (intros k Hk; eapply on_current; eauto).
  pose proof (i_len _ I1) as L. pose proof (i_start _ I1) as St. pose proof (i_api _ I1) as A.
  destruct l.
  all: try (cbn [step] in E; repeat dmatch_in E; inv E; try match goal with H : tell _ _ _ = Some (Some _) |- _ => apply tell_some in H as (? & ? & ? & ? & ->) end;
    parts s; subst; unfold told in *; red_all; cbn [engaged] in *).
  all: try discriminate.
  all: try (exfalso; auto; fail).
  all: repeat (first [specialize (IH Sh)|specialize (IH En)|specialize (IH eq_refl)]).
  all: try tauto.
  all: try solve [right; right; do 2 eexists; split; [reflexivity|apply in_or_app; right; left; reflexivity] ].
  all: try solve [destruct (St k (or_introl eq_refl)) as [X _]; right; left; f_equal; lia].
  all: try solve [destruct IH as [ [ [X|X]|X]|[X|X] ]; try discriminate; auto].
  all: try solve [left; right; eauto].
  all: try solve [right; left; f_equal; specialize (OC _ eq_refl); lia].
  all: try solve [destruct IH as [ [X|(r & n0 & X)]|[X|(q0 & w0 & X1 & X2)] ]; try discriminate; eauto 7;
    injection X1 as <-; destruct X2 as [X2|X2]; [discriminate|right; right; eauto] ].
  all: try solve [destruct IH as [ [X|(r & n0 & X)]|[X|(q0 & w0 & X1 & X2)] ]; try discriminate; eauto 7; injection X as <- _ _;
    left; left; apply in_or_app; right; left; reflexivity].
  - destruct A as (A & _). left. left. apply in_or_app. right. left. f_equal. lia.
  - destruct IH as [ [X|(r & n0 & X)]|[X|X] ]; [left; left; apply in_or_app; left; exact X|discriminate|right; left; exact X|right; right; exact X].
Qed.

Lemma reachp_told : forall s tr, reachp s tr -> s_shutdown s = false -> engaged (s_api s) = true -> told s.
Proof. intros s tr H. induction H as [|s tr l s' o H IH Po E]; [discriminate|]. eapply told_step; eauto. Qed.

Lemma hears : forall ls s tr, polite ls -> run init ls = Some (s, tr) -> s_shutdown s = false -> s_api s = AWait \/ s_api s = AMain ->
  serves (s_net s) (pred (s_count s)) \/ exists q w, s_rx s = Some q /\ In (EClosed w) q.
Proof.
  intros ls s tr Po H Sh Ha. pose proof (run_reachp _ _ _ Po H) as R. destruct (reach_inv _ _ (reachp_reach _ _ R)) as (I1 & _ & _).
  destruct (reachp_told _ _ R Sh) as [ [X|(r & n & X)]|[X|X] ]; [destruct Ha as [-> | ->]; reflexivity|..].
  - destruct (i_start _ I1 _ X) as [_ [(b & r & n & Y)|Y] ]; destruct Ha as [Ha|Ha]; congruence.
  - destruct Ha as [Ha|Ha]; congruence.
  - left. unfold stream_of in X. destruct (s_net s); cbn in X |- *; unfold serves; cbn; try discriminate; auto. injection X as ->. right. eauto.
  - right. exact X.
Qed.
End P.
