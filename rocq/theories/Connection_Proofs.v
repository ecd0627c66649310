From Verif Require Import Base Connection_Model Connection_Spec.
From Coq Require Import Lia.
Open Scope Z_scope.
Open Scope list_scope.

Local Arguments GRACE : simpl never.
Local Arguments MINUTE : simpl never.
Local Arguments Z.mul : simpl never.
Local Arguments Z.add : simpl never.

(** ** Induction over executions *)
Section Invariant.
Context (P : conn -> list item -> Prop) (Q : event -> Prop).
Context (Hstep : forall s e s' o tr, Q e -> step s e = Some (s', o) -> P s tr -> P s' (tr ++ o)).

Lemma run_preserves es : forall s s' o tr, Forall Q es -> run s es = Some (s', o) -> P s tr -> P s' (tr ++ o).
Proof.
  induction es as [|e es IH]; intros s s' o tr HQ HR HP; cbn in HR.
  - inv HR. now rewrite app_nil_r.
  - dmatch_in HR; [|discriminate]. destruct p as [s1 o1]. dmatch_in HR; [|discriminate]. destruct p as [s2 o2]. inv HR.
    inv HQ. rewrite app_assoc. eapply IH; eauto.
Qed.

Lemma exec_preserves now i m k ok es s tr :
  Forall Q es -> (forall s o, start now i m k ok = (s, o) -> P s o) ->
  exec now i m k ok es = Some (s, tr) -> P s tr.
Proof.
  unfold exec. intros HQ H0 HE. destruct (start now i m k ok) as [s0 o0] eqn:E0.
  dmatch_in HE; [|discriminate]. destruct p as [s1 o1]. inv HE. eapply run_preserves; eauto.
Qed.
End Invariant.

Lemma all_true (es : list event) : Forall (fun _ => True) es.
Proof. induction es; constructor; auto. Qed.

(** What a step may do, with the cases of the code taken apart once. *)
Inductive top_case (s : conn) (s' : conn) (o : list item) : Prop :=
| TC (since : Z) (q : quality)
     (Esince : since = match c_disconnected s with Some t => t | None => c_now s end)
     (Eq : q = if since + GRACE <? c_now s then Offline else Unknown)
     (Hnow : c_now s' = c_now s) (Hq : c_quality s' = q) (Hd : c_disconnected s' = Some since)
     (Hk : c_killed s' = c_killed s)
     (Hf : c_failures s' = c_failures s) (He : c_errors s' = c_errors s)
     (Hi : c_intervals s' = c_intervals s) (Hest : c_established s' = c_established s)
     (H : (c_killed s = true /\ c_phase s' = Killed /\ o = [] /\ c_streams s' = c_streams s /\ c_backoff s' = c_backoff s
           /\ c_changed s' = c_changed s /\ c_reason s' = c_reason s)
          \/ (c_killed s = false /\ c_streams s' = c_streams s + 1 /\ c_reason s' = None
              /\ c_backoff s' = (if c_changed s then backoff_policy (fst (c_intervals s)) (snd (c_intervals s)) else c_backoff s)
              /\ c_changed s' = false /\ c_interval s' = None /\ c_deadline s' = None
              /\ ((c_phase s' = Handshake /\ o = [TStream (c_now s) (c_reason s)])
                  \/ (c_phase s' = Done /\ o = [TStream (c_now s) (c_reason s); TReturn (c_now s) false])))).

Lemma top_cases s ok s' o : top s ok = (s', o) -> top_case s s' o.
Proof.
  unfold top. cbn -[Z.add GRACE]. destruct (c_killed s) eqn:Ek.
  - intros H; inv H. refine (TC s _ _ _ _ eq_refl eq_refl _ _ _ _ _ _ _ _ _); cbn; try reflexivity; auto.
    left; splits; auto.
  - destruct (c_changed s) eqn:Ec; cbn; destruct ok; intros H; inv H;
      (refine (TC s _ _ _ _ eq_refl eq_refl _ _ _ _ _ _ _ _ _); cbn; try reflexivity; auto).
    all: try congruence; try lia.
    all: right; rewrite ?Ec; splits; auto.
Qed.

(** Pongs and error shutdowns only. *)
Definition small (now : Z) (i : item) : Prop := i = TPong now \/ i = TErrorShutdown.

Lemma responses_case rs : forall s s' o ok, handle_responses s rs = (s', o, ok) ->
  Forall (small (c_now s)) o
  /\ c_errors s' = c_errors s + count_of is_error o
  /\ (c_interval s', c_deadline s') = fold_left due_step o (c_interval s, c_deadline s)
  /\ exists d n, s' = mkConn (c_now s) (c_phase s) (c_quality s) (c_killed s) (c_disconnected s) (c_reason s) (c_backoff s)
      (c_intervals s) (c_changed s) (c_interval s) d (c_established s) (c_streams s) (c_failures s) n.
Proof.
  induction rs as [|r rs IH]; intros s s' o ok H; cbn in H.
  - inv H. splits; auto.
    + unfold count_of. cbn. lia.
    + exists (c_deadline s'), (c_errors s'). now destruct s'.
  - destruct r as [| |[|]].
    + destruct (handle_responses (maybe_schedule_ping s) rs) as [[s1 o1] ok1] eqn:E. inv H.
      destruct (IH _ _ _ _ E) as (A & B & C & d & n & D). cbn in *. splits.
      * constructor; [now left|exact A].
      * rewrite B. unfold count_of. cbn. lia.
      * exact C.
      * exists d, n. exact D.
    + destruct (handle_responses (count s 0 0 1) rs) as [[s1 o1] ok1] eqn:E. inv H.
      destruct (IH _ _ _ _ E) as (A & B & C & d & n & D). cbn in *. splits.
      * constructor; [now right|exact A].
      * rewrite B. unfold count_of. cbn [filter is_error List.length]. lia.
      * exact C.
      * exists d, n. rewrite D. f_equal; lia.
    + eapply IH; eauto.
    + inv H. splits; auto.
      * unfold count_of. cbn. lia.
      * exists (c_deadline s'), (c_errors s'). now destruct s'.
Qed.

Lemma begin_case s delay s' : begin_backoff s delay = Some s' ->
  b_current (c_backoff s) <= 2 * delay <= 3 * b_current (c_backoff s) + 2
  /\ s' = with_phase (with_backoff s (mkBackoff (Z.min (b_max (c_backoff s)) (3 * b_current (c_backoff s) / 2))
                                       (b_initial (c_backoff s)) (b_max (c_backoff s)))) (Backoff (c_now s + delay)).
Proof.
  unfold begin_backoff, next_backoff. intros H.
  destruct ((b_current (c_backoff s) <=? 2 * delay) && (2 * delay <=? 3 * b_current (c_backoff s) + 2))%bool eqn:E; [|discriminate].
  apply andb_prop in E as (E1 & E2). apply Z.leb_le in E1, E2. split; [lia|]. inv H. do 3 f_equal.
  destruct (2 * b_max (c_backoff s) <=? 3 * b_current (c_backoff s)) eqn:E;
    [apply Z.leb_le in E|apply Z.leb_gt in E].
  - rewrite Z.min_l; [reflexivity|]. apply Z.div_le_lower_bound; lia.
  - rewrite Z.min_r; [reflexivity|]. apply Z.div_le_upper_bound; lia.
Qed.

(** The steps of the code, one case each. *)
Inductive step_case (s : conn) : conn -> list item -> event -> Prop :=
| SC_pass d (Hd : 0 <= d) : step_case s (with_now s (c_now s + d)) [] (Pass d)
| SC_intervals i m : step_case s (with_intervals s (i, m) true) [] (Intervals i m)
| SC_response : step_case s (with_quality s Online) [TResponse (c_now s)] Response
| SC_return ok e (Hp : c_phase s <> Done) : step_case s (with_phase s Done) [TReturn (c_now s) ok] e
| SC_shake settings rest s1 o (Hp : c_phase s = Handshake)
    (H : handle_responses (initialize_stream_settings s settings) rest = (s1, o, true)) :
    step_case s (with_phase (with_disconnected (with_quality (with_established s1 (c_now s)) Online) None) Main)
      (THandshake (c_now s) settings :: o ++ [TUp (c_now s)]) (Shake settings rest)
| SC_shake_bad settings rest s1 o (Hp : c_phase s = Handshake)
    (H : handle_responses (initialize_stream_settings s settings) rest = (s1, o, false)) :
    step_case s (with_phase s1 Done)
      (THandshake (c_now s) settings :: o ++ [TReturn (c_now s1) false]) (Shake settings rest)
| SC_early m delay s1 (Hp : c_phase s = Handshake)
    (H : begin_backoff (with_reason (count s 0 1 1) (Some (String.append "error shutdown: " m))) delay = Some s1) :
    step_case s s1 [TErrorShutdown; TClosed (c_now s1) (String.append "error shutdown: " m)] (EarlyError m delay)
| SC_close_early r delay ok s1 (Hp : c_phase s = Handshake)
    (H : begin_backoff (with_reason (count s 0 1 0) (Some r)) delay = Some s1) :
    step_case s s1 [TClosed (c_now s1) r] (Closed r delay ok)
| SC_reject ok s1 o (Hp : c_phase s = Handshake) (H : top_case (with_killed s) s1 o) :
    step_case s s1 (TRejected (c_now s) :: o) (Reject ok)
| SC_ping d (Hp : c_phase s = Main) (Hd : c_deadline s = Some d) (Ht : d <= c_now s) :
    step_case s (with_ping s (c_interval s) None) [TPing (c_now s)] (Timer true)
| SC_ping_bad d (Hp : c_phase s = Main) (Hd : c_deadline s = Some d) (Ht : d <= c_now s) :
    step_case s (with_phase (with_ping s (c_interval s) None) Done) [TReturn (c_now s) false] (Timer false)
| SC_upload (Hp : c_phase s = Main) : step_case s s [] (Upload true)
| SC_data rs s1 o (Hp : c_phase s = Main) (H : handle_responses s rs = (s1, o, true)) : step_case s s1 o (Data rs)
| SC_data_bad rs s1 o (Hp : c_phase s = Main) (H : handle_responses s rs = (s1, o, false)) :
    step_case s (with_phase s1 Done) (o ++ [TReturn (c_now s1) false]) (Data rs)
| SC_close_long r delay ok s1 o (Hp : c_phase s = Main) (Ht : MINUTE < c_now s - c_established s)
    (H : top_case (with_backoff (with_reason s (Some r)) (backoff_reset (c_backoff s))) s1 o) :
    step_case s s1 (TClosed (c_now s) r :: o) (Closed r delay ok)
| SC_close_short r delay ok s1 (Hp : c_phase s = Main) (Ht : c_now s - c_established s <= MINUTE)
    (H : begin_backoff (with_reason s (Some r)) delay = Some s1) :
    step_case s s1 [TClosed (c_now s1) r] (Closed r delay ok)
| SC_again u ok s1 o (Hp : c_phase s = Backoff u) (Ht : u <= c_now s) (H : top_case s s1 o) :
    step_case s s1 o (Timer ok).

Lemma step_cases s e s' o : step s e = Some (s', o) -> step_case s s' o e.
Proof.
  unfold step. intros H.
  destruct e.
  - destruct (0 <=? d) eqn:E; [|discriminate]. apply Z.leb_le in E. inv H. now constructor.
  - inv H. constructor.
  - destruct (c_phase s) eqn:Ep; try discriminate.
    destruct (handle_responses (initialize_stream_settings s settings) rest) as [[s1 o1] ok] eqn:E.
    destruct ok; inv H; [eapply SC_shake|eapply SC_shake_bad]; eauto.
  - destruct (c_phase s) eqn:Ep; try discriminate.
    destruct (begin_backoff _ _) eqn:E in H; [|discriminate]. inv H. eapply SC_early; eauto.
  - destruct (c_phase s) eqn:Ep; try discriminate.
    destruct (top _ _) as [s1 o1] eqn:E in H. inv H. apply top_cases in E. eapply SC_reject; eauto.
  - destruct (c_phase s) eqn:Ep; try discriminate.
    destruct (handle_responses s rs) as [[s1 o1] ok] eqn:E. destruct ok; inv H; [eapply SC_data|eapply SC_data_bad]; eauto.
  - destruct (c_phase s) eqn:Ep; try discriminate.
    + destruct (begin_backoff _ _) eqn:E in H; [|discriminate]. inv H. eapply SC_close_early; eauto.
    + cbn [c_now c_established with_reason] in H.
      destruct (MINUTE <? c_now s - c_established s) eqn:Em; [apply Z.ltb_lt in Em|apply Z.ltb_ge in Em].
      * destruct (top _ _) as [s1 o1] eqn:E in H. inv H. apply top_cases in E. eapply SC_close_long; eauto.
      * destruct (begin_backoff _ _) eqn:E in H; [|discriminate]. inv H. eapply SC_close_short; eauto.
  - destruct (c_phase s) eqn:Ep; try discriminate; inv H; apply SC_return; congruence.
  - destruct (c_phase s) eqn:Ep; try discriminate.
    + destruct (c_deadline s) eqn:Ed; [|discriminate]. destruct (z <=? c_now s) eqn:Et; [|discriminate].
      apply Z.leb_le in Et. destruct ok; inv H; [eapply SC_ping|eapply SC_ping_bad]; eauto.
    + destruct (until <=? c_now s) eqn:Et; [|discriminate]. apply Z.leb_le in Et. inv H.
      match goal with E : top _ _ = _ |- _ => apply top_cases in E; eapply SC_again; eauto end.
  - destruct (c_phase s) eqn:Ep; try discriminate. destruct ok; inv H; [now constructor|apply SC_return; congruence].
  - inv H. constructor.
  - destruct (c_phase s) eqn:Ep; try discriminate; inv H; apply SC_return; congruence.
Qed.

Lemma start_case now i m k ok s o : start now i m k ok = (s, o) ->
  top_case (mkConn now Done Unknown k None None (backoff_policy i m) (i, m) false None None now 0 0 0) s o.
Proof. apply top_cases. Qed.

(** ** Occurrences *)
Definition each (R : list item -> item -> Prop) (tr : list item) : Prop :=
  forall p i q, tr = p ++ i :: q -> R p i.

Lemma each_nil R : each R [].
Proof. intros p i q H. destruct p; discriminate. Qed.

Lemma each_app R tr o : each R tr -> each (fun p => R (tr ++ p)) o -> each R (tr ++ o).
Proof.
  revert R. induction tr as [|x tr IH]; intros R H1 H2; [exact H2|].
  intros p i q H. cbn in H. destruct p as [|y p]; cbn in H; inv H.
  - eapply (H1 [] i tr); reflexivity.
  - refine (IH (fun p => R (y :: p)) _ _ p i q _); auto.
    intros p' i' q' E. apply (H1 (y :: p') i' q'). now rewrite E.
Qed.

Lemma each_cons (R : list item -> item -> Prop) i o : R [] i -> each (fun p => R (i :: p)) o -> each R (i :: o).
Proof.
  intros H1 H2 p j q H. destruct p as [|y p]; cbn in H; inv H; [exact H1|]. eapply H2; reflexivity.
Qed.

Lemma each_forall (F : item -> Prop) (R : list item -> item -> Prop) o : Forall F o -> (forall p i, F i -> R p i) -> each R o.
Proof.
  intros H HR p i q E. subst o. apply HR. rewrite Forall_forall in H. apply H. apply in_or_app. right. now left.
Qed.

(** ** Pings *)
Definition ping_ok (p : list item) (i : item) : Prop :=
  match i with TPing t => exists d, due p = Some d /\ d <= t | _ => True end.

Lemma usable_settings d : usable d = match d with Some d => if d <? 0 then None else Some d | None => None end.
Proof. destruct d as [d|]; auto. cbn. rewrite Z.leb_antisym. destruct (d <? 0); auto. Qed.
Definition pings (s : conn) (tr : list item) : Prop :=
  (c_phase s = Main -> (c_interval s, c_deadline s) = fold_left due_step tr (None, None))
  /\ each ping_ok tr.

Lemma small_no_ping now (R : list item -> item -> Prop) o : Forall (small now) o -> (forall p, R p (TPong now)) -> (forall p, R p TErrorShutdown) ->
  each R o.
Proof. intros H A B. eapply each_forall; [exact H|]. intros p i [->| ->]; auto. Qed.

Ltac eachs := repeat first [apply each_nil | apply each_cons; [exact I|]].

Lemma top_pings s s' o tr : top_case s s' o -> pings s tr -> each ping_ok (tr ++ o) ->
  pings s' (tr ++ o).
Proof.
  intros [] HP HE. split; [|exact HE]. intros Hm.
  destruct H as [(? & Hp & _)|(_ & _ & _ & _ & _ & Hi' & Hd' & [(Hp & ->)|(Hp & ->)])]; congruence.
Qed.

Lemma top_each s s' o (R : list item -> item -> Prop) : top_case s s' o ->
  R [] (TStream (c_now s) (c_reason s)) -> R [TStream (c_now s) (c_reason s)] (TReturn (c_now s) false) -> each R o.
Proof.
  intros [] H1 H2.
  destruct H as [(? & Hp & -> & _)|(_ & _ & _ & _ & _ & Hi' & Hd' & [(Hp & ->)|(Hp & ->)])]; [apply each_nil|..];
    (apply each_cons; [assumption|]); [apply each_nil|]. apply each_cons; [assumption|apply each_nil].
Qed.

Lemma step_pings s e s' o tr : step s e = Some (s', o) -> pings s tr -> pings s' (tr ++ o).
Proof.
  intros H HP. apply step_cases in H. destruct H.
  all: try (eapply top_pings; [eassumption|exact HP|]).
  all: try (destruct HP as (HP1 & HP2)).
  all: try (match goal with |- each _ _ => apply each_app; [assumption|] end).
  - split; [|now rewrite app_nil_r]. rewrite app_nil_r. exact HP1.
  - split; [|now rewrite app_nil_r]. rewrite app_nil_r. exact HP1.
  - split; [|apply each_app; auto; eachs]. cbn. intros Hp. rewrite fold_left_app. cbn. auto.
  - split; [|apply each_app; auto; eachs]. cbn. discriminate.
  - destruct (responses_case _ _ _ _ _ H) as (A & _ & C & d & n & D). split.
    + intros _. rewrite fold_left_app. cbn [fold_left]. rewrite fold_left_app. cbn [fold_left due_step].
      cbn in C |- *. destruct (fold_left due_step tr (None, None)) as [i0 d0]. cbn. rewrite usable_settings. exact C.
    + apply each_app; auto. apply each_cons; [exact I|]. apply each_app.
      * eapply small_no_ping; [exact A|..]; intros; exact I.
      * eachs.
  - destruct (responses_case _ _ _ _ _ H) as (A & _ & C & d & n & D). split; [discriminate|].
    apply each_app; auto. apply each_cons; [exact I|]. apply each_app.
    + eapply small_no_ping; [exact A|..]; intros; exact I.
    + eachs.
  - apply begin_case in H as (_ & ->). split; [discriminate|apply each_app; auto; eachs].
  - apply begin_case in H as (_ & ->). split; [discriminate|apply each_app; auto; eachs].
  - destruct H. cbn in H. split.
    + destruct H as [(? & Hq' & _)|(? & _)]; [|discriminate]. congruence.
    + apply each_app; auto. apply each_cons; [exact I|].
      destruct H as [(_ & _ & -> & _)|(? & _)]; [apply each_nil|discriminate].
  - split.
    + intros _. rewrite fold_left_app. cbn. rewrite <- HP1 by assumption. reflexivity.
    + apply each_app; auto. apply each_cons; [|apply each_nil]. cbn. rewrite app_nil_r.
      exists d. unfold due. rewrite <- HP1 by assumption. auto.
  - split; [discriminate|apply each_app; auto; eachs].
  - split; rewrite app_nil_r; auto.
  - destruct (responses_case _ _ _ _ _ H) as (A & _ & C & d & n & D). split.
    + intros _. rewrite fold_left_app, <- HP1 by assumption. exact C.
    + apply each_app; auto. eapply small_no_ping; [exact A|..]; intros; exact I.
  - destruct (responses_case _ _ _ _ _ H) as (A & _ & C & d & n & D). split; [discriminate|].
    apply each_app; auto. apply each_app; [|eachs].
    eapply small_no_ping; [exact A|..]; intros; exact I.
  - split.
    + intros Hm. destruct H as [? ? ? ? ? ? ? ? ? ? ? ? [(? & ? & _)|(_ & _ & _ & _ & _ & _ & _ & [(? & _)|(? & _)])]]; congruence.
    + apply each_app; auto. apply each_cons; [exact I|]. eapply top_each; [eassumption|exact I|exact I].
  - apply begin_case in H as (_ & ->). split; [discriminate|apply each_app; auto; eachs].
  - eapply top_each; [eassumption|exact I|exact I].
Qed.

Lemma start_pings now i m k ok s o : start now i m k ok = (s, o) -> pings s o.
Proof.
  intros H. apply start_case in H. split.
  - intros Hm. destruct H as [? ? ? ? ? ? ? ? ? ? ? ? [(? & ? & _)|(_ & _ & _ & _ & _ & _ & _ & [(? & _)|(? & _)])]]; congruence.
  - eapply top_each; [eassumption|exact I|exact I].
Qed.

Theorem exec_pings now i m k ok es s tr : exec now i m k ok es = Some (s, tr) -> pings s tr.
Proof.
  intros H. refine (exec_preserves pings (fun _ => True) _ now i m k ok es s tr (all_true es) _ H).
  - intros. eapply step_pings; eauto.
  - apply start_pings.
Qed.

(** ** The network quality *)
Lemma small_up now o w : Forall (small now) o -> fold_left up_step o w = w.
Proof. intros H. revert w. induction H as [|x l [->| ->] _ IH]; intros w; cbn; auto. Qed.
Lemma small_seen now o w : Forall (small now) o -> fold_left seen_step o w = w.
Proof. intros H. revert w. induction H as [|x l [->| ->] _ IH]; intros w; cbn; auto. Qed.

Record honest (t0 : Z) (s : conn) (tr : list item) : Prop := {
  h_main : c_phase s = Main -> fst (up t0 tr) = true /\ c_quality s = Online /\ c_disconnected s = None;
  h_alive : c_killed s = true -> c_phase s = Killed \/ c_phase s = Done;
  h_down : c_phase s <> Main -> fst (up t0 tr) = false;
  h_since : snd (up t0 tr) <= c_now s;
  h_dis : forall d, c_disconnected s = Some d -> snd (up t0 tr) <= d;
  h_off : c_quality s = Offline -> snd (up t0 tr) + GRACE < c_now s /\ seen tr = false
}.

Lemma up_app t0 a b : up t0 (a ++ b) = fold_left up_step b (up t0 a).
Proof. apply fold_left_app. Qed.
Lemma seen_app a b : seen (a ++ b) = fold_left seen_step b (seen a).
Proof. apply fold_left_app. Qed.

(** [top], from a state whose trace says that no stream is up. *)
Lemma top_honest t0 s s' o tr : top_case s s' o ->
  fst (up t0 tr) = false -> snd (up t0 tr) <= c_now s -> (forall d, c_disconnected s = Some d -> snd (up t0 tr) <= d) ->
  (c_killed s = true -> seen tr = false) ->
  honest t0 s' (tr ++ o).
Proof.
  intros [] H1 H2 H3 H4.
  assert (E : up t0 (tr ++ o) = up t0 tr).
  { rewrite up_app. destruct (up t0 tr) as [b z] eqn:Eu. cbn in H1. subst b.
    destruct H as [(_ & _ & -> & _)|(_ & _ & _ & _ & _ & _ & _ & [(_ & ->)|(_ & ->)])]; reflexivity. }
  assert (Eseen : seen (tr ++ o) = false).
  { rewrite seen_app. destruct H as [(Hk' & _ & -> & _)|(_ & _ & _ & _ & _ & _ & _ & [(_ & ->)|(_ & ->)])]; cbn; auto. }
  assert (Hs : snd (up t0 tr) <= since).
  { subst since. destruct (c_disconnected s); auto. }
  constructor; rewrite ?E, ?Eseen.
  - intros Hm. destruct H as [(_ & Hp & _)|(_ & _ & _ & _ & _ & _ & _ & [(Hp & _)|(Hp & _)])]; congruence.
  - rewrite Hk. intros Hk'. destruct H as [(_ & Hp & _)|(? & _)]; [now left|congruence].
  - auto.
  - rewrite Hnow. exact H2.
  - intros d Hd'. rewrite Hd in Hd'. inv Hd'. exact Hs.
  - rewrite Hq, Hnow. subst q. destruct (since + GRACE <? c_now s) eqn:El; [|discriminate].
    apply Z.ltb_lt in El. intros _. split; [lia|reflexivity].
Qed.

Lemma step_honest t0 s e s' o tr : step s e = Some (s', o) -> honest t0 s tr -> honest t0 s' (tr ++ o).
Proof.
  intros H [A A' B C D E]. apply step_cases in H.
  destruct (up t0 tr) as [u z] eqn:Eu; cbn [fst snd] in *.
  assert (U : c_phase s <> Main -> u = false) by auto.
  assert (M : c_phase s = Main -> u = true /\ c_quality s = Online /\ c_disconnected s = None) by auto.
  destruct H.
  - rewrite app_nil_r. constructor; rewrite ?Eu; cbn; auto; try lia. intros Ho. destruct (E Ho). split; auto; lia.
  - rewrite app_nil_r. constructor; rewrite ?Eu; cbn; auto.
  - constructor; rewrite ?up_app, ?Eu; cbn; auto; try discriminate. intros Hm. destruct (A Hm) as (? & ? & ?). auto.
  - assert (Hu : u = true -> c_phase s = Main).
    { intros ->. destruct (c_phase s) eqn:Ep; auto; specialize (U ltac:(discriminate)); discriminate. }
    constructor; rewrite ?up_app, ?Eu, ?seen_app; cbn.
    + discriminate.
    + auto.
    + intros _. destruct u; auto.
    + destruct u; cbn; lia.
    + intros d Hd. destruct u; cbn; [|auto]. destruct (M (Hu eq_refl)) as (_ & _ & ?). congruence.
    + intros Ho. destruct u; cbn; [|auto]. destruct (M (Hu eq_refl)) as (_ & ? & _). congruence.
  - destruct (responses_case _ _ _ _ _ H) as (F & _ & _ & d & n & ->). cbn in F.
    assert (u = false) by (apply U; congruence). subst u.
    constructor; rewrite ?up_app, ?Eu; cbn [fold_left up_step]; rewrite ?fold_left_app, ?(small_up _ _ _ F); cbn; auto; try congruence.
    intros Hk. destruct (A' Hk); congruence.
  - destruct (responses_case _ _ _ _ _ H) as (F & _ & _ & d & n & ->). cbn in F.
    assert (u = false) by (apply U; congruence). subst u.
    constructor; rewrite ?up_app, ?seen_app, ?Eu; cbn [fold_left up_step seen_step]; rewrite ?fold_left_app, ?(small_up _ _ _ F), ?(small_seen _ _ _ F); cbn; auto; discriminate.
  - apply begin_case in H as (_ & ->). assert (u = false) by (apply U; congruence). subst u.
    constructor; rewrite ?up_app, ?seen_app, ?Eu; cbn; auto; try discriminate. intros Hk. destruct (A' Hk); congruence.
  - apply begin_case in H as (_ & ->). assert (u = false) by (apply U; congruence). subst u.
    constructor; rewrite ?up_app, ?seen_app, ?Eu; cbn; auto; try discriminate. intros Hk. destruct (A' Hk); congruence.
  - assert (u = false) by (apply U; congruence). subst u.
    change (TRejected (c_now s) :: o) with ([TRejected (c_now s)] ++ o). rewrite app_assoc.
    eapply top_honest; [eassumption|..]; rewrite ?up_app, ?seen_app, ?Eu; cbn; auto.
  - destruct (M Hp) as (-> & Hq & Hd'). constructor; rewrite ?up_app, ?seen_app, ?Eu; cbn; auto.
  - destruct (M Hp) as (-> & Hq & Hd'). constructor; rewrite ?up_app, ?seen_app, ?Eu; cbn; auto; try lia; try congruence.
  - rewrite app_nil_r. constructor; rewrite ?Eu; cbn; auto.
  - destruct (responses_case _ _ _ _ _ H) as (F & _ & _ & d & n & ->). cbn in F.
    constructor; rewrite ?up_app, ?seen_app, ?Eu, ?(small_up _ _ _ F), ?(small_seen _ _ _ F); cbn; auto.
  - destruct (responses_case _ _ _ _ _ H) as (F & _ & _ & d & n & ->). cbn in F.
    destruct (M Hp) as (-> & Hq & Hd').
    constructor; rewrite ?up_app, ?seen_app, ?Eu, ?fold_left_app, ?(small_up _ _ _ F), ?(small_seen _ _ _ F); cbn; auto; try lia; try congruence.
  - destruct (M Hp) as (-> & Hq & Hd').
    change (TClosed (c_now s) r :: o) with ([TClosed (c_now s) r] ++ o). rewrite app_assoc.
    eapply top_honest; [eassumption|..]; rewrite ?up_app, ?seen_app, ?Eu; cbn; auto; try lia; try congruence.
    intros Hk. destruct (A' Hk); congruence.
  - destruct (M Hp) as (-> & Hq & Hd').
    apply begin_case in H as (_ & ->).
    constructor; rewrite ?up_app, ?seen_app, ?Eu; cbn; auto; try lia; try congruence.
    intros Hk. destruct (A' Hk); congruence.
  - assert (u = false) by (apply U; congruence). subst u.
    eapply top_honest; [eassumption|..]; rewrite ?Eu; cbn; auto.
    intros Hk. destruct (A' Hk); congruence.
Qed.

Theorem exec_honest now i m k ok es s tr : exec now i m k ok es = Some (s, tr) -> honest now s tr.
Proof.
  intros H. refine (exec_preserves (honest now) (fun _ => True) _ now i m k ok es s tr (all_true es) _ H).
  - intros. eapply step_honest; eauto.
  - intros s0 o0 H0. apply start_case in H0. rewrite <- (app_nil_l o0).
    eapply top_honest; [eassumption|..]; cbn; auto; try lia; discriminate.
Qed.

(** ** When the last attempts were made *)
Lemma small_attempt now o w : Forall (small now) o -> fold_left attempt_step o w = w.
Proof. intros H. revert w. induction H as [|x l [->| ->] _ IH]; intros w; cbn; auto. Qed.
Lemma small_last now o w : Forall (small now) o ->
  fold_left (fun w i => match i with TStream t _ => Some t | _ => w end) o w = w.
Proof. intros H. revert w. induction H as [|x l [->| ->] _ IH]; intros w; cbn; auto. Qed.
Lemma attempt_app a b : first_attempt (a ++ b) = fold_left attempt_step b (first_attempt a).
Proof. apply fold_left_app. Qed.
Lemma last_app a b : last_attempt (a ++ b) = fold_left (fun w i => match i with TStream t _ => Some t | _ => w end) b (last_attempt a).
Proof. apply fold_left_app. Qed.

Record noticed (s : conn) (tr : list item) : Prop := {
  n_alive : c_killed s = true -> c_phase s = Killed \/ c_phase s = Done;
  n_dis : c_killed s = false -> c_disconnected s = first_attempt tr;
  n_off : c_phase s = Handshake -> seen tr = false ->
    exists a t, first_attempt tr = Some a /\ last_attempt tr = Some t /\ (a + GRACE < t -> c_quality s = Offline)
}.

Lemma top_noticed s s' o tr : top_case s s' o -> (c_killed s = false -> c_disconnected s = first_attempt tr) ->
  noticed s' (tr ++ o).
Proof.
  intros [] H1. constructor.
  - rewrite Hk. intros Hk'. destruct H as [(_ & Hp & _)|(? & _)]; [now left|congruence].
  - rewrite Hk, Hd. intros Hk'. specialize (H1 Hk'). rewrite attempt_app.
    destruct H as [(? & _)|(_ & _ & _ & _ & _ & _ & _ & [(_ & ->)|(_ & ->)])]; [congruence|..];
      cbn; rewrite <- H1; subst since; destruct (c_disconnected s); reflexivity.
  - intros Hh _. exists since, (c_now s).
    destruct H as [(_ & ? & _)|(Hk' & _ & _ & _ & _ & _ & _ & [(_ & ->)|(? & _)])]; [congruence| |congruence].
    specialize (H1 Hk'). rewrite attempt_app, last_app. cbn. rewrite <- H1. splits; auto.
    + subst since. destruct (c_disconnected s); reflexivity.
    + rewrite Hq. subst q. intros Hlt. apply Z.ltb_lt in Hlt. now rewrite Hlt.
Qed.

Lemma step_noticed s e s' o tr : step s e = Some (s', o) -> noticed s tr -> noticed s' (tr ++ o).
Proof.
  intros H [A B C]. apply step_cases in H. destruct H.
  - rewrite app_nil_r. constructor; cbn; auto.
  - rewrite app_nil_r. constructor; cbn; auto.
  - constructor; rewrite ?attempt_app, ?last_app, ?seen_app; cbn; auto. discriminate.
  - constructor; rewrite ?attempt_app; cbn; auto. discriminate.
  - destruct (responses_case _ _ _ _ _ H) as (F & _ & _ & d & n & ->). cbn in F.
    constructor; rewrite ?attempt_app; cbn [fold_left attempt_step]; rewrite ?fold_left_app, ?(small_attempt _ _ _ F); cbn; auto; try discriminate.
    intros Hk. destruct (A Hk); congruence.
  - destruct (responses_case _ _ _ _ _ H) as (F & _ & _ & d & n & ->). cbn in F.
    constructor; rewrite ?attempt_app; cbn [fold_left attempt_step]; rewrite ?fold_left_app, ?(small_attempt _ _ _ F); cbn; auto; try discriminate.
  - apply begin_case in H as (_ & ->). constructor; rewrite ?attempt_app; cbn; auto; try discriminate.
    intros Hk. destruct (A Hk); congruence.
  - apply begin_case in H as (_ & ->). constructor; rewrite ?attempt_app; cbn; auto; try discriminate.
    intros Hk. destruct (A Hk); congruence.
  - change (TRejected (c_now s) :: o) with ([TRejected (c_now s)] ++ o). rewrite app_assoc.
    eapply top_noticed; [eassumption|]. cbn. discriminate.
  - constructor; rewrite ?attempt_app; cbn; auto. congruence.
  - constructor; rewrite ?attempt_app; cbn; auto. congruence.
  - rewrite app_nil_r. constructor; auto.
  - destruct (responses_case _ _ _ _ _ H) as (F & _ & _ & d & n & ->). cbn in F.
    constructor; rewrite ?attempt_app, ?(small_attempt _ _ _ F); cbn; auto. congruence.
  - destruct (responses_case _ _ _ _ _ H) as (F & _ & _ & d & n & ->). cbn in F.
    constructor; rewrite ?attempt_app, ?fold_left_app, ?(small_attempt _ _ _ F); cbn; auto. congruence.
  - change (TClosed (c_now s) r :: o) with ([TClosed (c_now s) r] ++ o). rewrite app_assoc.
    eapply top_noticed; [eassumption|]. rewrite attempt_app. cbn. auto.
  - apply begin_case in H as (_ & ->). constructor; rewrite ?attempt_app; cbn; auto; try discriminate.
    intros Hk. destruct (A Hk); congruence.
  - eapply top_noticed; eauto.
Qed.

Theorem exec_noticed now i m k ok es s tr : exec now i m k ok es = Some (s, tr) -> noticed s tr.
Proof.
  intros H. refine (exec_preserves noticed (fun _ => True) _ now i m k ok es s tr (all_true es) _ H).
  - intros. eapply step_noticed; eauto.
  - intros s0 o0 H0. apply start_case in H0. rewrite <- (app_nil_l o0). eapply top_noticed; [eassumption|]. reflexivity.
Qed.

(** ** How often streams are started *)
Definition bounded_below (g : Z) (e : event) : Prop :=
  match e with Intervals i m => 2 * g <= Z.abs i /\ 2 * g <= Z.abs m | _ => True end.

Definition spaced (g : Z) (l : list Z) : Prop :=
  forall i a b, nth_error l i = Some a -> nth_error l (S i) = Some b -> a + g <= b.

Lemma spaced_snoc g l b : spaced g l -> (forall l0 a, l = l0 ++ [a] -> a + g <= b) -> spaced g (l ++ [b]).
Proof.
  intros H1 H2 i a c Ha Hc.
  destruct (Nat.lt_ge_cases (S i) (length l)) as [Hl|Hl].
  - rewrite nth_error_app1 in Ha by lia. rewrite nth_error_app1 in Hc by lia. eauto.
  - rewrite nth_error_app2 in Hc by lia.
    destruct (S i - length l)%nat as [|k] eqn:Ek; cbn in Hc; [|destruct k; discriminate]. inv Hc.
    rewrite nth_error_app1 in Ha by lia.
    destruct (exists_last (l := l)) as (l0 & x & ->).
    { intros ->. cbn in Ha. destruct i; discriminate. }
    rewrite app_length in Hl, Ek. cbn [List.length] in Hl, Ek. rewrite nth_error_app2 in Ha by lia.
    replace (i - length l0)%nat with O in Ha by lia. cbn in Ha. inv Ha. eapply H2; reflexivity.
Qed.

Lemma spaced_many g l : spaced g l -> forall k i a b,
  nth_error l i = Some a -> nth_error l (i + k) = Some b -> a + Z.of_nat k * g <= b.
Proof.
  intros H. induction k as [|k IH]; intros i a b Ha Hb.
  - rewrite Nat.add_0_r in Hb. rewrite Ha in Hb. inv Hb. lia.
  - rewrite Nat.add_succ_r in Hb. destruct (nth_error l (i + k)) as [c|] eqn:Ec.
    + specialize (IH _ _ _ Ha Ec). specialize (H _ _ _ Ec Hb). lia.
    + apply nth_error_None in Ec. assert (nth_error l (S (i + k)) <> None) by congruence. apply nth_error_Some in H0. lia.
Qed.

Lemma small_times now o : Forall (small now) o -> stream_times o = [].
Proof. induction 1 as [|x l [->| ->] _ IH]; cbn; auto. Qed.
Lemma times_app a b : stream_times (a ++ b) = stream_times a ++ stream_times b.
Proof. apply flat_map_app. Qed.

Record slow (g : Z) (s : conn) (tr : list item) : Prop := {
  s_cur : 2 * g <= b_current (c_backoff s);
  s_ini : 2 * g <= b_initial (c_backoff s);
  s_max : 2 * g <= b_max (c_backoff s);
  s_int : 2 * g <= Z.abs (fst (c_intervals s)) /\ 2 * g <= Z.abs (snd (c_intervals s));
  s_gap : spaced g (stream_times tr);
  s_alive : c_killed s = true -> c_phase s = Killed \/ c_phase s = Done;
  s_last : forall l0 a, stream_times tr = l0 ++ [a] ->
    match c_phase s with
    | Handshake => a <= c_now s
    | Main => a <= c_established s <= c_now s
    | Backoff u => a + g <= u
    | _ => True
    end
}.

Section Slow.
Context (g : Z) (Hg : 0 <= g <= MINUTE).

Lemma top_slow s s' o tr : top_case s s' o ->
  2 * g <= b_current (c_backoff s) -> 2 * g <= b_initial (c_backoff s) -> 2 * g <= b_max (c_backoff s) ->
  2 * g <= Z.abs (fst (c_intervals s)) /\ 2 * g <= Z.abs (snd (c_intervals s)) ->
  spaced g (stream_times tr) ->
  (c_killed s = false -> forall l0 a, stream_times tr = l0 ++ [a] -> a + g <= c_now s) ->
  slow g s' (tr ++ o).
Proof.
  intros [] H1 H2 H3 H4 H5 H6.
  assert (Hb : 2 * g <= b_current (c_backoff s') /\ 2 * g <= b_initial (c_backoff s') /\ 2 * g <= b_max (c_backoff s')).
  { destruct H as [(_ & _ & _ & _ & -> & _)|(_ & _ & _ & -> & _)]; [auto|].
    destruct (c_changed s); cbn; [|auto]. tauto. }
  destruct Hb as (Hb1 & Hb2 & Hb3).
  assert (Ht : stream_times (tr ++ o) = stream_times tr ++ (if c_killed s then [] else [c_now s])).
  { rewrite times_app. destruct H as [(-> & _ & -> & _)|(-> & _ & _ & _ & _ & _ & _ & [(_ & ->)|(_ & ->)])]; reflexivity. }
  constructor; auto.
  - rewrite Hi. exact H4.
  - rewrite Ht. destruct (c_killed s); [now rewrite app_nil_r|]. apply spaced_snoc; [assumption|exact (H6 eq_refl)].
  - rewrite Hk. intros Hk'. destruct H as [(_ & Hp & _)|(? & _)]; [now left|congruence].
  - rewrite Ht. intros l0 a El.
    destruct H as [(_ & -> & _)|(Hk' & _ & _ & _ & _ & _ & _ & [(-> & ->)|(-> & ->)])]; auto.
    rewrite Hk' in El. apply app_inj_tail in El as (_ & <-). rewrite Hnow. lia.
Qed.

Lemma step_slow s e s' o tr : bounded_below g e -> step s e = Some (s', o) -> slow g s tr -> slow g s' (tr ++ o).
Proof.
  intros HQ H [A B C D E A' F]. apply step_cases in H. destruct H.
  - rewrite app_nil_r. constructor; cbn; auto. intros l0 a El. specialize (F l0 a El). destruct (c_phase s); lia.
  - rewrite app_nil_r. constructor; cbn; auto.
  - constructor; rewrite ?times_app; cbn; rewrite ?app_nil_r; auto.
  - constructor; rewrite ?times_app; cbn; rewrite ?app_nil_r; auto.
  - destruct (responses_case _ _ _ _ _ H) as (G & _ & _ & d & n & ->). cbn in G. rewrite Hp in F.
    constructor; rewrite ?times_app; cbn; rewrite ?times_app, ?(small_times _ _ G); cbn; rewrite ?app_nil_r; auto.
    + intros Hk. destruct (A' Hk); congruence.
    + intros l0 a El. specialize (F l0 a El). lia.
  - destruct (responses_case _ _ _ _ _ H) as (G & _ & _ & d & n & ->). cbn in G. rewrite Hp in F.
    constructor; rewrite ?times_app; cbn; rewrite ?times_app, ?(small_times _ _ G); cbn; rewrite ?app_nil_r; auto.
  - apply begin_case in H as (Hr & ->). cbn in Hr. rewrite Hp in F.
    constructor; rewrite ?times_app; cbn; rewrite ?app_nil_r; auto.
    + apply Z.min_glb; [auto|]. apply Z.div_le_lower_bound; lia.
    + intros Hk. destruct (A' Hk); congruence.
    + intros l0 a El. specialize (F l0 a El). lia.
  - apply begin_case in H as (Hr & ->). cbn in Hr. rewrite Hp in F.
    constructor; rewrite ?times_app; cbn; rewrite ?app_nil_r; auto.
    + apply Z.min_glb; [auto|]. apply Z.div_le_lower_bound; lia.
    + intros Hk. destruct (A' Hk); congruence.
    + intros l0 a El. specialize (F l0 a El). lia.
  - change (TRejected (c_now s) :: o) with ([TRejected (c_now s)] ++ o). rewrite app_assoc.
    eapply top_slow; [eassumption|..]; cbn; rewrite ?times_app; cbn; rewrite ?app_nil_r; auto. discriminate.
  - constructor; rewrite ?times_app; cbn; rewrite ?app_nil_r; auto.
  - constructor; rewrite ?times_app; cbn; rewrite ?app_nil_r; auto.
  - rewrite app_nil_r. constructor; auto.
  - destruct (responses_case _ _ _ _ _ H) as (G & _ & _ & d & n & ->). cbn in G.
    constructor; rewrite ?times_app, ?(small_times _ _ G); cbn; rewrite ?app_nil_r; auto.
  - destruct (responses_case _ _ _ _ _ H) as (G & _ & _ & d & n & ->). cbn in G.
    constructor; rewrite ?times_app, ?(small_times _ _ G); cbn; rewrite ?app_nil_r; auto.
  - change (TClosed (c_now s) r :: o) with ([TClosed (c_now s) r] ++ o). rewrite app_assoc. rewrite Hp in F.
    eapply top_slow; [eassumption|..]; cbn; rewrite ?times_app; cbn; rewrite ?app_nil_r; auto.
    intros _ l0 a El. specialize (F l0 a El). lia.
  - apply begin_case in H as (Hr & ->). cbn in Hr. rewrite Hp in F.
    constructor; rewrite ?times_app; cbn; rewrite ?app_nil_r; auto.
    + apply Z.min_glb; [auto|]. apply Z.div_le_lower_bound; lia.
    + intros Hk. destruct (A' Hk); congruence.
    + intros l0 a El. specialize (F l0 a El). lia.
  - rewrite Hp in F. eapply top_slow; [eassumption|..]; auto. intros _ l0 a El. specialize (F l0 a El). lia.
Qed.

Theorem exec_slow now i m k ok es s tr :
  2 * g <= Z.abs i -> 2 * g <= Z.abs m -> Forall (bounded_below g) es ->
  exec now i m k ok es = Some (s, tr) -> slow g s tr.
Proof.
  intros H1 H2 HF H. refine (exec_preserves (slow g) (bounded_below g) _ now i m k ok es s tr HF _ H).
  - intros. eapply step_slow; eauto.
  - intros s0 o0 H0. apply start_case in H0. rewrite <- (app_nil_l o0).
    eapply top_slow; [eassumption|..]; cbn; auto.
    + intros j a b Ha. destruct j; discriminate.
    + intros _ l0 a El. destruct l0; discriminate.
Qed.
End Slow.

(** ** How soon a stream is started again *)
Definition bounded_above (M : Z) (e : event) : Prop :=
  match e with Intervals i m => Z.abs i <= M /\ Z.abs m <= M | _ => True end.

Lemma small_ends now o w : Forall (small now) o -> fold_left ends_step o w = w.
Proof. intros H. revert w. induction H as [|x l [->| ->] _ IH]; intros w; cbn; auto. Qed.
Lemma ends_app a b : ends_of (a ++ b) = fold_left ends_step b (ends_of a).
Proof. apply fold_left_app. Qed.
Lemma small_reason now o w : Forall (small now) o -> fold_left reason_step o w = w.
Proof. intros H. revert w. induction H as [|x l [->| ->] _ IH]; intros w; cbn; auto. Qed.
Lemma reason_app a b : pending_reason (a ++ b) = fold_left reason_step b (pending_reason a).
Proof. apply fold_left_app. Qed.

Record soon (M : Z) (s : conn) (tr : list item) : Prop := {
  o_cur : b_current (c_backoff s) <= M;
  o_ini : b_initial (c_backoff s) <= M;
  o_max : b_max (c_backoff s) <= M;
  o_int : Z.abs (fst (c_intervals s)) <= M /\ Z.abs (snd (c_intervals s)) <= M;
  o_alive : c_killed s = true -> c_phase s = Killed \/ c_phase s = Done;
  o_reason : c_reason s = pending_reason tr;
  o_until : forall u, c_phase s = Backoff u ->
    exists t r, e_last (ends_of tr) = Some t /\ pending_reason tr = Some r /\ 2 * (u - t) <= 3 * M + 2
}.

Lemma top_soon M s s' o tr : top_case s s' o ->
  b_current (c_backoff s) <= M -> b_initial (c_backoff s) <= M -> b_max (c_backoff s) <= M ->
  Z.abs (fst (c_intervals s)) <= M /\ Z.abs (snd (c_intervals s)) <= M ->
  c_reason s = pending_reason tr -> soon M s' (tr ++ o).
Proof.
  intros [] H1 H2 H3 H4 H5.
  assert (Hb : b_current (c_backoff s') <= M /\ b_initial (c_backoff s') <= M /\ b_max (c_backoff s') <= M).
  { destruct H as [(_ & _ & _ & _ & -> & _)|(_ & _ & _ & -> & _)]; [auto|]. destruct (c_changed s); cbn; [|auto]. tauto. }
  destruct Hb as (Hb1 & Hb2 & Hb3).
  constructor; auto.
  - rewrite Hi. exact H4.
  - rewrite Hk. intros Hk'. destruct H as [(_ & Hp & _)|(? & _)]; [now left|congruence].
  - rewrite reason_app. destruct H as [(_ & _ & -> & _ & _ & _ & ->)|(_ & _ & -> & _ & _ & _ & _ & [(_ & ->)|(_ & ->)])]; auto.
  - intros u Hu. destruct H as [(_ & ? & _)|(_ & _ & _ & _ & _ & _ & _ & [(? & _)|(? & _)])]; congruence.
Qed.

Lemma div_bound c m M : 0 <= M -> c <= M -> m <= M -> Z.min m (3 * c / 2) <= M.
Proof. lia. Qed.

Lemma step_soon M s e s' o tr : bounded_above M e -> step s e = Some (s', o) -> soon M s tr -> soon M s' (tr ++ o).
Proof.
  intros HQ H [A B C D E F G]. apply step_cases in H. destruct H.
  - rewrite app_nil_r. constructor; cbn; auto.
  - rewrite app_nil_r. constructor; cbn; auto.
  - constructor; rewrite ?ends_app, ?reason_app; cbn; auto.
  - constructor; rewrite ?ends_app, ?reason_app; cbn; auto. discriminate.
  - destruct (responses_case _ _ _ _ _ H) as (S & _ & _ & d & n & ->). cbn in S.
    constructor; rewrite ?reason_app; cbn [fold_left reason_step]; rewrite ?fold_left_app, ?(small_reason _ _ _ S); cbn; auto; try discriminate.
    intros Hk. destruct (E Hk); congruence.
  - destruct (responses_case _ _ _ _ _ H) as (S & _ & _ & d & n & ->). cbn in S.
    constructor; rewrite ?reason_app; cbn [fold_left reason_step]; rewrite ?fold_left_app, ?(small_reason _ _ _ S); cbn; auto; discriminate.
  - apply begin_case in H as (Hr & ->). cbn in Hr.
    constructor; rewrite ?ends_app, ?reason_app; cbn; auto; try lia.
    + intros Hk. destruct (E Hk); congruence.
    + intros u Hu. inv Hu. eexists _, _. splits; try reflexivity. lia.
  - apply begin_case in H as (Hr & ->). cbn in Hr.
    constructor; rewrite ?ends_app, ?reason_app; cbn; auto; try lia.
    + intros Hk. destruct (E Hk); congruence.
    + intros u Hu. inv Hu. eexists _, _. splits; try reflexivity. lia.
  - change (TRejected (c_now s) :: o) with ([TRejected (c_now s)] ++ o). rewrite app_assoc.
    eapply top_soon; [eassumption|..]; rewrite ?reason_app; cbn; auto.
  - constructor; rewrite ?ends_app, ?reason_app; cbn; auto.
  - constructor; rewrite ?ends_app, ?reason_app; cbn; auto; discriminate.
  - rewrite app_nil_r. constructor; auto.
  - destruct (responses_case _ _ _ _ _ H) as (S & _ & _ & d & n & ->). cbn in S.
    constructor; rewrite ?reason_app, ?ends_app, ?(small_reason _ _ _ S), ?(small_ends _ _ _ S); cbn; auto.
  - destruct (responses_case _ _ _ _ _ H) as (S & _ & _ & d & n & ->). cbn in S.
    constructor; rewrite ?reason_app, ?fold_left_app, ?(small_reason _ _ _ S); cbn; auto; discriminate.
  - change (TClosed (c_now s) r :: o) with ([TClosed (c_now s) r] ++ o). rewrite app_assoc.
    eapply top_soon; [eassumption|..]; rewrite ?reason_app; cbn; auto.
  - apply begin_case in H as (Hr & ->). cbn in Hr.
    constructor; rewrite ?ends_app, ?reason_app; cbn; auto; try lia.
    + intros Hk. destruct (E Hk); congruence.
    + intros u Hu. inv Hu. eexists _, _. splits; try reflexivity. lia.
  - eapply top_soon; [eassumption|..]; auto.
Qed.

Theorem exec_soon M now i m k ok es s tr :
  Z.abs i <= M -> Z.abs m <= M -> Forall (bounded_above M) es ->
  exec now i m k ok es = Some (s, tr) -> soon M s tr.
Proof.
  intros H1 H2 HF H. refine (exec_preserves (soon M) (bounded_above M) _ now i m k ok es s tr HF _ H).
  - intros. eapply step_soon; eauto.
  - intros s0 o0 H0. apply start_case in H0. rewrite <- (app_nil_l o0).
    eapply top_soon; [eassumption|..]; cbn; auto.
Qed.

Lemma alive_start s t r : c_killed s = false -> c_reason s = r -> c_now s = t ->
  exists s', top s true = (s', [TStream t r]).
Proof.
  intros Hk <- <-. unfold top. cbn. rewrite Hk. destruct (c_changed s); cbn; eexists; reflexivity.
Qed.

(** ** The delays of reconnects in a row *)
Definition no_change (e : event) : Prop := match e with Intervals _ _ => False | _ => True end.

(** What a stream's start must wait for. *)
Definition waited (I M : Z) (p : list item) (i : item) : Prop :=
  match i with
  | TStream t _ =>
      match e_last (ends_of p), e_row (ends_of p) with
      | Some tc, S k => nth_interval I M k <= 2 * (t - tc)
      | _, _ => True
      end
  | _ => True
  end.

Record growing (I M : Z) (s : conn) (tr : list item) : Prop := {
  g_off : c_backoff s = mkBackoff (nth_interval I M (e_row (ends_of tr))) I M;
  g_same : c_changed s = false;
  g_up : match c_phase s with Main => e_up (ends_of tr) = Some (c_established s) | Done | Killed => True | _ => e_up (ends_of tr) = None end;
  g_until : forall u, c_phase s = Backoff u ->
    exists t k, e_last (ends_of tr) = Some t /\ e_row (ends_of tr) = S k
      /\ nth_interval I M k <= 2 * (u - t) <= 3 * nth_interval I M k + 2;
  g_each : each (waited I M) tr
}.

Lemma top_growing I M s s' o tr : top_case s s' o -> c_backoff s = mkBackoff (nth_interval I M (e_row (ends_of tr))) I M ->
  c_changed s = false -> e_up (ends_of tr) = None -> each (waited I M) tr -> waited I M tr (TStream (c_now s) (c_reason s)) ->
  growing I M s' (tr ++ o).
Proof.
  intros [] H1 H2 H3 H4 H5. rewrite H2 in H.
  assert (E : ends_of (tr ++ o) = ends_of tr).
  { rewrite ends_app. destruct H as [(_ & _ & -> & _)|(_ & _ & _ & _ & _ & _ & _ & [(_ & ->)|(_ & ->)])]; reflexivity. }
  constructor; rewrite ?E.
  - destruct H as [(_ & _ & _ & _ & -> & _)|(_ & _ & _ & -> & _)]; auto.
  - destruct H as [(_ & _ & _ & _ & _ & -> & _)|(_ & _ & _ & _ & -> & _)]; auto.
  - destruct H as [(_ & -> & _)|(_ & _ & _ & _ & _ & _ & _ & [(-> & _)|(-> & _)])]; auto.
  - intros u Hu. destruct H as [(_ & ? & _)|(_ & _ & _ & _ & _ & _ & _ & [(? & _)|(? & _)])]; congruence.
  - apply each_app; [assumption|].
    destruct H as [(_ & _ & -> & _)|(_ & _ & _ & _ & _ & _ & _ & [(_ & ->)|(_ & ->)])]; [apply each_nil|..];
      (apply each_cons; [rewrite app_nil_r; assumption|]); [apply each_nil|]. apply each_cons; [exact Logic.I|apply each_nil].
Qed.

Lemma step_growing I M s e s' o tr : no_change e -> step s e = Some (s', o) -> growing I M s tr -> growing I M s' (tr ++ o).
Proof.
  intros HQ H [A B C D E]. apply step_cases in H. destruct H.
  - rewrite app_nil_r. constructor; cbn; auto.
  - destruct HQ.
  - constructor; rewrite ?ends_app; cbn; auto. apply each_app; [assumption|]. apply each_cons; [exact Logic.I|apply each_nil].
  - constructor; rewrite ?ends_app; cbn; auto; try discriminate.
    apply each_app; [assumption|]. apply each_cons; [exact Logic.I|apply each_nil].
  - destruct (responses_case _ _ _ _ _ H) as (S & _ & _ & d & n & ->). cbn in S.
    constructor; rewrite ?ends_app; cbn [fold_left ends_step]; rewrite ?fold_left_app, ?(small_ends _ _ _ S); cbn; auto; try discriminate.
    apply each_app; [assumption|]. apply each_cons; [exact Logic.I|]. apply each_app.
    + eapply small_no_ping; [exact S|..]; intros; exact Logic.I.
    + apply each_cons; [exact Logic.I|apply each_nil].
  - destruct (responses_case _ _ _ _ _ H) as (S & _ & _ & d & n & ->). cbn in S.
    constructor; rewrite ?ends_app; cbn [fold_left ends_step]; rewrite ?fold_left_app, ?(small_ends _ _ _ S); cbn; auto; try discriminate.
    apply each_app; [assumption|]. apply each_cons; [exact Logic.I|]. apply each_app.
    + eapply small_no_ping; [exact S|..]; intros; exact Logic.I.
    + apply each_cons; [exact Logic.I|apply each_nil].
  - apply begin_case in H as (Hr & ->). cbn in Hr. rewrite Hp in C. rewrite A in *. cbn in Hr |- *.
    constructor; rewrite ?ends_app; cbn; rewrite ?C; cbn; rewrite ?A; auto.
    + intros u Hu. inv Hu. eexists _, _. splits; try reflexivity; lia.
    + apply each_app; [assumption|]. apply each_cons; [exact Logic.I|]. apply each_cons; [exact Logic.I|apply each_nil].
  - apply begin_case in H as (Hr & ->). cbn in Hr. rewrite Hp in C. rewrite A in *. cbn in Hr |- *.
    constructor; rewrite ?ends_app; cbn; rewrite ?C; cbn; rewrite ?A; auto.
    + intros u Hu. inv Hu. eexists _, _. splits; try reflexivity; lia.
    + apply each_app; [assumption|]. apply each_cons; [exact Logic.I|apply each_nil].
  - rewrite Hp in C. change (TRejected (c_now s) :: o) with ([TRejected (c_now s)] ++ o). rewrite app_assoc.
    assert (K : o = []) by (destruct H as [? ? ? ? ? ? ? ? ? ? ? ? [(_ & _ & -> & _)|(? & _)]]; [reflexivity|discriminate]).
    destruct H. cbn in *. destruct H as [(_ & Hph & _ & _ & Hb & Hc & _)|(? & _)]; [|discriminate]. subst o.
    rewrite app_nil_r. constructor; rewrite ?ends_app; cbn; rewrite ?Hb, ?Hc, ?Hph; auto; try congruence.
    apply each_app; [assumption|]. apply each_cons; [exact Logic.I|apply each_nil].
  - rewrite Hp in C. constructor; rewrite ?ends_app; cbn; rewrite ?Hp; auto; try congruence.
    apply each_app; [assumption|]. apply each_cons; [exact Logic.I|apply each_nil].
  - rewrite Hp in C. constructor; rewrite ?ends_app; cbn; auto; try discriminate.
    apply each_app; [assumption|]. apply each_cons; [exact Logic.I|apply each_nil].
  - rewrite app_nil_r. constructor; auto.
  - destruct (responses_case _ _ _ _ _ H) as (S & _ & _ & d & n & ->). cbn in S.
    constructor; rewrite ?ends_app, ?(small_ends _ _ _ S); cbn; auto.
    apply each_app; [assumption|]. eapply small_no_ping; [exact S|..]; intros; exact Logic.I.
  - destruct (responses_case _ _ _ _ _ H) as (S & _ & _ & d & n & ->). cbn in S.
    constructor; rewrite ?ends_app, ?fold_left_app, ?(small_ends _ _ _ S); cbn; auto; try discriminate.
    apply each_app; [assumption|]. apply each_app.
    + eapply small_no_ping; [exact S|..]; intros; exact Logic.I.
    + apply each_cons; [exact Logic.I|apply each_nil].
  - rewrite Hp in C. change (TClosed (c_now s) r :: o) with ([TClosed (c_now s) r] ++ o). rewrite app_assoc.
    apply Z.ltb_lt in Ht.
    eapply top_growing; [eassumption|..]; rewrite ?ends_app; cbn; rewrite ?C, ?Ht; auto.
    + cbn. rewrite A. reflexivity.
    + apply each_app; [assumption|]. apply each_cons; [exact Logic.I|apply each_nil].
    + rewrite ends_app. cbn. rewrite C, Ht. exact Logic.I.
  - apply begin_case in H as (Hr & ->). cbn in Hr. rewrite Hp in C. rewrite A in *. cbn in Hr |- *.
    apply Z.ltb_ge in Ht.
    constructor; rewrite ?ends_app; cbn; rewrite ?C; cbn; rewrite ?Ht, ?A; auto.
    + intros u Hu. inv Hu. eexists _, _. splits; try reflexivity; lia.
    + apply each_app; [assumption|]. apply each_cons; [exact Logic.I|apply each_nil].
  - rewrite Hp in C. eapply top_growing; [eassumption|..]; auto.
    cbn. destruct (D _ Hp) as (t & k & -> & -> & Hk). lia.
Qed.

Theorem exec_growing now i m k ok es s tr : Forall no_change es ->
  exec now i m k ok es = Some (s, tr) -> growing (Z.abs i) (Z.abs m) s tr.
Proof.
  intros HF H. refine (exec_preserves (growing (Z.abs i) (Z.abs m)) no_change _ now i m k ok es s tr HF _ H).
  - intros. eapply step_growing; eauto.
  - intros s0 o0 H0. apply start_case in H0. rewrite <- (app_nil_l o0).
    eapply top_growing; [eassumption|..]; cbn; auto. apply each_nil.
Qed.

(** ** The reason told to the server *)
Definition reason_ok (p : list item) (i : item) : Prop :=
  match i with
  | TStream _ r => r = pending_reason p /\ (existsb is_stream p = true -> r <> None)
  | _ => True
  end.

Record reasons (s : conn) (tr : list item) : Prop := {
  r_same : c_reason s = pending_reason tr;
  r_some : forall u, c_phase s = Backoff u -> pending_reason tr <> None;
  r_each : each reason_ok tr
}.

Lemma top_reasons s s' o tr : top_case s s' o -> c_reason s = pending_reason tr ->
  (c_killed s = false -> existsb is_stream tr = true -> pending_reason tr <> None) ->
  each reason_ok tr -> reasons s' (tr ++ o).
Proof.
  intros [] H1 H2 H3. constructor.
  - rewrite reason_app. destruct H as [(_ & _ & -> & _ & _ & _ & ->)|(_ & _ & -> & _ & _ & _ & _ & [(_ & ->)|(_ & ->)])]; auto.
  - intros u Hu. destruct H as [(_ & ? & _)|(_ & _ & _ & _ & _ & _ & _ & [(? & _)|(? & _)])]; congruence.
  - apply each_app; [assumption|].
    destruct H as [(_ & _ & -> & _)|(Hk' & _ & _ & _ & _ & _ & _ & [(_ & ->)|(_ & ->)])]; [apply each_nil|..];
      (apply each_cons; [rewrite app_nil_r; cbn; rewrite H1; auto|]); [apply each_nil|]. apply each_cons; [exact I|apply each_nil].
Qed.

Lemma step_reasons s e s' o tr : step s e = Some (s', o) -> reasons s tr -> reasons s' (tr ++ o).
Proof.
  intros H [A B C]. apply step_cases in H. destruct H.
  - rewrite app_nil_r. constructor; cbn; auto.
  - rewrite app_nil_r. constructor; cbn; auto.
  - constructor; rewrite ?reason_app; cbn; auto. apply each_app; [assumption|]. eachs.
  - constructor; rewrite ?reason_app; cbn; auto; try discriminate. apply each_app; [assumption|]. eachs.
  - destruct (responses_case _ _ _ _ _ H) as (S & _ & _ & d & n & ->). cbn in S.
    constructor; rewrite ?reason_app; cbn [fold_left reason_step]; rewrite ?fold_left_app, ?(small_reason _ _ _ S); cbn; auto; try discriminate.
    apply each_app; [assumption|]. apply each_cons; [exact I|]. apply each_app; [|eachs].
    eapply small_no_ping; [exact S|..]; intros; exact I.
  - destruct (responses_case _ _ _ _ _ H) as (S & _ & _ & d & n & ->). cbn in S.
    constructor; rewrite ?reason_app; cbn [fold_left reason_step]; rewrite ?fold_left_app, ?(small_reason _ _ _ S); cbn; auto; try discriminate.
    apply each_app; [assumption|]. apply each_cons; [exact I|]. apply each_app; [|eachs].
    eapply small_no_ping; [exact S|..]; intros; exact I.
  - apply begin_case in H as (Hr & ->).
    constructor; rewrite ?reason_app; cbn; auto; try discriminate. apply each_app; [assumption|]. eachs.
  - apply begin_case in H as (Hr & ->).
    constructor; rewrite ?reason_app; cbn; auto; try discriminate. apply each_app; [assumption|]. eachs.
  - change (TRejected (c_now s) :: o) with ([TRejected (c_now s)] ++ o). rewrite app_assoc.
    eapply top_reasons; [eassumption|..]; rewrite ?reason_app; cbn; auto; try discriminate.
    apply each_app; [assumption|]. eachs.
  - constructor; rewrite ?reason_app; cbn; auto. apply each_app; [assumption|]. eachs.
  - constructor; rewrite ?reason_app; cbn; auto; try discriminate. apply each_app; [assumption|]. eachs.
  - rewrite app_nil_r. constructor; auto.
  - destruct (responses_case _ _ _ _ _ H) as (S & _ & _ & d & n & ->). cbn in S.
    constructor; rewrite ?reason_app, ?(small_reason _ _ _ S); cbn; auto.
    apply each_app; [assumption|]. eapply small_no_ping; [exact S|..]; intros; exact I.
  - destruct (responses_case _ _ _ _ _ H) as (S & _ & _ & d & n & ->). cbn in S.
    constructor; rewrite ?reason_app, ?fold_left_app, ?(small_reason _ _ _ S); cbn; auto; try discriminate.
    apply each_app; [assumption|]. apply each_app; [|eachs]. eapply small_no_ping; [exact S|..]; intros; exact I.
  - change (TClosed (c_now s) r :: o) with ([TClosed (c_now s) r] ++ o). rewrite app_assoc.
    eapply top_reasons; [eassumption|..]; rewrite ?reason_app; cbn; auto; try discriminate.
    apply each_app; [assumption|]. eachs.
  - apply begin_case in H as (Hr & ->).
    constructor; rewrite ?reason_app; cbn; auto; try discriminate. apply each_app; [assumption|]. eachs.
  - eapply top_reasons; [eassumption|..]; auto. intros _ _. eauto.
Qed.

Theorem exec_reasons now i m k ok es s tr : exec now i m k ok es = Some (s, tr) -> reasons s tr.
Proof.
  intros H. refine (exec_preserves reasons (fun _ => True) _ now i m k ok es s tr (all_true es) _ H).
  - intros. eapply step_reasons; eauto.
  - intros s0 o0 H0. apply start_case in H0. rewrite <- (app_nil_l o0).
    eapply top_reasons; [eassumption|..]; cbn; auto; try discriminate. apply each_nil.
Qed.

(** ** The counters *)
Lemma small_failed now o w : Forall (small now) o -> fold_left failed_step o w = w.
Proof. intros H. revert w. induction H as [|x l [->| ->] _ IH]; intros w; cbn; auto. Qed.
Lemma small_streams now o : Forall (small now) o -> count_of is_stream o = 0.
Proof. unfold count_of. induction 1 as [|x l [->| ->] _ IH]; cbn; auto. Qed.
Lemma count_app f a b : count_of f (a ++ b) = count_of f a + count_of f b.
Proof. unfold count_of. rewrite filter_app, app_length. lia. Qed.
Lemma count_cons f i o : count_of f (i :: o) = (if f i then 1 else 0) + count_of f o.
Proof. unfold count_of. cbn. destruct (f i); cbn [List.length]; lia. Qed.
Lemma count_nil f : count_of f [] = 0.
Proof. reflexivity. Qed.

Record counted (s : conn) (tr : list item) : Prop := {
  k_streams : c_streams s = count_of is_stream tr;
  k_failures : c_failures s = failed tr;
  k_errors : c_errors s = count_of is_error tr;
  k_up : match c_phase s with Main => fst (fold_left failed_step tr (false, 0)) = true
         | Handshake | Backoff _ => fst (fold_left failed_step tr (false, 0)) = false | _ => True end
}.

Local Arguments count_of : simpl never.

Lemma top_counted s s' o tr : top_case s s' o -> c_streams s = count_of is_stream tr -> c_failures s = failed tr ->
  c_errors s = count_of is_error tr -> fst (fold_left failed_step tr (false, 0)) = false -> counted s' (tr ++ o).
Proof.
  intros [] H1 H2 H3 H4.
  assert (E : fold_left failed_step (tr ++ o) (false, 0) = fold_left failed_step tr (false, 0)).
  { rewrite fold_left_app. destruct H as [(_ & _ & -> & _)|(_ & _ & _ & _ & _ & _ & _ & [(_ & ->)|(_ & ->)])]; reflexivity. }
  constructor; unfold failed; rewrite ?E, ?count_app.
  - destruct H as [(_ & _ & -> & -> & _)|(_ & -> & _ & _ & _ & _ & _ & [(_ & ->)|(_ & ->)])]; rewrite ?count_cons, ?count_nil; cbn; lia.
  - rewrite Hf. exact H2.
  - rewrite He. destruct H as [(_ & _ & -> & _)|(_ & _ & _ & _ & _ & _ & _ & [(_ & ->)|(_ & ->)])]; rewrite ?count_cons, ?count_nil; cbn; lia.
  - destruct H as [(_ & -> & _)|(_ & _ & _ & _ & _ & _ & _ & [(-> & _)|(-> & _)])]; auto.
Qed.

Lemma step_counted s e s' o tr : step s e = Some (s', o) -> counted s tr -> counted s' (tr ++ o).
Proof.
  intros H [A B C D]. unfold failed in B. apply step_cases in H.
  destruct (fold_left failed_step tr (false, 0)) as [f n0] eqn:Ef. cbn in B, D.
  destruct H.
  - rewrite app_nil_r. constructor; unfold failed; rewrite ?Ef; cbn; auto.
  - rewrite app_nil_r. constructor; unfold failed; rewrite ?Ef; cbn; auto.
  - constructor; unfold failed; rewrite ?fold_left_app, ?Ef, ?count_app, ?count_cons, ?count_nil; cbn; auto; lia.
  - constructor; unfold failed; rewrite ?fold_left_app, ?Ef, ?count_app, ?count_cons, ?count_nil; cbn; auto; lia.
  - destruct (responses_case _ _ _ _ _ H) as (S & He & _ & d & n & ->). cbn in S, He.
    constructor; unfold failed; rewrite ?fold_left_app, ?Ef, ?count_app, ?count_cons, ?count_app, ?count_cons, ?count_nil, ?(small_streams _ _ S);
      cbn [fold_left failed_step]; rewrite ?fold_left_app, ?(small_failed _ _ _ S); cbn; auto; lia.
  - destruct (responses_case _ _ _ _ _ H) as (S & He & _ & d & n & ->). cbn in S, He.
    constructor; unfold failed; rewrite ?fold_left_app, ?Ef, ?count_app, ?count_cons, ?count_app, ?count_cons, ?count_nil, ?(small_streams _ _ S);
      cbn [fold_left failed_step]; rewrite ?fold_left_app, ?(small_failed _ _ _ S); cbn; auto; lia.
  - apply begin_case in H as (Hr & ->). rewrite Hp in D. subst f.
    constructor; unfold failed; rewrite ?fold_left_app, ?Ef, ?count_app, ?count_cons, ?count_nil; cbn; auto; lia.
  - apply begin_case in H as (Hr & ->). rewrite Hp in D. subst f.
    constructor; unfold failed; rewrite ?fold_left_app, ?Ef, ?count_app, ?count_cons, ?count_nil; cbn; auto; lia.
  - rewrite Hp in D. subst f. change (TRejected (c_now s) :: o) with ([TRejected (c_now s)] ++ o). rewrite app_assoc.
    eapply top_counted; [eassumption|..]; unfold failed; rewrite ?fold_left_app, ?Ef, ?count_app, ?count_cons, ?count_nil; cbn; auto; lia.
  - constructor; unfold failed; rewrite ?fold_left_app, ?Ef, ?count_app, ?count_cons, ?count_nil; cbn; auto; lia.
  - constructor; unfold failed; rewrite ?fold_left_app, ?Ef, ?count_app, ?count_cons, ?count_nil; cbn; auto; lia.
  - rewrite app_nil_r. constructor; unfold failed; rewrite ?Ef; auto.
  - destruct (responses_case _ _ _ _ _ H) as (S & He & _ & d & n & ->). cbn in S, He.
    constructor; unfold failed; rewrite ?fold_left_app, ?Ef, ?count_app, ?(small_streams _ _ S), ?(small_failed _ _ _ S); cbn; auto; lia.
  - destruct (responses_case _ _ _ _ _ H) as (S & He & _ & d & n & ->). cbn in S, He.
    constructor; unfold failed; rewrite ?fold_left_app, ?Ef, ?count_app, ?count_cons, ?count_nil, ?(small_streams _ _ S), ?(small_failed _ _ _ S); cbn; auto; lia.
  - rewrite Hp in D. subst f. change (TClosed (c_now s) r :: o) with ([TClosed (c_now s) r] ++ o). rewrite app_assoc.
    eapply top_counted; [eassumption|..]; unfold failed; rewrite ?fold_left_app, ?Ef, ?count_app, ?count_cons, ?count_nil; cbn; auto; lia.
  - apply begin_case in H as (Hr & ->). rewrite Hp in D. subst f.
    constructor; unfold failed; rewrite ?fold_left_app, ?Ef, ?count_app, ?count_cons, ?count_nil; cbn; auto; lia.
  - rewrite Hp in D. subst f.
    eapply top_counted; [eassumption|..]; unfold failed; rewrite ?Ef; auto.
Qed.

Theorem exec_counted now i m k ok es s tr : exec now i m k ok es = Some (s, tr) -> counted s tr.
Proof.
  intros H. refine (exec_preserves counted (fun _ => True) _ now i m k ok es s tr (all_true es) _ H).
  - intros. eapply step_counted; eauto.
  - intros s0 o0 H0. apply start_case in H0. rewrite <- (app_nil_l o0). eapply top_counted; [eassumption|..]; reflexivity.
Qed.

Lemma run_snoc es e : forall s s' o s2 o2, run s es = Some (s', o) -> step s' e = Some (s2, o2) ->
  run s (es ++ [e]) = Some (s2, o ++ o2).
Proof.
  induction es as [|x es IH]; intros s s' o s2 o2 H1 H2; cbn in H1 |- *.
  - inv H1. rewrite H2. now rewrite app_nil_r.
  - destruct (step s x) as [[s1 o1]|]; [|discriminate]. destruct (run s1 es) as [[s3 o3]|] eqn:E; [|discriminate]. inv H1.
    rewrite (IH _ _ _ _ _ E H2). now rewrite app_assoc.
Qed.

Lemma exec_snoc now i m k ok es e s tr s2 o2 : exec now i m k ok es = Some (s, tr) -> step s e = Some (s2, o2) ->
  exec now i m k ok (es ++ [e]) = Some (s2, tr ++ o2).
Proof.
  unfold exec. destruct (start now i m k ok) as [s0 o0]. destruct (run s0 es) as [[s1 o1]|] eqn:E; [|discriminate].
  intros H1 H2. inv H1. rewrite (run_snoc _ _ _ _ _ _ _ E H2). now rewrite app_assoc.
Qed.

Lemma pass_step s d : 0 <= d -> step s (Pass d) = Some (with_now s (c_now s + d), []).
Proof. intros H. unfold step. apply Z.leb_le in H. now rewrite H. Qed.

Lemma close_step s r d ok : c_phase s = Main -> c_now s - c_established s <= MINUTE ->
  b_current (c_backoff s) <= 2 * d <= 3 * b_current (c_backoff s) + 2 ->
  exists s', step s (Closed r d ok) = Some (s', [TClosed (c_now s) r])
    /\ c_phase s' = Backoff (c_now s + d) /\ c_quality s' = c_quality s /\ c_now s' = c_now s.
Proof.
  intros Hp Ht [H1 H2]. unfold step. rewrite Hp. cbn [with_reason c_now c_established].
  apply Z.ltb_ge in Ht. rewrite Ht. unfold begin_backoff, next_backoff. cbn [with_reason c_backoff].
  apply Z.leb_le in H1, H2. rewrite H1, H2. cbn [andb option_map]. eexists. split; [reflexivity|]. auto.
Qed.

(** ** Since when a stream is up *)
Definition established (s : conn) (tr : list item) : Prop :=
  c_phase s = Main -> e_up (ends_of tr) = Some (c_established s).

Lemma top_not_main s s' o : top_case s s' o -> c_phase s' <> Main.
Proof.
  intros [] Hm. destruct H as [(_ & ? & _)|(_ & _ & _ & _ & _ & _ & _ & [(? & _)|(? & _)])]; congruence.
Qed.

Lemma step_established s e s' o tr : step s e = Some (s', o) -> established s tr -> established s' (tr ++ o).
Proof.
  unfold established. intros H A Hm. apply step_cases in H.
  destruct H; try (now cbn in Hm); try (now exfalso; eapply top_not_main; eauto);
    try (apply begin_case in H as (_ & ->); discriminate).
  - rewrite app_nil_r. now apply A.
  - rewrite app_nil_r. now apply A.
  - rewrite ends_app. now apply A.
  - destruct (responses_case _ _ _ _ _ H) as (S & _ & _ & d & n & ->). cbn in S.
    rewrite ends_app. cbn [fold_left ends_step]. rewrite fold_left_app, (small_ends _ _ _ S). reflexivity.
  - rewrite ends_app. now apply A.
  - rewrite app_nil_r. now apply A.
  - destruct (responses_case _ _ _ _ _ H) as (S & _ & _ & d & n & ->). cbn in S.
    rewrite ends_app, (small_ends _ _ _ S). now apply A.
Qed.

Theorem exec_established now i m k ok es s tr : exec now i m k ok es = Some (s, tr) -> established s tr.
Proof.
  intros H. refine (exec_preserves established (fun _ => True) _ now i m k ok es s tr (all_true es) _ H).
  - intros. eapply step_established; eauto.
  - intros s0 o0 H0. apply start_case in H0. intros Hm. exfalso. eapply top_not_main; eauto.
Qed.
