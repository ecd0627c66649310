(** Proofs for Parts_Props.v. *)
From Verif Require Import Base Parts_Model Parts_Spec.

Lemma taken_app a b : taken (a ++ b) = taken a ++ taken b.
Proof. apply flat_map_app. Qed.
Lemma accepted_app a b : accepted (a ++ b) = accepted a ++ accepted b.
Proof. apply flat_map_app. Qed.
Lemma returned_app a b : returned (a ++ b) = returned a ++ returned b.
Proof. apply flat_map_app. Qed.
Lemma waiting_blocking c : waiting c = blocking c.
Proof. destruct c as [i a]; destruct a as [[]| |[]]; reflexivity. Qed.
Lemma returned_returns c : returned (returns c) = filter waiting [c].
Proof. unfold returns. cbn. rewrite waiting_blocking. destruct (blocking c); reflexivity. Qed.
Lemma taken_returns c : taken (returns c) = [].
Proof. unfold returns. destruct (blocking c); reflexivity. Qed.
Lemma accepted_returns c : accepted (returns c) = [].
Proof. unfold returns. destruct (blocking c); reflexivity. Qed.
Lemma returned_all q : returned (flat_map returns q) = filter waiting q.
Proof. induction q as [|c q IH]; [reflexivity|]. cbn [flat_map]. rewrite returned_app, IH, returned_returns. cbn. destruct (waiting c); reflexivity. Qed.
Lemma taken_all q : taken (flat_map returns q) = [].
Proof. induction q as [|c q IH]; [reflexivity|]. cbn [flat_map]. rewrite taken_app, IH, taken_returns. reflexivity. Qed.
Lemma accepted_all q : accepted (flat_map returns q) = [].
Proof. induction q as [|c q IH]; [reflexivity|]. cbn [flat_map]. rewrite accepted_app, IH, accepted_returns. reflexivity. Qed.

Lemma move_run_app cap ms : forall p ms2, move_run cap p (ms ++ ms2) =
  match move_run cap p ms with Some (p1, e1) => match move_run cap p1 ms2 with Some (p2, e2) => Some (p2, e1 ++ e2) | None => None end | None => None end.
Proof.
  induction ms as [|m ms IH]; intros p ms2; [cbn; destruct (move_run cap p ms2) as [[]|]; reflexivity|]. cbn [app move_run].
  destruct (move_step cap p m) as [[p1 e1]|]; [|reflexivity]. rewrite IH. destruct (move_run cap p1 ms) as [[p2 e2]|]; [|reflexivity].
  destruct (move_run cap p2 ms2) as [[p3 e3]|]; [|reflexivity]. rewrite app_assoc. reflexivity.
Qed.

(** * Entering the waits *)
(** The waiting caller of the log loop. *)
Definition current (l : loop) : list call := match l with Waits c _ => [c] | _ => [] end.
(** The loop and its request agree. *)
Definition loop_ok (p : parts) : Prop :=
  match p_loop p with
  | Waits _ [] => False
  | Waits _ (ForStats :: _) => p_ask p = true /\ p_flusher p <> FEnded
  | Waits _ (ForBuffers :: _) => p_ask p = false /\ p_buf p = true
  | Idle | LEnded => p_ask p = false
  end.
Definition same_but_loop (p p' : parts) : Prop :=
  p_queue p' = p_queue p /\ p_flusher p' = p_flusher p /\ p_pending p' = p_pending p /\ p_up p' = p_up p /\ p_conn p' = p_conn p /\ p_conf p' = p_conf p /\ p_init p' = p_init p /\ p_buf p' = p_buf p /\ p_stop p' = p_stop p.
Lemma enter_spec p c ws : exists l a, fst (enter p c ws) = with_loop p l a /\ loop_ok (with_loop p l a) /\ l <> LEnded /\
  (l = Idle /\ snd (enter p c ws) = returns c \/ (exists ws', l = Waits c ws' /\ (length ws' <= length ws)%nat) /\ snd (enter p c ws) = []).
Proof.
  induction ws as [|w ws IH]; cbn [enter].
  - exists Idle, false. splits; [reflexivity|reflexivity|discriminate|left; split; reflexivity].
  - destruct w.
    + destruct (p_buf p) eqn:B.
      * exists (Waits c (ForBuffers :: ws)), false. split; [reflexivity|]. split; [split; [reflexivity|exact B]|]. split; [discriminate|]. right; split; [eexists; split; [reflexivity|cbn; lia]|reflexivity].
      * assert (J : exists l a, with_loop p Idle false = with_loop p l a /\ loop_ok (with_loop p l a) /\ l <> LEnded /\ (l = Idle /\ returns c = returns c \/ (exists ws', l = Waits c ws' /\ (length ws' <= length (ForBuffers :: ws))%nat) /\ returns c = [])).
        { exists Idle, false. splits; [reflexivity|reflexivity|discriminate|left; split; reflexivity]. }
        destruct (c_ask c); [exact J|exact J|]. destruct IH as (l & a & E1 & E2 & E3 & E4). exists l, a. splits; try assumption.
        destruct E4 as [E4|[(ws' & E4 & Hl) E5]]; [left; exact E4|right; split; [exists ws'; split; [exact E4|cbn; lia]|exact E5]].
    + destruct (p_flusher p) eqn:F.
      * exists (Waits c (ForStats :: ws)), true. split; [reflexivity|]. split; [split; [reflexivity|cbn; rewrite F; discriminate]|]. split; [discriminate|].
        right; split; [eexists; split; [reflexivity|cbn; lia]|reflexivity].
      * exists (Waits c (ForStats :: ws)), true. split; [reflexivity|]. split; [split; [reflexivity|cbn; rewrite F; discriminate]|]. split; [discriminate|].
        right; split; [eexists; split; [reflexivity|cbn; lia]|reflexivity].
      * destruct IH as (l & a & E1 & E2 & E3 & E4). exists l, a. splits; try assumption.
        destruct E4 as [E4|[(ws' & E4 & Hl) E5]]; [left; exact E4|right; split; [exists ws'; split; [exact E4|cbn; lia]|exact E5]].
Qed.
(** What [enter] shows of the calls. *)
Lemma enter_calls p c ws : taken (snd (enter p c ws)) = [] /\ accepted (snd (enter p c ws)) = [] /\ refused (snd (enter p c ws)) = [] /\
  returned (snd (enter p c ws)) ++ filter waiting (current (p_loop (fst (enter p c ws)))) = filter waiting [c].
Proof.
  destruct (enter_spec p c ws) as (l & a & E1 & _ & _ & E4). rewrite E1. destruct E4 as [[-> E5]|[(ws' & -> & _) E5]]; rewrite E5.
  - splits; [apply taken_returns|apply accepted_returns|unfold returns; destruct (blocking c); reflexivity|]. cbn [with_loop p_loop current filter]. rewrite app_nil_r. apply returned_returns.
  - splits; reflexivity.
Qed.

(** * The invariant *)
Definition up_ok (p : parts) : Prop := (length (p_up p) <= 1)%nat.
Definition ok (p : parts) : Prop := loop_ok p /\ up_ok p /\ (p_loop p = LEnded -> p_queue p = []).

Lemma enter_ok p c ws : up_ok p -> p_loop p <> LEnded -> ok (fst (enter p c ws)).
Proof.
  intros U N. destruct (enter_spec p c ws) as (l & a & E1 & E2 & E3 & _). rewrite E1. unfold ok; splits; [exact E2|exact U|]. cbn. intros ->. congruence.
Qed.

Ltac okfin :=
  unfold ok, loop_ok, up_ok in *; cbn in *; repeat match goal with H : p_loop _ = _ |- _ => rewrite H in * end; cbn in *;
  repeat match goal with H : context [match ?x with _ => _ end] |- _ => destruct x eqn:? end; cbn in *; intuition (congruence || lia || auto).
Lemma enter_ok' p c ws : up_ok p -> p_loop p <> LEnded -> forall p' es, enter p c ws = (p', es) -> ok p'.
Proof. intros U N p' es E. pose proof (enter_ok p c ws U N) as K. rewrite E in K. exact K. Qed.
Lemma step_ok cap p m p' es : ok p -> move_step cap p m = Some (p', es) -> ok p'.
Proof.
  intros O S. destruct m as [c|f| |b| | | | |more| | | | | | | | | | |]; cbn [move_step] in S.
  - destruct (p_loop p) eqn:Lp; try destruct (length (p_queue p) <? cap); inv S; okfin.
  - destruct (p_loop p) eqn:Lp; try discriminate. destruct (p_queue p) as [|c q] eqn:Q; [discriminate|]. destruct (enter (with_queue p q) c (waits_of (p_init p) c f)) as [p1 e] eqn:E. inv S.
    refine (enter_ok' _ _ _ _ _ _ _ E); [exact (proj1 (proj2 O))|cbn; congruence].
  - destruct (p_loop p) eqn:Lp; try discriminate. destruct (p_conf p); inv S. okfin.
  - destruct (p_loop p) as [|c [|[] ws]|] eqn:Lp; try discriminate. destruct b; injection S as S; (refine (enter_ok' _ _ _ _ _ _ _ S); [exact (proj1 (proj2 O))|cbn; congruence]).
  - destruct (p_flusher p); try discriminate. destruct (p_ask p); [|discriminate]. destruct (p_loop p) as [|c [|[] ws]|] eqn:Lp; try discriminate. injection S as S.
    refine (enter_ok' _ _ _ _ _ _ _ S); [exact (proj1 (proj2 O))|cbn; congruence].
  - destruct (p_flusher p) eqn:F; try discriminate. destruct (p_pending p); inv S. okfin.
  - destruct (p_flusher p) eqn:F; try discriminate. destruct (p_conn p) eqn:C; try (destruct (p_up p) eqn:U; [|discriminate]); inv S; okfin.
  - destruct (p_conn p) eqn:C; try discriminate; (destruct (p_up p) eqn:U; [|discriminate]); inv S; okfin.
  - destruct (p_flusher p) eqn:F; try discriminate. destruct (p_pending p); try discriminate; [destruct (p_conn p); try discriminate|]; inv S; destruct more; okfin.
  - destruct (p_conn p) eqn:C; try discriminate. destruct (p_up p) as [|[] u] eqn:U; try discriminate; inv S; unfold ok, up_ok in O; rewrite U in O; cbn in O; okfin.
  - destruct (p_conn p); inv S; exact O.
  - destruct (p_conn p); try discriminate. destruct (p_loop p) eqn:Lp; [destruct (p_conf p); inv S|destruct (p_conf p); inv S|inv S]; okfin.
  - destruct (p_conn p); inv S; exact O.
  - destruct (p_conn p); inv S; exact O.
  - destruct (p_conn p); inv S; exact O.
  - inv S; exact O.
  - destruct (p_stop p); [|discriminate]. destruct (p_conn p); inv S; okfin.
  - destruct (p_stop p); [|discriminate]. destruct (p_flusher p) eqn:F; try discriminate. destruct (p_loop p) as [|c [|[] ws]|] eqn:Lp; try (inv S; okfin; fail). injection S as S.
    refine (enter_ok' _ _ _ _ _ _ _ S); [exact (proj1 (proj2 O))|cbn; congruence].
  - destruct (p_stop p); [|discriminate]. destruct (p_loop p); inv S. okfin.
  - destruct (p_conn p); inv S; okfin.
Qed.
Lemma run_ok cap ms : forall p p' es, ok p -> move_run cap p ms = Some (p', es) -> ok p'.
Proof.
  induction ms as [|m ms IH]; intros p p' es O R; cbn in R; [inv R; exact O|]. destruct (move_step cap p m) as [[p1 e1]|] eqn:S; [|discriminate].
  destruct (move_run cap p1 ms) as [[p2 e2]|] eqn:R2; [|discriminate]. inv R. exact (IH _ _ _ (step_ok _ _ _ _ _ O S) R2).
Qed.
Lemma new_ok mobile : ok (parts_new mobile).
Proof. unfold ok; splits; [reflexivity|unfold up_ok; cbn; lia|reflexivity]. Qed.

(** * The calls *)
Definition owed (p : parts) : list call := filter waiting (current (p_loop p) ++ p_queue p).
Lemma enter_run p c ws p' es : enter p c ws = (p', es) ->
  taken es = [] /\ accepted es = [] /\ p_queue p' = p_queue p /\ p_loop p' <> LEnded /\ returned es ++ filter waiting (current (p_loop p')) = filter waiting [c].
Proof.
  intros E. pose proof (enter_calls p c ws) as (T & A & _ & R). pose proof (enter_spec p c ws) as (l & a & E1 & _ & N & _). rewrite E in *. cbn [fst snd] in *.
  splits; try assumption; rewrite E1; [reflexivity|exact N].
Qed.
Lemma step_calls cap p m p' es : ok p -> move_step cap p m = Some (p', es) ->
  owed p ++ filter waiting (accepted es) = returned es ++ owed p' /\
  (p_loop p' <> LEnded -> p_loop p <> LEnded /\ p_queue p ++ accepted es = taken es ++ p_queue p').
Proof.
  assert (Q : forall p p' : parts, p_loop p' = p_loop p -> p_queue p' = p_queue p ->
     owed p ++ filter waiting (accepted []) = returned [] ++ owed p' /\ (p_loop p' <> LEnded -> p_loop p <> LEnded /\ p_queue p ++ accepted [] = taken [] ++ p_queue p')).
  { intros p0 p1 El Eq. unfold owed. rewrite El, Eq. cbn. rewrite !app_nil_r. auto. }
  assert (En : forall p0 c ws p1 es (lw : list wait), enter p0 c ws = (p1, es) -> p_queue p0 = p_queue p -> p_loop p = Waits c lw ->
     owed p ++ filter waiting (accepted es) = returned es ++ owed p1 /\ (p_loop p1 <> LEnded -> p_loop p <> LEnded /\ p_queue p ++ accepted es = taken es ++ p_queue p1)).
  { intros p0 c ws p1 es0 lw E Eq Lp. apply enter_run in E as (T & A & Qq & N & R). unfold owed. rewrite Lp, T, A, Qq, Eq. cbn [current]. rewrite !filter_app. cbn [filter].
    rewrite !app_nil_r. cbn [filter] in R. rewrite <- R, <- app_assoc. split; [reflexivity|]. intros _. split; [congruence|reflexivity]. }
  intros O S. destruct m as [c|f| |b| | | | |more| | | | | | | | | | |]; cbn [move_step] in S.
  - (remember (p_loop p) as l0 eqn:Lp in S; symmetry in Lp; destruct l0 as [|c1 w1|]); try destruct (length (p_queue p) <? cap); inv S; try exact (Q _ _ eq_refl eq_refl); cbn;
      (split; [unfold owed; cbn; rewrite Lp, !filter_app, <- ?app_assoc; reflexivity|rewrite Lp; intros _; split; [congruence|reflexivity]]).
  - (remember (p_loop p) as l0 eqn:Lp in S; symmetry in Lp; destruct l0); try discriminate. destruct (p_queue p) as [|c q] eqn:Qe; [discriminate|]. destruct (enter (with_queue p q) c (waits_of (p_init p) c f)) as [p1 e] eqn:E. inv S.
    apply enter_run in E as (T & A & Qq & N & R). cbn in Qq. change (accepted (Taken c :: e)) with (accepted e). change (taken (Taken c :: e)) with (c :: taken e). change (returned (Taken c :: e)) with (returned e).
    rewrite T, A, Qq. split; [|intros _; split; [congruence|cbn; rewrite app_nil_r; reflexivity]]. unfold owed. rewrite Lp, Qe, Qq. cbn [current app]. rewrite filter_app, app_assoc, R. cbn. rewrite app_nil_r.
    destruct (waiting c); reflexivity.
  - (remember (p_loop p) as l0 eqn:Lp in S; symmetry in Lp; destruct l0); try discriminate. destruct (p_conf p); inv S. apply Q; reflexivity.
  - (remember (p_loop p) as l0 eqn:Lp in S; symmetry in Lp; destruct l0 as [|c [|[] ws]|]); try discriminate. destruct b; injection S as S; (eapply En; [exact S|reflexivity|exact Lp]).
  - destruct (p_flusher p); try discriminate. destruct (p_ask p); [|discriminate]. (remember (p_loop p) as l0 eqn:Lp in S; symmetry in Lp; destruct l0 as [|c [|[] ws]|]); try discriminate. injection S as S. eapply En; [exact S|reflexivity|exact Lp].
  - destruct (p_flusher p) eqn:F; try discriminate. destruct (p_pending p); inv S. apply Q; reflexivity.
  - destruct (p_flusher p) eqn:F; try discriminate. destruct (p_conn p) eqn:C; try (destruct (p_up p) eqn:U; [|discriminate]); inv S; apply Q; reflexivity.
  - destruct (p_conn p) eqn:C; try discriminate; (destruct (p_up p) eqn:U; [|discriminate]); inv S; apply Q; reflexivity.
  - destruct (p_flusher p) eqn:F; try discriminate. destruct (p_pending p); try discriminate; [destruct (p_conn p); try discriminate|]; inv S; apply Q; reflexivity.
  - destruct (p_conn p) eqn:C; try discriminate. destruct (p_up p) as [|[] u] eqn:U; try discriminate; inv S; apply Q; reflexivity.
  - destruct (p_conn p); inv S; apply Q; reflexivity.
  - destruct (p_conn p); try discriminate. (remember (p_loop p) as l0 eqn:Lp in S; symmetry in Lp; destruct l0); [destruct (p_conf p); inv S|destruct (p_conf p); inv S|inv S]; apply Q; cbn; auto.
  - destruct (p_conn p); inv S; apply Q; reflexivity.
  - destruct (p_conn p); inv S; apply Q; reflexivity.
  - destruct (p_conn p); inv S; apply Q; reflexivity.
  - inv S; apply Q; reflexivity.
  - destruct (p_stop p); [|discriminate]. destruct (p_conn p); inv S; apply Q; reflexivity.
  - destruct (p_stop p); [|discriminate]. destruct (p_flusher p) eqn:F; try discriminate. (remember (p_loop p) as l0 eqn:Lp in S; symmetry in Lp; destruct l0 as [|c [|[] ws]|]); try (inv S; apply Q; cbn; auto; fail). injection S as S.
    eapply En; [exact S|reflexivity|exact Lp].
  - destruct (p_stop p); [|discriminate]. (remember (p_loop p) as l0 eqn:Lp in S; symmetry in Lp; destruct l0); inv S. split; [|cbn; congruence]. unfold owed. rewrite Lp, returned_all, accepted_all. cbn. reflexivity.
  - destruct (p_conn p); inv S; (split; [|cbn; congruence]); unfold owed; destruct (p_loop p) as [|c w|]; cbn [current app];
      rewrite ?returned_app, ?accepted_app, ?returned_returns, ?accepted_returns, returned_all, accepted_all; cbn; rewrite ?app_nil_r; try reflexivity; destruct (waiting c); reflexivity.
Qed.
Lemma run_calls cap ms : forall p p' es, ok p -> move_run cap p ms = Some (p', es) ->
  owed p ++ filter waiting (accepted es) = returned es ++ owed p' /\
  (p_loop p' <> LEnded -> p_loop p <> LEnded /\ p_queue p ++ accepted es = taken es ++ p_queue p').
Proof.
  induction ms as [|m ms IH]; intros p p' es O R; cbn in R; [inv R; cbn; rewrite !app_nil_r; auto|]. destruct (move_step cap p m) as [[p1 e1]|] eqn:S; [|discriminate].
  destruct (move_run cap p1 ms) as [[p2 e2]|] eqn:R2; [|discriminate]. inv R. destruct (step_calls _ _ _ _ _ O S) as [A1 B1]. destruct (IH _ _ _ (step_ok _ _ _ _ _ O S) R2) as [A2 B2].
  rewrite accepted_app, returned_app, taken_app, filter_app. split; [rewrite app_assoc, A1, <- !app_assoc, A2; reflexivity|].
  intros N. destruct (B2 N) as [N1 B3]. destruct (B1 N1) as [N0 B4]. split; [exact N0|]. rewrite app_assoc, B4, <- !app_assoc, B3. reflexivity.
Qed.
(** From the start. *)
Lemma calls cap mobile ms p es : move_run cap (parts_new mobile) ms = Some (p, es) ->
  filter waiting (accepted es) = returned es ++ owed p /\ (p_loop p <> LEnded -> accepted es = taken es ++ p_queue p).
Proof. intros R. destruct (run_calls _ _ _ _ _ (new_ok mobile) R) as [A B]. split; [exact A|]. intros N. exact (proj2 (B N)). Qed.
(** Nothing left to do. *)
Lemma done_settled cap mobile ms p es : move_run cap (parts_new mobile) ms = Some (p, es) -> p_loop p = Idle -> p_queue p = [] -> settled es.
Proof.
  intros R L Q. destruct (calls _ _ _ _ _ R) as [A B]. rewrite L, Q in B. unfold owed in A. rewrite L, Q in A. cbn in A. rewrite app_nil_r in *. split; [symmetry; apply B; discriminate|congruence].
Qed.

(** * Progress *)
Section Progress.
Variable cap : nat.
Notation run := (move_run cap).
Notation step := (move_step cap).

(** Own moves and the state they lead to. *)
Definition reach (p p' : parts) : Prop := exists ms es, Forall own ms /\ run p ms = Some (p', es).
Lemma reach_refl p : reach p p.
Proof. exists [], []. split; [constructor|reflexivity]. Qed.
Lemma reach_trans p q r : reach p q -> reach q r -> reach p r.
Proof.
  intros (m1 & e1 & F1 & R1) (m2 & e2 & F2 & R2). exists (m1 ++ m2), (e1 ++ e2). split; [apply Forall_app; auto|]. rewrite move_run_app, R1, R2. reflexivity.
Qed.
Lemma reach_step p m p' es : own m -> step p m = Some (p', es) -> reach p p'.
Proof. intros O S. exists [m], (es ++ []). split; [constructor; [exact O|constructor]|]. cbn. rewrite S. reflexivity. Qed.

(** What the loop's moves leave alone. *)
Definition rest (p p' : parts) : Prop := p_flusher p' = p_flusher p /\ p_conn p' = p_conn p /\ p_up p' = p_up p /\ p_conf p' = p_conf p /\ p_stop p' = p_stop p /\ p_pending p' = p_pending p.
Lemma rest_refl p : rest p p.
Proof. unfold rest. auto 10. Qed.
Lemma rest_trans p q r : rest p q -> rest q r -> rest p r.
Proof. unfold rest. intuition congruence. Qed.

(** A loop that waits gets free, when the statistics do not wait for the connection. *)
Lemma enter_free n : forall p c ws, (length ws <= n)%nat -> p_flusher p <> Sending -> up_ok p ->
  exists p', reach (fst (enter p c ws)) p' /\ rest p p' /\ p_loop p' = Idle /\ p_queue p' = p_queue p.
Proof.
  induction n as [|n IH]; intros p c ws Hl F U; destruct (enter_spec p c ws) as (l & a & E1 & E2 & E3 & E4); rewrite E1.
  - destruct ws; [|cbn in Hl; lia]. exists (with_loop p l a). destruct E4 as [[-> _]|[(ws' & -> & Hl') _]].
    + splits; [apply reach_refl|unfold rest; cbn; auto 10|reflexivity|reflexivity].
    + destruct ws'; [contradiction|cbn in Hl'; lia].
  - destruct E4 as [[-> _]|[(ws' & -> & Hl') _]].
    + exists (with_loop p Idle a). splits; [apply reach_refl|unfold rest; cbn; auto 10|reflexivity|reflexivity].
    + destruct ws' as [|w ws']; [contradiction|]. cbn in Hl'.
      set (q := with_loop p (Waits c (w :: ws')) a) in *.
      destruct (IH q c ws' ltac:(lia) F U) as (p' & R & T & L & Q). exists p'. splits; [|eapply rest_trans; [|exact T]; unfold rest; cbn; auto 10|exact L|exact Q].
      eapply reach_trans; [|exact R]. destruct (enter q c ws') as [q' e] eqn:En. cbn [fst]. destruct w.
      * eapply (reach_step _ (BuffersDone true)); [exact I|]. cbn. rewrite En. reflexivity.
      * eapply (reach_step _ StatsDone); [exact I|]. cbn in E2. destruct E2 as [Ea Ef]. cbn. destruct (p_flusher p); try congruence. subst a. rewrite En. reflexivity.
Qed.
Lemma wait_free p : ok p -> p_flusher p <> Sending -> p_loop p <> LEnded -> exists p', reach p p' /\ rest p p' /\ p_loop p' = Idle /\ p_queue p' = p_queue p.
Proof.
  intros (L & U & Q) F N. unfold loop_ok in L. destruct (p_loop p) as [|c [|w ws]|] eqn:Lp; [exists p; splits; [apply reach_refl|apply rest_refl|exact Lp|reflexivity]|contradiction| |congruence].
  destruct (enter_free (length ws) p c ws (le_n _) F U) as (p' & R & T & L' & Q'). exists p'. splits; try assumption. eapply reach_trans; [|exact R]. destruct (enter p c ws) as [q e] eqn:En. cbn [fst]. destruct w.
  - eapply (reach_step _ (BuffersDone true)); [exact I|]. cbn. rewrite Lp, En. reflexivity.
  - eapply (reach_step _ StatsDone); [exact I|]. destruct L as [La Lf]. cbn. destruct (p_flusher p); try congruence. rewrite La, Lp, En. reflexivity.
Qed.
Lemma queue_free q : forall p, p_queue p = q -> p_loop p = Idle -> p_flusher p <> Sending -> up_ok p -> exists p', reach p p' /\ rest p p' /\ p_loop p' = Idle /\ p_queue p' = [].
Proof.
  induction q as [|c q IH]; intros p Q L F U; [exists p; splits; [apply reach_refl|apply rest_refl|exact L|exact Q]|].
  destruct (enter_free 2 (with_queue p q) c (waits_of (p_init p) c Buffers) ltac:(unfold waits_of; destruct (c_ask c) as [[]| |]; try destruct (p_init p); cbn; lia) F U) as (p1 & R1 & T1 & L1 & Q1).
  assert (T1' : rest p p1) by (eapply rest_trans; [|exact T1]; unfold rest; cbn; auto 10).
  assert (T1'' := T1'). destruct T1'' as (Ef & Ec & Eu & _). destruct (IH p1 Q1 L1 ltac:(congruence) ltac:(unfold up_ok in *; congruence)) as (p2 & R2 & T2 & L2 & Q2).
  exists p2. splits; [|eapply rest_trans; eassumption|exact L2|exact Q2]. eapply reach_trans; [|exact R2]. eapply reach_trans; [|exact R1].
  destruct (enter (with_queue p q) c (waits_of (p_init p) c Buffers)) as [q' e] eqn:En. eapply (reach_step _ (TakeCall Buffers)); [exact I|]. cbn. rewrite L, Q, En. reflexivity.
Qed.
(** So everything gets done, when the statistics do not wait for the connection. *)
Lemma all_free p : ok p -> p_flusher p <> Sending -> p_loop p <> LEnded -> exists p', reach p p' /\ rest p p' /\ p_loop p' = Idle /\ p_queue p' = [].
Proof.
  intros O F N. destruct (wait_free p O F N) as (p1 & R1 & T1 & L1 & Q1). assert (T1' := T1). destruct T1' as (Ef & Ec & Eu & _).
  destruct (queue_free (p_queue p1) p1 eq_refl L1 ltac:(congruence) ltac:(destruct O as (_ & U & _); unfold up_ok in *; congruence)) as (p2 & R2 & T2 & L2 & Q2).
  exists p2. splits; [eapply reach_trans; eassumption|eapply rest_trans; eassumption|exact L2|exact Q2].
Qed.

(** The statistics find room when the connection makes some. *)
Definition helps (p : parts) : Prop := p_up p = [] \/ p_conn p = Up \/ p_conn p = HandsOver true /\ (p_conf p = false \/ p_loop p = Idle).
Lemma stats_free p : ok p -> p_flusher p = Sending -> p_loop p <> LEnded -> p_conn p <> CEnded -> helps p -> exists p', reach p p' /\ p_flusher p' = FIdle /\ p_loop p' = p_loop p /\ p_queue p' = p_queue p /\ p_stop p' = p_stop p.
Proof.
  intros O F N C H. destruct O as (L & U & _).
  assert (P0 : forall p, p_flusher p = Sending -> p_conn p <> CEnded -> p_up p = [] -> exists p', reach p p' /\ p_flusher p' = FIdle /\ p_loop p' = p_loop p /\ p_queue p' = p_queue p /\ p_stop p' = p_stop p).
  { intros q Fq Cq Uq. eexists. split; [eapply (reach_step _ Put); [exact I|]; cbn; rewrite Fq, Uq; destruct (p_conn q); try congruence; reflexivity|]. cbn. auto. }
  assert (P1 : forall p, up_ok p -> p_flusher p = Sending -> p_conn p = Up -> exists p', reach p p' /\ p_flusher p' = FIdle /\ p_loop p' = p_loop p /\ p_queue p' = p_queue p /\ p_stop p' = p_stop p).
  { intros q Uk Fq Cq. destruct (p_up q) as [|x u] eqn:Uq; [apply P0; [exact Fq|congruence|exact Uq]|]. unfold up_ok in Uk. rewrite Uq in Uk. destruct u; [|cbn in Uk; lia].
    assert (S : exists q', step q Fetch = Some (q', []) /\ p_flusher q' = Sending /\ p_conn q' = Up /\ p_up q' = [] /\ p_loop q' = p_loop q /\ p_queue q' = p_queue q /\ p_stop q' = p_stop q).
    { cbn. rewrite Cq, Uq. destruct x; eexists; (split; [reflexivity|]); cbn; auto 10. }
    destruct S as (q' & S & A1 & A2 & A3 & A4 & A5 & A6). destruct (P0 q' A1 ltac:(congruence) A3) as (p' & R & B1 & B2 & B3 & B4). exists p'.
    split; [eapply reach_trans; [eapply (reach_step _ Fetch); [exact I|exact S]|exact R]|]. splits; congruence. }
  assert (P2 : forall p, up_ok p -> p_flusher p = Sending -> p_conn p = HandsOver true -> p_conf p = false -> p_loop p <> LEnded -> exists p', reach p p' /\ p_flusher p' = FIdle /\ p_loop p' = p_loop p /\ p_queue p' = p_queue p /\ p_stop p' = p_stop p).
  { intros q Uk Fq Cq Fc Nq. assert (S : exists q', step q HandOver = Some (q', []) /\ q' = with_conf (with_conn q Up) true (p_init q)) by (cbn; rewrite Cq, Fc; destruct (p_loop q); try congruence; eexists; split; reflexivity).
    destruct S as (q' & S & ->). destruct (P1 (with_conf (with_conn q Up) true (p_init q)) Uk Fq eq_refl) as (p' & R & B1 & B2 & B3 & B4). exists p'.
    split; [eapply reach_trans; [eapply (reach_step _ HandOver); [exact I|exact S]|exact R]|]. splits; assumption. }
  destruct H as [H|[H|[H1 [H2|H2]]]].
  - apply P0; assumption.
  - apply P1; assumption.
  - apply P2; assumption.
  - destruct (p_conf p) eqn:Cf; [|apply P2; assumption].
    assert (S : step p TakeConfig = Some (with_conf p false true, [])) by (cbn; rewrite H2, Cf; reflexivity).
    destruct (P2 (with_conf p false true) U F H1 eq_refl N) as (p' & R & B1 & B2 & B3 & B4). exists p'.
    split; [eapply reach_trans; [eapply (reach_step _ TakeConfig); [exact I|exact S]|exact R]|]. splits; assumption.
Qed.
End Progress.

(** * What the moves say about the channels *)
Definition fl_up (p : parts) : bool := match p_up p with [] => false | _ => true end.
Definition fl_st (p : parts) : bool := match p_flusher p with Sending => true | _ => false end.
Definition fl_li (p : parts) : bool := match p_conn p with Up | HandsOver true => true | _ => false end.
Definition fl_cw (p : parts) : bool := match p_conn p with HandsOver _ => true | _ => false end.
Definition flags_step (p p' : parts) (m : move) : Prop := forall ms,
  channel_full (fl_up p) (m :: ms) = channel_full (fl_up p') ms /\ stats_wait (fl_st p) (m :: ms) = stats_wait (fl_st p') ms /\ linked (fl_li p) (m :: ms) = linked (fl_li p') ms /\
  conf_wait (fl_cw p) (m :: ms) = conf_wait (fl_cw p') ms /\ (p_loop p' <> LEnded -> conf_full (p_conf p) (m :: ms) = conf_full (p_conf p') ms).
Lemma enter_rest p c ws p' es : enter p c ws = (p', es) -> p_up p' = p_up p /\ p_flusher p' = p_flusher p /\ p_conn p' = p_conn p /\ p_conf p' = p_conf p /\ p_stop p' = p_stop p.
Proof. intros E. destruct (enter_spec p c ws) as (l & a & E1 & _). rewrite E in E1. cbn in E1. subst p'. auto. Qed.
Lemma step_flags cap p m p' es : m <> Fault -> up_ok p -> move_step cap p m = Some (p', es) -> p_conn p' <> CEnded -> p_conn p <> CEnded /\ flags_step p p' m.
Proof.
  intros NF U S N.
  assert (Same : forall m, match m with Call _ | TakeCall _ | BuffersDone _ | StatsDone | Shutdown | LoopStops => True | _ => False end -> p_up p' = p_up p -> p_flusher p' = p_flusher p -> p_conn p' = p_conn p ->
     p_conf p' = p_conf p -> p_conn p <> CEnded /\ flags_step p p' m).
  { intros m' Hm E1 E2 E3 E4. split; [congruence|]. intros ms. unfold fl_up, fl_st, fl_li, fl_cw. rewrite E1, E2, E3, E4. destruct m'; try contradiction; auto 10. }
  destruct m as [c|f| |b| | | | |more| | | | | | | | | | |]; cbn [move_step] in S.
  - destruct (p_loop p); try destruct (length (p_queue p) <? cap); inv S; apply Same; try exact I; reflexivity.
  - destruct (p_loop p); try discriminate. destruct (p_queue p) as [|c q]; [discriminate|]. destruct (enter (with_queue p q) c (waits_of (p_init p) c f)) as [p1 e] eqn:E. inv S.
    apply enter_rest in E. cbn in E. apply Same; tauto.
  - destruct (p_loop p); try discriminate. destruct (p_conf p) eqn:C; inv S. cbn in N. split; [exact N|]. intros ms. unfold fl_up, fl_st, fl_li, fl_cw. cbn. auto 10.
  - destruct (p_loop p) as [|c [|[] ws]|]; try discriminate. destruct b; injection S as S; apply enter_rest in S; cbn in S; apply Same; tauto.
  - destruct (p_flusher p) eqn:F; try discriminate. destruct (p_ask p); [|discriminate]. destruct (p_loop p) as [|c [|[] ws]|]; try discriminate. injection S as S. apply enter_rest in S. rewrite F in S. apply Same; tauto.
  - destruct (p_flusher p) eqn:F; try discriminate. destruct (p_pending p); inv S. cbn in N. split; [exact N|]. intros ms. unfold fl_up, fl_st, fl_li, fl_cw. cbn. auto 10.
  - destruct (p_flusher p) eqn:F; try discriminate. destruct (p_conn p) eqn:C; try (destruct (p_up p) eqn:Up; [|discriminate]); inv S; cbn in N;
      (split; [congruence|]); intros ms; unfold fl_up, fl_st, fl_li, fl_cw; cbn; rewrite ?F, ?C; try congruence; auto 10.
  - destruct (p_conn p) eqn:C; try discriminate; (destruct (p_up p) eqn:Up; [|discriminate]); inv S; (split; [congruence|]); intros ms; unfold fl_up, fl_st, fl_li, fl_cw; cbn; rewrite ?C; auto 10.
  - destruct (p_flusher p) eqn:F; try discriminate.
    assert (E : p' = with_flusher p (if more then Sending else FIdle) NoUpload) by (destruct (p_pending p); try discriminate; [destruct (p_conn p); try discriminate|]; inv S; reflexivity). subst p'. cbn in N.
    split; [exact N|]. intros ms; unfold fl_up, fl_st, fl_li, fl_cw; cbn; rewrite F. destruct more; auto 10.
  - destruct (p_conn p) eqn:C; try discriminate. unfold up_ok in U. destruct (p_up p) as [|x [|]] eqn:Up; [discriminate| |cbn in U; lia].
    destruct x; inv S; (split; [congruence|]); intros ms; unfold fl_up, fl_st, fl_li, fl_cw; cbn; rewrite ?C; auto 10.
  - destruct (p_conn p) eqn:C; inv S; (split; [congruence|]); intros ms; unfold fl_up, fl_st, fl_li, fl_cw; cbn; rewrite ?C; auto 10.
  - destruct (p_conn p) eqn:C; try discriminate. destruct (p_loop p) eqn:Lp; [destruct (p_conf p); inv S|destruct (p_conf p); inv S|inv S];
      (split; [congruence|]); intros ms; unfold fl_up, fl_st, fl_li, fl_cw; cbn; rewrite ?C, ?Lp; destruct up; splits; auto; congruence.
  - destruct (p_conn p) eqn:C; inv S; (split; [congruence|]); intros ms; unfold fl_up, fl_st, fl_li, fl_cw; cbn; rewrite ?C; auto 10.
  - destruct (p_conn p) eqn:C; inv S; (split; [congruence|]); intros ms; unfold fl_up, fl_st, fl_li, fl_cw; cbn; rewrite ?C; auto 10.
  - destruct (p_conn p) eqn:C; inv S; (split; [congruence|]); intros ms; unfold fl_up, fl_st, fl_li, fl_cw; cbn; rewrite ?C; auto 10.
  - inv S. apply Same; try exact I; reflexivity.
  - destruct (p_stop p); [|discriminate]. destruct (p_conn p); inv S; cbn in N; congruence.
  - destruct (p_stop p); [|discriminate]. destruct (p_flusher p) eqn:F; try discriminate.
    assert (E : p_up p' = p_up p /\ p_flusher p' = FEnded /\ p_conn p' = p_conn p /\ p_conf p' = p_conf p).
    { destruct (p_loop p) as [|c [|[] ws]|]; try (inv S; cbn; auto; fail). injection S as S. apply enter_rest in S. cbn in S. tauto. }
    destruct E as (E1 & E2 & E3 & E4). split; [congruence|]. intros ms. unfold fl_up, fl_st, fl_li, fl_cw. rewrite E1, E2, E3, E4, F. cbn. auto 10.
  - destruct (p_stop p); [|discriminate]. destruct (p_loop p); inv S. apply Same; try exact I; reflexivity.
  - congruence.
Qed.
Lemma run_flags cap ms : forall p p' es, ~ In Fault ms -> ok p -> move_run cap p ms = Some (p', es) -> p_conn p' <> CEnded ->
  p_conn p <> CEnded /\ channel_full (fl_up p) ms = fl_up p' /\ stats_wait (fl_st p) ms = fl_st p' /\ linked (fl_li p) ms = fl_li p' /\ conf_wait (fl_cw p) ms = fl_cw p' /\ (p_loop p' <> LEnded -> conf_full (p_conf p) ms = p_conf p').
Proof.
  induction ms as [|m ms IH]; intros p p' es NF O R N; [cbn in R; inv R; cbn; auto 10|]. cbn in R. destruct (move_step cap p m) as [[p1 e1]|] eqn:S; [|discriminate].
  destruct (move_run cap p1 ms) as [[p2 e2]|] eqn:R2; [|discriminate]. inv R.
  destruct (IH _ _ _ (fun H => NF (or_intror H)) (step_ok _ _ _ _ _ O S) R2 N) as (N1 & A1 & A2 & A3 & A4 & A5).
  destruct (step_flags _ _ _ _ _ (fun H => NF (or_introl H)) (proj1 (proj2 O)) S N1) as (N0 & B). destruct (B ms) as (B1 & B2 & B3 & B4 & B5). splits; try congruence.
  intros L. rewrite B5, (A5 L); [reflexivity|]. exact (proj1 (proj2 (run_calls _ _ _ _ _ (step_ok _ _ _ _ _ O S) R2) L)).
Qed.
Lemma flags cap mobile ms p es : ~ In Fault ms -> move_run cap (parts_new mobile) ms = Some (p, es) -> p_conn p <> CEnded ->
  channel_full false ms = fl_up p /\ stats_wait false ms = fl_st p /\ linked false ms = fl_li p /\ conf_wait false ms = fl_cw p /\ (p_loop p <> LEnded -> conf_full false ms = p_conf p).
Proof.
  intros NF R N. destruct (run_flags _ _ _ _ _ NF (new_ok mobile) R N) as (_ & A1 & A2 & A3 & A4 & A5). cbn in *. destruct mobile; auto 10.
Qed.

(** * Nothing ends without a shutdown or a fault *)
Lemma step_alive cap p m p' es : m <> Fault -> m <> Shutdown -> p_stop p = false -> p_loop p <> LEnded -> p_conn p <> CEnded -> move_step cap p m = Some (p', es) ->
  p_stop p' = false /\ p_loop p' <> LEnded /\ p_conn p' <> CEnded.
Proof.
  intros NF NS T L C S.
  destruct m as [c|f| |b| | | | |more| | | | | | | | | | |]; cbn [move_step] in S; rewrite ?T in S; try congruence.
  - destruct (p_loop p) eqn:Lp; try destruct (length (p_queue p) <? cap); inv S; cbn; splits; congruence.
  - destruct (p_loop p) eqn:Lp; try discriminate. destruct (p_queue p) as [|c q]; [discriminate|]. destruct (enter (with_queue p q) c (waits_of (p_init p) c f)) as [p1 e] eqn:E. inv S.
    pose proof (enter_rest _ _ _ _ _ E) as (_ & _ & A & _ & B). apply enter_run in E as (_ & _ & _ & E & _). cbn in A, B. splits; congruence.
  - destruct (p_loop p) eqn:Lp; try discriminate. destruct (p_conf p); inv S; cbn; splits; congruence.
  - destruct (p_loop p) as [|c [|[] ws]|] eqn:Lp; try discriminate. destruct b; injection S as S; pose proof (enter_rest _ _ _ _ _ S) as (_ & _ & A & _ & B); apply enter_run in S as (_ & _ & _ & E & _); cbn in A, B; splits; congruence.
  - destruct (p_flusher p); try discriminate. destruct (p_ask p); [|discriminate]. destruct (p_loop p) as [|c [|[] ws]|]; try discriminate. injection S as S.
    pose proof (enter_rest _ _ _ _ _ S) as (_ & _ & A & _ & B); apply enter_run in S as (_ & _ & _ & E & _); cbn in A, B; splits; congruence.
  - destruct (p_flusher p); try discriminate. destruct (p_pending p); inv S; cbn; splits; congruence.
  - destruct (p_flusher p); try discriminate. destruct (p_conn p) eqn:Cp; try (destruct (p_up p); [|discriminate]); inv S; cbn; splits; congruence.
  - destruct (p_conn p) eqn:Cp; try discriminate; (destruct (p_up p); [|discriminate]); inv S; cbn; splits; congruence.
  - destruct (p_flusher p); try discriminate. destruct (p_pending p); try discriminate; [destruct (p_conn p) eqn:Cp; try discriminate|]; inv S; cbn; splits; congruence.
  - destruct (p_conn p) eqn:Cp; try discriminate. destruct (p_up p) as [|[] u]; try discriminate; inv S; cbn; splits; congruence.
  - destruct (p_conn p); inv S; cbn; splits; congruence.
  - destruct (p_conn p); try discriminate. destruct (p_loop p) eqn:Lp; [destruct (p_conf p); inv S|destruct (p_conf p); inv S|inv S]; cbn; splits; try congruence; destruct up; congruence.
  - destruct (p_conn p); inv S; cbn; splits; congruence.
  - destruct (p_conn p); inv S; cbn; splits; congruence.
  - destruct (p_conn p); inv S; cbn; splits; congruence.
Qed.
Lemma run_alive cap ms : forall p p' es, ~ In Fault ms -> ~ In Shutdown ms -> p_stop p = false -> p_loop p <> LEnded -> p_conn p <> CEnded -> move_run cap p ms = Some (p', es) ->
  p_stop p' = false /\ p_loop p' <> LEnded /\ p_conn p' <> CEnded.
Proof.
  induction ms as [|m ms IH]; intros p p' es N1 N2 T L C R; cbn in R; [inv R; auto|]. destruct (move_step cap p m) as [[p1 e1]|] eqn:S; [|discriminate].
  destruct (move_run cap p1 ms) as [[p2 e2]|] eqn:R2; [|discriminate]. inv R.
  destruct (step_alive _ _ _ _ _ (fun H => N1 (or_introl H)) (fun H => N2 (or_introl H)) T L C S) as (T1 & L1 & C1).
  exact (IH _ _ _ (fun H => N1 (or_intror H)) (fun H => N2 (or_intror H)) T1 L1 C1 R2).
Qed.
Lemma alive cap mobile ms p es : ~ In Fault ms -> ~ In Shutdown ms -> move_run cap (parts_new mobile) ms = Some (p, es) -> p_stop p = false /\ p_loop p <> LEnded /\ p_conn p <> CEnded.
Proof. intros N1 N2 R. refine (run_alive _ _ _ _ _ N1 N2 _ _ _ R); cbn; congruence. Qed.

(** * C139 *)
Theorem settle cap mobile ms p es : ~ In Shutdown ms -> ~ In Fault ms -> move_run cap (parts_new mobile) ms = Some (p, es) -> jammed ms = false -> settles cap p es.
Proof.
  intros N1 N2 R J. destruct (alive _ _ _ _ _ N2 N1 R) as (T & L & C). pose proof (run_ok _ _ _ _ _ (new_ok mobile) R) as O. destruct (flags _ _ _ _ _ N2 R C) as (A1 & A2 & A3 & A4 & A5).
  unfold jammed, cycle in J. rewrite A1, A2, A3, A4, (A5 L) in J.
  assert (F : exists p1, reach cap p p1 /\ p_flusher p1 <> Sending /\ p_loop p1 <> LEnded).
  { destruct (p_flusher p) eqn:F; try (exists p; split; [apply reach_refl|split; congruence]).
    assert (H : helps p).
    { unfold helps. unfold fl_up, fl_st, fl_li, fl_cw in J. rewrite F in J. destruct (p_up p); [left; reflexivity|]. destruct (p_conn p) as [| | |[]|]; cbn in J; try congruence; auto. }
    destruct (stats_free cap p O F L C H) as (p1 & R1 & F1 & L1 & _). exists p1. split; [exact R1|]. split; congruence. }
  destruct F as (p1 & R1 & F1 & L1). assert (O1 : ok p1) by (destruct R1 as (m & e & _ & R1); exact (run_ok _ _ _ _ _ O R1)).
  destruct (all_free cap p1 O1 F1 L1) as (p2 & R2 & _ & L2 & Q2). destruct (reach_trans _ _ _ _ R1 R2) as (ms' & es' & Fo & R'). exists ms', p2, es'. split; [exact Fo|]. split; [exact R'|].
  apply (done_settled cap mobile (ms ++ ms') p2); [|exact L2|exact Q2]. rewrite move_run_app, R, R'. reflexivity.
Qed.

(** Calls that need no other part leave the loop idle. *)
Definition calm (c : call) : Prop := match c_ask c with Log false | Field => True | _ => False end.
Lemma step_calm cap p m p' es : quiet m -> m <> Fault -> p_stop p = false -> m <> Shutdown -> p_loop p = Idle -> Forall calm (p_queue p) -> move_step cap p m = Some (p', es) ->
  p_stop p' = false /\ p_loop p' = Idle /\ Forall calm (p_queue p').
Proof.
  intros Qm NF T NS L Fq S. destruct m as [c|f| |b| | | | |more| | | | | | | | | | |]; cbn [move_step] in S; rewrite ?T, ?L in S; try congruence.
  - destruct (length (p_queue p) <? cap); inv S; cbn; auto. splits; auto. apply Forall_app. split; [exact Fq|]. constructor; [exact Qm|constructor].
  - destruct (p_queue p) as [|c q]; [discriminate|]. inv Fq. unfold waits_of in S. unfold calm in H1. destruct (c_ask c) as [[]| |]; try contradiction; cbn in S; inv S; cbn; auto.
  - destruct (p_conf p); inv S; cbn; auto.
  - destruct (p_flusher p), (p_ask p); discriminate.
  - destruct (p_flusher p), (p_pending p); inv S; cbn; auto.
  - destruct (p_flusher p); try discriminate. destruct (p_conn p); try (destruct (p_up p); [|discriminate]); inv S; cbn; auto.
  - destruct (p_conn p); try discriminate; (destruct (p_up p); [|discriminate]); inv S; cbn; auto.
  - destruct (p_flusher p); try discriminate. destruct (p_pending p); try discriminate; [destruct (p_conn p); try discriminate|]; inv S; cbn; auto.
  - destruct (p_conn p); try discriminate. destruct (p_up p) as [|[] u]; try discriminate; inv S; cbn; auto.
  - destruct (p_conn p); inv S; cbn; auto.
  - destruct (p_conn p); try discriminate. destruct (p_conf p); inv S; cbn; auto.
  - destruct (p_conn p); inv S; cbn; auto.
  - destruct (p_conn p); inv S; cbn; auto.
  - destruct (p_conn p); inv S; cbn; auto.
Qed.
Lemma run_calm cap ms : forall p p' es, Forall quiet ms -> ~ In Shutdown ms -> ~ In Fault ms -> p_stop p = false -> p_loop p = Idle -> Forall calm (p_queue p) -> move_run cap p ms = Some (p', es) ->
  p_loop p' = Idle /\ Forall calm (p_queue p').
Proof.
  induction ms as [|m ms IH]; intros p p' es Fm N1 N2 T L Fq R; cbn in R; [inv R; auto|]. destruct (move_step cap p m) as [[p1 e1]|] eqn:S; [|discriminate].
  destruct (move_run cap p1 ms) as [[p2 e2]|] eqn:R2; [|discriminate]. inv R. inv Fm.
  destruct (step_calm _ _ _ _ _ H1 (fun H => N2 (or_introl H)) T (fun H => N1 (or_introl H)) L Fq S) as (T1 & L1 & F1).
  exact (IH _ _ _ H2 (fun H => N1 (or_intror H)) (fun H => N2 (or_intror H)) T1 L1 F1 R2).
Qed.
Lemma calm_free cap q : forall p, p_queue p = q -> p_loop p = Idle -> Forall calm q -> exists es p', move_run cap p (repeat (TakeCall Buffers) (length q)) = Some (p', es) /\ p_loop p' = Idle /\ p_queue p' = [].
Proof.
  induction q as [|c q IH]; intros p Q L Fq; [exists [], p; auto|]. inv Fq.
  assert (S : exists e, move_step cap p (TakeCall Buffers) = Some (with_loop (with_queue p q) Idle false, e)).
  { cbn. rewrite L, Q. unfold calm in H1. unfold waits_of. destruct (c_ask c) as [[]| |]; try contradiction; cbn; eexists; reflexivity. }
  destruct S as (e & S). destruct (IH (with_loop (with_queue p q) Idle false) eq_refl eq_refl H2) as (es & p' & R & L' & Q'). exists (e ++ es), p'. cbn [length repeat move_run]. rewrite S, R. auto.
Qed.
Theorem settle_calm cap mobile ms p es : ~ In Shutdown ms -> ~ In Fault ms -> Forall quiet ms -> move_run cap (parts_new mobile) ms = Some (p, es) ->
  exists p' es', move_run cap p (repeat (TakeCall Buffers) (length (accepted es) - length (taken es))) = Some (p', es') /\ settled (es ++ es').
Proof.
  intros N1 N2 Fm R. destruct (run_calm cap ms (parts_new mobile) p es Fm N1 N2 eq_refl eq_refl (Forall_nil _) R) as [L Fq]. destruct (calls _ _ _ _ _ R) as [_ B]. rewrite B by congruence. rewrite app_length.
  replace (length (taken es) + length (p_queue p) - length (taken es))%nat with (length (p_queue p)) by lia.
  destruct (calm_free cap (p_queue p) p eq_refl L Fq) as (es' & p' & R' & L' & Q'). exists p', es'. split; [exact R'|].
  apply (done_settled cap mobile (ms ++ repeat (TakeCall Buffers) (length (p_queue p))) p'); [|exact L'|exact Q']. rewrite move_run_app, R, R'. reflexivity.
Qed.

(** * Stuck for good *)
(** Waiting for the statistics, which wait for the connection, which is not there. *)
Definition dead_line (p : parts) : Prop := exists c ws, p_loop p = Waits c (ForStats :: ws) /\ p_flusher p = Sending /\ p_up p <> [] /\
  (p_conn p = Down \/ p_conn p = Killed \/ p_conn p = HandsOver false).
(** Waiting for the statistics, which wait for the connection, which waits for the loop. *)
Definition dead_cycle (p : parts) : Prop := exists c ws, p_loop p = Waits c (ForStats :: ws) /\ p_flusher p = Sending /\ p_up p <> [] /\ (exists b, p_conn p = HandsOver b) /\ p_conf p = true.
Lemma step_dead_line cap p m p' es : dead_line p -> p_stop p = false -> m <> Connect -> m <> Shutdown -> m <> Fault -> move_step cap p m = Some (p', es) ->
  dead_line p' /\ p_stop p' = false /\ taken es = [] /\ returned es = [].
Proof.
  intros (c & ws & L & F & U & C) T NC NS NF S.
  assert (G : forall q, p_loop q = p_loop p -> p_flusher q = p_flusher p -> p_up q = p_up p -> (p_conn q = Down \/ p_conn q = Killed \/ p_conn q = HandsOver false) -> dead_line q).
  { intros q E1 E2 E3 E4. exists c, ws. rewrite E1, E2, E3. auto. }
  destruct m as [c0|f| |b| | | | |more| | | | | | | | | | |]; cbn [move_step] in S; rewrite ?T, ?L, ?F in S; try congruence.
  - destruct (length (p_queue p) <? cap); inv S; splits; try reflexivity; try exact T; apply G; auto.
  - destruct (p_conn p); try (destruct (p_up p); [congruence|discriminate]). destruct C as [C|[C|C]]; congruence.
  - destruct (p_conn p); try discriminate; destruct (p_up p); congruence.
  - destruct C as [C|[C|C]]; rewrite C in S; congruence.
  - destruct C as [C|[C|C]]; rewrite C in S; inv S. splits; try reflexivity; try exact T. apply G; auto.
  - destruct C as [C|[C|C]]; rewrite C in S; try congruence. destruct (p_conf p); inv S. splits; try reflexivity; try exact T. apply G; auto.
  - destruct C as [C|[C|C]]; rewrite C in S; congruence.
  - destruct C as [C|[C|C]]; rewrite C in S; inv S. splits; try reflexivity; try exact T. apply G; auto.
Qed.
Lemma step_dead_cycle cap p m p' es : dead_cycle p -> m <> Fault -> move_step cap p m = Some (p', es) -> dead_cycle p' /\ taken es = [] /\ returned es = [].
Proof.
  intros (c & ws & L & F & U & (b & C) & K) NF S.
  assert (G : forall q, p_loop q = p_loop p -> p_flusher q = p_flusher p -> p_up q = p_up p -> p_conn q = p_conn p -> p_conf q = p_conf p -> dead_cycle q).
  { intros q E1 E2 E3 E4 E5. exists c, ws. rewrite E1, E2, E3, E4, E5. eauto 10. }
  destruct m as [c0|f| |b0| | | | |more| | | | | | | | | | |]; cbn [move_step] in S; rewrite ?L, ?F, ?C, ?K in S; try congruence.
  - destruct (length (p_queue p) <? cap); inv S; splits; try reflexivity; apply G; auto.
  - destruct (p_up p); congruence.
  - destruct (p_up p); congruence.
  - inv S. splits; try reflexivity. apply G; auto.
  - destruct (p_stop p); congruence.
  - destruct (p_stop p); congruence.
  - destruct (p_stop p); congruence.
Qed.
Lemma dead_line_frozen cap p : dead_line p -> p_stop p = false -> frozen cap (fun m => m = Connect \/ m = Shutdown \/ m = Fault) p.
Proof.
  intros D T ms. revert p D T. induction ms as [|m ms IH]; intros p D T p' es Fm R; cbn in R; [inv R; destruct D as (c & ws & L & _); splits; [reflexivity|reflexivity|congruence]|].
  destruct (move_step cap p m) as [[p1 e1]|] eqn:S; [|discriminate]. destruct (move_run cap p1 ms) as [[p2 e2]|] eqn:R2; [|discriminate]. inv R. inv Fm.
  destruct (step_dead_line _ _ _ _ _ D T (fun H => H1 (or_introl H)) (fun H => H1 (or_intror (or_introl H))) (fun H => H1 (or_intror (or_intror H))) S) as (D1 & T1 & A1 & B1).
  destruct (IH _ D1 T1 _ _ H2 R2) as (A2 & B2 & L2). rewrite taken_app, returned_app, A1, B1, A2, B2. auto.
Qed.
Lemma dead_cycle_frozen cap p : dead_cycle p -> frozen cap (fun m => m = Fault) p.
Proof.
  intros D ms. revert p D. induction ms as [|m ms IH]; intros p D p' es Fm R; cbn in R; [inv R; destruct D as (c & ws & L & _); splits; [reflexivity|reflexivity|congruence]|].
  destruct (move_step cap p m) as [[p1 e1]|] eqn:S; [|discriminate]. destruct (move_run cap p1 ms) as [[p2 e2]|] eqn:R2; [|discriminate]. inv R. inv Fm.
  destruct (step_dead_cycle _ _ _ _ _ D H1 S) as (D1 & A1 & B1).
  destruct (IH _ D1 _ _ H2 R2) as (A2 & B2 & L2). rewrite taken_app, returned_app, A1, B1, A2, B2. auto.
Qed.
(** Exactly when it is stuck. *)
Theorem stuck cap mobile ms p es : ~ In Shutdown ms -> ~ In Fault ms -> move_run cap (parts_new mobile) ms = Some (p, es) -> jammed ms = true -> (exists c ws, p_loop p = Waits c (ForStats :: ws)) ->
  frozen cap (fun m => m = Connect \/ m = Shutdown \/ m = Fault) p /\ (cycle ms = true -> frozen cap (fun m => m = Fault) p).
Proof.
  intros N1 N2 R J (c & ws & Lp). destruct (alive _ _ _ _ _ N2 N1 R) as (T & L & C). destruct (flags _ _ _ _ _ N2 R C) as (A1 & A2 & A3 & A4 & A5).
  assert (Cy : cycle ms = true -> dead_cycle p).
  { unfold cycle. rewrite A1, A2, A4, (A5 L). intros H. apply andb_true_iff in H as [H H4]. apply andb_true_iff in H as [H H3]. apply andb_true_iff in H as [H1 H2]. exists c, ws.
    unfold fl_up, fl_st, fl_cw in *. splits; [exact Lp|destruct (p_flusher p); congruence|destruct (p_up p); congruence|destruct (p_conn p); try discriminate; eauto|exact H4]. }
  split; [|intros H; apply dead_cycle_frozen, Cy, H]. unfold jammed in J. apply orb_true_iff in J as [J|J].
  - rewrite A1, A2, A3 in J. apply andb_true_iff in J as [J J3]. apply andb_true_iff in J as [J1 J2]. apply dead_line_frozen; [|exact T]. exists c, ws.
    unfold fl_up, fl_st, fl_li in *. splits; [exact Lp|destruct (p_flusher p); congruence|destruct (p_up p); congruence|destruct (p_conn p) as [| | |[]|]; cbn in J3; auto; congruence].
  - pose proof (dead_cycle_frozen cap p (Cy J)) as Fr. intros ms' p' es' Fm. apply Fr. eapply Forall_impl; [|exact Fm]. cbn. tauto.
Qed.

(** * C140 *)
Definition reach_c (cap : nat) (p p' : parts) : Prop := exists ms es, Forall closing ms /\ move_run cap p ms = Some (p', es).
Lemma reach_c_of cap p p' : reach cap p p' -> reach_c cap p p'.
Proof. intros (ms & es & F & R). exists ms, es. split; [eapply Forall_impl; [|exact F]; unfold closing; auto|exact R]. Qed.
Lemma reach_c_refl cap p : reach_c cap p p.
Proof. apply reach_c_of, reach_refl. Qed.
Lemma reach_c_trans cap p q r : reach_c cap p q -> reach_c cap q r -> reach_c cap p r.
Proof.
  intros (m1 & e1 & F1 & R1) (m2 & e2 & F2 & R2). exists (m1 ++ m2), (e1 ++ e2). split; [apply Forall_app; auto|]. rewrite move_run_app, R1, R2. reflexivity.
Qed.
Lemma reach_c_step cap p m p' es : closing m -> move_step cap p m = Some (p', es) -> reach_c cap p p'.
Proof. intros O S. exists [m], (es ++ []). split; [constructor; [exact O|constructor]|]. cbn. rewrite S. reflexivity. Qed.
Lemma reach_c_ok cap p p' : ok p -> reach_c cap p p' -> ok p'.
Proof. intros O (ms & es & _ & R). exact (run_ok _ _ _ _ _ O R). Qed.

(** The connection ends unless it waits for a loop that is busy. *)
Lemma conn_ends cap p : p_stop p = true -> (p_loop p = LEnded \/ (forall b, p_conn p <> HandsOver b) \/ p_conf p = false) ->
  exists p', reach_c cap p p' /\ p_conn p' = CEnded /\ p_stop p' = true /\ p_loop p' = p_loop p /\ p_flusher p' = p_flusher p.
Proof.
  intros T H.
  assert (P0 : forall p, p_stop p = true -> (p_conn p = Up \/ p_conn p = Down \/ p_conn p = Killed) -> exists p', reach_c cap p p' /\ p_conn p' = CEnded /\ p_stop p' = true /\ p_loop p' = p_loop p /\ p_flusher p' = p_flusher p).
  { intros q Tq Cq. exists (with_up (with_conn q CEnded) []). split; [|cbn; auto]. eapply (reach_c_step _ _ ConnStops); [unfold closing; auto|]. cbn. rewrite Tq. destruct Cq as [->|[->| ->]]; reflexivity. }
  destruct (p_conn p) as [| | |up|] eqn:C; try (apply P0; auto; fail).
  - assert (E : p_loop p = LEnded \/ p_loop p <> LEnded) by (destruct (p_loop p); auto; right; discriminate). destruct E as [E|E].
    + assert (S : move_step cap p HandOver = Some (with_conn p (if up then Up else Down), [])) by (cbn; rewrite C, E; reflexivity).
      destruct (P0 (with_conn p (if up then Up else Down)) T ltac:(destruct up; cbn; auto)) as (p' & R & A1 & A2 & A3 & A4). exists p'. splits; try assumption.
      eapply reach_c_trans; [|exact R]. eapply (reach_c_step _ _ HandOver); [left; exact I|exact S].
    + destruct H as [H|[H|H]]; [congruence|exfalso; eapply H; reflexivity|].
      assert (S : move_step cap p HandOver = Some (with_conf (with_conn p (if up then Up else Down)) true (p_init p), [])) by (cbn; rewrite C, H; destruct (p_loop p); try congruence; reflexivity).
      destruct (P0 (with_conf (with_conn p (if up then Up else Down)) true (p_init p)) T ltac:(destruct up; cbn; auto)) as (p' & R & A1 & A2 & A3 & A4). exists p'. splits; try assumption.
      eapply reach_c_trans; [|exact R]. eapply (reach_c_step _ _ HandOver); [left; exact I|exact S].
  - exists p. split; [apply reach_c_refl|auto].
Qed.
(** With the statistics not waiting for the connection, all parts end. *)
Lemma parts_end cap p : ok p -> p_stop p = true -> p_flusher p <> Sending -> exists p', reach_c cap p p' /\ over p'.
Proof.
  intros O T F.
  assert (A : exists p1, reach_c cap p p1 /\ p_loop p1 = LEnded /\ p_stop p1 = true /\ p_flusher p1 <> Sending).
  { assert (E : p_loop p = LEnded \/ p_loop p <> LEnded) by (destruct (p_loop p); auto; right; discriminate). destruct E as [E|E]; [exists p; split; [apply reach_c_refl|auto]|].
    destruct (wait_free cap p O F E) as (p1 & R1 & (Ef & _ & _ & _ & Et & _) & L1 & _). exists (with_queue (with_loop p1 LEnded false) []).
    split; [eapply reach_c_trans; [apply reach_c_of; exact R1|]; eapply (reach_c_step _ _ LoopStops); [unfold closing; auto|]; cbn; rewrite Et, T, L1; reflexivity|].
    cbn. splits; congruence. }
  destruct A as (p1 & R1 & L1 & T1 & F1). destruct (conn_ends cap p1 T1 (or_introl L1)) as (p2 & R2 & C2 & T2 & L2 & F2).
  destruct (p_flusher p2) eqn:F3; [|congruence|exists p2; split; [eapply reach_c_trans; eassumption|unfold over; splits; congruence]].
  exists (with_flusher p2 FEnded NoUpload). split; [|unfold over; cbn; splits; congruence]. eapply reach_c_trans; [exact R1|]. eapply reach_c_trans; [exact R2|].
  eapply (reach_c_step _ _ StatsStop); [unfold closing; auto|]. cbn. rewrite T2, F3, L2, L1. reflexivity.
Qed.
(** The statistics stop waiting for the connection, but for the cycle. *)
Lemma stats_end cap p : ok p -> p_stop p = true -> p_flusher p = Sending -> ~ (p_up p <> [] /\ p_conf p = true /\ p_loop p <> LEnded /\ exists b, p_conn p = HandsOver b) ->
  exists p', reach_c cap p p' /\ p_stop p' = true /\ p_flusher p' <> Sending.
Proof.
  intros O T F N.
  assert (P0 : forall p, p_stop p = true -> p_flusher p = Sending -> (p_conn p = CEnded \/ p_up p = []) -> exists p', reach_c cap p p' /\ p_stop p' = true /\ p_flusher p' <> Sending).
  { intros q Tq Fq H. assert (S : exists q', move_step cap q Put = Some (q', []) /\ p_stop q' = true /\ p_flusher q' = FIdle).
    { cbn. rewrite Fq. destruct H as [H|H]; rewrite H; [eexists; split; [reflexivity|cbn; auto]|destruct (p_conn q); eexists; (split; [reflexivity|cbn; auto])]. }
    destruct S as (q' & S & A & B). exists q'. split; [eapply (reach_c_step _ _ Put); [left; exact I|exact S]|]. split; congruence. }
  destruct (p_up p) as [|x u] eqn:U; [apply P0; auto|].
  assert (H : p_loop p = LEnded \/ (forall b, p_conn p <> HandsOver b) \/ p_conf p = false).
  { destruct (p_conf p); [|auto]. destruct (p_conn p); try (right; left; intros; discriminate). destruct (p_loop p); auto; exfalso; apply N; splits; try congruence; eauto. }
  destruct (conn_ends cap p T H) as (p1 & R1 & C1 & T1 & L1 & F1). destruct (P0 p1 T1 ltac:(congruence) (or_introl C1)) as (p2 & R2 & A & B). exists p2. split; [eapply reach_c_trans; eassumption|auto].
Qed.
Lemma stopped cap ms : forall p p' es, move_run cap p ms = Some (p', es) -> ~ In Fault ms -> p_stop p = true \/ In Shutdown ms -> p_stop p' = true.
Proof.
  induction ms as [|m ms IH]; intros p p' es R NF H; cbn in R; [inv R; destruct H as [H|[]]; exact H|]. destruct (move_step cap p m) as [[p1 e1]|] eqn:S; [|discriminate].
  destruct (move_run cap p1 ms) as [[p2 e2]|] eqn:R2; [|discriminate]. inv R. refine (IH _ _ _ R2 (fun H => NF (or_intror H)) _).
  assert (K : m = Shutdown -> p_stop p1 = true) by (intros ->; cbn in S; inv S; reflexivity).
  assert (K' : p_stop p = true -> p_stop p1 = true).
  { intros T. clear IH R2 K H. destruct m as [c|f| |b| | | | |more| | | | | | | | | | |]; cbn [move_step] in S; rewrite ?T in S.
    - destruct (p_loop p); try destruct (length (p_queue p) <? cap); inv S; exact T.
    - destruct (p_loop p); try discriminate. destruct (p_queue p) as [|c q]; [discriminate|]. destruct (enter (with_queue p q) c (waits_of (p_init p) c f)) as [q1 e] eqn:E. inv S.
      apply enter_rest in E as (_ & _ & _ & _ & E). cbn in E. congruence.
    - destruct (p_loop p); try discriminate. destruct (p_conf p); inv S; exact T.
    - destruct (p_loop p) as [|c [|[] ws]|]; try discriminate. destruct b; injection S as S; apply enter_rest in S as (_ & _ & _ & _ & E); cbn in E; congruence.
    - destruct (p_flusher p); try discriminate. destruct (p_ask p); [|discriminate]. destruct (p_loop p) as [|c [|[] ws]|]; try discriminate. injection S as S. apply enter_rest in S as (_ & _ & _ & _ & E); congruence.
    - destruct (p_flusher p); try discriminate. destruct (p_pending p); inv S; exact T.
    - destruct (p_flusher p); try discriminate. destruct (p_conn p); try (destruct (p_up p); [|discriminate]); inv S; exact T.
    - destruct (p_conn p); try discriminate; (destruct (p_up p); [|discriminate]); inv S; exact T.
    - destruct (p_flusher p); try discriminate. destruct (p_pending p); try discriminate; [destruct (p_conn p); try discriminate|]; inv S; exact T.
    - destruct (p_conn p); try discriminate. destruct (p_up p) as [|[] u]; try discriminate; inv S; exact T.
    - destruct (p_conn p); inv S; exact T.
    - destruct (p_conn p); try discriminate. destruct (p_loop p); [destruct (p_conf p); inv S|destruct (p_conf p); inv S|inv S]; exact T.
    - destruct (p_conn p); inv S; exact T.
    - destruct (p_conn p); inv S; exact T.
    - destruct (p_conn p); inv S; exact T.
    - inv S; reflexivity.
    - destruct (p_conn p); inv S; exact T.
    - destruct (p_flusher p); try discriminate. destruct (p_loop p) as [|c [|[] ws]|]; try (inv S; exact T). injection S as S. apply enter_rest in S as (_ & _ & _ & _ & E); cbn in E; congruence.
    - destruct (p_loop p); inv S; exact T.
    - exfalso. apply NF. left. reflexivity. }
  destruct H as [H|[H|H]]; auto.
Qed.
Theorem ends cap mobile ms p es : In Shutdown ms -> ~ In Fault ms -> move_run cap (parts_new mobile) ms = Some (p, es) -> cycle ms = false ->
  exists ms' p' es', Forall closing ms' /\ move_run cap p ms' = Some (p', es') /\ over p' /\ returned (es ++ es') = filter waiting (accepted (es ++ es')).
Proof.
  intros N1 N2 R J. pose proof (run_ok _ _ _ _ _ (new_ok mobile) R) as O. pose proof (stopped _ _ _ _ _ R N2 (or_intror N1)) as T.
  assert (F : exists p1, reach_c cap p p1 /\ p_stop p1 = true /\ p_flusher p1 <> Sending).
  { destruct (p_flusher p) eqn:F; try (exists p; split; [apply reach_c_refl|split; congruence]). apply stats_end; try assumption. intros (U & K & L & b & C).
    destruct (flags _ _ _ _ _ N2 R ltac:(congruence)) as (A1 & A2 & A3 & A4 & A5). unfold cycle in J. rewrite A1, A2, A4, (A5 L) in J. unfold fl_up, fl_st, fl_cw in J. rewrite F, C, K in J. destruct (p_up p); [congruence|discriminate]. }
  destruct F as (p1 & R1 & T1 & F1). destruct (parts_end cap p1 (reach_c_ok _ _ _ O R1) T1 F1) as (p2 & R2 & Ov). destruct (reach_c_trans _ _ _ _ R1 R2) as (ms' & es' & Fc & R'). exists ms', p2, es'.
  splits; try assumption; try apply Ov. assert (R3 : move_run cap (parts_new mobile) (ms ++ ms') = Some (p2, es ++ es')) by (rewrite move_run_app, R, R'; reflexivity).
  pose proof (run_ok _ _ _ _ _ (new_ok mobile) R3) as (_ & _ & Q). destruct (calls _ _ _ _ _ R3) as [A _]. unfold owed in A. destruct Ov as (L & _). rewrite L, (Q L) in A. cbn in A. rewrite app_nil_r in A. congruence.
Qed.

(** * C141 *)
Theorem call_accepted cap mobile ms p es c : ~ In Shutdown ms -> ~ In Fault ms -> move_run cap (parts_new mobile) ms = Some (p, es) ->
  exists p' e, move_step cap p (Call c) = Some (p', [e]) /\ e = if (length (accepted es) - length (taken es) <? cap)%nat then Accepted c else Refused c.
Proof.
  intros N1 N2 R. destruct (alive _ _ _ _ _ N2 N1 R) as (_ & L & _). destruct (calls _ _ _ _ _ R) as [_ B]. rewrite (B L), app_length.
  replace (length (taken es) + length (p_queue p) - length (taken es))%nat with (length (p_queue p)) by lia. cbn [move_step].
  destruct (p_loop p); try congruence; destruct (length (p_queue p) <? cap)%nat; do 2 eexists; split; reflexivity.
Qed.
Lemma ended_step cap p m p' es : p_loop p = LEnded -> move_step cap p m = Some (p', es) -> p_loop p' = LEnded /\ accepted es = [] /\ taken es = [].
Proof.
  intros L S. destruct m as [c|f| |b| | | | |more| | | | | | | | | | |]; cbn [move_step] in S; rewrite ?L in S; try congruence.
  - inv S; auto.
  - destruct (p_flusher p), (p_ask p); discriminate.
  - destruct (p_flusher p), (p_pending p); inv S; auto.
  - destruct (p_flusher p); try discriminate. destruct (p_conn p); try (destruct (p_up p); [|discriminate]); inv S; auto.
  - destruct (p_conn p); try discriminate; (destruct (p_up p); [|discriminate]); inv S; auto.
  - destruct (p_flusher p); try discriminate. destruct (p_pending p); try discriminate; [destruct (p_conn p); try discriminate|]; inv S; auto.
  - destruct (p_conn p); try discriminate. destruct (p_up p) as [|[] u]; try discriminate; inv S; auto.
  - destruct (p_conn p); inv S; auto.
  - destruct (p_conn p); inv S; auto.
  - destruct (p_conn p); inv S; auto.
  - destruct (p_conn p); inv S; auto.
  - destruct (p_conn p); inv S; auto.
  - inv S; auto.
  - destruct (p_stop p); [|discriminate]. destruct (p_conn p); inv S; auto.
  - destruct (p_stop p); [|discriminate]. destruct (p_flusher p); inv S; auto.
  - destruct (p_stop p); discriminate.
  - destruct (p_conn p); inv S; cbn; rewrite accepted_all, taken_all; auto.
Qed.
Lemma ended_run cap ms : forall p p' es, p_loop p = LEnded -> move_run cap p ms = Some (p', es) -> p_loop p' = LEnded /\ accepted es = [] /\ taken es = [].
Proof.
  induction ms as [|m ms IH]; intros p p' es L R; cbn in R; [inv R; auto|]. destruct (move_step cap p m) as [[p1 e1]|] eqn:S; [|discriminate].
  destruct (move_run cap p1 ms) as [[p2 e2]|] eqn:R2; [|discriminate]. inv R. destruct (ended_step _ _ _ _ _ L S) as (L1 & A1 & B1). destruct (IH _ _ _ L1 R2) as (L2 & A2 & B2).
  rewrite accepted_app, taken_app, A1, A2, B1, B2. auto.
Qed.
