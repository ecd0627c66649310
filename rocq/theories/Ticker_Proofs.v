From Verif Require Import Base Ticker_Model Ticker_Spec.
Local Open Scope Z_scope.

Lemma draw_range r m : 0 <= draw r m <= Z.of_N m.
Proof. unfold draw. pose proof (Z.mod_pos_bound r (Z.of_N m + 1)). lia. Qed.
Lemma remake_some now r t : t_value t <> 0%N -> exists j, 0 <= j <= Z.of_N (t_value t) /\ remake now r t = Some (mkTicker (t_value t) false (Some (mkInterval (now + j) (Z.of_N (t_value t))))).
Proof. intros H. exists (draw r (t_value t)). split; [apply draw_range|]. unfold remake, jittered_interval_at. destruct (N.eqb_spec (t_value t) 0); [contradiction|reflexivity]. Qed.

(** No panic. *)
Lemma poll_tick_some now t i : t_interval t = Some i -> exists i' o, poll_tick now t = (mkTicker (t_value t) (t_changed t) (Some i'), o) /\ o <> Panic.
Proof. intros E. unfold poll_tick. rewrite E. destruct (poll_interval now i) as [i'|]; [exists i', Tick; split; [reflexivity|discriminate]|]. exists i, Pending. split; [destruct t; cbn in *; congruence|discriminate]. Qed.
Lemma loop_ok now r f t i : t_interval t = Some i -> t_value t <> 0%N -> exists t' o, poll_loop now r f t = (t', o) /\ o <> Panic /\ t_value t' = t_value t /\ t_interval t' <> None.
Proof.
  intros E V. unfold poll_loop. destruct (poll_tick_some now t i E) as (i' & o & P & O). destruct (t_changed t).
  - destruct (remake_some now r t V) as (j & _ & R). destruct (poll_tick_some now (mkTicker (t_value t) false (Some (mkInterval (now + j) (Z.of_N (t_value t))))) _ eq_refl) as (i2 & o2 & P2 & O2). cbn [t_value t_changed] in P2.
    destruct f; [rewrite P; destruct o|]; try congruence; try (rewrite R, P2); do 2 eexists; (split; [reflexivity|]); splits; auto; discriminate.
  - rewrite P. do 2 eexists. split; [reflexivity|]. splits; auto; discriminate.
Qed.
Lemma poll_ok now r f t : t_value t <> 0%N -> exists t' o, poll now r f t = (t', o) /\ o <> Panic /\ t_value t' = t_value t /\ t_interval t' <> None.
Proof.
  intros V. unfold poll. destruct (t_interval t) as [i|] eqn:E; [apply (loop_ok now r f t i E V)|]. destruct (remake_some now r t V) as (j & _ & ->). apply (loop_ok now r f (mkTicker (t_value t) false _) _ eq_refl V).
Qed.
Lemma run_ok ops : forall t, t_value t <> 0%N -> no_zero ops -> exists r, run t ops = Some r.
Proof.
  induction ops as [|o ops IH]; intros t V N; [eexists; reflexivity|]. assert (N' : no_zero ops) by (intros v H; apply N; right; exact H). cbn [run]. destruct o as [v|now r f]; cbn [step].
  - destruct (IH (mkTicker v true (t_interval t))) as [[t2 e2] ->]; [apply N; left; reflexivity|exact N'|]. eexists. reflexivity.
  - destruct (poll_ok now r f t V) as (t' & o & -> & O & V' & _). destruct (IH t') as [[t2 e2] R]; [congruence|exact N'|]. destruct o; try congruence; rewrite R; eexists; reflexivity.
Qed.

(** The schedule since the interval was made at [a]. *)
Definition sched (a : Z) (p : N) (k : nat) (t : ticker) : Prop :=
  t_value t = p /\ t_changed t = false /\ exists j, 0 <= j <= Z.of_N p /\ t_interval t = Some (mkInterval (a + j + Z.of_nat k * Z.of_N p) (Z.of_N p)).
Lemma sched_poll a p k t now r f : sched a p k t ->
  match poll now r f t with
  | (t', Tick) => sched a p (S k) t' /\ a + Z.of_nat k * Z.of_N p <= now
  | (t', Pending) => t' = t /\ now < a + Z.of_nat (S k) * Z.of_N p
  | (_, Panic) => False
  end.
Proof.
  intros (V & C & j & J & I). unfold poll. rewrite I. unfold poll_loop. rewrite C. unfold poll_tick. rewrite I. unfold poll_interval. cbn [i_next i_period]. destruct (Z.leb_spec (a + j + Z.of_nat k * Z.of_N p) now) as [L|L].
  - split; [|lia]. unfold sched. cbn [t_value t_changed t_interval]. splits; auto. exists j. split; [exact J|]. f_equal. f_equal. lia.
  - split; [reflexivity|]. lia.
Qed.
Lemma sched_run a p ops : forall k t t0, sched a p k t -> polls_from t0 ops ->
  exists t' ticks, run t ops = Some (t', ticks) /\ paced a (Z.of_N p) k ticks /\ sched a p (k + length ticks) t'.
Proof.
  induction ops as [|o ops IH]; intros k t t0 S P.
  - exists t, []. cbn. rewrite Nat.add_0_r. splits; auto.
  - destruct o as [v|now r f]; [contradiction|]. destruct P as [P0 P]. cbn [run step]. pose proof (sched_poll a p k t now r f S) as X. destruct (poll now r f t) as [t1 o]. destruct o; [| |contradiction].
    + destruct X as [S1 L]. destruct (IH (Datatypes.S k) t1 now S1 P) as (t' & ticks & -> & B & C). exists t', (now :: ticks). cbn [app paced length]. splits; auto. replace (k + Datatypes.S (length ticks))%nat with (Datatypes.S k + length ticks)%nat by lia. exact C.
    + destruct X as [-> L]. destruct (IH k t now S P) as (t' & ticks & -> & B & C). exists t', ticks. splits; auto.
Qed.
(** A poll that finds a change, or no interval yet, makes one. *)
Lemma made t now r : (t_changed t = true \/ t_interval t = None) -> t_value t <> 0%N ->
  exists t', sched now (t_value t) 0 t' /\ forall f, (f = false \/ t_interval t = None) -> poll now r f t = poll_tick now t'.
Proof.
  intros C V. destruct (remake_some now r t V) as (j & J & R). exists (mkTicker (t_value t) false (Some (mkInterval (now + j) (Z.of_N (t_value t))))). split.
  - unfold sched. cbn [t_value t_changed t_interval]. splits; auto. exists j. split; [exact J|]. f_equal. f_equal. lia.
  - intros f F. unfold poll. destruct (t_interval t) as [i|] eqn:E.
    + destruct C as [C|C]; [|discriminate]. destruct F as [->|F]; [|discriminate]. unfold poll_loop. rewrite C, R. reflexivity.
    + rewrite R. reflexivity.
Qed.
(** A change is noticed by the first poll that does not tick. *)
Lemma pending_notices t now r f t' : t_value t <> 0%N -> poll now r f t = (t', Pending) -> (t_changed t = true \/ t_interval t = None) -> sched now (t_value t) 0 t'.
Proof.
  intros V P C. destruct (remake_some now r t V) as (j & J & R). assert (S : sched now (t_value t) 0 (mkTicker (t_value t) false (Some (mkInterval (now + j) (Z.of_N (t_value t)))))).
  { unfold sched. cbn [t_value t_changed t_interval]. splits; auto. exists j. split; [exact J|]. f_equal. f_equal. lia. }
  unfold poll in P. destruct (t_interval t) as [i|] eqn:E.
  - destruct C as [C|C]; [|discriminate]. unfold poll_loop in P. rewrite C, R in P. 
    assert (Q : poll_tick now (mkTicker (t_value t) false (Some (mkInterval (now + j) (Z.of_N (t_value t))))) = (t', Pending)).
    { destruct (if f then poll_tick now t else (t, Pending)) as [x []]; [discriminate|exact P|exact P]. }
    unfold poll_tick in Q. cbn [t_interval] in Q. destruct (poll_interval _ _); inv Q. exact S.
  - rewrite R in P. unfold poll_loop in P. cbn [t_changed] in P. unfold poll_tick in P. cbn [t_interval] in P. destruct (poll_interval _ _); inv P. exact S.
Qed.
Lemma run_app a b t : run t (a ++ b) = match run t a with Some (t1, e1) => match run t1 b with Some (t2, e2) => Some (t2, e1 ++ e2) | None => None end | None => None end.
Proof.
  revert t. induction a as [|o a IH]; intros t; cbn [app run]; [destruct (run t b) as [[t2 e2]|]; reflexivity|]. destruct (step t o) as [[t1 e1]|]; [|reflexivity]. rewrite IH. destruct (run t1 a) as [[t2 e2]|]; [|reflexivity].
  destruct (run t2 b) as [[t3 e3]|]; [|reflexivity]. rewrite app_assoc. reflexivity.
Qed.
(** After a history with no panic, an update and a poll that does not tick: the new pace. *)
Lemma new_pace v0 before v now r f t e later : run (ticker_new v0) before = Some (t, e) -> v <> 0%N ->
  run t [Update v; Poll now r f] = Some (fst (poll now r f (mkTicker v true (t_interval t))), []) -> polls_from now later ->
  exists t' ticks, run t (Update v :: Poll now r f :: later) = Some (t', ticks) /\ paced now (Z.of_N v) 0 ticks /\ sched now v (length ticks) t'.
Proof.
  intros _ V H P. cbn [run step] in *. destruct (poll now r f (mkTicker v true (t_interval t))) as [t1 o] eqn:Q. destruct o; [discriminate| |discriminate].
  assert (S : sched now v 0 t1) by (apply (pending_notices (mkTicker v true (t_interval t)) now r f t1 V Q); left; reflexivity).
  destruct (sched_run now v later 0 t1 now S P) as (t' & ticks & -> & B & C). exists t', ticks. splits; auto.
Qed.
(** From the start. *)
Lemma from_start v now r f later : v <> 0%N -> polls_from now later ->
  exists t' ticks, run (ticker_new v) (Poll now r f :: later) = Some (t', ticks) /\ paced now (Z.of_N v) 0 ticks /\ sched now v (length ticks) t'.
Proof.
  intros V P. destruct (made (ticker_new v) now r (or_intror eq_refl) V) as (t1 & S & E). cbn [t_value ticker_new] in S. cbn [run step]. rewrite (E f (or_intror eq_refl)).
  pose proof (sched_poll now v 0 t1 now r f S) as X. assert (Q : poll now r f t1 = poll_tick now t1) by (destruct S as (_ & C & j & _ & I); unfold poll, poll_loop; rewrite I, C; reflexivity). rewrite Q in X. destruct (poll_tick now t1) as [t2 o]. destruct o; [| |contradiction].
  - destruct X as [S2 L]. destruct (sched_run now v later 1 t2 now S2 P) as (t' & ticks & -> & B & C). exists t', (now :: ticks). cbn [app paced length]. splits; auto.
  - destruct X as [-> L]. destruct (sched_run now v later 0 t1 now S P) as (t' & ticks & -> & B & C). exists t', ticks. splits; auto.
Qed.
Lemma due_ticks a p k t now r f : sched a p k t -> a + Z.of_nat (S k) * Z.of_N p <= now -> exists t', step t (Poll now r f) = Some (t', [now]).
Proof. intros S L. cbn [step]. pose proof (sched_poll a p k t now r f S) as X. destruct (poll now r f t) as [t' o]. destruct o; [eexists; reflexivity|lia|contradiction]. Qed.

Lemma restless_run n : forall a t, (forall i, t_interval t = Some i -> True) -> exists t', run t (restless a n) = Some (t', []).
Proof.
  induction n as [|n IH]; intros a t _; [eexists; reflexivity|]. cbn [restless run step].
  set (v := if Nat.even n then 60000%N else 60001%N). assert (V : v = 60000%N \/ v = 60001%N) by (subst v; destruct (Nat.even n); auto). clearbody v.
  set (tv := mkTicker v true (t_interval t)). assert (P : exists t', poll a 59999 false tv = (t', Pending)).
  { assert (D : draw 59999 v = 59999) by (destruct V as [-> | ->]; reflexivity). assert (Z0 : (v =? 0)%N = false) by (destruct V as [-> | ->]; reflexivity).
    assert (R : remake a 59999 tv = Some (mkTicker v false (Some (mkInterval (a + 59999) (Z.of_N v))))) by (unfold remake, jittered_interval_at; cbn [t_value tv]; rewrite Z0, D; reflexivity).
    assert (T : poll_tick a (mkTicker v false (Some (mkInterval (a + 59999) (Z.of_N v)))) = (mkTicker v false (Some (mkInterval (a + 59999) (Z.of_N v))), Pending)).
    { unfold poll_tick, poll_interval. cbn [t_interval i_next]. destruct (Z.leb_spec (a + 59999) a); [lia|reflexivity]. }
    unfold poll. destruct (t_interval tv); [unfold poll_loop; cbn [t_changed tv]; fold tv; rewrite R, T|rewrite R; unfold poll_loop; cbn [t_changed]; rewrite T]; eexists; reflexivity. }
  destruct P as [t' ->]. destruct (IH (a + 59998) t' (fun _ _ => Logic.I)) as [t2 ->]. eexists. reflexivity.
Qed.
Lemma zero_panics t now r : run t [Update 0%N; Poll now r false] = None.
Proof. cbn [run step]. unfold poll, remake, jittered_interval_at. cbn [t_interval t_value]. destruct (t_interval t); reflexivity. Qed.
