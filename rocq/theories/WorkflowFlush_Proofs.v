From Verif Require Import Base Str_Base Version_Model Log_Model LogMatcher_Model Workflow_Model Workflow_Spec Workflow_Proofs WorkflowEngine_Model WorkflowEngine_Spec WorkflowEngine_Proofs WorkflowRestore_Proofs WorkflowActions_Proofs WorkflowFlush_Spec.
Local Open Scope string_scope. Local Open Scope list_scope.

Section Flush.
Variables (re_match : string -> string -> bool) (to_i32 : string -> option Z) (sha : string -> string) (f64 : string -> option Z).
Notation step := (step re_match to_i32 sha f64). Notation run_ops := (run_ops re_match to_i32 sha f64). Notation process_log := (process_log re_match to_i32 sha f64). Notation requests := (requests re_match to_i32 sha f64).

Definition same (e e' : engine) : Prop := e_flushes e' = e_flushes e /\ e_buffers e' = e_buffers e /\ e_next e' = e_next e.
Lemma same_refl e : same e e. Proof. repeat split. Qed.
Lemma same_trans a b c : same a b -> same b c -> same a c. Proof. unfold same. intros (->&->&->) H. exact H. Qed.
Lemma enter_same e l : same e (enter_session e l).
Proof. unfold enter_session. destruct (String.eqb _ _); [repeat split|]. destruct (String.eqb _ _); repeat split. Qed.
Lemma log_same e l d done e' r : process_log e l d done = Some (e', r) -> same e e'.
Proof.
  intros H. apply (same_trans _ (enter_session e l)); [apply enter_same|]. unfold WorkflowEngine_Model.process_log in H. set (e1 := enter_session e l) in *. clearbody e1. destruct (e_workflows e1); [inv H; apply same_refl|].
  destruct (all_process _ _ _ _ _ _ _ _) as [[[[ws cur] dirty] acts]|]; [|discriminate]. destruct (process_streaming _ _ _ _ _) as [[dd st] ch]. destruct (process_flush_actions _ _ _ _ _ _) as [[cr ids] bufs]. inv H. repeat split.
Qed.
Lemma add_same e w c : same e (add_workflow e w c). Proof. repeat split. Qed.
Lemma adds_same : forall cs e ws, same e (add_workflows e cs ws).
Proof.
  induction cs as [|c cs IH]; intros e ws; cbn [add_workflows]; [apply same_refl|]. destruct (last_workflow _ _); (eapply same_trans; [|apply IH]); apply add_same.
Qed.
Lemma update_same e g : same e (update e g).
Proof.
  unfold update. cbv zeta. set (e1 := set_workflows e _ _ _ _). assert (S1 : same e e1) by repeat split. clearbody e1. generalize (map w_id (e_workflows e1)). intros ex.
  assert (S2 : same e1 (fold_left (fun e c => if mem (c_id c) ex then e else add_workflow e (mkWorkflow (c_id c) []) c) (g_workflows g) e1)).
  { clear S1. revert e1. induction (g_workflows g) as [|c cs IH]; intros e1; cbn [fold_left]; [apply same_refl|]. eapply same_trans; [|apply IH]. destruct (mem _ _); [apply same_refl|apply add_same]. }
  apply (same_trans _ _ _ S1). apply (same_trans _ _ _ S2). repeat split.
Qed.
Lemma start_empty limit g f : same (engine_new limit) (start (engine_new limit) g f).
Proof.
  unfold start. cbv zeta. destruct f as [s|].
  - set (e1 := set_session _ _). assert (S1 : same (engine_new limit) e1) by repeat split. clearbody e1. pose proof (adds_same (g_workflows g) e1 (sv_workflows s)) as S2. apply (same_trans _ _ _ S1). apply (same_trans _ _ _ S2). repeat split.
  - set (e1 := set_resolver _ _ _). assert (S1 : same (engine_new limit) e1) by repeat split. clearbody e1. pose proof (adds_same (g_workflows g) e1 []) as S2. apply (same_trans _ _ _ S1). apply (same_trans _ _ _ S2). repeat split.
Qed.

(** The flush that the engine remembers for an action. *)
Definition remembered (f : list (string * nat)) (id : string) : option nat := option_map snd (find (fun q => String.eqb (fst q) id) f).
Lemma remembered_others f id j : remembered (filter (fun q => negb (String.eqb (fst q) id)) f) j = if String.eqb j id then None else remembered f j.
Proof.
  unfold remembered. induction f as [|[k n] f IH]; cbn [filter find fst]; [destruct (String.eqb j id); reflexivity|]. destruct (String.eqb_spec k id) as [K|K]; cbn [negb].
  - rewrite IH. destruct (String.eqb_spec j id) as [J|J]; [reflexivity|]. destruct (String.eqb_spec k j); [congruence|reflexivity].
  - cbn [find fst]. destruct (String.eqb_spec k j) as [J|J]; [destruct (String.eqb_spec j id); [congruence|reflexivity]|]. exact IH.
Qed.
Record finv (y : system) (r : list (string * nat)) : Prop := {
  f_rem : forall id n, In (id, n) r -> ~ In n (y_done y) -> remembered (e_flushes (y_engine y)) id = Some n;
  f_req : forall id n, remembered (e_flushes (y_engine y)) id = Some n -> In (id, n) r;
  f_new : forall id n, In (id, n) r -> (n < e_next (y_engine y))%nat;
  f_done : forall n, In n (y_done y) -> (n < e_next (y_engine y))%nat;
  f_wait : forall n ids, In (n, ids) (waiting y) -> exists id, In (id, n) r;
  f_nodup : NoDup (map snd r);
  f_cap : (List.length (waiting y) <= 10)%nat }.
Lemma same_finv y y' r : same (y_engine y) (y_engine y') -> y_done y' = y_done y -> finv y r -> finv y' r.
Proof.
  intros (S1 & S2 & S3) S4 [A B C D W N L]. constructor; unfold waiting in *; rewrite ?S1, ?S2, ?S3, ?S4; auto.
Qed.
Lemma fresh_finv y : same (engine_new 0) (y_engine y) -> y_done y = [] -> finv y [].
Proof.
  intros (S1 & S2 & S3) S4. constructor; unfold waiting; rewrite ?S1, ?S2, ?S3, ?S4; cbn; try (intros; contradiction); try discriminate; try constructor. lia.
Qed.
Lemma done_in l n : is_done l n = true <-> In n l.
Proof. unfold is_done. rewrite existsb_exists. split; [intros (x & H & E); apply Nat.eqb_eq in E; subst; auto|intros H; exists n; split; auto; apply Nat.eqb_refl]. Qed.

(** What an approval does to the requests. *)
Lemma approval y p r : finv y r -> let e' := on_approved (y_engine y) p (is_done (y_done y)) in
  (running y r (pa_id p) /\ same (y_engine y) e') \/
  (~ running y r (pa_id p) /\ List.length (waiting y) = 10%nat /\ e_buffers e' = waiting y /\ e_next e' = e_next (y_engine y) /\ e_flushes e' = filter (fun q => negb (String.eqb (fst q) (pa_id p))) (e_flushes (y_engine y))) \/
  (~ running y r (pa_id p) /\ (List.length (waiting y) < 10)%nat /\ e_buffers e' = waiting y ++ [(e_next (y_engine y), pa_triggers p)] /\ e_next e' = S (e_next (y_engine y)) /\
     e_flushes e' = (pa_id p, e_next (y_engine y)) :: filter (fun q => negb (String.eqb (fst q) (pa_id p))) (e_flushes (y_engine y))).
Proof.
  intros I. cbv zeta. unfold on_approved. cbv zeta. set (fl := match find _ _ with Some _ => _ | None => _ end).
  assert (F : fl = true <-> ~ running y r (pa_id p)).
  { subst fl. pose proof (f_rem _ _ I (pa_id p)) as R. pose proof (f_req _ _ I (pa_id p)) as Q. unfold remembered in *. destruct (find _ _) as [[j n]|]; cbn [option_map snd] in *.
    - rewrite done_in. split; [intros H (m & M1 & M2); specialize (R m M1 M2); congruence|]. intros H. destruct (in_dec Nat.eq_dec n (y_done y)) as [|X]; auto. elim H. exists n. split; auto.
    - split; auto. intros _ (m & M1 & M2). specialize (R m M1 M2). discriminate. }
  clearbody fl. destruct fl.
  - right. assert (NR : ~ running y r (pa_id p)) by (apply F; reflexivity). unfold waiting. destruct (Nat.ltb_spec (List.length (e_buffers (y_engine y))) BUFFERS_CAPACITY) as [X|X].
    + right. repeat split; auto.
    + left. pose proof (f_cap _ _ I) as C. unfold waiting, BUFFERS_CAPACITY in *. repeat split; auto. lia.
  - left. split; [|repeat split]. destruct (remembered (e_flushes (y_engine y)) (pa_id p)) as [n|] eqn:E.
    + destruct (in_dec Nat.eq_dec n (y_done y)) as [X|X]; [|exists n; split; auto; apply (f_req _ _ I); auto].
      exfalso. assert (Y : false = true); [apply F|discriminate]. intros (m & M1 & M2). pose proof (f_rem _ _ I _ _ M1 M2). congruence.
    + exfalso. assert (Y : false = true); [apply F|discriminate]. intros (m & M1 & M2). pose proof (f_rem _ _ I _ _ M1 M2). congruence.
Qed.
Lemma skipn_all2' {A} (l m : list A) : skipn (List.length l) (l ++ m) = m.
Proof. rewrite skipn_app, skipn_all, Nat.sub_diag. reflexivity. Qed.
Lemma step_finv y o y' ev r : step y o = Some (y', ev) -> finv y r ->
  finv y' match o, y_outputs y with Restart _ _, _ => [] | RunOnce, Approved p :: _ => map (fun x => (pa_id p, fst x)) (skipn (List.length (waiting y)) (waiting y')) ++ r | _, _ => r end.
Proof.
  intros H I. destruct o; cbn [WorkflowEngine_Model.step] in H.
  - destruct (process_log _ _ _ _) as [[e' r']|] eqn:E; [|discriminate]. inv H. apply log_same in E. assert (G : finv (mkSystem e' (y_rejected y) (y_outputs y) (y_done y) (y_file y)) r) by (apply (same_finv y); auto). destruct (y_outputs y) as [|[]]; exact G.
  - assert (G : finv y' r); [|destruct (y_outputs y) as [|[]]; exact G]. destruct (e_input _) as [|p rest]; [inv H; auto|]. destruct (_ <? _)%nat; [|inv H; auto]. destruct (negotiate _ _ _) as [rej out]. inv H. apply (same_finv y); auto. repeat split.
  - destruct (y_outputs y) as [|[p|p] rest] eqn:EO; inv H; [exact I| |apply (same_finv y); auto; repeat split].
    pose proof (approval y p r I) as A. cbv zeta in A. unfold waiting at 2. cbn [y_engine]. set (e' := on_approved _ _ _) in *. clearbody e'. destruct A as [(_ & S)|[(NR & L & B & N & F)|(NR & L & B & N & F)]].
    + destruct S as (S1 & S2 & S3). rewrite S2. unfold waiting. rewrite skipn_all. cbn [map app]. apply (same_finv y); auto. repeat split; auto.
    + rewrite B, skipn_all. cbn [map app]. destruct I as [I1 I2 I3 I4 I5 I6 I7]. constructor; unfold waiting in *; cbn [y_engine y_done]; rewrite ?B, ?N, ?F; auto.
      * intros id n Hn Hd. rewrite remembered_others. destruct (String.eqb_spec id (pa_id p)) as [->|]; [elim NR; exists n; auto|auto].
      * intros id n. rewrite remembered_others. destruct (String.eqb id (pa_id p)); [discriminate|]. auto.
    + rewrite B, skipn_all2'. cbn [map app fst]. destruct I as [I1 I2 I3 I4 I5 I6 I7]. constructor; unfold waiting in *; cbn [y_engine y_done]; rewrite ?B, ?N, ?F.
      * intros id n [X|Hn] Hd; unfold remembered; cbn [find fst].
        -- inv X. rewrite String.eqb_refl. reflexivity.
        -- destruct (String.eqb_spec (pa_id p) id) as [<-|M]; [elim NR; exists n; auto|]. pose proof (remembered_others (e_flushes (y_engine y)) (pa_id p) id) as R. unfold remembered in R. rewrite R. destruct (String.eqb_spec id (pa_id p)); [congruence|]. apply I1; auto.
      * intros id n. unfold remembered. cbn [find fst]. destruct (String.eqb_spec (pa_id p) id) as [<-|M]; [cbn; intros X; inv X; left; reflexivity|]. pose proof (remembered_others (e_flushes (y_engine y)) (pa_id p) id) as R. unfold remembered in R. rewrite R. destruct (String.eqb_spec id (pa_id p)); [congruence|]. intros X. right. apply I2; auto.
      * intros id n [X|Hn]; [inv X; lia|]. apply I3 in Hn. lia.
      * intros n Hn. apply I4 in Hn. lia.
      * intros n ids Hn. apply in_app_or in Hn as [Hn|[X|[]]]; [apply I5 in Hn as (id & Hid); exists id; right; auto|]. inv X. exists (pa_id p). left. reflexivity.
      * cbn [map snd]. constructor; auto. intros X. apply in_map_iff in X as ((id & n) & E & Hn). cbn in E. subst n. apply I3 in Hn. lia.
      * rewrite app_length. cbn [List.length]. lia.
  - inv H. assert (G : finv (mkSystem (set_flushes (y_engine y) (e_flushes (y_engine y)) (tl (e_buffers (y_engine y))) (e_next (y_engine y))) (y_rejected y) (y_outputs y) (y_done y) (y_file y)) r); [|destruct (y_outputs y) as [|[]]; exact G].
    destruct I as [I1 I2 I3 I4 I5 I6 I7]. constructor; unfold waiting in *; cbn [y_engine y_done set_flushes e_flushes e_buffers e_next]; auto.
    + intros n ids Hn. apply (I5 n ids). destruct (e_buffers (y_engine y)); [contradiction|right; exact Hn].
    + destruct (e_buffers (y_engine y)); cbn [tl List.length] in *; lia.
  - inv H. assert (G : finv (mkSystem (y_engine y) (y_rejected y) (y_outputs y) (if (n <? e_next (y_engine y))%nat then n :: y_done y else y_done y) (y_file y)) r); [|destruct (y_outputs y) as [|[]]; exact G].
    destruct I as [I1 I2 I3 I4 I5 I6 I7]. constructor; unfold waiting in *; cbn [y_engine y_done]; auto.
    + intros id m Hm Hd. apply I1; auto. intros X. apply Hd. destruct (_ <? _)%nat; [right|]; auto.
    + intros m Hm. destruct (Nat.ltb_spec n (e_next (y_engine y))); [destruct Hm as [<-|Hm]; auto|auto].
  - inv H. assert (G : finv (mkSystem (update (y_engine y) g) (y_rejected y) (y_outputs y) (y_done y) (y_file y)) r); [|destruct (y_outputs y) as [|[]]; exact G]. apply (same_finv y); auto. apply update_same.
  - assert (G : finv y' r); [|destruct (y_outputs y) as [|[]]; exact G]. destruct (e_dirty _); inv H; auto. apply (same_finv y); auto. repeat split.
  - inv H. apply fresh_finv; [|reflexivity]. apply (same_trans _ (engine_new limit)); [repeat split|apply start_empty].
Qed.
Lemma run_finv : forall ops y r y' ev, run_ops y ops = Some (y', ev) -> finv y r -> finv y' (requests y ops r).
Proof.
  induction ops as [|o ops IH]; intros y r y' ev H I; cbn [WorkflowEngine_Model.run_ops WorkflowFlush_Spec.requests] in *; [inv H; auto|].
  destruct (step y o) as [[y1 ev1]|] eqn:E; [|discriminate]. destruct (run_ops y1 ops) as [[y2 ev2]|] eqn:E2; [|discriminate]. inv H. eapply IH; eauto. exact (step_finv _ _ _ _ _ E I).
Qed.
Lemma new_finv g limit : finv (system_new g limit) [].
Proof. apply fresh_finv; [|reflexivity]. apply (same_trans _ (engine_new limit)); [repeat split|apply start_empty]. Qed.

Lemma flush_once g limit ops y ev p y' ev' : run_ops (system_new g limit) ops = Some (y, ev) -> approved_next y p -> step y RunOnce = Some (y', ev') ->
  let r := requests (system_new g limit) ops [] in
  (running y r (pa_id p) \/ List.length (waiting y) = 10%nat -> waiting y' = waiting y) /\
  (~ running y r (pa_id p) -> List.length (waiting y) <> 10%nat -> exists n, waiting y' = waiting y ++ [(n, pa_triggers p)] /\ ~ In n (map snd r) /\ ~ In n (y_done y')).
Proof.
  intros H (rest & EO) S r. pose proof (run_finv _ _ _ _ _ H (new_finv g limit)) as I. fold r in I. clearbody r. cbn [WorkflowEngine_Model.step] in S. rewrite EO in S. inv S. cbn [y_done]. unfold waiting at 2 5. cbn [y_engine].
  pose proof (approval y p r I) as A. cbv zeta in A. destruct A as [(R & S1 & S2 & S3)|[(NR & L & B & N & F)|(NR & L & B & N & F)]].
  - split; [intros _; exact S2|]. intros X. elim (X R).
  - split; [intros _; exact B|]. intros _ X. elim (X L).
  - split; [intros [X|X]; [elim (NR X)|lia]|]. intros _ _. exists (e_next (y_engine y)). split; [exact B|]. split.
    + intros X. apply in_map_iff in X as ((id & n) & E & Hn). cbn in E. subst n. apply (f_new _ _ I) in Hn. lia.
    + intros X. apply (f_done _ _ I) in X. lia.
Qed.
Lemma one_at_a_time g limit ops y ev : run_ops (system_new g limit) ops = Some (y, ev) -> let r := requests (system_new g limit) ops [] in
  (List.length (waiting y) <= 10)%nat /\ NoDup (map snd r) /\ (forall n ids, In (n, ids) (waiting y) -> exists id, In (id, n) r) /\
  (forall id n m, In (id, n) r -> In (id, m) r -> ~ In n (y_done y) -> ~ In m (y_done y) -> n = m).
Proof.
  intros H r. pose proof (run_finv _ _ _ _ _ H (new_finv g limit)) as I. fold r in I. splits; [apply I|apply I|apply I|]. intros id n m Hn Hm Dn Dm. pose proof (f_rem _ _ I _ _ Hn Dn). pose proof (f_rem _ _ I _ _ Hm Dm). congruence.
Qed.
(** Nothing else asks for a flush. *)
Lemma only_approvals y o y' ev : step y o = Some (y', ev) -> (o = RunOnce -> forall p, ~ approved_next y p) -> waiting y' = waiting y \/ waiting y' = tl (waiting y) \/ waiting y' = [].
Proof.
  intros H N. unfold waiting. destruct o; cbn [WorkflowEngine_Model.step] in H.
  - destruct (process_log _ _ _ _) as [[e' r']|] eqn:E; [|discriminate]. inv H. apply log_same in E. left. apply E.
  - left. destruct (e_input _) as [|p rest]; [inv H; auto|]. destruct (_ <? _)%nat; [|inv H; auto]. destruct (negotiate _ _ _) as [rej out]. inv H. reflexivity.
  - left. destruct (y_outputs y) as [|[p|p] rest] eqn:EO; inv H; auto. elim (N eq_refl p). exists rest. exact EO.
  - inv H. right. left. reflexivity.
  - inv H. left. reflexivity.
  - inv H. left. cbn [y_engine]. apply update_same.
  - left. destruct (e_dirty _); inv H; auto.
  - inv H. right. right. cbn [y_engine]. destruct (start_empty limit g (y_file y)) as (_ & -> & _). reflexivity.
Qed.
End Flush.
