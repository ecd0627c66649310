(** C84-C86: periodic reports, screenshots, platform events. *)
From Verif Require Import Base Recorder_Model Recorder_Spec Recorder_Proofs RecorderShots_Proofs.
Local Open Scope Z_scope.

(** In a running reporter either the change of the switch can be noticed now, or the switch is obeyed. *)
Theorem C84_switch : forall b0 d0 l p e t0, prun (pacer_new b0 d0) l = Done p e -> In (PRun t0) l ->
  ready (prun (pacer_new b0 d0) (l ++ [PEnabled])) \/
  (if enabled_now b0 l then exists due, forall t, ready (prun (pacer_new b0 d0) (l ++ [PTick t])) <-> due <= t
   else forall t, ~ ready (prun (pacer_new b0 d0) (l ++ [PTick t]))).
Proof. exact switch. Qed.
Print Assumptions C84_switch.

Theorem C84_off : forall b0 d0 l1 l2 p1 e1 p2 e2, prun (pacer_new b0 d0) (l1 ++ [PEnabled]) = Done p1 e1 -> enabled_now b0 l1 = false ->
  prun p1 l2 = Done p2 e2 -> ~ In (PSetEnabled true) l2 -> e2 = [].
Proof. exact off. Qed.
Print Assumptions C84_off.

(** Never too often: the k-th tick after a tick is k periods later, less 5 ms. *)
Theorem C84_pacing : forall b0 d0 l1 t0 l2 p1 e1 p2 e2 d, prun (pacer_new b0 d0) (l1 ++ [PTick t0]) = Done p1 e1 -> in_force d0 d l1 ->
  prun p1 l2 = Done p2 e2 -> (forall t, ~ In (PRate t) l2) ->
  forall k t, nth_error e2 k = Some t -> t0 + Z.of_nat (S k) * d - 5000000 <= t.
Proof. exact pacing. Qed.
Print Assumptions C84_pacing.

Theorem C84_new_rate : forall b0 d0 l1 t0 l2 p1 e1 p2 e2, prun (pacer_new b0 d0) (l1 ++ [PRate t0]) = Done p1 e1 ->
  prun p1 l2 = Done p2 e2 -> (forall t, ~ In (PRate t) l2) ->
  forall k t, nth_error e2 k = Some t -> t0 + Z.of_nat (S k) * rate_now d0 l1 <= t.
Proof. exact pacing_new. Qed.
Print Assumptions C84_new_rate.

(** Never too late: one period after the last tick or the last look at the rate the next tick can happen; the first one at once. *)
Theorem C84_due : forall b0 d0 l1 o l2 p e d t0, prun (pacer_new b0 d0) (l1 ++ o :: l2) = Done p e ->
  (forall t, ~ In (PRate t) l2) -> (forall t, ~ In (PTick t) l2) -> in_force d0 d (l1 ++ o :: l2) -> 0 <= d ->
  o = PTick t0 \/ o = PRate t0 \/ (o = PRun t0 /\ forall t, ~ In (PRun t) l1) ->
  enabled_now b0 (l1 ++ o :: l2) = true -> ~ ready (prun (pacer_new b0 d0) ((l1 ++ o :: l2) ++ [PEnabled])) ->
  forall t, (if match o with PRun _ => true | _ => false end then t0 else t0 + d) <= t -> ready (prun (pacer_new b0 d0) ((l1 ++ o :: l2) ++ [PTick t])).
Proof. exact due. Qed.
Print Assumptions C84_due.

(** What happened is what was called. *)
Theorem C84_ticks : forall b0 d0 l p e, prun (pacer_new b0 d0) l = Done p e -> forall t, In t e <-> In (PTick t) l.
Proof. intros b0 d0 l p e H. exact (pi_ev _ _ _ _ _ (pinv_run _ _ _ _ _ H)). Qed.
Print Assumptions C84_ticks.

Theorem C84_no_crash_partial : forall b0 d0 l, d0 <> 0 -> ~ In (PSetRate 0) l -> prun (pacer_new b0 d0) l <> Panic.
Proof. exact no_panic. Qed.
Print Assumptions C84_no_crash_partial.

(** A reporting interval of zero in the runtime configuration ends the run loop of the logger: at the next look, or at the start. *)
Theorem C84_no_crash_refuted :
  (forall b0 d0 l p e t0 t, prun (pacer_new b0 d0) l = Done p e -> In (PRun t0) l -> rate_now d0 l <> 0 ->
     prun (pacer_new b0 d0) (l ++ [PSetRate 0; PRate t]) = Panic) /\
  (forall b0 l p e t0, prun (pacer_new b0 0) l = Done p e -> prun (pacer_new b0 0) (l ++ [PRun t0]) = Panic).
Proof. split. exact zero_panics. exact zero_panics_first. Qed.
Print Assumptions C84_no_crash_refuted.

(** Started off, switched on, two ticks of 3 s, one late; a new rate; switched off. *)
Definition ex_pacer : list pop :=
  [PRun 0; PSetEnabled true; PEnabled; PTick 100; PTick 3000000000; PTick 7000000000; PTick 10000000000; PSetRate 1000000000; PSetRate 2000000000; PRate 10500000000;
   PTick 12500000000; PSetEnabled false; PEnabled].
Example C84_case : (exists p, prun (pacer_new false 3000000000) ex_pacer = Done p [100; 3000000000; 7000000000; 10000000000; 12500000000]) /\
  prun (pacer_new false 3000000000) [PRun 0; PSetEnabled true; PEnabled; PTick 100; PTick 2999999999] = NotReady /\
  prun (pacer_new false 3000000000) (ex_pacer ++ [PTick 20000000000]) = NotReady /\
  in_force 3000000000 2000000000 ex_pacer.
Proof.
  splits; [eexists; vm_compute; reflexivity|vm_compute; reflexivity|vm_compute; reflexivity|].
  right. exists [PRun 0; PSetEnabled true; PEnabled; PTick 100; PTick 3000000000; PTick 7000000000; PTick 10000000000; PSetRate 1000000000; PSetRate 2000000000], 10500000000,
    [PTick 12500000000; PSetEnabled false; PEnabled]. splits; auto. simpl. intuition discriminate.
Qed.
Example C84_zero_case : prun (pacer_new true 3000000000) [PRun 0; PTick 0; PSetRate 0; PRate 5] = Panic /\ exists p, prun (pacer_new true 3000000000) [PRun 0; PTick 0] = Done p [0].
Proof. split; [|eexists]; vm_compute; reflexivity. Qed.

Theorem C85_counts : forall b0 l s e, srun (shots_new b0) l = Some (s, e) ->
  (count is_request l = s_success s + s_full s + s_disabled s + s_not_ready s + (if s_queued s then 1 else 0) /\
  captures e = s_success s /\ count is_log l = s_received s)%nat.
Proof. exact counts. Qed.
Print Assumptions C85_counts.

(** A request is counted as refused because screenshots are off, or because one is waiting, exactly when that is so. *)
Theorem C85_reasons : forall b0 l s e, srun (shots_new b0) l = Some (s, e) -> s_disabled s = off_takes b0 b0 l /\ s_full s = full_requests false l.
Proof. exact reasons. Qed.
Print Assumptions C85_reasons.

Theorem C85_one_at_a_time_partial : forall b0 l s e a b c, srun (shots_new b0) l = Some (s, e) -> polite e ->
  e = a ++ (STake, true) :: b ++ (STake, true) :: c -> In SLog (map fst b).
Proof. exact one_at_a_time. Qed.
Print Assumptions C85_one_at_a_time_partial.

Theorem C85_no_unexpected : forall b0 l s e, srun (shots_new b0) l = Some (s, e) -> polite e -> s_unexpected s = 0%nat.
Proof. exact no_unexpected. Qed.
Print Assumptions C85_no_unexpected.

(** A request made when every screenshot was logged and all signals were taken is passed on if screenshots are on, and only then. *)
Theorem C85_served : forall b0 l s e, srun (shots_new b0) l = Some (s, e) -> polite e ->
  captures e = count is_log l -> srun (shots_new b0) (l ++ [STake]) = None -> srun (shots_new b0) (l ++ [SNext]) = None -> srun (shots_new b0) (l ++ [SEnabled]) = None ->
  exists s', srun (shots_new b0) (l ++ [SRequest; STake]) = Some (s', e ++ [(SRequest, false); (STake, shots_now b0 l)]).
Proof. exact served. Qed.
Print Assumptions C85_served.

(** One screenshot logged unasked, and the platform is asked twice without a screenshot in between. *)
Theorem C85_one_at_a_time_refuted : exists l s e a b c, srun (shots_new true) l = Some (s, e) /\
  e = a ++ (STake, true) :: b ++ (STake, true) :: c /\ ~ In SLog (map fst b).
Proof.
  exists [SLog; SRequest; STake; SNext; SRequest; STake]. eexists _, _, [(SLog, false); (SRequest, false)], [(SNext, false); (SRequest, false)], [].
  split; [vm_compute; reflexivity|]. split; [reflexivity|]. simpl. intuition discriminate.
Qed.
Print Assumptions C85_one_at_a_time_refuted.

(** A screenshot that never reaches the interceptor (the platform failed, or the log was dropped because the channel was full) is the last one of the process. *)
Theorem C85_recovers_refuted : exists l s e, srun (shots_new true) l = Some (s, e) /\ polite e /\ captures e = 1%nat /\
  forall l', ~ In SLog l' -> forall s' e', srun (shots_new true) (l ++ l') = Some (s', e') -> captures e' = 1%nat.
Proof. exact stuck_forever. Qed.
Print Assumptions C85_recovers_refuted.

Definition ex_shots : list sop := [SRequest; SRequest; STake; SSetEnabled true; SEnabled; SRequest; STake; SRequest; STake; SLog; SNext].
Example C85_case : exists s e, srun (shots_new false) ex_shots = Some (s, e) /\ polite e /\ captures e = 1%nat /\ count is_log ex_shots = 1%nat /\
  s_success s = 1%nat /\ s_full s = 1%nat /\ s_disabled s = 1%nat /\ s_not_ready s = 1%nat /\
  srun (shots_new false) (ex_shots ++ [STake]) = None /\ srun (shots_new false) (ex_shots ++ [SNext]) = None /\ srun (shots_new false) (ex_shots ++ [SEnabled]) = None.
Proof.
  eexists _, _. split; [vm_compute; reflexivity|]. splits; try (vm_compute; reflexivity).
  intros a b. do 12 (destruct a as [|? a]; [intros _; vm_compute; lia|simpl; intros Hx; inversion Hx as [[X Y]]; subst; clear Hx; rename Y into Hx; revert Hx]).
  all: try (intros Hx; destruct a; discriminate).
Qed.

Theorem C86_follows : forall l s e, lrun (listener_new false) l = Some (s, e) -> lrun (listener_new false) (l ++ [LArm]) = None ->
  if events_now false l then exists e', e = e' ++ [Start] else e = [] \/ exists e', e = e' ++ [Stop].
Proof. exact follows. Qed.
Print Assumptions C86_follows.

Theorem C86_looks : forall l s e, lrun (listener_new false) l = Some (s, e) -> lrun (listener_new false) (l ++ [LSet (negb (events_now false l)); LArm]) <> None.
Proof. exact looks. Qed.
Print Assumptions C86_looks.

(** Calls need not alternate: two changes between two looks. *)
Theorem C86_alternates_refuted : (exists l s, lrun (listener_new false) l = Some (s, [Start; Start])) /\ (exists l s, lrun (listener_new false) l = Some (s, [Stop])).
Proof.
  split.
  - exists [LSet true; LArm; LSet false; LSet true; LArm]. eexists. vm_compute. reflexivity.
  - exists [LSet true; LSet false; LArm; LSet true; LSet false; LArm]. eexists. vm_compute. reflexivity.
Qed.
Print Assumptions C86_alternates_refuted.

(** Had the flag been on when the listener was made, it would never be started. (In the shipped wiring the cached configuration is loaded later, api.rs line 448.) *)
Theorem C86_already_on_refuted : forall l, (forall b, In (LSet b) l -> b = true) -> forall s e, lrun (listener_new true) l = Some (s, e) ->
  e = [] /\ lrun (listener_new true) (l ++ [LArm]) = None.
Proof. exact already_on. Qed.
Print Assumptions C86_already_on_refuted.

Example C86_case : exists s, lrun (listener_new false) [LSet true; LArm; LSet false; LArm; LSet true; LArm] = Some (s, [Start; Stop; Start]) /\
  lrun (listener_new false) [LSet true; LArm; LSet false; LArm; LSet true; LArm; LArm] = None.
Proof. eexists. split; vm_compute; reflexivity. Qed.
Example C86_already_on_case : exists s, lrun (listener_new true) [LSet true; LSet true] = Some (s, []).
Proof. eexists. vm_compute. reflexivity. Qed.
