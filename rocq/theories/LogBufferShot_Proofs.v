From Verif Require Import Base Str_Base Log_Model Metadata_Model LogBuffer_Model LogBuffer_Spec LogBuffer_Proofs LogBufferShot_Spec.
Local Open Scope string_scope. Local Open Scope list_scope.

Section Shot.
Variables (C P V E R : Type).
Variables (p_new : C -> P) (p_update : P -> C -> P) (p_log : P -> log -> bool -> V -> option (P * list E)) (p_run : P -> R -> option (P * list E))
  (p_persist : P -> P).
Variables (threshold write_interval : Z) (size : log -> N) (show_time : Z -> string) (has_stats : bool).
Notation step := (step C P V E R p_new p_update p_log p_run p_persist threshold write_interval size show_time has_stats).
Notation run := (run C P V E R p_new p_update p_log p_run p_persist threshold write_interval size show_time has_stats).
Notation event := (event V E).

Definition plain (x : event) : Prop := x <> Shot /\ forall k l w t, x <> Taken k (CLog l w) t.
Lemma told_app : forall e1 e2 : list event, told e1 -> told e2 -> told (e1 ++ e2).
Proof. intros e1 e2 H1 H2. induction H1; simpl; [exact H2|constructor; assumption ..]. Qed.
Lemma told_plain : forall e : list event, Forall plain e -> told e.
Proof. induction 1 as [|x e [H1 H2] _ IH]; [constructor|]. apply told_other; assumption. Qed.
Ltac pl := split; [discriminate|intros; discriminate].
Lemma ret_plain k w : Forall plain (ret V E k w).
Proof. unfold ret. destruct w; repeat constructor; intros; discriminate. Qed.
Lemma gone_plain (b : buf P) : Forall plain (snd (gone P V E b)).
Proof.
  unfold gone. simpl. apply Forall_app; split.
  - unfold release_place. destruct (b_place b) as [|k []|k []|]; repeat (apply Forall_cons; [pl|]); apply Forall_nil.
  - unfold release. apply Forall_forall. intros x Hx. apply in_map_iff in Hx. destruct Hx as (m & <- & _). pl.
Qed.
Lemma inner_plain l (b b' : buf P) e d : inner P V E b l = (b', e, d) -> Forall plain e.
Proof.
  intros H. destruct (inner_shape P V E threshold show_time has_stats _ _ _ _ _ H) as (q & Q). apply Forall_forall. intros x Hx.
  destruct (is_events _ _ _ _ _ _ _ _ Q x Hx) as [(c & ->)|(k & w & a & ->)]; pl.
Qed.
Lemma shot_iff on now i l i' l' s : intercept on now i l = (i', l', s) -> (s = true <-> screenshot_log l).
Proof.
  unfold intercept. destruct (report_process _ _ _ _ _) as [r fs]. destruct (traffic_process _ _ _ _ _ _) as [[c q] fs']. intros H. inversion H; subst; clear H.
  unfold shot_process, screenshot_log. rewrite Bool.andb_true_iff, N.eqb_eq. destruct (ln_message l) as [m|m].
  - rewrite String.eqb_eq. split; intros [H1 H2]; split; auto; congruence.
  - split; intros [H1 H2]; discriminate.
Qed.
Lemma step_told b x b' e : step b x = Some (b', e) -> told e.
Proof.
  intros H. apply step_out in H. destruct H as [c|c a _ _|q|k|k|c vs p e Hp He _|c vs Hp|m q l w t i l' shot b' e Hp Hq Hm Hi Ho|m q f t Hp Hq Hm|m q f t Hp Hq Hm|m q w t Hp Hq Hm|k w Hp|k w p Hp Hs|k w p Hp Hs|r p p' es Hp Hs|r p Hp Hs|Hp];
    try (apply told_plain; repeat (apply Forall_cons; [pl|]); try apply Forall_nil; try apply ret_plain; apply gone_plain).
  - apply told_plain. apply Forall_forall. intros x Hx. destruct (He x Hx) as (l & es & ->). pl.
  - assert (Te : told e).
    { apply told_plain. destruct Ho as [b1 ie d b2 Hin|b1 ie Hin Hn|b1 ie ts pv md lg internal s b2 h Hin Ht Hpv Hmd Hw Hl].
      - apply Forall_app; split; [exact (inner_plain _ _ _ _ _ Hin)|]. apply Forall_cons; [pl|]. apply Forall_app; split; [apply ret_plain|apply gone_plain].
      - apply Forall_app; split; [exact (inner_plain _ _ _ _ _ Hin)|]. apply Forall_cons; [pl|]. apply ret_plain.
      - apply Forall_app; split; [exact (inner_plain _ _ _ _ _ Hin)|]. apply Forall_cons; [destruct internal; pl|]. apply ret_plain. }
    pose proof (shot_iff _ _ _ _ _ _ _ Hi) as Hs. destruct shot; simpl.
    + apply told_shot; [apply Hs; reflexivity|exact Te].
    + apply told_log; [|exact Te]. intros Hx. apply Hs in Hx. discriminate.
  - apply told_plain. apply Forall_cons; [pl|]. destruct has_stats; repeat (apply Forall_cons; [pl|]); apply Forall_nil.
Qed.
Lemma run_told : forall l b b' e, run b l = Some (b', e) -> told e.
Proof.
  induction l as [|x l IH]; intros b b' e H; simpl in H; [inversion H; constructor|].
  destruct (step b x) as [[b1 e1]|] eqn:Es; [|discriminate]. destruct (run b1 l) as [[b2 e2]|] eqn:Er; [|discriminate]. inversion H; subst.
  apply told_app; [exact (step_told _ _ _ _ Es)|exact (IH _ _ _ Er)].
Qed.
End Shot.
