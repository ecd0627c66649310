From Verif Require Import Base Str_Base ClientConfig_Model ClientConfig_Spec.
Local Open Scope string_scope.
Local Open Scope list_scope.

Lemma run_app : forall a b s, run s (a ++ b) =
  (fst (run (fst (run s a)) b), snd (run s a) ++ snd (run (fst (run s a)) b)).
Proof.
  induction a as [|x a IH]; intros b s; cbn [app run].
  - cbn [fst snd app]. destruct (run s b); reflexivity.
  - destruct (step s x) as [s1 t1]. rewrite IH. destruct (run s1 a) as [s2 t2]. cbn.
    destruct (run s2 b) as [s3 t3]. cbn. rewrite app_assoc. reflexivity.
Qed.

Lemma run_snoc : forall a x s, run s (a ++ [x]) =
  (fst (step (fst (run s a)) x), snd (run s a) ++ snd (step (fst (run s a)) x)).
Proof.
  intros a x s. rewrite run_app. cbn [run]. destruct (step (fst (run s a)) x) as [s1 t1]. cbn.
  rewrite app_nil_r. reflexivity.
Qed.

(** [u] was applied, and nothing was tried from the disk since. *)
Definition held (t : list item) (u : update) : Prop :=
  exists a src b, t = a ++ TTry src u Applied :: b /\ (forall i, In i b -> ~ from_disk i).

Lemma held_app : forall t u b, held t u -> (forall i, In i b -> ~ from_disk i) -> held (t ++ b) u.
Proof.
  intros t u b [a [src [c [-> H] ] ] ] N. exists a, src, (c ++ b). split.
  - rewrite <- app_assoc. reflexivity.
  - intros i X. apply in_app_or in X. destruct X; auto.
Qed.

Lemma last_applied_app : forall a b v, last_applied (a ++ b) v = last_applied b (last_applied a v).
Proof. induction a as [|[ |s u []|n k|n] a IH]; intros b v; cbn; auto. Qed.

Record cinv (s : state) (t : list item) : Prop := {
  i_file : forall u, s_file s = FUpd u -> u_config u <> None -> held t u;
  i_version : s_alive s = true -> partial_handshake s = last_applied t "" }.

Lemma in_ack : forall n k i, In i [TAck n k] -> ~ from_disk i.
Proof. intros n k i [<-|[] ] [u [o H] ]. discriminate. Qed.

Lemma not_disk_start : forall i, In i [TStart] -> ~ from_disk i.
Proof. intros i [<-|[] ] [u [o H] ]. discriminate. Qed.

Lemma write_held : forall f u w f' al t,
  write_file f u w = (f', al) ->
  (forall v, f = FUpd v -> u_config v <> None -> held t v) -> held t u ->
  forall v, f' = FUpd v -> u_config v <> None -> held t v.
Proof.
  intros f u w f' al t E H Hu v -> N. destruct w as [| |k| |k]; cbn in E; inversion E; subst.
  - exact Hu.
  - apply H; auto.
  - destruct k; cbn in *; try discriminate; match goal with X : FUpd _ = FUpd _ |- _ => inversion X; subst end; cbn in N; congruence.
  - apply H; auto.
  - destruct k; cbn in *; try discriminate; match goal with X : FUpd _ = FUpd _ |- _ => inversion X; subst end; cbn in N; congruence.
Qed.

(** One call of process_update. *)
Lemma process_ok : forall s t src u o w s' tr ok,
  process_update s src u o w = (s', tr, ok) ->
  s_alive s = true -> partial_handshake s = last_applied t "" ->
  (src = Disk -> s_file s = FNone) ->
  (forall v, s_file s = FUpd v -> u_config v <> None -> held t v) ->
  cinv s' (t ++ tr) /\ (ok = false -> s_alive s' = true -> s' = s).
Proof.
  intros s t src u o w s' tr ok E Al V D F. unfold process_update in E.
  destruct (u_config u) as [c|] eqn:C.
  2:{ injection E as <- <- <-. rewrite app_nil_r. split; [constructor; auto|auto]. }
  assert (Keep : forall v, s_file s = FUpd v -> u_config v <> None -> held (t ++ [TTry src u o]) v).
  { intros v Fv N. destruct src; [rewrite D in Fv by reflexivity; discriminate|].
    apply held_app; [apply F; auto|]. intros i [<-|[] ] [u0 [o0 X] ]. discriminate. }
  assert (New : held (t ++ [TTry src u Applied]) u).
  { exists t, src, []. split; [reflexivity|]. intros i []. }
  destruct o.
  - destruct (write_file (s_file s) u w) as [f al] eqn:W. injection E as <- <- <-. split; [|discriminate].
    constructor; cbn [s_file s_alive s_version].
    + intros v Fv N. eapply write_held; eauto.
    + intros ->. unfold partial_handshake. cbn [s_version]. rewrite last_applied_app. reflexivity.
  - injection E as <- <- <-. split; [|auto]. constructor; [exact Keep|].
    intros _. rewrite last_applied_app. cbn. exact V.
  - injection E as <- <- <-. cbn [s_alive]. split; [|discriminate].
    constructor; cbn [s_file s_alive]; [exact Keep|discriminate].
Qed.

Lemma cinv_step : forall s t x, cinv s t -> cinv (fst (step s x)) (t ++ snd (step s x)).
Proof.
  intros s t x I. destruct x as [rd rm o w|u o w| |]; cbn [step].
  - set (s0 := {| s_alive := true; s_version := None; s_file := s_file s |}).
    assert (Base : cinv s0 (t ++ [TStart])).
    { constructor; cbn.
      - intros u Fu N. apply held_app; [apply (i_file _ _ I); auto|apply not_disk_start].
      - intros _. rewrite last_applied_app. reflexivity. }
    unfold load. cbn [s_file s0].
    assert (Gone : cinv {| s_alive := true; s_version := None; s_file := FNone |} (t ++ [TStart])).
    { constructor; cbn; [discriminate|]. intros _. rewrite last_applied_app. reflexivity. }
    destruct (s_file s) as [| |u] eqn:Fs; [exact Base| |].
    + destruct rd; [|exact Base]. destruct rm; [|exact Base]. exact Gone.
    + destruct rd; [|exact Base]. destruct rm; [|exact Base]. cbn [negb].
      destruct (process_update {| s_alive := s_alive s0; s_version := s_version s0; s_file := FNone |} Disk u o w)
        as [ [s' tr] ok] eqn:P.
      cbn [fst snd]. replace (t ++ TStart :: tr) with ((t ++ [TStart]) ++ tr) by (rewrite <- app_assoc; reflexivity).
      apply (process_ok _ (t ++ [TStart]) _ _ _ _ _ _ _ P); cbn; auto; try discriminate.
      rewrite last_applied_app. reflexivity.
  - destruct (s_alive s) eqn:Al; [|cbn; rewrite app_nil_r; exact I].
    unfold try_apply. destruct (process_update s Server u o w) as [ [s' tr] ok] eqn:P.
    destruct (process_ok s t _ _ _ _ _ _ _ P Al (i_version _ _ I Al)) as [C _];
      [discriminate|apply (i_file _ _ I)|].
    destruct (s_alive s') eqn:Al'; [|exact C]. cbn [fst snd]. rewrite app_assoc. constructor.
    + intros v Fv N. apply held_app; [apply (i_file _ _ C); auto|apply in_ack].
    + intros _. rewrite last_applied_app. cbn. apply (i_version _ _ C Al').
  - destruct (s_alive s) eqn:Al; [|cbn; rewrite app_nil_r; exact I]. cbn [fst snd]. constructor.
    + intros u Fu N. apply held_app; [apply (i_file _ _ I); auto|].
      intros i [<-|[] ] [u0 [o0 X] ]. discriminate.
    + intros _. rewrite last_applied_app. cbn. apply (i_version _ _ I Al).
  - cbn [fst snd]. rewrite app_nil_r. constructor; cbn; [apply (i_file _ _ I)|discriminate].
Qed.

Lemma cinv_run : forall xs s t, cinv s t -> cinv (fst (run s xs)) (t ++ snd (run s xs)).
Proof.
  induction xs as [|x xs IH]; intros s t I; cbn [run]; [cbn; rewrite app_nil_r; exact I|].
  pose proof (cinv_step s t x I) as I1. destruct (step s x) as [s1 t1]. cbn [fst snd] in I1.
  specialize (IH s1 _ I1). destruct (run s1 xs) as [s2 t2]. cbn [fst snd] in *.
  rewrite app_assoc. exact IH.
Qed.

Lemma cinv_new : cinv state_new [].
Proof. constructor; cbn; discriminate. Qed.

(** Every item is emitted by a step from a reachable state. *)
Lemma split_run : forall (P : item -> list item -> Prop),
  (forall s t x p i q, cinv s t -> snd (step s x) = p ++ i :: q -> P i (t ++ p)) ->
  forall xs a i b, snd (run state_new xs) = a ++ i :: b -> P i a.
Proof.
  intros P H xs.
  assert (G : forall xs s t, cinv s t -> forall a i b, snd (run s xs) = a ++ i :: b -> P i (t ++ a)).
  { clear xs. induction xs as [|x xs IH]; intros s t I a i b E; cbn [run] in E; [destruct a; discriminate|].
    pose proof (H s t x) as Hs. pose proof (cinv_step s t x I) as I1.
    destruct (step s x) as [s1 t1]. cbn [fst snd] in *.
    specialize (IH s1 _ I1). destruct (run s1 xs) as [s2 t2]. cbn [fst snd] in *.
    assert (S : (exists q, t1 = a ++ i :: q) \/ (exists p, a = t1 ++ p /\ t2 = p ++ i :: b)).
    { clear -E. revert a E. induction t1 as [|y t1 IH]; intros a E; cbn in E; [right; exists a; auto|].
      destruct a as [|z a]; cbn in E; injection E as -> E.
      - left. exists t1. reflexivity.
      - destruct (IH _ E) as [ [q ->]|[p [-> F] ] ]; [left; exists q; reflexivity|right; exists p; auto]. }
    destruct S as [ [q S]|[p [-> S] ] ]; [apply (Hs _ _ _ I S)|].
    rewrite app_assoc. eapply IH; eauto. }
  intros a i b E. apply (G xs state_new [] cinv_new _ _ _ E).
Qed.

Lemma single : forall (A : Type) (x : A) p i q, [x] = p ++ i :: q -> p = [] /\ i = x.
Proof.
  intros A x p i q H. destruct p as [|y p]; cbn in H; [injection H as -> _; auto|].
  destruct p; discriminate.
Qed.

Lemma process_trace : forall s src u o w s' tr ok,
  process_update s src u o w = (s', tr, ok) ->
  tr = [] \/ (tr = [TTry src u o] /\ u_config u <> None).
Proof.
  intros s src u o w s' tr ok E. unfold process_update in E. destruct (u_config u) as [c|] eqn:C.
  - right. split; [|congruence]. destruct o; [destruct (write_file (s_file s) u w)| |]; injection E as _ <- _; reflexivity.
  - left. injection E as _ <- _. reflexivity.
Qed.

(** What a start tries is what was applied, and not tried from the disk since. *)
Lemma disk_source : forall xs a u o b,
  snd (run state_new xs) = a ++ TTry Disk u o :: b -> held a u.
Proof.
  intros xs a u o b E.
  cut ((fun i a => forall u o, i = TTry Disk u o -> held a u) (TTry Disk u o) a); [intros H; eapply H; reflexivity|].
  revert E. apply split_run. clear xs a u o b. intros s t x p i q I E u o ->.
  destruct x as [rd rm o' w|u' o' w| |]; cbn [step] in E.
  - unfold load in E. cbn [s_file] in E.
    assert (No : TStart :: (@nil item) = p ++ TTry Disk u o :: q -> held (t ++ p) u).
    { intros X. apply single in X. destruct X. discriminate. }
    destruct (s_file s) as [| |v] eqn:Fs; [exact (No E)| |].
    + destruct rd, rm; exact (No E).
    + destruct rd; [|exact (No E)]. destruct rm; [|exact (No E)]. cbn [negb] in E.
      destruct (process_update _ Disk v o' w) as [ [s' tr] ok] eqn:P. cbn [fst snd] in E.
      destruct (process_trace _ _ _ _ _ _ _ _ P) as [->|[-> C] ]; [exact (No E)|].
      destruct p as [|y p]; cbn in E; [discriminate|]. injection E as <- E.
      apply single in E. destruct E as [-> E]. injection E as -> ->.
      apply held_app; [apply (i_file _ _ I); assumption|apply not_disk_start].
  - destruct (s_alive s); [|destruct p; discriminate]. unfold try_apply in E.
    destruct (process_update s Server u' o' w) as [ [s' tr] ok] eqn:P.
    destruct (process_trace _ _ _ _ _ _ _ _ P) as [->|[-> C] ]; destruct (s_alive s'); cbn in E.
    + apply single in E. destruct E. discriminate.
    + destruct p; discriminate.
    + destruct p as [|y p]; cbn in E; [discriminate|]. injection E as <- E. apply single in E. destruct E. discriminate.
    + apply single in E. destruct E. discriminate.
  - destruct (s_alive s); [apply single in E; destruct E; discriminate|destruct p; discriminate].
  - destruct p; discriminate.
Qed.

Lemma handshake_version : forall xs a n b,
  snd (run state_new xs) = a ++ THandshake n :: b -> n = last_applied a "".
Proof.
  intros xs a n b E.
  cut ((fun i a => forall n, i = THandshake n -> n = last_applied a "") (THandshake n) a); [intros H; eapply H; reflexivity|].
  revert E. apply split_run. clear xs a n b. intros s t x p i q I E n ->.
  destruct x as [rd rm o' w|u' o' w| |]; cbn [step] in E.
  - assert (T : exists tr, snd (load {| s_alive := true; s_version := None; s_file := s_file s |} rd rm o' w) = tr /\
        (tr = [] \/ exists u, tr = [TTry Disk u o'])).
    { eexists. split; [reflexivity|]. unfold load. cbn [s_file].
      destruct (s_file s) as [| |v]; [left; reflexivity| |]; destruct rd, rm; try (left; reflexivity).
      cbn [negb]. destruct (process_update _ Disk v o' w) as [ [s' tr] ok] eqn:P.
      destruct (process_trace _ _ _ _ _ _ _ _ P) as [->|[-> C] ]; [left; reflexivity|right; exists v; reflexivity]. }
    destruct (load _ rd rm o' w) as [s1 t1]. cbn [fst snd] in *. destruct T as [tr [-> T] ].
    destruct p as [|y p]; cbn in E; [discriminate|]. injection E as <- E.
    destruct T as [->|[u ->] ]; [destruct p; discriminate|apply single in E; destruct E; discriminate].
  - destruct (s_alive s); [|destruct p; discriminate]. unfold try_apply in E.
    destruct (process_update s Server u' o' w) as [ [s' tr] ok] eqn:P.
    destruct (process_trace _ _ _ _ _ _ _ _ P) as [->|[-> C] ]; destruct (s_alive s'); cbn in E.
    + apply single in E. destruct E. discriminate.
    + destruct p; discriminate.
    + destruct p as [|y p]; cbn in E; [discriminate|]. injection E as <- E. apply single in E. destruct E. discriminate.
    + apply single in E. destruct E. discriminate.
  - destruct (s_alive s) eqn:Al; [|destruct p; discriminate]. apply single in E. destruct E as [-> E].
    injection E as ->. rewrite app_nil_r. apply (i_version _ _ I Al).
  - destruct p; discriminate.
Qed.

Lemma on_disk : forall xs u, s_file (fst (run state_new xs)) = FUpd u -> u_config u <> None ->
  exists src, In (TTry src u Applied) (snd (run state_new xs)).
Proof.
  intros xs u F N. pose proof (cinv_run xs _ _ cinv_new) as I.
  destruct (i_file _ _ I _ F N) as [a [src [b [E _] ] ] ]. cbn [app] in E. exists src. rewrite E. apply in_or_app. right. left. reflexivity.
Qed.

(** The ack for an update that was applied names it. *)
Lemma ack_applied : forall xs a n b,
  snd (run state_new xs) = a ++ TAck n false :: b -> n = last_applied a "".
Proof.
  intros xs a n b E.
  cut ((fun i a => forall n, i = TAck n false -> n = last_applied a "") (TAck n false) a); [intros H; eapply H; reflexivity|].
  revert E. apply split_run. clear xs a n b. intros s t x p i q I E n ->.
  destruct x as [rd rm o' w|u' o' w| |]; cbn [step] in E.
  - assert (T : exists tr, snd (load {| s_alive := true; s_version := None; s_file := s_file s |} rd rm o' w) = tr /\
        (tr = [] \/ exists u, tr = [TTry Disk u o'])).
    { eexists. split; [reflexivity|]. unfold load. cbn [s_file].
      destruct (s_file s) as [| |v]; [left; reflexivity| |]; destruct rd, rm; try (left; reflexivity).
      cbn [negb]. destruct (process_update _ Disk v o' w) as [ [s' tr] ok] eqn:P.
      destruct (process_trace _ _ _ _ _ _ _ _ P) as [->|[-> C] ]; [left; reflexivity|right; exists v; reflexivity]. }
    destruct (load _ rd rm o' w) as [s1 t1]. cbn [fst snd] in *. destruct T as [tr [-> T] ].
    destruct p as [|y p]; cbn in E; [discriminate|]. injection E as <- E.
    destruct T as [->|[u ->] ]; [destruct p; discriminate|apply single in E; destruct E; discriminate].
  - destruct (s_alive s); [|destruct p; discriminate]. unfold try_apply, process_update in E.
    destruct (u_config u') as [c|].
    2:{ cbn in E. destruct (s_alive s); [apply single in E; destruct E as [_ E]; discriminate|destruct p; discriminate]. }
    destruct o'.
    + destruct (write_file (s_file s) u' w) as [f al]. cbn [s_alive] in E. destruct al; cbn in E.
      * destruct p as [|y p]; cbn in E; [discriminate|]. injection E as <- E. apply single in E.
        destruct E as [-> E]. injection E as ->. rewrite last_applied_app. reflexivity.
      * apply single in E. destruct E. discriminate.
    + destruct (s_alive s); cbn in E.
      * destruct p as [|y p]; cbn in E; [discriminate|]. injection E as <- E. apply single in E.
        destruct E as [_ E]. discriminate.
      * apply single in E. destruct E. discriminate.
    + cbn in E. apply single in E. destruct E. discriminate.
  - destruct (s_alive s); [apply single in E; destruct E; discriminate|destruct p; discriminate].
  - destruct p; discriminate.
Qed.

(** Quiet operations leave the file. *)
Lemma quiet_step : forall s x u c, u_config u = Some c -> s_file s = FUpd u -> quiet x ->
  s_file (fst (step s x)) = FUpd u.
Proof.
  intros s x u c C F Q. destruct x as [rd rm o w|v o w| |]; cbn [quiet step] in *.
  - unfold load, process_update. cbn [s_file]. rewrite F, C.
    destruct rd; [|reflexivity]. destruct rm; [|reflexivity]. destruct Q as [Q|[Q|[-> ->] ] ]; [discriminate|discriminate|].
    reflexivity.
  - destruct (s_alive s); [|exact F]. unfold try_apply, process_update.
    destruct (u_config v); [|destruct (s_alive s); exact F].
    destruct o; [contradiction| |]; cbn; [destruct (s_alive s); exact F|exact F].
  - destruct (s_alive s); exact F.
  - exact F.
Qed.
Lemma quiet_run : forall xs s u c, u_config u = Some c -> s_file s = FUpd u -> Forall quiet xs ->
  s_file (fst (run s xs)) = FUpd u.
Proof.
  induction xs as [|x xs IH]; intros s u c C Fs F; [exact Fs|]. apply Forall_cons_iff in F. destruct F as [F1 F2].
  pose proof (quiet_step s x u c C Fs F1) as Q. cbn [run]. destruct (step s x) as [s1 t1]. cbn [fst] in Q.
  specialize (IH s1 u c C Q F2). destruct (run s1 xs) as [s2 t2]. exact IH.
Qed.

Lemma reloaded : forall h u c mid o w,
  u_config u = Some c -> s_alive (fst (run state_new h)) = true -> Forall quiet mid ->
  snd (run (fst (run state_new (h ++ [Update u Applied WOk] ++ mid))) [Start true true o w])
    = [TStart; TTry Disk u o].
Proof.
  intros h u c mid o w C Al Q. rewrite app_assoc, run_app. cbn [fst]. rewrite run_snoc. cbn [fst].
  set (s := fst (run state_new h)) in *. cbn [run]. cbn [step].
  rewrite (quiet_run _ _ u c C); [|cbn [step]; rewrite Al; unfold try_apply, process_update; rewrite C; reflexivity|exact Q].
  unfold load, process_update. cbn [s_file negb]. rewrite C.
  destruct o; [destruct (write_file _ u w)| |]; cbn; reflexivity.
Qed.

Lemma attempted_once : forall xs a u o b u' o' c,
  snd (run state_new xs) = a ++ TTry Disk u o :: b ++ TTry Disk u' o' :: c -> o <> Applied ->
  exists v, In (TTry Server v Applied) b.
Proof.
  intros xs a u o b. remember (List.length b) as n eqn:L. revert b L.
  induction n as [n IH] using lt_wf_ind. intros b L u' o' c E0 N.
  assert (E := E0).
  replace (a ++ TTry Disk u o :: b ++ TTry Disk u' o' :: c)
    with ((a ++ TTry Disk u o :: b) ++ TTry Disk u' o' :: c) in E by (rewrite <- app_assoc; reflexivity).
  apply disk_source in E. destruct E as [p [src [q [E H] ] ] ].
  assert (G : forall a p, a ++ TTry Disk u o :: b = p ++ TTry src u' Applied :: q ->
     exists p', b = p' ++ TTry src u' Applied :: q).
  { clear -H N. induction a as [|y a IH]; intros p E; cbn in E.
    - destruct p as [|z p]; cbn in E; [injection E as _ _ X _; congruence|].
      injection E as _ E. exists p. exact E.
    - destruct p as [|z p]; cbn in E; [|injection E as _ E; eapply IH; eauto].
      injection E as _ E. exfalso. apply (H (TTry Disk u o)); [|exists u, o; reflexivity].
      rewrite <- E. apply in_or_app. right. left. reflexivity. }
  destruct (G _ _ E) as [p' Eb]. subst b. destruct src.
  - rewrite <- app_assoc in E0. cbn [app] in E0.
    destruct (IH (List.length p')) with (b := p') (u' := u') (o' := Applied) (c := q ++ TTry Disk u' o' :: c)
      as [v V]; [rewrite L, app_length; cbn; lia|reflexivity|exact E0|exact N|].
    exists v. apply in_or_app. left. exact V.
  - exists u'. apply in_or_app. right. left. reflexivity.
Qed.
