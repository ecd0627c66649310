(** C124-C130: pings, network quality and reconnects of the API task. *)
From Verif Require Import Base Connection_Model Connection_Spec Connection_Proofs.
Open Scope string_scope.
Open Scope Z_scope.
Open Scope list_scope.

(** An execution for the examples: a stream with a ping interval of 10 s is up, is
    pinged, answers, is closed; two attempts fail; nothing is heard from the third. *)
Definition sec : Z := 1000000000.
Definition day1 : list event :=
  [Pass sec; Shake (Some (10 * sec)) [Pong]; Pass (10 * sec); Timer true; Pass sec; Data [Other true; Pong; ErrorShutdown];
   Pass (10 * sec); Timer true; Upload true; Closed "bye" sec true; Pass sec; Timer true;
   Closed "no" sec true; Pass (2 * sec); Timer true; EarlyError "busy" (2 * sec); Pass (14 * sec); Timer true].
Definition t1 : list item :=
  [TStream 0 None; THandshake (1 * sec) (Some (10 * sec)); TPong (1 * sec); TUp (1 * sec); TPing (11 * sec);
   TPong (12 * sec); TErrorShutdown; TPing (22 * sec); TClosed (22 * sec) "bye"; TStream (23 * sec) (Some "bye");
   TClosed (23 * sec) "no"; TStream (25 * sec) (Some "no"); TErrorShutdown; TClosed (25 * sec) "error shutdown: busy";
   TStream (39 * sec) (Some "error shutdown: busy")].
Example day1_runs : exists s, exec 0 sec (60 * sec) false true day1 = Some (s, t1) /\ c_phase s = Handshake /\ c_quality s = Offline.
Proof. eexists. split; [vm_compute; reflexivity|]. split; reflexivity. Qed.

(** ** C124 *)
Theorem C124_pings now i m k ok es s tr p t q :
  exec now i m k ok es = Some (s, tr) -> tr = p ++ TPing t :: q ->
  exists d, due p = Some d /\ d <= t.
Proof. intros H E. exact (proj2 (exec_pings _ _ _ _ _ _ _ _ H) p (TPing t) q E). Qed.
Print Assumptions C124_pings.

Theorem C124_due now i m k ok es s tr d :
  exec now i m k ok es = Some (s, tr) -> c_phase s = Main -> due tr = Some d ->
  if d <=? c_now s then exists s', step s (Timer true) = Some (s', [TPing (c_now s)])
  else forall sent, step s (Timer sent) = None.
Proof.
  intros H Hm Hd. destruct (exec_pings _ _ _ _ _ _ _ _ H) as (HP & _). specialize (HP Hm).
  unfold due in Hd. rewrite <- HP in Hd. cbn in Hd. unfold step. rewrite Hm, Hd.
  destruct (d <=? c_now s); [eexists; reflexivity|reflexivity].
Qed.
Print Assumptions C124_due.

Theorem C124_none now i m k ok es s tr :
  exec now i m k ok es = Some (s, tr) -> c_phase s = Main -> due tr = None ->
  forall sent, step s (Timer sent) = None.
Proof.
  intros H Hm Hd sent. destruct (exec_pings _ _ _ _ _ _ _ _ H) as (HP & _). specialize (HP Hm).
  unfold due in Hd. rewrite <- HP in Hd. cbn in Hd. unfold step. now rewrite Hm, Hd.
Qed.
Print Assumptions C124_none.

(** The second ping of the execution above came ten seconds after the pong. *)
Example C124_ex : exists p q, t1 = p ++ TPing (22 * sec) :: q /\ due p = Some (22 * sec).
Proof. eexists (firstn 7 t1), (skipn 8 t1). split; reflexivity. Qed.
(** A stream that is up, with a ping due in the future, due now, and never. *)
Example C124_due_ex :
  (exists s tr, exec 0 sec sec false true [Shake (Some sec) []; Pass (sec - 1)] = Some (s, tr)
     /\ c_phase s = Main /\ due tr = Some sec /\ c_now s = sec - 1)
  /\ (exists s tr, exec 0 sec sec false true [Shake (Some sec) []; Pass sec] = Some (s, tr)
     /\ c_phase s = Main /\ due tr = Some sec /\ c_now s = sec)
  /\ (exists s tr, exec 0 sec sec false true [Shake (Some (-1)) [Pong]; Pass sec] = Some (s, tr)
     /\ c_phase s = Main /\ due tr = None).
Proof. splits; eexists _, _; (split; [vm_compute; reflexivity|]); splits; reflexivity. Qed.

(** ** C125 *)
(** A ping that is never answered is never followed by anything: the stream stays
    up and the quality online for as long as the peer is silent. *)
Theorem C125_silence_refuted : forall silence, 0 <= silence ->
  exists s tr t, exec 0 sec sec false true [Shake (Some sec) []; Pass sec; Timer true; Pass silence] = Some (s, tr ++ [TPing t])
    /\ c_now s = t + silence /\ c_phase s = Main /\ c_quality s = Online /\ forall ok, step s (Timer ok) = None.
Proof.
  intros d Hd.
  destruct (exec 0 sec sec false true [Shake (Some sec) []; Pass sec; Timer true]) as [[s0 tr0]|] eqn:E0; [|vm_compute in E0; discriminate].
  pose proof (exec_snoc _ _ _ _ _ _ _ _ _ _ _ E0 (pass_step s0 d Hd)) as E.
  vm_compute in E0. injection E0 as <- <-. exists (with_now (mkConn sec Main Online false None None (mkBackoff sec sec sec) (sec, sec) false (Some sec) None 0 1 0 0) (sec + d)),
    [TStream 0 None; THandshake 0 (Some sec); TUp 0], sec. split.
  - exact E.
  - splits; reflexivity.
Qed.
Print Assumptions C125_silence_refuted.

(** ** C126 *)
Theorem C126_offline now i m k ok es s tr :
  exec now i m k ok es = Some (s, tr) -> c_quality s = Offline ->
  fst (up now tr) = false /\ snd (up now tr) + 15 * 1000000000 < c_now s /\ seen tr = false.
Proof.
  intros H Ho. destruct (exec_honest _ _ _ _ _ _ _ _ H) as [A _ B _ _ E].
  destruct (E Ho) as (E1 & E2). splits; auto. apply B. intros Hm. destruct (A Hm) as (_ & ? & _). congruence.
Qed.
Print Assumptions C126_offline.

Theorem C126_up now i m k ok es s tr :
  exec now i m k ok es = Some (s, tr) -> fst (up now tr) = true -> c_quality s = Online.
Proof.
  intros H Hu. destruct (exec_honest _ _ _ _ _ _ _ _ H) as [A _ B _ _ _].
  destruct (c_phase s) eqn:Ep; try (rewrite B in Hu by discriminate; discriminate). now apply A.
Qed.
Print Assumptions C126_up.

Example C126_ex : up 0 t1 = (false, 22 * sec) /\ seen t1 = false /\ up 0 (firstn 8 t1) = (true, 0).
Proof. splits; reflexivity. Qed.

(** ** C127 *)
Theorem C127_attempts_partial now i m k ok es s tr :
  exec now i m k ok es = Some (s, tr) -> c_phase s = Handshake -> seen tr = false ->
  exists a t, first_attempt tr = Some a /\ last_attempt tr = Some t /\ (a + 15 * 1000000000 < t -> c_quality s = Offline).
Proof. intros H. exact (n_off _ _ (exec_noticed _ _ _ _ _ _ _ _ H)). Qed.
Print Assumptions C127_attempts_partial.

Example C127_ex : first_attempt t1 = Some (23 * sec) /\ last_attempt t1 = Some (39 * sec).
Proof. split; reflexivity. Qed.

(** However long the first handshake takes, the quality stays unknown. *)
Theorem C127_waiting_refuted : forall d, 0 <= d ->
  exists s tr, exec 0 sec sec false true [Pass d] = Some (s, tr)
    /\ fst (up 0 tr) = false /\ c_now s = snd (up 0 tr) + d /\ c_quality s = Unknown.
Proof.
  intros d Hd.
  destruct (exec 0 sec sec false true []) as [[s0 tr0]|] eqn:E0; [|vm_compute in E0; discriminate].
  pose proof (exec_snoc _ _ _ _ _ _ _ _ _ _ _ E0 (pass_step s0 d Hd)) as E.
  vm_compute in E0. injection E0 as <- <-. eexists _, _. split; [exact E|]. splits; reflexivity.
Qed.
Print Assumptions C127_waiting_refuted.

(** While the task waits before it reconnects, the quality stays online, though no
    stream is up; how long that is depends on the configured intervals only. *)
Theorem C127_backoff_refuted : forall d, 0 <= d ->
  exists s tr, exec 0 d d false true [Shake None []; Closed "bye" d true; Pass d] = Some (s, tr)
    /\ up 0 tr = (false, 0) /\ c_now s = d /\ c_quality s = Online.
Proof.
  intros d Hd.
  assert (E0 : exec 0 d d false true [Shake None []] =
    Some (mkConn 0 Main Online false None None (mkBackoff (Z.abs d) (Z.abs d) (Z.abs d)) (d, d) false None None 0 1 0 0,
          [TStream 0 None; THandshake 0 None; TUp 0])) by reflexivity.
  match type of E0 with _ = Some (?s, _) => destruct (close_step s "bye" d true) as (s1 & E1 & P1 & Q1 & N1) end.
  - reflexivity.
  - cbn. unfold MINUTE. lia.
  - cbn [c_backoff b_current]. lia.
  - pose proof (exec_snoc _ _ _ _ _ _ _ _ _ _ _ E0 E1) as E2.
    pose proof (exec_snoc _ _ _ _ _ _ _ _ _ _ _ E2 (pass_step s1 d Hd)) as E3. cbn in N1, Q1.
    eexists _, _. split; [exact E3|]. cbn. rewrite N1, Q1. auto.
Qed.
Print Assumptions C127_backoff_refuted.

(** ** C128 *)
Theorem C128_spaced g now i m k ok es s tr :
  0 <= g <= 60 * 1000000000 -> 2 * g <= Z.abs i -> 2 * g <= Z.abs m ->
  Forall (fun e => match e with Intervals i m => 2 * g <= Z.abs i /\ 2 * g <= Z.abs m | _ => True end) es ->
  exec now i m k ok es = Some (s, tr) ->
  forall j n a b, nth_error (stream_times tr) j = Some a -> nth_error (stream_times tr) (j + n) = Some b ->
  a + Z.of_nat n * g <= b.
Proof.
  intros Hg Hi Hm HF H j n a b Ha Hb.
  pose proof (s_gap _ _ _ (exec_slow g Hg now i m k ok es s tr Hi Hm HF H)) as HS.
  exact (spaced_many g _ HS n j a b Ha Hb).
Qed.
Print Assumptions C128_spaced.

Example C128_ex : stream_times t1 = [0; 23 * sec; 25 * sec; 39 * sec]
  /\ 0 <= sec / 2 <= 60 * 1000000000 /\ 2 * (sec / 2) <= Z.abs sec /\ 2 * (sec / 2) <= Z.abs (60 * sec).
Proof. unfold sec. splits; try reflexivity; vm_compute; discriminate. Qed.

(** Streams that lived for more than a minute are replaced at once. *)
Theorem C128_long_lived now i m k ok es s tr t0 r delay :
  exec now i m k ok es = Some (s, tr) -> c_phase s = Main -> e_up (ends_of tr) = Some t0 ->
  60 * 1000000000 < c_now s - t0 ->
  exists s', step s (Closed r delay true) = Some (s', [TClosed (c_now s) r; TStream (c_now s) (Some r)]).
Proof.
  intros H Hm Hu Hl. rewrite (exec_established _ _ _ _ _ _ _ _ H Hm) in Hu. inv Hu. unfold step. rewrite Hm. cbn [with_reason c_now c_established].
  change (60 * 1000000000) with MINUTE in Hl. apply Z.ltb_lt in Hl. rewrite Hl.
  destruct (exec_honest _ _ _ _ _ _ _ _ H) as [_ A _ _ _ _].
  edestruct (alive_start (with_backoff (with_reason s (Some r)) (backoff_reset (c_backoff s))) (c_now s) (Some r)) as (s' & E);
    try reflexivity.
  - cbn. destruct (c_killed s); auto. destruct (A eq_refl); congruence.
  - cbn in E |- *. rewrite E. eexists; reflexivity.
Qed.
Print Assumptions C128_long_lived.
Example C128_long_lived_ex : exists s tr, exec 0 sec sec false true [Pass 5; Shake None []; Pass (61 * sec)] = Some (s, tr)
  /\ c_phase s = Main /\ e_up (ends_of tr) = Some 5 /\ 60 * 1000000000 < c_now s - 5.
Proof. eexists _, _. split; [vm_compute; reflexivity|]. splits; reflexivity. Qed.

(** ** C129 *)
Theorem C129_soon M now i m k ok es s tr u :
  Z.abs i <= M -> Z.abs m <= M ->
  Forall (fun e => match e with Intervals i m => Z.abs i <= M /\ Z.abs m <= M | _ => True end) es ->
  exec now i m k ok es = Some (s, tr) -> c_phase s = Backoff u ->
  exists t r, e_last (ends_of tr) = Some t /\ 2 * (u - t) <= 3 * M + 2
    /\ (u <= c_now s -> exists s', step s (Timer true) = Some (s', [TStream (c_now s) (Some r)])).
Proof.
  intros Hi Hm HF H Hp. destruct (exec_soon M _ _ _ _ _ _ _ _ Hi Hm HF H) as [_ _ _ _ A B C].
  destruct (C u Hp) as (t & r & E1 & E2 & E3). exists t, r. splits; auto. intros Hu.
  unfold step. rewrite Hp. apply Z.leb_le in Hu. rewrite Hu.
  destruct (alive_start s (c_now s) (Some r)) as (s' & E); try reflexivity.
  - destruct (c_killed s); auto. destruct (A eq_refl); congruence.
  - congruence.
  - rewrite E. eexists; reflexivity.
Qed.
Print Assumptions C129_soon.

Theorem C129_grows now i m k ok es s tr p t r q tc n :
  Forall (fun e => match e with Intervals _ _ => False | _ => True end) es ->
  exec now i m k ok es = Some (s, tr) -> tr = p ++ TStream t r :: q ->
  e_last (ends_of p) = Some tc -> e_row (ends_of p) = S n ->
  nth_interval (Z.abs i) (Z.abs m) n <= 2 * (t - tc).
Proof.
  intros HF H E H1 H2. pose proof (g_each _ _ _ _ (exec_growing _ _ _ _ _ _ _ _ HF H) p _ q E) as W.
  cbn in W. now rewrite H1, H2 in W.
Qed.
Print Assumptions C129_grows.

Theorem C129_until now i m k ok es s tr u :
  Forall (fun e => match e with Intervals _ _ => False | _ => True end) es ->
  exec now i m k ok es = Some (s, tr) -> c_phase s = Backoff u ->
  exists t n, e_last (ends_of tr) = Some t /\ e_row (ends_of tr) = S n
    /\ nth_interval (Z.abs i) (Z.abs m) n <= 2 * (u - t) <= 3 * nth_interval (Z.abs i) (Z.abs m) n + 2.
Proof. intros HF H. exact (g_until _ _ _ _ (exec_growing _ _ _ _ _ _ _ _ HF H) u). Qed.
Print Assumptions C129_until.

(** Three streams in a row ended soon; the fourth was started after the third
    interval, 2.25 s, or half of it. *)
Example C129_ex : exists p q, t1 = p ++ TStream (39 * sec) (Some "error shutdown: busy") :: q
  /\ ends_of p = mkEnds None 3 (Some (25 * sec)) /\ nth_interval sec (60 * sec) 2 = 2250000000.
Proof. eexists (firstn 14 t1), (skipn 15 t1). splits; reflexivity. Qed.
Example C129_soon_ex : exists s tr, exec 0 sec (60 * sec) false true (firstn 10 day1) = Some (s, tr)
  /\ c_phase s = Backoff (23 * sec) /\ ends_of tr = mkEnds None 1 (Some (22 * sec)).
Proof. eexists _, _. split; [vm_compute; reflexivity|]. split; reflexivity. Qed.

(** ** C130 *)
Theorem C130_reason now i m k ok es s tr p t r q :
  exec now i m k ok es = Some (s, tr) -> tr = p ++ TStream t r :: q ->
  r = pending_reason p /\ (r = None -> existsb is_stream p = false).
Proof.
  intros H E. destruct (r_each _ _ (exec_reasons _ _ _ _ _ _ _ _ H) p _ q E) as (A & B). split; auto.
  intros Hr. destruct (existsb is_stream p); auto. destruct (B eq_refl Hr).
Qed.
Print Assumptions C130_reason.

Theorem C130_counters now i m k ok es s tr :
  exec now i m k ok es = Some (s, tr) ->
  c_streams s = count_of is_stream tr /\ c_failures s = failed tr /\ c_errors s = count_of is_error tr.
Proof. intros H. destruct (exec_counted _ _ _ _ _ _ _ _ H). auto. Qed.
Print Assumptions C130_counters.

Example C130_ex : count_of is_stream t1 = 4 /\ failed t1 = 2 /\ count_of is_error t1 = 2
  /\ pending_reason (firstn 14 t1) = Some "error shutdown: busy".
Proof. splits; reflexivity. Qed.
