From Verif Require Import Base Str_Base Rt_Model.
Local Open Scope N_scope.
Lemma host_range w : 1 <= from_host w <= 4096.
Proof. unfold from_host, clamp, MAX_RT_THREADPOOL_SIZE. destruct (w_host w) as [n|]; [|cbn; lia]. destruct (N.ltb_spec n 1); [lia|]. destruct (N.ltb_spec 4096 n); lia. Qed.
Lemma host_exact w n : w_host w = Some n -> 1 <= n <= 4096 -> from_host w = n.
Proof. intros E H. unfold from_host, clamp, MAX_RT_THREADPOOL_SIZE. rewrite E. destruct (N.ltb_spec n 1); [lia|]. destruct (N.ltb_spec 4096 n); lia. Qed.
Lemma no_number numeric address w : (forall v, w_var w = Some v -> numeric v = false) -> num_cpus numeric address w = from_host w.
Proof. intros H. unfold num_cpus. destruct (w_var w) as [v|]; [|reflexivity]. rewrite (H v eq_refl). reflexivity. Qed.
Lemma at_least_one numeric address w : 1 <= num_cpus numeric address w.
Proof. unfold num_cpus. pose proof (host_range w). destruct (w_var w) as [v|]; [|lia]. destruct (numeric v); lia. Qed.
Lemma build_ok n : 1 <= n -> build n = if n =? 1 then CurrentThread else MultiThread n.
Proof. intros H. unfold build. destruct (N.eqb_spec n 1); [reflexivity|]. destruct (N.eqb_spec n 0); [lia|reflexivity]. Qed.
Lemma runtimes_memo numeric address n ws : 1 <= n -> runtimes numeric address (Some n) ws = repeat (if n =? 1 then CurrentThread else MultiThread n) (length ws).
Proof. intros H. induction ws as [|w ws IH]; [reflexivity|]. cbn [runtimes new_runtime length repeat]. rewrite IH, build_ok by exact H. reflexivity. Qed.
Lemma runtimes_first numeric address w ws : runtimes numeric address None (w :: ws) =
  repeat (if num_cpus numeric address w =? 1 then CurrentThread else MultiThread (num_cpus numeric address w)) (S (length ws)).
Proof. cbn [runtimes new_runtime repeat]. rewrite runtimes_memo, build_ok by apply at_least_one. reflexivity. Qed.
