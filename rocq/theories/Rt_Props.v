(** C153: the runtimes of a process have as many threads as it was given processors. *)
From Verif Require Import Base Str_Base Rt_Model Rt_Proofs.
Local Open Scope N_scope.

(** Without a number in the environment: every runtime of the process, at whatever time it is made, has as many threads as the host had when the first was made,
    kept within 1 and 4096; one thread alone is the thread of the caller. Missing: a number in the environment (see the refutation). *)
Theorem C153_host_partial : forall numeric address w ws,
  (forall v, w_var w = Some v -> numeric v = false) ->
  exists n, 1 <= n <= 4096 /\ (forall k, w_host w = Some k -> 1 <= k <= 4096 -> n = k) /\ (w_host w = None -> n = 1) /\ (forall k, w_host w = Some k -> 4096 < k -> n = 4096) /\
    runtimes numeric address None (w :: ws) = repeat (if n =? 1 then CurrentThread else MultiThread n) (S (length ws)).
Proof.
  intros numeric address w ws H. exists (from_host w). split; [apply host_range|]. split; [intros k E R; apply host_exact; assumption|]. split; [intros E; unfold from_host; rewrite E; reflexivity|].
  split; [|rewrite runtimes_first, no_number by exact H; reflexivity]. intros k E R. unfold from_host, clamp, MAX_RT_THREADPOOL_SIZE. rewrite E. destruct (N.ltb_spec k 1); [lia|]. destruct (N.ltb_spec 4096 k); lia.
Qed.

(** Whatever the environment says, all runtimes of a process are alike and none is asked to have no thread. *)
Theorem C153_alike : forall numeric address w ws, exists r, r <> Panics /\ runtimes numeric address None (w :: ws) = repeat r (S (length ws)).
Proof. intros numeric address w ws. eexists. split; [|apply runtimes_first]. destruct (_ =? 1); discriminate. Qed.

(** A number in the environment is not obeyed: every number has the same effect, and with the function at any address above 4096 the process asks for as
    many threads as the address says. *)
Theorem C153_number_refuted : forall numeric address host v v',
  numeric v = true -> numeric v' = true -> 4096 < address ->
  num_cpus numeric address (mkWorld (Some v) host) = num_cpus numeric address (mkWorld (Some v') host) /\
  runtimes numeric address None [mkWorld (Some v) host] = [MultiThread address] /\ MAX_RT_THREADPOOL_SIZE < address.
Proof.
  intros numeric address host v v' A B C. split; [unfold num_cpus; cbn [w_var]; rewrite A, B; reflexivity|]. split; [|exact C]. rewrite runtimes_first. cbn [length repeat]. unfold num_cpus. cbn [w_var]. rewrite A.
  replace (N.max 1 address) with address by lia. destruct (N.eqb_spec address 1); [lia|reflexivity].
Qed.
Print Assumptions C153_host_partial.
Print Assumptions C153_alike.
Print Assumptions C153_number_refuted.

(** Texts of digits are numbers. *)
Definition toy_numeric (s : string) : bool := match s with String a _ => Nat.leb 48 (Ascii.nat_of_ascii a) && Nat.leb (Ascii.nat_of_ascii a) 57 | EmptyString => false end.
Example C153_case : runtimes toy_numeric 94000000000000 None [mkWorld (Some "many"%string) (Some 8); mkWorld (Some "2"%string) (Some 4)] = [MultiThread 8; MultiThread 8] /\
  runtimes toy_numeric 94000000000000 None [mkWorld None (Some 1)] = [CurrentThread].
Proof. split; reflexivity. Qed.
Example C153_numbers : toy_numeric "2" = true /\ toy_numeric "64" = true /\ toy_numeric "many" = false /\
  runtimes toy_numeric 94000000000000 None [mkWorld (Some "2"%string) (Some 4)] = [MultiThread 94000000000000].
Proof. splits; reflexivity. Qed.
