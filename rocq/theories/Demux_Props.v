(** C159: a response of the server reaches the one it is for. *)
From Verif Require Import Base Demux_Model Demux_Spec Demux_Proofs.

Section Props.
Variables C R CU RU A : Type.
Variable apply_client : C -> CU -> C * A.
Variable apply_runtime : R -> RU -> R * A.
Variable ok : list (event CU RU A) -> event CU RU A -> bool.
Notation handle := (handle_responses C R CU RU A apply_client apply_runtime ok).

(** When responses are handled without an error, each pipeline has applied the updates of its kind and nothing else, in their order, whatever the order of the pipelines;
    each upload and intent was resolved and each flush asked for; and exactly one acknowledgement went out for each of these updates, of its kind and in their order. *)
Theorem C159_reached_partial : forall rs c r ps ps' t', both C R c r ps -> handle ps [] rs = (ps', t', true) ->
  both C R (fold_left (fun c u => fst (apply_client c u)) (client_updates CU RU rs) c) (fold_left (fun r u => fst (apply_runtime r u)) (runtime_updates CU RU rs) r) ps' /\
  seen_client CU RU A t' = client_updates CU RU rs /\ seen_runtime CU RU A t' = runtime_updates CU RU rs /\ seen_sent CU RU A t' = acks C R CU RU A apply_client apply_runtime c r rs /\
  seen_uploads CU RU A t' = uploads CU RU rs /\ seen_intents CU RU A t' = intents CU RU rs /\ seen_flushes CU RU A t' = flushes CU RU rs.
Proof. intros rs c r ps ps' t' B E. destruct (handled _ _ _ _ _ _ _ _ _ _ _ _ _ _ _ _ B E) as (a & e & T & B' & S1 & S2 & -> & S3 & (U1 & U2 & U3) & _). cbn in T. subst t'. splits; assumption. Qed.

(** An error comes at one response: all before it were handled as above; none after it was; its own update, if it is one, was applied but not acknowledged. *)
Theorem C159_error : forall rs c r ps ps' t', both C R c r ps -> handle ps [] rs = (ps', t', false) ->
  exists a x z, rs = a ++ x :: z /\ ~ In RHandshake a /\
    both C R (fold_left (fun c u => fst (apply_client c u)) (client_updates CU RU (a ++ [x])) c) (fold_left (fun r u => fst (apply_runtime r u)) (runtime_updates CU RU (a ++ [x])) r) ps' /\
    seen_client CU RU A t' = client_updates CU RU (a ++ [x]) /\ seen_runtime CU RU A t' = runtime_updates CU RU (a ++ [x]) /\ seen_sent CU RU A t' = acks C R CU RU A apply_client apply_runtime c r a /\
    seen_uploads CU RU A t' = uploads CU RU a /\ seen_intents CU RU A t' = intents CU RU a /\ seen_flushes CU RU A t' = flushes CU RU a.
Proof.
  intros rs c r ps ps' t' B E. destruct (handled _ _ _ _ _ _ _ _ _ _ _ _ _ _ _ _ B E) as (a0 & e & T & B' & S1 & S2 & a & x & z & -> & -> & S3 & (U1 & U2 & U3) & H). cbn in T. subst t'.
  exists a, x, z. splits; try assumption. rewrite <- app_assoc. reflexivity.
Qed.

(** Nothing but a handshake, or a call that fails, makes an error; and a handshake always does. *)
Theorem C159_no_error : forall rs c r ps, both C R c r ps ->
  (In RHandshake rs -> snd (handle ps [] rs) = false) /\ ((forall t e, ok t e = true) -> ~ In RHandshake rs -> snd (handle ps [] rs) = true).
Proof.
  intros rs c r ps B. split; [|intros O N; eapply succeeds; eassumption]. intros I. destruct (handle ps [] rs) as [[ps' t'] b] eqn:E. cbn. destruct b; [|reflexivity].
  destruct (handled _ _ _ _ _ _ _ _ _ _ _ _ _ _ _ _ B E) as (a & e & _ & _ & _ & _ & -> & _ & _ & N). contradiction.
Qed.

(** No pipeline of the client takes an opaque configuration: it is neither applied nor acknowledged. *)
Theorem C159_opaque_refuted : forall c r ps x, both C R c r ps -> handle ps [] [ROpaqueConfigurationUpdate x] = (ps, [], true).
Proof. intros c r ps x [-> | ->]; reflexivity. Qed.
End Props.

(** Numbers as updates, their sum as state; the third sent request fails. *)
Definition toy_apply (s u : N) : N * N := ((s + u)%N, s).
Definition toy_ok (t : list (event N N N)) (e : event N N N) : bool := (length (seen_sent N N N t) <? 2)%nat.
Example C159_witness : both N N 0%N 5%N [PRuntime 5%N; PClient 0%N] /\
  handle_responses N N N N N toy_apply toy_apply toy_ok [PRuntime 5%N; PClient 0%N] [] [RConfigurationUpdate 1%N; RPong; RLogUpload 9%N; RNone; RRuntimeUpdate 2%N] =
    ([PRuntime 7%N; PClient 1%N], [EConfig 1%N; ESent (ConfigurationUpdateAck 0%N); EPing; EUpload 9%N; ERuntime 2%N; ESent (RuntimeUpdateAck 5%N)], true) /\
  handle_responses N N N N N toy_apply toy_apply toy_ok [PRuntime 5%N; PClient 0%N] [] [RConfigurationUpdate 1%N; RRuntimeUpdate 2%N; RConfigurationUpdate 3%N; RFlushBuffers [4%N]] =
    ([PRuntime 7%N; PClient 4%N], [EConfig 1%N; ESent (ConfigurationUpdateAck 0%N); ERuntime 2%N; ESent (RuntimeUpdateAck 5%N); EConfig 3%N], false) /\
  handle_responses N N N N N toy_apply toy_apply toy_ok [PRuntime 5%N; PClient 0%N] [] [RFlushBuffers [4%N]; RHandshake; RPong] = ([PRuntime 5%N; PClient 0%N], [EFlush [4%N]], false).
Proof. split; [right; reflexivity|]. vm_compute. splits; reflexivity. Qed.

Print Assumptions C159_reached_partial.
Print Assumptions C159_error.
Print Assumptions C159_no_error.
Print Assumptions C159_opaque_refuted.
