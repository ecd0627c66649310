From Verif Require Import Base Demux_Model Demux_Spec.

Section Proofs.
Variables C R CU RU A : Type.
Variable apply_client : C -> CU -> C * A.
Variable apply_runtime : R -> RU -> R * A.
Variable ok : list (event CU RU A) -> event CU RU A -> bool.
Notation fc := (fold_left (fun c u => fst (apply_client c u))).
Notation fr := (fold_left (fun r u => fst (apply_runtime r u))).
Notation handle := (handle_responses C R CU RU A apply_client apply_runtime ok).
Notation handle1 := (handle_response C R CU RU A apply_client apply_runtime ok).
Notation acks := (acks C R CU RU A apply_client apply_runtime).
Notation cu := (client_updates CU RU). Notation ru := (runtime_updates CU RU).
Notation sc := (seen_client CU RU A). Notation sr := (seen_runtime CU RU A). Notation se := (seen_sent CU RU A).
Notation su := (seen_uploads CU RU A). Notation si := (seen_intents CU RU A). Notation sf := (seen_flushes CU RU A).

Definition told (e : list (event CU RU A)) (rs : list (response CU RU)) : Prop :=
  su e = uploads CU RU rs /\ si e = intents CU RU rs /\ sf e = flushes CU RU rs.

Ltac fin := splits; try reflexivity; try discriminate; try (left; reflexivity); try (right; reflexivity); repeat split.

Lemma one : forall c r ps t x ps' t' b, both C R c r ps -> handle1 ps t x = (ps', t', b) ->
  exists e, t' = t ++ e /\ both C R (fc (cu [x]) c) (fr (ru [x]) r) ps' /\ sc e = cu [x] /\ sr e = ru [x] /\
    (if b then se e = acks c r [x] /\ told e [x] /\ x <> RHandshake else se e = [] /\ told e []).
Proof.
  intros c r ps t x ps' t' b B E.
  assert (K : forall e, x <> RHandshake -> cu [x] = [] -> ru [x] = [] -> acks c r [x] = [] -> sc [e] = [] -> sr [e] = [] -> se [e] = [] -> told [e] [x] -> fallible C R CU RU A ok ps t e = (ps', t', b) ->
    exists e, t' = t ++ e /\ both C R (fc (cu [x]) c) (fr (ru [x]) r) ps' /\ sc e = cu [x] /\ sr e = ru [x] /\ (if b then se e = acks c r [x] /\ told e [x] /\ x <> RHandshake else se e = [] /\ told e [])).
  { intros e H0 H1 H2 H3 H4 H5 H6 H7 F. unfold fallible in F. rewrite H1, H2, H3. destruct (ok t e); inv F.
    - exists [e]. splits; auto.
    - exists []. rewrite app_nil_r. splits; auto. repeat split. }
  destruct x; unfold handle_response in E; cbn [demux] in E;
    try (refine (K _ _ _ _ _ _ _ _ _ E); [discriminate|..]; try reflexivity; repeat split; fail).
  - inv E. exists []. rewrite app_nil_r. splits; auto. repeat split.
  - inv E. exists [EPing]. splits; auto; [repeat split|discriminate].
  - cbn. destruct B; subst ps; cbn in E; destruct (apply_client c u) as [c1 a1] eqn:E1.
    + destruct (ok _ _) in E; inv E.
      * exists [EConfig u; ESent (ConfigurationUpdateAck a1)]. rewrite <- app_assoc. fin.
      * exists [EConfig u]. fin.
    + destruct (ok _ _) in E; inv E.
      * exists [EConfig u; ESent (ConfigurationUpdateAck a1)]. rewrite <- app_assoc. fin.
      * exists [EConfig u]. fin.
  - cbn. destruct B; subst ps; cbn in E; destruct (apply_runtime r u) as [c1 a1] eqn:E1.
    + destruct (ok _ _) in E; inv E.
      * exists [ERuntime u; ESent (RuntimeUpdateAck a1)]. rewrite <- app_assoc. fin.
      * exists [ERuntime u]. fin.
    + destruct (ok _ _) in E; inv E.
      * exists [ERuntime u; ESent (RuntimeUpdateAck a1)]. rewrite <- app_assoc. fin.
      * exists [ERuntime u]. fin.
  - inv E. exists [EShutdown]. splits; auto; [repeat split|discriminate].
  - destruct B; subst ps; cbn in E; inv E; exists []; rewrite app_nil_r; fin.
  - inv E. exists []. rewrite app_nil_r. splits; auto; [repeat split|discriminate].
Qed.

Lemma acks_app : forall a c r b, acks c r (a ++ b) = acks c r a ++ acks (fc (cu a) c) (fr (ru a) r) b.
Proof. induction a as [|x a IH]; intros c r b; [reflexivity|]. destruct x; cbn; try apply IH; f_equal; apply IH. Qed.

Lemma handled : forall rs c r ps t ps' t' b, both C R c r ps -> handle ps t rs = (ps', t', b) ->
  exists a e, t' = t ++ e /\ both C R (fc (cu a) c) (fr (ru a) r) ps' /\ sc e = cu a /\ sr e = ru a /\
    (if b then rs = a /\ se e = acks c r a /\ told e a /\ ~ In RHandshake a
     else exists a' x z, a = a' ++ [x] /\ rs = a ++ z /\ se e = acks c r a' /\ told e a' /\ ~ In RHandshake a').
Proof.
  induction rs as [|x rs IH]; intros c r ps t ps' t' b B E; cbn [handle_responses] in E.
  - inv E. exists [], []. rewrite app_nil_r. splits; auto. repeat split.
  - destruct (handle1 ps t x) as [[ps1 t1] b1] eqn:E1. destruct (one _ _ _ _ _ _ _ _ B E1) as (e1 & T1 & B1 & S1 & S2 & S3). destruct b1.
    + destruct S3 as (S3 & (U1 & U2 & U3) & H). destruct (IH _ _ _ _ _ _ _ B1 E) as (a & e & T & B2 & Q1 & Q2 & Q3).
      exists (x :: a), (e1 ++ e). subst t1 t'. rewrite app_assoc.
      change (x :: a) with ([x] ++ a).
      assert (X1 : cu ([x] ++ a) = cu [x] ++ cu a) by apply flat_map_app. assert (X2 : ru ([x] ++ a) = ru [x] ++ ru a) by apply flat_map_app.
      rewrite X1, X2, !fold_left_app. splits; [reflexivity|exact B2| | |].
      * unfold seen_client. rewrite flat_map_app. f_equal; assumption.
      * unfold seen_runtime. rewrite flat_map_app. f_equal; assumption.
      * assert (T3 : forall a', told e a' -> told (e1 ++ e) (x :: a')).
        { intros a' (V1 & V2 & V3). unfold told, seen_uploads, seen_intents, seen_flushes, uploads, intents, flushes. change (x :: a') with ([x] ++ a'). rewrite !flat_map_app. splits; f_equal; assumption. }
        assert (T4 : forall a', se e = acks (fc (cu [x]) c) (fr (ru [x]) r) a' -> se (e1 ++ e) = acks c r ([x] ++ a')).
        { intros a' V. unfold seen_sent. rewrite flat_map_app, acks_app. f_equal; assumption. }
        destruct b.
        -- destruct Q3 as (-> & Q3 & Q4 & Q5). splits; [reflexivity|apply T4, Q3|apply T3, Q4|intros [I|I]; congruence || tauto].
        -- destruct Q3 as (a' & y & z & -> & -> & Q3 & Q4 & Q5). exists (x :: a'), y, z. splits; [reflexivity|reflexivity|apply (T4 a'), Q3|apply T3, Q4|intros [I|I]; congruence || tauto].
    + inv E. destruct S3 as (S3 & S4). exists [x], e1. splits; auto. exists [], x, rs. splits; auto.
Qed.

Lemma succeeds : forall rs c r ps t, (forall t e, ok t e = true) -> both C R c r ps -> ~ In RHandshake rs -> snd (handle ps t rs) = true.
Proof.
  induction rs as [|x rs IH]; intros c r ps t O B N; [reflexivity|]. cbn [handle_responses].
  destruct (handle1 ps t x) as [[ps1 t1] b1] eqn:E1. assert (b1 = true) as ->.
  { destruct x; unfold handle_response in E1; cbn [demux] in E1; unfold fallible in E1; try rewrite O in E1; try (inv E1; reflexivity); [exfalso; apply N; left; reflexivity|..];
      destruct B; subst ps; cbn in E1; try destruct (apply_client c u); try destruct (apply_runtime r u); try rewrite O in E1; inv E1; reflexivity. }
  destruct (one _ _ _ _ _ _ _ _ B E1) as (e1 & _ & B1 & _). eapply IH; [exact O|exact B1|]. intros I. apply N. right. exact I.
Qed.
End Proofs.
