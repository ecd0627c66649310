From Verif Require Import Base Retry_Model.
Open Scope Z_scope.

Lemma retry_loop_spec : forall fuel i rs maxs p rq M,
  (forall j, maxs j <= M) -> 0 <= rp_attempts p -> (Z.to_nat (M - rp_attempts p) < fuel)%nat ->
  exists sent rf pf, retry_loop fuel i rs maxs p rq = Some (sent, rf, pf) /\
    (1 <= length sent)%nat /\
    (length sent <= 1 + Z.to_nat (M - rp_attempts p))%nat /\
    (forall x, In x sent -> x = rq) /\
    (forall j, (j < length sent - 1)%nat -> rs (i + j)%nat = RFailure) /\
    rf = rs (i + (length sent - 1))%nat /\
    (rf = RFailure -> maxs (i + (length sent - 1))%nat <= rp_attempts p + Z.of_nat (length sent - 1)) /\
    (rp_dropped pf = rp_dropped p \/ rp_dropped pf = rp_dropped p + Z.of_nat (length (rq_logs rq))) /\
    (rf = RFailure -> rp_dropped pf = rp_dropped p + Z.of_nat (length (rq_logs rq)) /\ rp_exceeded pf = rp_exceeded p + 1) /\
    (rp_exceeded pf <> rp_exceeded p -> maxs (i + (length sent - 1))%nat <= rp_attempts p + Z.of_nat (length sent - 1)) /\
    (rp_exceeded pf = rp_exceeded p -> rp_dropped pf = rp_dropped p).
Proof.
  induction fuel as [|fuel IH]; intros i rs maxs p rq M HM Hp Hf; [lia|].
  cbn [retry_loop]. unfold policy_retry, should_retry, clone_request.
  destruct (rp_attempts p <? maxs i) eqn:E; cbn [negb].
  - assert (rp_attempts p < M) by (specialize (HM i); lia).
    destruct (rs i) eqn:Er.
    + eexists [rq], RSuccess, _. split; [reflexivity|]. cbn. rewrite Nat.add_0_r.
      splits; intros; try discriminate; try lia; auto.
      destruct H0; [auto|contradiction].
    + destruct (IH (S i) rs maxs (mkPolicy (rp_attempts p + 1) (rp_exceeded p) (rp_dropped p)) rq M HM) as
        (sent & rf & pf & E1 & H1 & H2 & H3 & H4 & H5 & H6 & H7 & H8 & H9 & H10); [cbn; lia|cbn; lia|].
      rewrite E1. cbn -[Z.add Z.sub] in *. exists (rq :: sent), rf, pf.
      split; [reflexivity|]. cbn [length].
      replace (i + (S (length sent) - 1))%nat with (S (i + (length sent - 1)))%nat by lia.
      splits.
      * lia.
      * lia.
      * intros x [<-|Hx]; auto.
      * intros j Hj. destruct j as [|j]; [rewrite Nat.add_0_r; exact Er|].
        rewrite Nat.add_succ_r. apply H4. lia.
      * exact H5.
      * intros Hr. apply H6 in Hr. lia.
      * exact H7.
      * intros Hr. apply H8 in Hr. lia.
      * intros Hr. apply H9 in Hr. lia.
      * exact H10.
    + eexists [rq], RCanceled, _. split; [reflexivity|]. cbn. rewrite Nat.add_0_r.
      splits; intros; try discriminate; try lia; auto.
      destruct H0; [auto|contradiction].
  - eexists [rq], (rs i), _. split; [reflexivity|]. cbn -[Z.add]. rewrite Nat.add_0_r.
    splits; intros; try lia; auto.
    destruct H; [auto|contradiction].
Qed.

Lemma upload_spec : forall bound rs maxs rq, (forall j, maxs j <= Z.of_nat bound) ->
  exists sent rf pf, upload bound rs maxs rq = Some (sent, rf, pf) /\
    (1 <= length sent)%nat /\ (length sent <= 1 + bound)%nat /\
    (forall x, In x sent -> x = rq) /\
    (forall j, (j < length sent - 1)%nat -> rs j = RFailure) /\
    rf = rs (length sent - 1)%nat /\
    (rf = RFailure -> maxs (length sent - 1)%nat <= Z.of_nat (length sent - 1)).
Proof.
  intros bound rs maxs rq H.
  destruct (retry_loop_spec (S bound) 0 rs maxs policy_new rq (Z.of_nat bound) H) as
    (sent & rf & pf & E & H1 & H2 & H3 & H4 & H5 & H6 & _); [cbn; lia|cbn; lia|].
  cbn -[Z.add Z.sub] in *. exists sent, rf, pf. splits; auto; lia.
Qed.

Lemma upload_counters : forall bound rs maxs rq, (forall j, maxs j <= Z.of_nat bound) ->
  forall sent rf pf, upload bound rs maxs rq = Some (sent, rf, pf) ->
    (rf = RFailure -> rp_dropped pf = Z.of_nat (length (rq_logs rq)) /\ rp_exceeded pf = 1) /\
    (rp_dropped pf = 0 \/ rp_dropped pf = Z.of_nat (length (rq_logs rq))) /\
    (rp_dropped pf <> 0 -> maxs (length sent - 1)%nat <= Z.of_nat (length sent - 1)).
Proof.
  intros bound rs maxs rq H sent rf pf E.
  destruct (retry_loop_spec (S bound) 0 rs maxs policy_new rq (Z.of_nat bound) H) as
    (sent' & rf' & pf' & E' & H1 & H2 & H3 & H4 & H5 & H6 & H7 & H8 & H9 & H10); [cbn; lia|cbn; lia|].
  unfold upload in E. rewrite E in E'. inv E'.
  cbn -[Z.add Z.sub] in *. splits.
  - intros H0. apply H8 in H0. lia.
  - lia.
  - intros Hd. rewrite Z.add_0_l in H9. apply H9. intro Hx. apply Hd, H10, Hx.
Qed.
