From Verif Require Import Base BufferManager_Model BufferManager_Spec.
Local Open Scope Z_scope.

Ltac beq := repeat match goal with
  | H : context[?a =? ?b] |- _ => destruct (Z.eqb_spec a b)
  | |- context[?a =? ?b] => destruct (Z.eqb_spec a b)
  end; subst; try congruence; try tauto.

(* --- maps --- *)
Arguments bput : simpl never.
Arguments bdel : simpl never.
Lemma bfind_del i j m : bfind i (bdel j m) = if j =? i then None else bfind i m.
Proof.
  induction m as [|[k v] m IH]; [cbn; beq|].
  assert (E : bdel j ((k, v) :: m) = if k =? j then bdel j m else (k, v) :: bdel j m).
  { unfold bdel. cbn. destruct (k =? j); reflexivity. }
  rewrite E. cbn [bfind]. destruct (Z.eqb_spec k j); cbn [bfind]; rewrite IH; beq.
Qed.

Lemma bfind_put i j v m : bfind i (bput j v m) = if j =? i then Some v else bfind i m.
Proof. unfold bput; cbn. rewrite bfind_del. beq. Qed.

Lemma bfind_in i m : bfind i m <> None <-> In i (map fst m).
Proof.
  induction m as [|[k v] m IH]; cbn; [tauto|].
  destruct (Z.eqb_spec k i); subst; [split; [auto|congruence]|].
  rewrite IH. split; [auto|]. intros [E|E]; [congruence|auto].
Qed.

Lemma bfind_In i v m : bfind i m = Some v -> In (i, v) m.
Proof.
  induction m as [|[k w] m IH]; cbn; [discriminate|].
  destruct (Z.eqb_spec k i); subst; [intros [= ->]; auto|auto].
Qed.

Lemma In_bfind i v m : NoDup (map fst m) -> In (i, v) m -> bfind i m = Some v.
Proof.
  induction m as [|[k w] m IH]; cbn; [tauto|]. intros N [E|E].
  - inv E. rewrite Z.eqb_refl. reflexivity.
  - inv N. destruct (Z.eqb_spec k i); subst; [|auto].
    exfalso. apply H1. apply in_map_iff. exists (i, v); auto.
Qed.

Lemma bdel_keys i m : NoDup (map fst m) -> NoDup (map fst (bdel i m)).
Proof.
  unfold bdel. induction m as [|[k w] m IH]; cbn; [auto|]. intros N; inv N.
  destruct (k =? i); cbn; [auto|]. constructor; [|auto].
  intros F. apply H1. apply in_map_iff in F as ([a b] & E & F).
  apply filter_In in F as [F _]. apply in_map_iff. exists (a, b); auto.
Qed.

Lemma bput_keys i v m : NoDup (map fst m) -> NoDup (map fst (bput i v m)).
Proof.
  intros N. unfold bput; cbn. constructor; [|apply bdel_keys; auto].
  rewrite <- bfind_in, bfind_del, Z.eqb_refl. congruence.
Qed.

(* --- the loop --- *)
Lemma reconcile_fail opens cfg : forall a a',
  NoDup (map bc_id cfg) -> reconcile opens cfg a = (a', false) ->
  exists b, In b cfg /\
    (bc_type b = None \/ bfind (bc_id b) (ra_cur a) = None /\ opens (bc_id b) = false).
Proof.
  induction cfg as [|b r IH]; cbn; intros a a' N H; [discriminate|]. inv N.
  destruct (bc_type b) as [t|] eqn:T; [|exists b; auto].
  destruct (bfind (bc_id b) (ra_cur a)) as [[t0 h0]|] eqn:B.
  - destruct (IH _ _ H3 H) as (b1 & I1 & [D|[D1 D2]]); [exists b1; auto|].
    cbn in D1. rewrite bfind_del in D1. exists b1. split; [auto|]. right. split; [|auto].
    destruct (Z.eqb_spec (bc_id b) (bc_id b1)) as [E|E]; [|exact D1].
    exfalso. apply H2. rewrite E. apply in_map; auto.
  - destruct (opens (bc_id b)) eqn:O; [|exists b; auto].
    destruct (IH _ _ H3 H) as (b1 & I1 & D). cbn in D. exists b1; auto.
Qed.

Lemma reconcile_ok opens cfg : forall a a',
  NoDup (map bc_id cfg) ->
  (forall i, In i (map bc_id cfg) -> bfind i (ra_upd a) = None) ->
  reconcile opens cfg a = (a', true) ->
  (forall b, In b cfg ->
     bc_type b <> None /\
     (bfind (bc_id b) (ra_cur a) <> None \/ opens (bc_id b) = true)) /\
  (forall i, ~ In i (map bc_id cfg) ->
     bfind i (ra_upd a') = bfind i (ra_upd a) /\ bfind i (ra_cur a') = bfind i (ra_cur a)) /\
  (forall i, In i (map bc_id cfg) -> bfind i (ra_cur a') = None) /\
  (forall i v, In i (map bc_id cfg) -> bfind i (ra_cur a) = Some v ->
     bfind i (ra_upd a') = Some v) /\
  (ra_fresh a <= ra_fresh a')%nat /\
  exists news, ra_new a' = ra_new a ++ news /\
    NoDup (map fst news) /\ NoDup (map (fun e => snd (snd e)) news) /\
    (forall i t h, In (i, (t, h)) news <->
       In (mkBconf i (Some t)) cfg /\ bfind i (ra_cur a) = None /\
       bfind i (ra_upd a') = Some (t, h)) /\
    (forall i t h, In (i, (t, h)) news -> (ra_fresh a <= h < ra_fresh a')%nat) /\
    (forall i, In i (map bc_id cfg) -> bfind i (ra_cur a) = None ->
       exists t h, In (i, (t, h)) news).
Proof.
  induction cfg as [|b r IH]; cbn; intros a a' N U H.
  - inv H. split; [tauto|]. split; [auto|]. split; [tauto|]. split; [tauto|]. split; [lia|].
    exists []. rewrite app_nil_r. cbn. split; [auto|]. repeat split; try constructor; tauto.
  - inv N. destruct b as [bi [t|]]; cbn in *; [|discriminate].
    destruct (bfind bi (ra_cur a)) as [[t0 h0]|] eqn:B.
    + apply IH in H; [|auto|]; clear IH.
      2:{ intros i Hi; cbn. rewrite bfind_put. destruct (Z.eqb_spec bi i); [subst; tauto|auto]. }
      cbn in H. destruct H as (A1 & A2 & A3 & A4 & A5 & news & E & N1 & N2 & F1 & F2 & F3).
      split; [|split; [|split; [|split; [|split]]]].
      * intros b [<-|Hb]; cbn; [split; [congruence|left; congruence]|].
        destruct (A1 b Hb) as [X Y]. split; [auto|]. rewrite bfind_del in Y.
        destruct (Z.eqb_spec bi (bc_id b)) as [e|e]; [|auto].
        exfalso. apply H2. rewrite e. apply in_map; auto.
      * intros i Hi. destruct (A2 i) as [X Y]; [tauto|]. rewrite X, Y, bfind_put, bfind_del.
        destruct (Z.eqb_spec bi i); [tauto|auto].
      * intros i [<-|Hi]; [|auto]. destruct (A2 bi H2) as [_ Y]. rewrite Y, bfind_del, Z.eqb_refl.
        reflexivity.
      * intros i v [<-|Hi] Hv.
        -- destruct (A2 bi H2) as [X _]. rewrite X, bfind_put, Z.eqb_refl. congruence.
        -- apply A4; [auto|]. rewrite bfind_del. destruct (Z.eqb_spec bi i); [subst; tauto|auto].
      * exact A5.
      * exists news. split; [auto|]. split; [auto|]. split; [auto|]. split; [|split; [auto|]].
        -- intros i t1 h1. rewrite F1, bfind_del. destruct (Z.eqb_spec bi i) as [e|e].
           ++ subst i. split.
              ** intros (X & _ & _). exfalso. apply H2. apply (in_map bc_id) in X. exact X.
              ** intros (_ & X & _). congruence.
           ++ split; [tauto|]. intros ([X|X] & Y); [|tauto]. inv X. tauto.
        -- intros i [<-|Hi] Hn; [congruence|]. apply F3; [auto|]. rewrite bfind_del.
           destruct (Z.eqb_spec bi i); auto.
    + destruct (opens bi) eqn:O; [|discriminate].
      apply IH in H; [|auto|]; clear IH.
      2:{ intros i Hi; cbn. rewrite bfind_put. destruct (Z.eqb_spec bi i); [subst; tauto|auto]. }
      cbn in H. destruct H as (A1 & A2 & A3 & A4 & A5 & news & E & N1 & N2 & F1 & F2 & F3).
      split; [|split; [|split; [|split; [|split]]]].
      * intros b [<-|Hb]; cbn; [split; [congruence|auto]|]. apply A1; auto.
      * intros i Hi. destruct (A2 i) as [X Y]; [tauto|]. rewrite X, Y, bfind_put.
        destruct (Z.eqb_spec bi i); [tauto|auto].
      * intros i [<-|Hi]; [|auto]. destruct (A2 bi H2) as [_ Y]. rewrite Y. exact B.
      * intros i v [<-|Hi] Hv; [congruence|]. apply A4; auto.
      * lia.
      * assert (G : bfind bi (ra_upd a') = Some (t, ra_fresh a)).
        { destruct (A2 bi H2) as [X _]. rewrite X, bfind_put, Z.eqb_refl. reflexivity. }
        exists ((bi, (t, ra_fresh a)) :: news). split.
        { rewrite E, <- app_assoc. reflexivity. }
        split; [|split; [|split; [|split]]].
        -- cbn. constructor; [|auto]. intros X. apply in_map_iff in X as ([i [t1 h1]] & e & X).
           cbn in e; subst i. apply F1 in X as (X & _). apply H2. apply (in_map bc_id) in X; exact X.
        -- cbn. constructor; [|auto]. intros X. apply in_map_iff in X as ([i [t1 h1]] & e & X).
           cbn in e; subst h1. apply F2 in X. lia.
        -- intros i t1 h1. cbn. split.
           ++ intros [X|X]; [inv X; auto|]. apply F1 in X. tauto.
           ++ intros ([X|X] & Y & Z0).
              ** inv X. left. congruence.
              ** right. apply F1. auto.
        -- intros i t1 h1 [X|X]; [inv X; lia|]. apply F2 in X. lia.
        -- intros i [<-|Hi] Hn; [exists t, (ra_fresh a); left; auto|].
           destruct (F3 i Hi Hn) as (t1 & h1 & X). exists t1, h1. right; auto.
Qed.

(* for every configuration, also with repeated ids *)
Lemma reconcile_wf opens cfg : forall a a' ok,
  reconcile opens cfg a = (a', ok) ->
  NoDup (map fst (ra_cur a)) -> NoDup (map fst (ra_upd a)) ->
  (forall i t h, In (i, (t, h)) (ra_cur a) \/ In (i, (t, h)) (ra_upd a)
     \/ In (i, (t, h)) (ra_new a) -> (h < ra_fresh a)%nat) ->
  (ra_fresh a <= ra_fresh a')%nat /\
  NoDup (map fst (ra_cur a')) /\ NoDup (map fst (ra_upd a')) /\
  (forall i t h, In (i, (t, h)) (ra_cur a') \/ In (i, (t, h)) (ra_upd a')
     \/ In (i, (t, h)) (ra_new a') -> (h < ra_fresh a')%nat) /\
  (ok = true -> forall i,
     bfind i (ra_upd a') <> None <-> In i (map bc_id cfg) \/ bfind i (ra_upd a) <> None).
Proof.
  induction cfg as [|b r IH]; cbn; intros a a' ok H C U F.
  - inv H. splits; auto. tauto.
  - destruct (bc_type b) as [t|]; [|inv H; splits; auto; discriminate].
    destruct (bfind (bc_id b) (ra_cur a)) as [[t0 h0]|] eqn:B.
    + apply IH in H; cbn [ra_cur ra_upd ra_new ra_fresh] in *;
        [|apply bdel_keys; auto|apply bput_keys; auto|].
      * destruct H as (H1 & H2 & H3 & H4 & H5). splits; auto.
        intros O i. rewrite (H5 O i), bfind_put. destruct (Z.eqb_spec (bc_id b) i).
        -- subst. split; [auto|]. intros _. right. congruence.
        -- split; [tauto|]. intros [[?|?]|?]; try tauto; auto.
      * intros i t1 h1 [X|[X|X]].
        -- unfold bdel in X. apply filter_In in X as [X _]. eauto.
        -- unfold bput, bdel in X. destruct X as [X|X]; [inv X; apply bfind_In in B; eauto|].
           apply filter_In in X as [X _]. eauto.
        -- eauto.
    + destruct (opens (bc_id b)); [|inv H; splits; auto; discriminate].
      apply IH in H; cbn [ra_cur ra_upd ra_new ra_fresh] in *; [|auto|apply bput_keys; auto|].
      * destruct H as (H1 & H2 & H3 & H4 & H5). splits; auto; [lia|].
        intros O i. rewrite (H5 O i), bfind_put. destruct (Z.eqb_spec (bc_id b) i).
        -- subst. split; [auto|]. intros _. right. congruence.
        -- split; [tauto|]. intros [[?|?]|?]; try tauto; auto.
      * intros i t1 h1 [X|[X|X]].
        -- apply Nat.lt_lt_succ_r; eauto.
        -- unfold bput, bdel in X. destruct X as [X|X]; [inv X; lia|].
           apply filter_In in X as [X _]. apply Nat.lt_lt_succ_r; eauto.
        -- apply in_app_or in X as [X|[X|[]]]; [apply Nat.lt_lt_succ_r; eauto|inv X; lia].
Qed.

Record wf (s : bm) : Prop := mkWf {
  wf_keys : NoDup (map fst (bm_bufs s));
  wf_fresh : forall i t h, In (i, (t, h)) (bm_bufs s) -> (h < bm_fresh s)%nat;
  wf_stream : forall h, bm_stream s = Some h -> (h < bm_fresh s)%nat }.

Section Order.
Variable order : bufs -> bufs.
Hypothesis order_perm : forall m, Permutation (order m) m.

Lemma order_in e m : In e (order m) <-> In e m.
Proof.
  split; apply Permutation_in; [|apply Permutation_sym]; apply order_perm.
Qed.

Lemma order_out e m : In e (order m) -> In e m.
Proof. apply order_in. Qed.

Lemma order_keys m : NoDup (map fst m) -> NoDup (map fst (order m)).
Proof.
  apply Permutation_NoDup. apply Permutation_map. apply Permutation_sym, order_perm.
Qed.

Definition ev_handles (evs : list bevent) (h : nat) : Prop :=
  (exists t i, In (BCreated t i h) evs) \/ In (BStreamAdded h) evs \/ In (BStreamRemoved h) evs.

Lemma update_wf s c : wf s ->
  wf (u_state (apply_conf order s c)) /\
  (bm_fresh s <= bm_fresh (u_state (apply_conf order s c)))%nat /\
  (forall h, ev_handles (u_events (apply_conf order s c)) h ->
     (h < bm_fresh (u_state (apply_conf order s c)))%nat) /\
  (u_ok (apply_conf order s c) = true -> forall i,
     bfind i (bm_bufs (u_state (apply_conf order s c))) <> None <-> In i (conf_ids c)).
Proof.
  intros [K F T]. unfold apply_conf, update_from_config.
  destruct (reconcile _ _ _) as [a ok] eqn:R.
  apply reconcile_wf in R as (R1 & R2 & R3 & R4 & R5); cbn [ra_cur ra_upd ra_new ra_fresh] in *;
    [|auto|constructor|].
  2:{ intros i t h [X|[[]|[]]]. eauto. }
  assert (EH : forall h, ev_handles (buffer_events order (ra_cur a) (ra_new a)) h ->
                 (h < ra_fresh a)%nat).
  { intros h X. unfold ev_handles, buffer_events in X. destruct X as [(t & i & X)|[X|X]];
      apply in_app_or in X as [X|X]; apply in_map_iff in X as ([j [t1 h1]] & e & X);
      try discriminate.
    inv e. eauto. }
  destruct ok; cbn [u_state u_events u_ok].
  - destruct (stream_update (bm_stream s) (cf_streaming c) (ra_fresh a)) as [[st sev] fr] eqn:E.
    assert (G : (ra_fresh a <= fr)%nat /\ (forall h, st = Some h -> (h < fr)%nat) /\
                (forall h, In (BStreamAdded h) sev \/ In (BStreamRemoved h) sev -> (h < fr)%nat) /\
                (forall t i h, ~ In (BCreated t i h) sev)).
    { unfold stream_update in E. destruct (cf_streaming c), (bm_stream s) as [h0|] eqn:D; inv E;
        cbn.
      - splits; auto; [|tauto]. intros h [= ->]. specialize (T h eq_refl). lia.
      - splits; auto.
        + intros h [= ->]; lia.
        + intros h [[X|[]]|[X|[]]]; inv X; lia.
        + intros t i h [X|[]]; discriminate.
      - splits; auto.
        + discriminate.
        + intros h [[X|[]]|[X|[]]]; inv X. specialize (T h eq_refl). lia.
        + intros t i h [X|[]]; discriminate.
      - splits; auto; [discriminate|tauto]. }
    destruct G as (G1 & G2 & G3 & G4). cbn. splits.
    + constructor; cbn; auto. intros i t h X. specialize (R4 i t h (or_intror (or_introl X))). lia.
    + lia.
    + intros h X. unfold ev_handles in X. destruct X as [(t & i & X)|[X|X]];
        apply in_app_or in X as [X|X].
      * specialize (EH h). assert (h < ra_fresh a)%nat by (apply EH; left; eauto). lia.
      * exfalso; eapply G4; eauto.
      * assert (h < ra_fresh a)%nat by (apply EH; right; left; auto). lia.
      * apply G3; auto.
      * assert (h < ra_fresh a)%nat by (apply EH; right; right; auto). lia.
      * apply G3; auto.
    + intros _ i. rewrite (R5 eq_refl i). cbn. tauto.
  - cbn. splits.
    + constructor; cbn; auto.
      * intros i t h X. specialize (F i t h X). lia.
      * intros h X. specialize (T h X). lia.
    + auto.
    + unfold ev_handles; cbn. intros h [(t & i & [])|[[]|[]]].
    + discriminate.
Qed.

Lemma wf_new : wf bm_new.
Proof. constructor; cbn; [constructor|tauto|discriminate]. Qed.

Lemma run_wf cs : forall s s' ev mk, wf s -> run_confs order s cs = (s', ev, mk) ->
  wf s' /\ (bm_fresh s <= bm_fresh s')%nat /\ (forall h, ev_handles ev h -> (h < bm_fresh s')%nat).
Proof.
  induction cs as [|c r IH]; cbn; intros s s' ev mk W H.
  - inv H. splits; auto. unfold ev_handles; cbn. intros h [(t & i & [])|[[]|[]]].
  - destruct (update_wf s c W) as (W1 & L1 & E1 & _).
    destruct (run_confs order (u_state (apply_conf order s c)) r) as [[s1 ev1] mk1] eqn:R. inv H.
    destruct (IH _ _ _ _ W1 R) as (W2 & L2 & E2). splits; auto; [lia|].
    intros h X. unfold ev_handles in X. rewrite !in_app_iff in X.
    destruct X as [(t & i & X)|[X|X]].
    + apply in_app_or in X as [X|X].
      * assert (h < bm_fresh (u_state (apply_conf order s c)))%nat by (apply E1; left; eauto). lia.
      * apply E2; left; eauto.
    + destruct X as [X|X].
      * assert (h < bm_fresh (u_state (apply_conf order s c)))%nat by (apply E1; right; left; auto). lia.
      * apply E2; right; left; auto.
    + destruct X as [X|X].
      * assert (h < bm_fresh (u_state (apply_conf order s c)))%nat by (apply E1; right; right; auto). lia.
      * apply E2; right; right; auto.
Qed.

(* one update, distinct ids *)
Lemma update_spec s c : wf s -> NoDup (conf_ids c) ->
  let u := apply_conf order s c in
  let before := fun i => bfind i (bm_bufs s) in
  let after := fun i => bfind i (bm_bufs (u_state u)) in
  (u_ok u = true <-> usable (fun i => before i <> None) c) /\
  (u_ok u = false ->
     (forall i, after i = before i) /\ bm_stream (u_state u) = bm_stream s /\
     u_events u = [] /\ u_marked u = []) /\
  (u_ok u = true ->
     (forall i, after i <> None <-> In i (conf_ids c)) /\
     (forall i v, In i (conf_ids c) -> before i = Some v -> after i = Some v) /\
     (forall i t h, before i = None -> after i = Some (t, h) ->
        conf_type c i t /\ (bm_fresh s <= h)%nat) /\
     exists gone new strm,
       u_events u = map BRemoved gone
                    ++ map (fun e => BCreated (fst (snd e)) (fst e) (snd (snd e))) new ++ strm /\
       NoDup gone /\ NoDup (map fst new) /\ NoDup (map (fun e => snd (snd e)) new) /\
       (forall i, In i gone <-> before i <> None /\ ~ In i (conf_ids c)) /\
       (forall i t h, In (i, (t, h)) new <-> before i = None /\ after i = Some (t, h)) /\
       match bm_stream s, cf_streaming c with
       | Some h, true => strm = [] /\ bm_stream (u_state u) = Some h
       | None, false => strm = [] /\ bm_stream (u_state u) = None
       | Some h, false => strm = [BStreamRemoved h] /\ bm_stream (u_state u) = None
       | None, true => exists h, strm = [BStreamAdded h] /\ bm_stream (u_state u) = Some h /\
                                 (bm_fresh s <= h)%nat
       end /\
       (forall h, In h (u_marked u) <->
          exists i t, before i = Some (t, h) /\ ~ In i (conf_ids c))).
Proof.
  intros W N u before after. pose proof (update_wf s c W) as (W1 & L1 & E1 & C1).
  destruct W as [K F T]. subst u after. clear W1 L1 E1. revert C1.
  unfold apply_conf, update_from_config.
  destruct (reconcile _ _ _) as [a ok] eqn:R. intros C1.
  destruct ok.
  - pose proof (reconcile_wf _ _ _ _ _ R) as RW. cbn [ra_cur ra_upd ra_new ra_fresh] in RW.
    destruct RW as (_ & RK & _ & _ & _); [auto|constructor|intros i t h [X|[[]|[]]]; eauto|].
    apply reconcile_ok in R; [|auto|reflexivity]. cbn [ra_cur ra_upd ra_new ra_fresh] in R.
    destruct R as (A1 & A2 & A3 & A4 & A5 & news & E & N1 & N2 & F1 & F2 & F3).
    cbn in E.
    destruct (stream_update (bm_stream s) (cf_streaming c) (ra_fresh a)) as [[st sev] fr] eqn:ES.
    cbn [u_ok u_state u_events u_marked bm_bufs bm_stream] in *.
    split; [split; [intros _ b Hb; exact (A1 b Hb)|auto]|]. split; [discriminate|]. intros _.
    assert (G : forall i, In i (map fst (ra_cur a)) <-> before i <> None /\ ~ In i (conf_ids c)).
    { intros i. rewrite <- bfind_in. destruct (in_dec Z.eq_dec i (conf_ids c)) as [X|X].
      - rewrite (A3 i X). tauto.
      - destruct (A2 i X) as [_ Y]. rewrite Y. unfold before. tauto. }
    split; [exact (C1 eq_refl)|]. split; [exact A4|]. split.
    { intros i t h B A. assert (X : In i (conf_ids c)) by (apply (C1 eq_refl); congruence).
      destruct (F3 i X B) as (t1 & h1 & Y). pose proof (F2 _ _ _ Y).
      apply F1 in Y as (Y & _ & Z0). assert (Q : (t, h) = (t1, h1)) by congruence.
      inv Q. split; [exact Y|lia]. }
    exists (map fst (order (ra_cur a))), news, sev. split.
    { unfold buffer_events. rewrite map_map, <- app_assoc. cbn in E. rewrite E. reflexivity. }
    split; [apply order_keys; auto|]. split; [auto|]. split; [auto|]. split.
    { intros i. rewrite <- G. split; intros X; apply in_map_iff in X as (e & <- & X);
        apply in_map; apply order_in; auto. }
    split.
    { intros i t h. rewrite F1. split; [tauto|]. intros [B A]. splits; auto.
      assert (X : In i (conf_ids c)) by (apply (C1 eq_refl); congruence).
      destruct (F3 i X B) as (t1 & h1 & Y). apply F1 in Y as (Y & _ & Z0). congruence. }
    split.
    { unfold stream_update in ES. destruct (cf_streaming c), (bm_stream s) as [h0|]; inv ES; auto.
      exists (ra_fresh a). auto. }
    intros h. split.
    + intros X. apply in_map_iff in X as ([i [t h1]] & e & X). cbn in e; subst h1.
      apply order_out in X. assert (Y : In i (map fst (ra_cur a))) by (apply (in_map fst) in X; exact X).
      apply G in Y as [Y1 Y2]. exists i, t. split; [|auto].
      apply In_bfind in X; [|auto]. destruct (A2 i Y2) as [_ Z0]. unfold before. congruence.
    + intros (i & t & B & X). apply in_map_iff. exists (i, (t, h)). split; [reflexivity|].
      apply order_in. apply bfind_In. destruct (A2 i X) as [_ Z0]. rewrite Z0. exact B.
  - apply reconcile_fail in R; [|auto]. cbn [ra_cur] in R. destruct R as (b & Hb & D).
    cbn [u_ok u_state u_events u_marked bm_bufs bm_stream] in *.
    split; [|split; [auto|discriminate]]. split; [discriminate|]. intros U. exfalso.
    destruct (U b Hb) as [U1 [U2|U2]].
    + destruct D as [D|[D1 D2]]; [tauto|]. unfold before in U2. tauto.
    + destruct D as [D|[D1 D2]]; [tauto|]. congruence.
Qed.

(* --- the events tell the whole story --- *)
Lemma announced_app a b i k : announced (a ++ b) i k = announced b i (announced a i k).
Proof. revert k; induction a as [|[] a IH]; cbn; auto. Qed.

Lemma announced_stream_app a b k :
  announced_stream (a ++ b) k = announced_stream b (announced_stream a k).
Proof. revert k; induction a as [|[] a IH]; cbn; auto. Qed.

Lemma announced_gone l i : forall k,
  announced (map BRemoved l) i k = if in_dec Z.eq_dec i l then None else k.
Proof.
  induction l as [|j l IH]; intros k; [reflexivity|]. cbn [map announced]. rewrite IH.
  destruct (in_dec Z.eq_dec i l), (in_dec Z.eq_dec i (j :: l)) as [y|y], (Z.eqb_spec j i); auto;
    cbn in y; try tauto.
Qed.

Lemma announced_new (l : list (Z * (btype * nat))) i : forall k, NoDup (map fst l) ->
  announced (map (fun e => BCreated (fst (snd e)) (fst e) (snd (snd e))) l) i k
  = match bfind i l with Some v => Some v | None => k end.
Proof.
  induction l as [|[j [t h]] l IH]; intros k N; cbn; auto. inv N. rewrite IH by auto.
  destruct (Z.eqb_spec j i); auto. subst. destruct (bfind i l) eqn:E; auto.
  exfalso. apply H1. apply bfind_in. congruence.
Qed.

Lemma orderly_app a : forall b known,
  orderly a known -> (forall k', (forall x, In x k' <-> announced a x (if in_dec Z.eq_dec x known then Some (BTrigger, 0%nat) else None) <> None) -> orderly b k') ->
  orderly (a ++ b) known.
Proof.
  induction a as [|[t j h|j|h|h] a IH]; cbn; intros b known A B.
  - apply B. intros x. destruct (in_dec Z.eq_dec x known); split; intros; auto; congruence.
  - destruct A as [A1 A2]. split; [auto|]. apply IH; [auto|]. intros k' K. apply B. intros x.
    rewrite (K x). clear.
    assert (G : forall x (p q : option (btype * nat)), (p <> None <-> q <> None) ->
              (announced a x p <> None <-> announced a x q <> None)).
    { induction a as [|[] a IH]; cbn; intros y p q H; auto; apply IH; destruct (_ =? _); auto;
        tauto || (split; congruence). }
    apply G. destruct (Z.eqb_spec j x); subst.
    + destruct (in_dec Z.eq_dec x (x :: known)) as [y|y]; [split; congruence|exfalso; apply y; left; auto].
    + destruct (in_dec Z.eq_dec x (j :: known)) as [y|y], (in_dec Z.eq_dec x known) as [z|z]; auto;
        try tauto; try (split; congruence).
      * destruct y; [congruence|tauto].
      * exfalso; apply y; right; auto.
  - destruct A as [A1 A2]. split; [auto|]. apply IH; [auto|]. intros k' K. apply B. intros x.
    rewrite (K x). clear.
    assert (G : forall x (p q : option (btype * nat)), (p <> None <-> q <> None) ->
              (announced a x p <> None <-> announced a x q <> None)).
    { induction a as [|[] a IH]; cbn; intros y p q H; auto; apply IH; destruct (_ =? _); auto;
        tauto || (split; congruence). }
    apply G. destruct (in_dec Z.eq_dec x (filter (fun x0 => negb (x0 =? j)) known)) as [y|y];
      destruct (Z.eqb_spec j x) as [e|e].
    + subst. apply filter_In in y as [_ y]. rewrite Z.eqb_refl in y. discriminate.
    + apply filter_In in y as [y _]. destruct (in_dec Z.eq_dec x known); [split; congruence|tauto].
    + split; congruence.
    + destruct (in_dec Z.eq_dec x known) as [z|z]; [|split; congruence]. exfalso. apply y.
      apply filter_In. split; [auto|]. destruct (Z.eqb_spec x j); [congruence|reflexivity].
  - apply IH; auto.
  - apply IH; auto.
Qed.

Lemma orderly_gone l : forall known, NoDup l -> (forall i, In i l -> In i known) ->
  orderly (map BRemoved l) known.
Proof.
  induction l as [|j l IH]; cbn; intros known N H; auto. inv N. split; [auto|].
  apply IH; [auto|]. intros i Hi. apply filter_In. split; [auto|].
  destruct (Z.eqb_spec i j); [subst; tauto|auto].
Qed.

Lemma orderly_new (l : list (Z * (btype * nat))) : forall known rest, NoDup (map fst l) ->
  (forall i, In i (map fst l) -> ~ In i known) ->
  (forall e, In e rest -> exists h, e = BStreamAdded h \/ e = BStreamRemoved h) ->
  orderly (map (fun e => BCreated (fst (snd e)) (fst e) (snd (snd e))) l ++ rest) known.
Proof.
  induction l as [|[j [t h]] l IH]; cbn; intros known rest N H S.
  - clear N H. revert known. induction rest as [|e rest IH]; cbn; intros known; auto.
    destruct (S e (or_introl eq_refl)) as (h & [->| ->]); apply IH; intros; apply S; right; auto.
  - inv N. split; [auto|]. apply IH; auto. intros i Hi [<-|X]; [tauto|]. eapply H; eauto.
Qed.

Lemma orderly_ext l : forall k1 k2, (forall x, In x k1 <-> In x k2) -> orderly l k1 -> orderly l k2.
Proof.
  induction l as [|[t j h|j|h|h] l IH]; cbn; intros k1 k2 E H; auto.
  - destruct H as [A B]. split; [rewrite <- E; auto|]. eapply IH; [|exact B].
    intros x; cbn. rewrite E. tauto.
  - destruct H as [A B]. split; [apply E; auto|]. eapply IH; [|exact B].
    intros x. rewrite !filter_In, E. tauto.
  - eapply IH; eauto.
  - eapply IH; eauto.
Qed.

Lemma update_announced s c : wf s -> NoDup (conf_ids c) ->
  let u := apply_conf order s c in
  (forall i, announced (u_events u) i (bfind i (bm_bufs s)) = bfind i (bm_bufs (u_state u))) /\
  announced_stream (u_events u) (bm_stream s) = bm_stream (u_state u) /\
  orderly (u_events u) (map fst (bm_bufs s)).
Proof.
  intros W N u. destruct (update_spec s c W N) as (_ & Bad & Good). fold u in Bad, Good.
  destruct (u_ok u) eqn:O.
  - clear Bad. destruct (Good eq_refl) as (A & B & _ & gone & new & strm & E & N1 & N2 & _ & G & NW & ST & _).
    clear Good. rewrite E.
    assert (S1 : forall e, In e strm -> exists h, e = BStreamAdded h \/ e = BStreamRemoved h).
    { intros e X. destruct (bm_stream s), (cf_streaming c); try (destruct ST as [-> _]).
      - destruct X.
      - destruct X as [<-|[]]; eauto.
      - destruct ST as (h & -> & _). destruct X as [<-|[]]; eauto.
      - destruct X. }
    assert (S2 : forall i k, announced strm i k = k).
    { clear -S1. induction strm as [|e l IH]; cbn; intros i k; auto.
      destruct (S1 e (or_introl eq_refl)) as (h & [->| ->]); apply IH; intros; apply S1; right; auto. }
    split; [|split].
    + intros i. rewrite !announced_app, announced_gone, announced_new, S2 by auto.
      destruct (bfind i new) as [[t h]|] eqn:F.
      * apply bfind_In in F. apply NW in F as [_ F]. auto.
      * destruct (in_dec Z.eq_dec i gone) as [X|X].
        -- apply G in X as [_ X]. destruct (bfind i (bm_bufs (u_state u))) eqn:Y; auto.
           exfalso. apply X. apply A. congruence.
        -- destruct (bfind i (bm_bufs s)) as [v|] eqn:Y.
           ++ symmetry. apply B; [|auto]. destruct (in_dec Z.eq_dec i (conf_ids c)); auto.
              exfalso. apply X. apply G. split; [congruence|auto].
           ++ destruct (bfind i (bm_bufs (u_state u))) as [[t h]|] eqn:Z0; auto.
              assert (Q : In (i, (t, h)) new) by (apply NW; auto).
              apply (in_map fst) in Q. apply bfind_in in Q. cbn in Q. congruence.
    + assert (R1 : forall l k, announced_stream (map BRemoved l) k = k)
        by (induction l; cbn; auto).
      assert (R2 : forall (l : list (Z * (btype * nat))) k,
                announced_stream (map (fun e => BCreated (fst (snd e)) (fst e) (snd (snd e))) l) k = k)
        by (induction l; cbn; auto).
      rewrite !announced_stream_app, R1, R2.
      destruct (bm_stream s) as [h0|], (cf_streaming c).
      * destruct ST as [-> ->]; reflexivity.
      * destruct ST as [-> ->]; reflexivity.
      * destruct ST as (h & -> & -> & _); reflexivity.
      * destruct ST as [-> ->]; reflexivity.
    + apply orderly_app; [apply orderly_gone; [auto|]; intros i X; apply G in X as [X _]; apply bfind_in; auto|].
      intros k' K'. apply orderly_new; auto. intros i X Y.
      apply in_map_iff in X as ([j [t h]] & e & X). cbn in e; subst j. apply NW in X as [X1 X2].
      apply K' in Y. rewrite announced_gone in Y.
      destruct (in_dec Z.eq_dec i gone); [congruence|].
      destruct (in_dec Z.eq_dec i (map fst (bm_bufs s))) as [z|z]; [|congruence].
      apply bfind_in in z. congruence.
  - destruct (Bad eq_refl) as (A & B & E & _). rewrite E. cbn. splits; auto.
Qed.

Lemma run_announced cs : forall s s' ev mk, wf s ->
  (forall c, In c cs -> NoDup (conf_ids c)) -> run_confs order s cs = (s', ev, mk) ->
  (forall i, announced ev i (bfind i (bm_bufs s)) = bfind i (bm_bufs s')) /\
  announced_stream ev (bm_stream s) = bm_stream s' /\
  orderly ev (map fst (bm_bufs s)).
Proof.
  induction cs as [|c r IH]; cbn; intros s s' ev mk W N H.
  - inv H. cbn. auto.
  - destruct (run_confs order (u_state (apply_conf order s c)) r) as [[s1 ev1] mk1] eqn:R. inv H.
    destruct (update_wf s c W) as (W1 & _ & _ & _).
    destruct (update_announced s c W) as (A1 & A2 & A3); [apply N; auto|].
    destruct (IH _ _ _ _ W1 (fun x Hx => N x (or_intror Hx)) R) as (B1 & B2 & B3).
    split; [|split].
    + intros i. rewrite announced_app, A1. apply B1.
    + rewrite announced_stream_app, A2. exact B2.
    + apply orderly_app; [auto|]. intros k' K'. eapply orderly_ext; [|exact B3].
      intros x. rewrite K'. rewrite <- bfind_in, <- A1.
      assert (G : forall l (p q : option (btype * nat)), (p <> None <-> q <> None) ->
                (announced l x p <> None <-> announced l x q <> None)).
      { induction l as [|[] l IHl]; cbn; intros p q H; auto; apply IHl; destruct (_ =? _); auto;
          tauto || (split; congruence). }
      apply G. destruct (in_dec Z.eq_dec x (map fst (bm_bufs s))) as [z|z].
      * apply bfind_in in z. split; congruence.
      * split; [intros X; apply bfind_in in X; tauto|congruence].
Qed.

(* --- the flush task --- *)
Lemma flush_ids_known m ids : (forall i, In i ids -> bfind i m <> None) ->
  exists l, flush_ids m ids = (l, true) /\
    Forall2 (fun i e => exists t h, bfind i m = Some (t, h) /\ e = FFlushed h) ids l.
Proof.
  induction ids as [|i r IH]; cbn; intros H.
  - exists []. auto.
  - destruct (bfind i m) as [[t h]|] eqn:E; [|exfalso; eapply H; eauto].
    destruct IH as (l & -> & F); [auto|]. exists (FFlushed h :: l). split; [auto|].
    constructor; eauto.
Qed.

Lemma flush_ids_unknown m ids : (exists i, In i ids /\ bfind i m = None) ->
  snd (flush_ids m ids) = false /\ acks (fst (flush_ids m ids)) = [].
Proof.
  induction ids as [|i r IH]; cbn; intros (j & H & E); [tauto|].
  destruct (bfind i m) as [[t h]|] eqn:D; [|auto].
  destruct H as [->|H]; [congruence|]. destruct IH as [A B]; [eauto|].
  destruct (flush_ids m r); cbn in *. auto.
Qed.

Lemma flush_ids_acks m ids : acks (fst (flush_ids m ids)) = [].
Proof.
  induction ids as [|i r IH]; cbn; auto. destruct (bfind i m) as [[t h]|]; auto.
  destruct (flush_ids m r); cbn in *. auto.
Qed.

Lemma acks_app a b : acks (a ++ b) = acks a ++ acks b.
Proof. induction a as [|[] a IH]; cbn; auto. rewrite IH; auto. Qed.

Definition one (a : option nat) : list nat := match a with Some x => [x] | None => [] end.

Lemma flush_round_named s ids ack : ids <> [] ->
  (forall i, In i ids -> bfind i (bm_bufs s) <> None) ->
  exists l, flush_round order s ids ack = (l ++ map FAck (one ack), true) /\
    Forall2 (fun i e => exists t h, bfind i (bm_bufs s) = Some (t, h) /\ e = FFlushed h) ids l.
Proof.
  intros N K. destruct (flush_ids_known _ _ K) as (l & E & F). exists l. split; [|auto].
  unfold flush_round. destruct ids; [congruence|]. rewrite E. destruct ack; reflexivity.
Qed.

Lemma flush_round_all s ack : NoDup (map fst (bm_bufs s)) ->
  exists l, flush_round order s [] ack = (l ++ map FAck (one ack), true) /\
    Permutation l (map (fun e => FFlushed (snd (snd e))) (bm_bufs s)
                   ++ match bm_stream s with Some h => [FStream h] | None => [] end).
Proof.
  intros N. destruct (flush_ids_known (bm_bufs s) (map fst (order (bm_bufs s)))) as (l & E & F).
  { intros i X. apply bfind_in. apply in_map_iff in X as (e & <- & X). apply in_map.
    apply order_in; auto. }
  exists (l ++ match bm_stream s with Some h => [FStream h] | None => [] end). split.
  - unfold flush_round. rewrite E. destruct ack; cbn; rewrite <- app_assoc; reflexivity.
  - apply Permutation_app_tail.
    assert (G : l = map (fun e => FFlushed (snd (snd e))) (order (bm_bufs s))).
    { assert (S1 : forall e, In e (order (bm_bufs s)) -> bfind (fst e) (bm_bufs s) = Some (snd e)).
      { intros [i v] X. apply In_bfind; [auto|]. apply order_in; auto. }
      clear -F S1. revert l F. induction (order (bm_bufs s)) as [|e r IH]; cbn; intros l F; inv F; auto.
      destruct H1 as (t & h & E & ->). rewrite (S1 e (or_introl eq_refl)) in E. inv E.
      rewrite H0. cbn. f_equal. apply IH; auto. intros; apply S1; right; auto. }
    rewrite G. apply Permutation_map, order_perm.
Qed.

Lemma frun_app s a b : frun order s (a ++ b) = frun order (frun order s a) b.
Proof. unfold frun. apply fold_left_app. Qed.

(* acceptable state of the flush task *)
Record fgood (os : list fop) (s : fsys) : Prop := mkFgood {
  fg_wf : wf (fs_bm s);
  fg_alive : fs_alive s = true;
  fg_acks : acks (fs_log s) ++ flat_map (fun r => one (snd r)) (fs_chan s) = wanted os;
  fg_known : forall ids a i, In (ids, a) (fs_chan s) -> In i ids ->
     bfind i (bm_bufs (fs_bm s)) <> None }.

Lemma wanted_app a b : wanted (a ++ b) = wanted a ++ wanted b.
Proof. induction a as [|[c|ids [x|]|] a IH]; cbn; auto. rewrite IH; auto. Qed.

Lemma acks_map l : acks (map FAck l) = l.
Proof. induction l; cbn; congruence. Qed.

Lemma round_acks s ids ack l : flush_round order s ids ack = (l, true) -> acks l = one ack.
Proof.
  unfold flush_round. set (all := match ids with [] => true | _ => false end).
  set (ids' := if all then _ else _). pose proof (flush_ids_acks (bm_bufs s) ids') as A.
  destruct (flush_ids (bm_bufs s) ids') as [l0 ok]. cbn in A. destruct ok; [|discriminate].
  intros [= <-]. rewrite !acks_app, A. destruct all, (bm_stream s), ack; reflexivity.
Qed.

Definition ids_stay (h : list fop) : Prop :=
  forall p ids a q, h = p ++ FRequest ids a :: q ->
    (forall i, In i ids -> bfind i (bm_bufs (fs_bm (frun order fsys_new p))) <> None) /\
    (forall c i, In (FUpdate c) q -> In i ids -> In i (conf_ids c)).

Lemma bm_of_run os : forall s, fs_bm (frun order s os) =
  fold_left (fun b o => match o with FUpdate c => u_state (apply_conf order b c) | _ => b end) os (fs_bm s).
Proof.
  induction os as [|o r IH]; intros s; auto. unfold frun in *. cbn. rewrite IH. f_equal.
  destruct o as [c|ids a|]; cbn; auto.
  - destruct (fs_alive s); auto.
  - destruct (fs_alive s); auto. destruct (fs_chan s) as [|[ids a] q]; auto.
    destruct (flush_round order (fs_bm s) ids a) as [l [|]]; auto.
Qed.

Lemma u_fail_same b c : wf b -> u_ok (apply_conf order b c) = false ->
  bm_bufs (u_state (apply_conf order b c)) = bm_bufs b.
Proof.
  intros W. unfold apply_conf, update_from_config. destruct (reconcile _ _ _) as [a ok].
  destruct ok; [|auto]. destruct (stream_update _ _ _) as [[st sev] fr]. discriminate.
Qed.

Lemma fgood_run h : ids_stay h -> fgood h (frun order fsys_new h).
Proof.
  induction h as [|o h IH] using rev_ind; intros S.
  - constructor; cbn; try apply wf_new; try tauto; auto.
  - assert (S' : ids_stay h).
    { intros p ids a q E. destruct (S p ids a (q ++ [o])) as [A B].
      - rewrite E, <- app_assoc. reflexivity.
      - split; [auto|]. intros c i X. apply B. apply in_or_app; auto. }
    specialize (IH S'). rewrite frun_app. cbn [frun fold_left].
    destruct IH as [W A K N].
    destruct o as [c|ids a|]; cbn [fstep].
    + destruct (update_wf _ c W) as (W1 & _ & _ & C1).
      constructor; cbn; auto.
      * rewrite wanted_app; cbn. rewrite app_nil_r. auto.
      * intros ids a i X Y. destruct (u_ok (apply_conf order (fs_bm (frun order fsys_new h)) c)) eqn:O.
        -- apply (C1 eq_refl).
           (* the request is in the history *)
           assert (Q : exists p q, h = p ++ FRequest ids a :: q).
           { clear -X. induction h as [|o h IH] using rev_ind; [destruct X|].
             rewrite frun_app in X. cbn [frun fold_left] in X.
             destruct o as [c0|ids0 a0|]; cbn [fstep] in X.
             - cbn in X. destruct (IH X) as (p & q & E). exists p, (q ++ [FUpdate c0]).
               rewrite E, <- app_assoc. reflexivity.
             - destruct (fs_alive (frun order fsys_new h)).
               + cbn in X. apply in_app_or in X as [X|[X|[]]].
                 * destruct (IH X) as (p & q & E). exists p, (q ++ [FRequest ids0 a0]).
                   rewrite E, <- app_assoc. reflexivity.
                 * inv X. exists h, []. reflexivity.
               + destruct (IH X) as (p & q & E). exists p, (q ++ [FRequest ids0 a0]).
                 rewrite E, <- app_assoc. reflexivity.
             - destruct (fs_alive (frun order fsys_new h)).
               + destruct (fs_chan (frun order fsys_new h)) as [|[i0 a0] q0] eqn:CC.
                 * rewrite CC in X. destruct X.
                 * assert (X' : In (ids, a) q0).
                   { destruct (flush_round order (fs_bm (frun order fsys_new h)) i0 a0) as [l [|]];
                       cbn in X; [auto|destruct X]. }
                   destruct (IH (or_intror X')) as (p & q & E). exists p, (q ++ [FServe]).
                   rewrite E, <- app_assoc. reflexivity.
               + destruct (IH X) as (p & q & E). exists p, (q ++ [FServe]).
                 rewrite E, <- app_assoc. reflexivity. }
           destruct Q as (p & q & E). destruct (S p ids a (q ++ [FUpdate c])) as [_ B].
           { rewrite E, <- app_assoc. reflexivity. }
           apply (B c i); [apply in_or_app; right; left; auto|auto].
        -- rewrite (u_fail_same _ _ W O). eauto.
    + rewrite A. constructor; cbn; auto.
      * rewrite wanted_app, flat_map_app, app_assoc, K. destruct a; cbn; rewrite ?app_nil_r; auto.
      * intros ids1 a1 i X Y. apply in_app_or in X as [X|[X|[]]]; [eauto|]. inv X.
        destruct (S h ids1 a1 []) as [B _]; [auto|]. apply B; auto.
    + rewrite A. destruct (fs_chan (frun order fsys_new h)) as [|[ids a] q] eqn:CC.
      * constructor; auto; rewrite ?CC; auto.
        rewrite wanted_app, <- K; cbn. rewrite !app_nil_r. auto.
      * assert (G : exists l, flush_round order (fs_bm (frun order fsys_new h)) ids a = (l, true)).
        { destruct (list_eq_dec Z.eq_dec ids []) as [->|NE].
          - destruct (flush_round_all (fs_bm (frun order fsys_new h)) a (wf_keys _ W)) as (l & E & _).
            eauto.
          - destruct (flush_round_named (fs_bm (frun order fsys_new h)) ids a NE) as (l & E & _);
              [|eauto]. intros i Y. eapply N; [left; reflexivity|auto]. }
        destruct G as (l & G). rewrite G. constructor; cbn; auto.
        -- rewrite wanted_app; cbn. rewrite app_nil_r, <- K, acks_app, (round_acks _ _ _ _ G).
           cbn. rewrite <- app_assoc. reflexivity.
        -- intros ids1 a1 i X Y. eapply N; [right; eauto|auto].
Qed.

Lemma serve_shrinks s : fs_alive (fstep order s FServe) = true ->
  length (fs_chan (fstep order s FServe)) = pred (length (fs_chan s)).
Proof.
  cbn. destruct (fs_alive s) eqn:A; [|congruence]. destruct (fs_chan s) as [|[ids a] q] eqn:C.
  - rewrite C. auto.
  - destruct (flush_round order (fs_bm s) ids a) as [l [|]]; cbn; [auto|discriminate].
Qed.

Lemma ids_stay_serve h n : ids_stay h -> ids_stay (h ++ repeat FServe n).
Proof.
  intros S p ids a q E.
  assert (X : exists q', h = p ++ FRequest ids a :: q' /\ (forall o, In o q -> In o q' \/ o = FServe)).
  { clear S. revert p E. induction h as [|o h IH]; intros p E; cbn in E.
    - exfalso. assert (Y : In (FRequest ids a) (repeat FServe n)).
      { rewrite E. apply in_or_app; right; left; auto. }
      apply repeat_spec in Y. discriminate.
    - destruct p as [|o1 p]; cbn in E; inv E.
      + exists h. split; [reflexivity|]. intros o X. apply in_app_or in X as [X|X]; [auto|].
        right. apply repeat_spec in X. auto.
      + destruct (IH p H1) as (q' & -> & Y). exists q'. split; [reflexivity|auto]. }
  destruct X as (q' & -> & X). destruct (S p ids a q' eq_refl) as [A B]. split; [auto|].
  intros c i Y. destruct (X _ Y) as [Z0|Z0]; [eauto|discriminate].
Qed.

Lemma served_all h n : ids_stay h -> (length (fs_chan (frun order fsys_new h)) <= n)%nat ->
  fs_chan (frun order fsys_new (h ++ repeat FServe n)) = [].
Proof.
  intros S. remember (length (fs_chan (frun order fsys_new h))) as m eqn:M. intros L.
  assert (G : forall k, (length (fs_chan (frun order fsys_new (h ++ repeat FServe k))) = m - k)%nat).
  { induction k as [|k IH].
    - cbn. rewrite app_nil_r. lia.
    - pose proof (fgood_run _ (ids_stay_serve h (Datatypes.S k) S)) as Gd.
      replace (repeat FServe (Datatypes.S k)) with (repeat FServe k ++ [FServe]) in *
        by (clear; induction k; cbn in *; congruence).
      rewrite app_assoc, frun_app in Gd. rewrite app_assoc, frun_app. destruct Gd as [_ Al _ _].
      set (s1 := frun order fsys_new (h ++ repeat FServe k)) in *.
      change (frun order s1 [FServe]) with (fstep order s1 FServe) in *.
      rewrite serve_shrinks by exact Al. rewrite IH, Nat.sub_succ_r. reflexivity. }
  apply length_zero_iff_nil. rewrite G. lia.
Qed.

Lemma answered_all h n : ids_stay h -> (length (fs_chan (frun order fsys_new h)) <= n)%nat ->
  acks (fs_log (frun order fsys_new (h ++ repeat FServe n))) = wanted h.
Proof.
  intros S L. pose proof (fgood_run _ (ids_stay_serve h n S)) as [_ _ K _].
  rewrite (served_all h n S L) in K. cbn in K. rewrite app_nil_r in K. rewrite K, wanted_app.
  clear. replace (wanted (repeat FServe n)) with (@nil nat) by (induction n; auto).
  apply app_nil_r.
Qed.

Lemma fs_wf h : wf (fs_bm (frun order fsys_new h)).
Proof.
  rewrite bm_of_run. cbn [fsys_new fs_bm]. generalize wf_new. generalize bm_new.
  induction h as [|o h IH]; cbn; intros b W; auto. apply IH. destruct o; auto.
  apply update_wf; auto.
Qed.

Lemma serve_named h ids a q : let s := frun order fsys_new h in
  fs_alive s = true -> fs_chan s = (ids, a) :: q -> ids <> [] ->
  let s' := frun order s [FServe] in
  ((forall i, In i ids -> bfind i (bm_bufs (fs_bm s)) <> None) ->
     fs_alive s' = true /\ exists l, fs_log s' = fs_log s ++ l ++ map FAck (one a) /\
       Forall2 (fun i e => exists t h, bfind i (bm_bufs (fs_bm s)) = Some (t, h) /\ e = FFlushed h) ids l) /\
  ((exists i, In i ids /\ bfind i (bm_bufs (fs_bm s)) = None) ->
     fs_alive s' = false /\ acks (fs_log s') = acks (fs_log s)).
Proof.
  intros s A C N s'. subst s'. cbn [frun fold_left fstep]. rewrite A, C. split; intros K.
  - destruct (flush_round_named (fs_bm s) ids a N K) as (l & -> & F). cbn. split; [auto|].
    exists l. auto.
  - unfold flush_round. destruct ids as [|i0 ids]; [congruence|].
    destruct (flush_ids_unknown _ _ K) as [U1 U2].
    destruct (flush_ids (bm_bufs (fs_bm s)) (i0 :: ids)) as [l ok]. cbn in U1, U2. subst ok. cbn.
    rewrite acks_app, U2, app_nil_r. auto.
Qed.

Lemma serve_all h a q : let s := frun order fsys_new h in
  fs_alive s = true -> fs_chan s = ([], a) :: q ->
  let s' := frun order s [FServe] in
  fs_alive s' = true /\ exists l, fs_log s' = fs_log s ++ l ++ map FAck (one a) /\
    Permutation l (map (fun e => FFlushed (snd (snd e))) (bm_bufs (fs_bm s))
                   ++ match bm_stream (fs_bm s) with Some h => [FStream h] | None => [] end).
Proof.
  intros s A C s'. subst s'. cbn [frun fold_left fstep]. rewrite A, C.
  destruct (flush_round_all (fs_bm s) a (wf_keys _ (fs_wf h))) as (l & E & F). rewrite E. cbn.
  split; [auto|]. exists l. auto.
Qed.

Lemma dead_for_ever os : forall s, fs_alive s = false ->
  fs_alive (frun order s os) = false /\ fs_log (frun order s os) = fs_log s.
Proof.
  induction os as [|o r IH]; intros s A; [auto|]. unfold frun in *. cbn.
  destruct (IH (fstep order s o)) as [B C].
  - destruct o; cbn; rewrite ?A; auto.
  - split; [auto|]. rewrite C. destruct o; cbn; rewrite ?A; auto.
Qed.

End Order.

(* --- statements --- *)
Lemma update_history (order : bufs -> bufs) : (forall m, Permutation (order m) m) ->
  forall history s evs mk, run_confs order bm_new history = (s, evs, mk) ->
  forall c, NoDup (conf_ids c) ->
  let u := apply_conf order s c in
  let before := fun i => bfind i (bm_bufs s) in
  let after := fun i => bfind i (bm_bufs (u_state u)) in
  (u_ok u = true <-> usable (fun i => before i <> None) c) /\
  (u_ok u = false ->
     (forall i, after i = before i) /\ bm_stream (u_state u) = bm_stream s /\
     u_events u = [] /\ u_marked u = []) /\
  (u_ok u = true ->
     (forall i, after i <> None <-> In i (conf_ids c)) /\
     (forall i v, In i (conf_ids c) -> before i = Some v -> after i = Some v) /\
     (forall i t h, before i = None -> after i = Some (t, h) ->
        conf_type c i t /\ ~ ev_handles evs h) /\
     exists gone new strm,
       u_events u = map BRemoved gone
                    ++ map (fun e => BCreated (fst (snd e)) (fst e) (snd (snd e))) new ++ strm /\
       NoDup gone /\ NoDup (map fst new) /\ NoDup (map (fun e => snd (snd e)) new) /\
       (forall i, In i gone <-> before i <> None /\ ~ In i (conf_ids c)) /\
       (forall i t h, In (i, (t, h)) new <-> before i = None /\ after i = Some (t, h)) /\
       match bm_stream s, cf_streaming c with
       | Some h, true => strm = [] /\ bm_stream (u_state u) = Some h
       | None, false => strm = [] /\ bm_stream (u_state u) = None
       | Some h, false => strm = [BStreamRemoved h] /\ bm_stream (u_state u) = None
       | None, true => exists h, strm = [BStreamAdded h] /\ bm_stream (u_state u) = Some h /\
                                 ~ ev_handles evs h
       end /\
       (forall h, In h (u_marked u) <->
          exists i t, before i = Some (t, h) /\ ~ In i (conf_ids c))).
Proof.
  intros P history s evs mk R c N u before after.
  destruct (run_wf order history _ _ _ _ wf_new R) as (W & _ & EH).
  assert (FR : forall h, (bm_fresh s <= h)%nat -> ~ ev_handles evs h).
  { intros h L X. apply EH in X. lia. }
  destruct (update_spec order P s c W N) as (A & B & C). fold u in A, B, C.
  split; [exact A|]. split; [exact B|]. intros O.
  destruct (C O) as (C1 & C2 & C3 & gone & new & strm & E & N1 & N2 & N3 & G & NW & ST & MK).
  split; [exact C1|]. split; [exact C2|]. split.
  { intros i t h X Y. destruct (C3 i t h X Y). auto. }
  exists gone, new, strm. splits; auto.
  destruct (bm_stream s), (cf_streaming c); auto.
  destruct ST as (h & S1 & S2 & S3). exists h; auto.
Qed.

Lemma announced_history (order : bufs -> bufs) : (forall m, Permutation (order m) m) ->
  forall history s evs mk, run_confs order bm_new history = (s, evs, mk) ->
  (forall c, In c history -> NoDup (conf_ids c)) ->
  (forall i, announced evs i None = bfind i (bm_bufs s)) /\
  announced_stream evs None = bm_stream s /\
  orderly evs [].
Proof.
  intros P history s evs mk R N. exact (run_announced order P history _ _ _ _ wf_new N R).
Qed.

Definition one_conf (i : Z) (t : btype) : conf :=
  mkConf [mkBconf i (Some t)] false (fun _ => true).

Lemma order_nil (order : bufs -> bufs) : (forall m, Permutation (order m) m) -> order [] = [].
Proof. intros P. apply Permutation_nil, Permutation_sym, P. Qed.

Lemma order_one (order : bufs -> bufs) e : (forall m, Permutation (order m) m) -> order [e] = [e].
Proof. intros P. apply Permutation_length_1_inv, Permutation_sym, P. Qed.

Lemma type_change (order : bufs -> bufs) : (forall m, Permutation (order m) m) ->
  exists c1 c2, NoDup (conf_ids c1) /\ NoDup (conf_ids c2) /\ conf_type c2 1 BTrigger /\
    let s := u_state (apply_conf order bm_new c1) in
    u_ok (apply_conf order s c2) = true /\
    u_events (apply_conf order s c2) = [] /\
    exists h, bfind 1 (bm_bufs (u_state (apply_conf order s c2))) = Some (BContinuous, h).
Proof.
  intros P. exists (one_conf 1 BContinuous), (one_conf 1 BTrigger).
  split; [repeat constructor; cbn; tauto|]. split; [repeat constructor; cbn; tauto|].
  split; [left; reflexivity|]. vm_compute.
  rewrite (order_nil order P). split; [reflexivity|]. split; [reflexivity|].
  exists 0%nat. reflexivity.
Qed.

Lemma repeated_id (order : bufs -> bufs) : (forall m, Permutation (order m) m) ->
  exists c1 c2 h1 h2, h1 <> h2 /\
    let s := u_state (apply_conf order bm_new c1) in
    bfind 1 (bm_bufs s) = Some (BContinuous, h1) /\
    u_ok (apply_conf order s c2) = true /\
    u_events (apply_conf order s c2) = [BCreated BContinuous 1 h2] /\
    u_opened (apply_conf order s c2) = [(1, h2, false)] /\
    u_marked (apply_conf order s c2) = [].
Proof.
  intros P. exists (one_conf 1 BContinuous),
    (mkConf [mkBconf 1 (Some BContinuous); mkBconf 1 (Some BContinuous)] false (fun _ => true)),
    0%nat, 1%nat. split; [discriminate|].
  vm_compute. rewrite (order_nil order P).
  splits; reflexivity.
Qed.

Lemma answered_history (order : bufs -> bufs) : (forall m, Permutation (order m) m) ->
  forall h,
  (forall p ids a q, h = p ++ FRequest ids a :: q ->
     (forall i, In i ids -> bfind i (bm_bufs (fs_bm (frun order fsys_new p))) <> None) /\
     (forall c i, In (FUpdate c) q -> In i ids -> In i (conf_ids c))) ->
  fs_alive (frun order fsys_new h) = true /\
  (exists later, acks (fs_log (frun order fsys_new h)) ++ later = wanted h) /\
  forall n, (length (fs_chan (frun order fsys_new h)) <= n)%nat ->
    acks (fs_log (frun order fsys_new (h ++ repeat FServe n))) = wanted h.
Proof.
  intros P h S. destruct (fgood_run order P h S) as [_ A K _].
  split; [exact A|]. split; [eexists; exact K|]. intros n L. apply (answered_all order P h n S L).
Qed.

Lemma request_history (order : bufs -> bufs) : (forall m, Permutation (order m) m) ->
  forall h ids a q, let s := frun order fsys_new h in
  fs_alive s = true -> fs_chan s = (ids, a) :: q ->
  let s' := frun order s [FServe] in
  (ids <> [] -> (forall i, In i ids -> bfind i (bm_bufs (fs_bm s)) <> None) ->
     fs_alive s' = true /\ exists l, fs_log s' = fs_log s ++ l ++ map FAck (one a) /\
       Forall2 (fun i e => exists t h, bfind i (bm_bufs (fs_bm s)) = Some (t, h) /\
                                       e = FFlushed h) ids l) /\
  (ids = [] ->
     fs_alive s' = true /\ exists l, fs_log s' = fs_log s ++ l ++ map FAck (one a) /\
       Permutation l (map (fun e => FFlushed (snd (snd e))) (bm_bufs (fs_bm s))
                      ++ match bm_stream (fs_bm s) with Some h => [FStream h] | None => [] end)) /\
  ((exists i, In i ids /\ bfind i (bm_bufs (fs_bm s)) = None) ->
     fs_alive s' = false /\ acks (fs_log s') = acks (fs_log s)).
Proof.
  intros P h ids a q s A C s'. split; [|split].
  - intros N K. apply (serve_named order h ids a q A C N); auto.
  - intros ->. apply (serve_all order P h a q A C).
  - intros K. assert (N : ids <> []) by (destruct K as (i & X & _); intros ->; destruct X).
    apply (serve_named order h ids a q A C N); auto.
Qed.

Lemma removed_buffer (order : bufs -> bufs) : (forall m, Permutation (order m) m) ->
  exists c1 c2, NoDup (conf_ids c1) /\ NoDup (conf_ids c2) /\
  let h := [FUpdate c1; FRequest [1] (Some 0%nat); FServe; FUpdate c2;
            FRequest [1] (Some 1%nat); FServe] in
  (forall i, i = 1 -> In i (conf_ids c1)) /\
  forall later, acks (fs_log (frun order fsys_new (h ++ later))) = [0%nat].
Proof.
  intros P. exists (one_conf 1 BContinuous), (one_conf 2 BContinuous).
  split; [repeat constructor; cbn; tauto|]. split; [repeat constructor; cbn; tauto|].
  split; [intros i ->; left; reflexivity|]. intros later. rewrite frun_app.
  set (s := frun order fsys_new _).
  assert (D : fs_alive s = false /\ fs_log s = [FFlushed 0; FAck 0]) by (split; reflexivity).
  destruct D as [D1 D2]. destruct (dead_for_ever order later s D1) as [_ L]. rewrite L, D2.
  reflexivity.
Qed.
