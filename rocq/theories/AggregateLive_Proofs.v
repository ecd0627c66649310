(** Progress of the flush thread, and states it never leaves. *)
From Verif Require Import Base Ring_Model Volatile_Model Volatile_Spec Nonvolatile_Model Nonvolatile_Spec Aggregate_Model Aggregate_Spec Aggregate_Proofs AggregateUse_Proofs.
From Verif Require NonvolatileClient_Spec.
Open Scope Z_scope.

Section P.
Variable rcrc : list Z -> Z.
Variable hcrc : Z -> option Z -> option Z -> option Z -> Z.
Variable vcap : Z.
Variable k : config.
Hypothesis hold : k_hold k = true.
Hypothesis small : vcap < 4294967296.
Hypothesis over_ : k_ow k = OYes.
Hypothesis fits : vcap + (k_extra k - 4) <= k_cap k.
Local Notation sum := (NonvolatileClient_Spec.record_sum rcrc).
Local Notation g_step := (g_step rcrc hcrc).
Local Notation g_run := (g_run rcrc hcrc).
Local Notation thread_step := (thread_step rcrc hcrc).
Local Notation inv_ := (inv_ rcrc hcrc vcap k).
Local Notation explains := (explains rcrc vcap k).

Definition calm (g : agg) (q : queue) : Prop := g_shut g = SIdle /\ q_reader q = Nobody /\ g_pos g <> FWait.

Lemma shut_idle : forall g a, calm_label a -> g_shut g = SIdle -> g_shut (fst (g_step g a)) = SIdle.
Proof.
  intros g a C H. destruct a; cbn [Aggregate_Model.g_step]; try contradiction.
  - destruct (producer_call o); [|exact H]. unfold on_v. destruct (v_step (g_v g) o). exact H.
  - unfold on_v. destruct (v_step (g_v g) VWaitForDrain). exact H.
  - unfold on_v. destruct (v_step (g_v g) VLock). exact H.
  - destruct (g_handles g); [exact H|]. unfold on_v. destruct (v_step (g_v g) VUnlock). exact H.
  - unfold Aggregate_Model.thread_step. destruct (g_pos g); unfold on_v, on_n;
      repeat match goal with
      | |- context [v_step ?v ?o] => destruct (v_step v o)
      | |- context [n_step rcrc hcrc ?v ?o] => destruct (n_step rcrc hcrc v o)
      | |- context [match ?x with _ => _ end] => destruct x eqn:?
      | |- context [reserved ?g ?r] => unfold reserved
      end; cbn in *; congruence.
Qed.

Lemma reader_step : forall q o out q', Nonvolatile_Spec.step k sum q o out q' -> (consumer_call o = true \/ o = NReopen \/ (exists o' j, o = NCrash o' j) -> False) ->
  q_reader q = Nobody -> q_reader q' = Nobody.
Proof.
  intros q o out q' St C H.
  assert (LV: forall fs u q, q_reader (leave fs u q) = q_reader q) by (intros fs u q0; unfold leave; destruct u; reflexivity).
  assert (AT: forall size block second out q', attempt k q size block second out q' -> q_reader q' = Nobody).
  { intros size block second out0 q0 A. destruct A; cbn; try exact H. rewrite LV. exact H. }
  destruct St; try (exfalso; apply C; cbn; auto; fail); try exact H; try (eapply AT; eassumption).
  - destruct (_ && _); exact H.
  - cbn. unfold abandon. destruct (q_slot q) as [[i d]|]; [|exact H]. destruct (q_unread q); exact H.
  - exfalso. apply C. right. right. eauto.
  - exfalso. apply C. right. right. eauto.
  - exfalso. apply C. right. right. eauto.
Qed.
Lemma reader_run : forall q l outs q', Nonvolatile_Spec.run k sum q l outs q' -> Forall (fun o => consumer_call o = true \/ o = NReopen \/ (exists o' j, o = NCrash o' j) -> False) l ->
  q_reader q = Nobody -> q_reader q' = Nobody.
Proof. intros q l outs q' R. induction R; intros F H'; [exact H'|]. inv F. apply IHR; [assumption|]. eapply reader_step; eassumption. Qed.

Ltac open_calls := repeat match goal with
  | |- context [on_v ?g ?o] => destruct (on_v g o)
  | |- context [on_n rcrc hcrc ?g ?o] => destruct (on_n rcrc hcrc g o)
  | |- context [match ?o with OUnit => _ | ORange _ => _ | ORes _ => _ | OBytes _ => _ | OFin _ => _ | OWait _ => _ end] => destruct o
  | |- context [match ?o with Some _ => _ | None => _ end] => destruct o
  | |- context [if ?b then _ else _] => destruct b
  | |- context [match ?o with O => _ | S _ => _ end] => destruct o
  end.
Lemma calm_ops : forall g a, calm_label a -> Forall (fun o => consumer_call o = true \/ o = NReopen \/ (exists o' j, o = NCrash o' j) -> False) (nops (snd (g_step g a))).
Proof.
  assert (D: forall o, (match o with NReserve _ _ | NResume | NWrite _ _ | NCommit | NRegisterProducer | NDropProducer => True | _ => False end) -> consumer_call o = true \/ o = NReopen \/ (exists o' j, o = NCrash o' j) -> False).
  { intros o M [H|[H|(o' & j & H)]]; destruct o; try contradiction; discriminate. }
  intros g a C. destruct a; cbn [Aggregate_Model.g_step]; try contradiction; try (open_calls; cbn; constructor; fail).
  unfold Aggregate_Model.thread_step. destruct (g_pos g); open_calls; cbn; repeat constructor; apply D; exact Logic.I.
Qed.

Lemma v_one : forall s q o out s' q', explains s q [VCall o out] s' q' -> Volatile_Spec.step vcap s o out s' /\ q' = q.
Proof. intros s q o out s' q' [A B]. cbn in A, B. inv A. inv B. match goal with H : Volatile_Spec.run _ _ [] _ _ |- _ => inv H end. auto. Qed.
Lemma n_one : forall s q o out s' q', explains s q [NCall o out] s' q' -> Nonvolatile_Spec.step k sum q o out q' /\ s' = s.
Proof. intros s q o out s' q' [A B]. cbn in A, B. inv A. inv B. match goal with H : Nonvolatile_Spec.run _ _ _ [] _ _ |- _ => inv H end. auto. Qed.
Lemma none : forall s q s' q', explains s q [] s' q' -> s' = s /\ q' = q.
Proof. intros s q s' q' [A B]. cbn in A, B. inv A. inv B. auto. Qed.

(** With room to overwrite and no reader, [reserve] succeeds. *)
Lemma reserve_ok : forall plain g s q size out q', inv_ plain g s q -> calm g q -> g_pos g = FReserve size -> Nonvolatile_Spec.step k sum q (NReserve size true) out q' -> exists r, out = NRange (Ok r).
Proof.
  intros plain g s q size out q' H (C1 & C2 & C3) Hp St. pose proof (i_pos _ _ _ _ _ _ _ _ H) as P. rewrite Hp in P. cbn [pos_inv] in P.
  destruct P as ((Hr & x & u & Hu & Hz) & (P2 & P3 & P4) & P5). destruct (unread_sane vcap _ _ _ _ (i_v _ _ _ _ _ _ _ _ H) Hu) as [Z1 Z2].
  pose proof (h_nlocks _ _ _ _ _ (i_shut _ _ _ _ _ _ _ _ H)) as NL. pose proof (h_nshut _ _ _ _ _ (i_shut _ _ _ _ _ _ _ _ H)) as NS. rewrite C1 in NS. cbn in NS. rewrite NS in NL. cbn in NL.
  assert (NR: ~ reading q) by (unfold reading; rewrite C2; intuition congruence).
  inv St; try lia; try congruence.
  - match goal with A : attempt _ _ _ _ _ _ _ |- _ => inv A end; try congruence; try contradiction. eauto.
  - match goal with A : ~ idle _ |- _ => exfalso; apply A; split; assumption end.
Qed.

Definition weight (p : fpos) : nat :=
  match p with FNew => 8 | FNew2 => 7 | FLoop => 6 | FRead => 5 | FReserve _ => 4 | FReserved => 3 | FCopied => 2 | _ => 1 end.
Definition todo (g : agg) (s : fifo) : nat := 8 * length (f_unread s) + weight (g_pos g).

Lemma thread_moves : forall plain g s q s' q', inv_ plain g s q -> calm g q -> explains s q (snd (thread_step g)) s' q' -> inv_ plain (fst (thread_step g)) s' q' ->
  g_pos (fst (thread_step g)) <> FWait /\ (f_unread s <> [] -> (todo (fst (thread_step g)) s' < todo g s)%nat).
Proof.
  intros plain g s q s' q' H C X I'. pose proof C as (C1 & C2 & C3).
  assert (Hst: g_stop g = false) by (rewrite (h_stop _ _ _ _ _ (i_shut _ _ _ _ _ _ _ _ H)), C1; reflexivity).
  assert (Hal: ends (g_pos g) = true -> False) by (intros He; pose proof (h_exit _ _ _ _ _ (i_shut _ _ _ _ _ _ _ _ H) He fits); congruence).
  pose proof (i_pos _ _ _ _ _ _ _ _ H) as P. unfold todo.
  revert X I'. unfold Aggregate_Model.thread_step. destruct (g_pos g) eqn:Hp; cbn [pos_inv weight] in *; try (exfalso; apply Hal; reflexivity); try congruence.
  - unfold on_v. destruct (v_step (g_v g) VRegisterConsumer) as [v' out]. cbn [fst snd]. intros X I'. apply v_one in X. destruct X as [St ->]. destruct P as (P & _). inv St; [|congruence]. cbn. split; [discriminate|lia].
  - unfold on_n. destruct (n_step rcrc hcrc (g_n g) NRegisterProducer) as [n' out]. cbn [fst snd]. intros X I'. apply n_one in X. destruct X as [St ->]. destruct P as (_ & P & _). inv St; [|congruence]. cbn. split; [discriminate|lia].
  - cbn [fst snd]. intros X I'. apply none in X. destruct X as [-> ->]. rewrite Hst in *. cbn. split; [discriminate|lia].
  - unfold on_v. destruct (v_step (g_v g) (VStartRead true)) as [v' out]. cbn [fst snd]. intros X I'. apply v_one in X. destruct X as [St ->]. destruct P as (P & _).
    pose proof (h_vshut _ _ _ _ _ (i_shut _ _ _ _ _ _ _ _ H)) as VS. rewrite C1 in VS. cbn in VS.
    inv St; try (unfold Volatile_Spec.reading in *; congruence); cbn; [split; [discriminate|lia]|]. rewrite VS. cbn. rewrite Hp. split; [discriminate|]. intros N. congruence.
  - unfold on_n. destruct (n_step rcrc hcrc (g_n g) (NReserve size true)) as [n' out]. cbn [fst snd]. intros X I'. apply n_one in X. destruct X as [St ->].
    destruct (reserve_ok plain g s q size out q' H C Hp St) as [r ->]. cbn. split; [discriminate|lia].
  - unfold on_v. destruct (v_step (g_v g) VPeek) as [v' out]. cbn [fst snd].
    destruct out as [|r|r|[bs|]|r|b]; cbn [fst snd]; try (intros X I'; apply v_one in X; destruct X as [St _]; inv St; destruct P as ((P & _) & _); unfold Volatile_Spec.reading in *; exfalso; auto; fail).
    unfold on_n. destruct (n_step rcrc hcrc (g_n (g_set_v v' g)) (NWrite 0 bs)) as [n' out]. cbn [fst snd]. intros [A B] I'. cbn in A. inv A.
    match goal with R : Volatile_Spec.run _ _ [] _ _ |- _ => inv R end. match goal with R : Volatile_Spec.step _ _ _ _ _ |- _ => inv R end. cbn. split; [discriminate|lia].
  - unfold on_n. destruct (n_step rcrc hcrc (g_n g) NCommit) as [n' out]. cbn [fst snd]. intros X I'. apply n_one in X. destruct X as [St ->]. destruct P as ((_ & x & u & Hu & i & Hs) & P1 & P2 & P3). inv St; try congruence.
    + cbn. split; [discriminate|lia].
    + match goal with A : ~ idle _ |- _ => exfalso; apply A; split; assumption end.
  - unfold on_v. destruct (v_step (g_v g) VFinishRead) as [v' out]. cbn [fst snd]. intros X I'. apply v_one in X. destruct X as [St ->]. destruct P as ((P & _) & _).
    inv St; try congruence. match goal with A : f_unread s = _ |- _ => rewrite A end. cbn [f_unread length]. destruct b; cbn [g_set_v g_shut]; rewrite ?C1; cbn; split; try discriminate; lia.
Qed.

Lemma drains : forall plain n g s q, inv_ plain g s q -> calm g q -> (todo g s <= n)%nat ->
  exists m s' q', explains s q (snd (g_run g (repeat Thread m))) s' q' /\ inv_ plain (fst (g_run g (repeat Thread m))) s' q' /\ f_unread s' = [].
Proof.
  intros plain. induction n as [|n IH]; intros g s q H C L.
  - unfold todo in L. destruct (g_pos g); cbn in L; lia.
  - destruct (f_unread s) eqn:U; [exists O, s, q; cbn; split; [apply explains_nil|auto]|].
    destruct (step_thread rcrc hcrc vcap k hold small plain g s q H) as (s1 & q1 & X1 & I1).
    destruct (thread_moves plain g s q s1 q1 H C X1 I1) as [NW LT].
    assert (C1: calm (fst (thread_step g)) q1).
    { destruct C as (A & B & _). split; [apply (shut_idle g Thread Logic.I A)|]. split; [|exact NW]. destruct X1 as [_ R]. eapply reader_run; [exact R|apply (calm_ops g Thread Logic.I)|exact B]. }
    destruct (IH _ s1 q1 I1 C1) as (m & s2 & q2 & X2 & I2 & U2); [specialize (LT ltac:(congruence)); lia|].
    exists (S m), s2, q2. cbn [repeat Aggregate_Model.g_run]. change (g_step g Thread) with (thread_step g). destruct (thread_step g) as [g1 t1]. cbn [fst snd] in *.
    destruct (g_run g1 (repeat Thread m)) as [g2 t2]. cbn [fst snd] in *. split; [eapply explains_app; eassumption|auto].
Qed.

Lemma calm_all : forall plain l g s q, inv_ plain g s q -> calm g q -> Forall (label_fine plain) l -> Forall calm_label l ->
  exists s' q', explains s q (snd (g_run g l)) s' q' /\ inv_ plain (fst (g_run g l)) s' q' /\ calm (fst (g_run g l)) q'.
Proof.
  intros plain l. induction l as [|a l IH]; intros g s q H C F Fc; cbn [Aggregate_Model.g_run]; [exists s, q; split; [apply explains_nil|auto]|]. inv F. inv Fc.
  destruct (step_all rcrc hcrc vcap k hold small plain g s q a H ltac:(assumption)) as (s1 & q1 & X1 & G1).
  assert (C1: calm (fst (g_step g a)) q1).
  { pose proof C as (A & B & D). split; [apply shut_idle; assumption|]. split; [destruct X1 as [_ R]; eapply reader_run; [exact R|apply calm_ops; assumption|exact B]|].
    destruct a; try contradiction; cbn [Aggregate_Model.g_step] in *.
    - destruct (producer_call o); [|exact D]. unfold on_v. destruct (v_step (g_v g) o). exact D.
    - unfold on_v. destruct (v_step (g_v g) VWaitForDrain). exact D.
    - unfold on_v. destruct (v_step (g_v g) VLock). exact D.
    - destruct (g_handles g); [exact D|]. unfold on_v. destruct (v_step (g_v g) VUnlock). exact D.
    - apply (thread_moves plain g s q s1 q1 H C X1 G1). }
  destruct (g_step g a) as [g1 c1]. cbn [fst snd] in *.
  destruct (IH g1 s1 q1 G1 C1 ltac:(assumption) ltac:(assumption)) as (s2 & q2 & X2 & G2 & C2). destruct (g_run g1 l) as [g2 c2]. cbn [fst snd] in *.
  exists s2, q2. split; [eapply explains_app; eassumption|auto].
Qed.
End P.

Section Q.
Variable rcrc : list Z -> Z.
Variable hcrc : Z -> option Z -> option Z -> option Z -> Z.
Local Notation g_step := (g_step rcrc hcrc).
Local Notation g_run := (g_run rcrc hcrc).

Lemma new_drains : forall mem vsize nsize check st g l, 0 <= vsize -> nsize - header_size < 2147483648 -> g_new hcrc None mem vsize nsize OYes check st = Ok g ->
  Forall label_ok l -> Forall calm_label l -> (check = true -> vsize + 4 <= nsize - header_size) ->
  exists m s q, explains rcrc vsize (cfg nsize OYes check) fifo_init (queue_init (cfg nsize OYes check)) (snd (g_run g (l ++ repeat Thread m))) s q /\ linked s q /\ f_unread s = [].
Proof.
  intros mem vsize nsize check st g l H1 H2 E Ho Hc Hf. destruct (new_inv rcrc hcrc true _ _ _ _ _ _ _ H1 H2 E) as [I0 Sm].
  assert (Ft: vsize + (k_extra (cfg nsize OYes check) - 4) <= k_cap (cfg nsize OYes check)).
  { unfold g_new in E. destruct (_ || _) eqn:G; [discriminate|]. apply orb_false_elim in G. destruct G as [G1 G2]. apply Z.ltb_ge in G1, G2.
    unfold k_extra. cbn. destruct check; [specialize (Hf eq_refl)|]; lia. }
  assert (F: Forall (label_fine true) l). { rewrite Forall_forall in *. intros a Ha. split; [auto|]. specialize (Hc a Ha). destruct a; try contradiction; exact Logic.I. }
  assert (C0: calm g (queue_init (cfg nsize OYes check))). { unfold g_new in E. destruct (_ || _); [discriminate|]. destruct (n_open _ _ _ _ _ _ _); inv E. repeat split; discriminate. }
  destruct (calm_all rcrc hcrc vsize (cfg nsize OYes check) eq_refl Sm eq_refl Ft true l g _ _ I0 C0 F Hc) as (s1 & q1 & X1 & I1 & C1).
  destruct (drains rcrc hcrc vsize (cfg nsize OYes check) eq_refl Sm eq_refl Ft true _ _ s1 q1 I1 C1 (le_n _)) as (m & s & q & X & I2 & U).
  exists m, s, q. rewrite g_run_app. cbn [snd]. split; [eapply explains_app; eassumption|]. split; [eapply inv_linked; exact I2|exact U].
Qed.

(** * A thread that is over *)
Lemma done_step : forall g a, g_pos g = FDone -> g_pos (fst (g_step g a)) = FDone /\
  (forall c, In c (snd (g_step g a)) -> match c with VCall VFinishRead _ | NCall NCommit _ => False | _ => True end) /\
  (g_shut g = SWaiting -> g_shut (fst (g_step g a)) = SWaiting).
Proof.
  intros g a H. destruct a; cbn [Aggregate_Model.g_step].
  - destruct (producer_call o) eqn:P; [|splits; auto; intros c []]. unfold on_v. destruct (v_step (g_v g) o). cbn. splits; auto. intros c [<-|[]]. destruct o; try discriminate; exact Logic.I.
  - destruct (consumer_call o) eqn:P; [|splits; auto; intros c []]. unfold on_n_signal. destruct (n_step rcrc hcrc (g_n g) o). cbn. splits; auto. intros c [<-|[]]. destruct o; try discriminate; exact Logic.I.
  - unfold on_v. destruct (v_step (g_v g) VWaitForDrain). cbn. splits; auto. intros c [<-|[]]. exact Logic.I.
  - unfold on_v. destruct (v_step (g_v g) VLock). cbn. splits; auto. intros c [<-|[]]. exact Logic.I.
  - destruct (g_handles g); [splits; auto; intros c []|]. unfold on_v. destruct (v_step (g_v g) VUnlock). cbn. splits; auto. intros c [<-|[]]. exact Logic.I.
  - unfold shutdown_step, on_v, on_n_signal. destruct (g_shut g) eqn:Hs; repeat match goal with
      | |- context [v_step ?v ?o] => destruct (v_step v o)
      | |- context [n_step rcrc hcrc ?v ?o] => destruct (n_step rcrc hcrc v o)
      | |- context [if ?x then _ else _] => destruct x
      end; cbn; splits; auto; try discriminate; try (intros c []; subst; exact Logic.I); try (intros c [<-|[]]; exact Logic.I); try (intros c []).
  - unfold thread_step. rewrite H. cbn. splits; auto. intros c [].
Qed.
Lemma done_run : forall l g, g_pos g = FDone -> g_pos (fst (g_run g l)) = FDone /\
  (forall c, In c (snd (g_run g l)) -> match c with VCall VFinishRead _ | NCall NCommit _ => False | _ => True end) /\
  (g_shut g = SWaiting -> g_shut (fst (g_run g l)) = SWaiting).
Proof.
  induction l as [|a l IH]; intros g H; cbn [Aggregate_Model.g_run]; [splits; auto; intros c []|].
  destruct (done_step g a H) as (A & B & C). destruct (g_step g a) as [g1 c1]. cbn [fst snd] in *. destruct (IH g1 A) as (A2 & B2 & C2). destruct (g_run g1 l) as [g2 c2]. cbn [fst snd] in *.
  split; [exact A2|]. split; [|auto]. intros c Hc. apply in_app_or in Hc. destruct Hc; [apply B|apply B2]; assumption.
Qed.

(** * A thread that waits for a reader that is gone *)
Definition abandoned (g : agg) : Prop := g_pos g = FWait /\ g_wake g = false /\ g_shut g = SWaiting /\ n_cons (g_n g) = None.
Lemma abandoned_step : forall g a, ~ registers a -> abandoned g -> abandoned (fst (g_step g a)).
Proof.
  intros g a N (A1 & A2 & A3 & A4). destruct a; cbn [Aggregate_Model.g_step].
  - destruct (producer_call o); [|repeat split; assumption]. unfold on_v. destruct (v_step (g_v g) o). repeat split; assumption.
  - destruct (consumer_call o) eqn:P; [|repeat split; assumption]. destruct o; try discriminate; try (exfalso; apply N; exact Logic.I);
      unfold on_n_signal, Nonvolatile_Model.n_step; rewrite ?A4; cbn [n_wait_for_drain].
    + cbn. repeat split; auto. rewrite A2. reflexivity.
    + cbn. repeat split; auto. rewrite A2. destruct (n_wait (g_n g)); [|reflexivity]. rewrite Z.ltb_irrefl. rewrite andb_false_r. reflexivity.
    + cbn. repeat split; auto. rewrite A2. reflexivity.
    + cbn. repeat split; auto. rewrite A2. reflexivity.
    + cbn. repeat split; auto. rewrite A2. reflexivity.
    + unfold n_wait_for_drain. destruct (wait_for_drain (n_c (g_n g)) (n_reading (g_n g))). cbn. repeat split; auto. rewrite A2. reflexivity.
  - unfold on_v. destruct (v_step (g_v g) VWaitForDrain). repeat split; assumption.
  - unfold on_v. destruct (v_step (g_v g) VLock). repeat split; assumption.
  - destruct (g_handles g); [repeat split; assumption|]. unfold on_v. destruct (v_step (g_v g) VUnlock). repeat split; assumption.
  - unfold shutdown_step. rewrite A3. repeat split; assumption.
  - unfold thread_step. rewrite A1, A2. repeat split; assumption.
Qed.
Lemma abandoned_run : forall l g, (forall a, In a l -> ~ registers a) -> abandoned g -> abandoned (fst (g_run g l)).
Proof.
  induction l as [|a l IH]; intros g N A; cbn [Aggregate_Model.g_run]; [exact A|]. pose proof (abandoned_step g a (N a (or_introl eq_refl)) A) as B.
  destruct (g_step g a) as [g1 c1]. cbn [fst] in B. specialize (IH g1 (fun b Hb => N b (or_intror Hb)) B). destruct (g_run g1 l). exact IH.
Qed.
End Q.

Lemma never_again rcrc hcrc : forall g l0, g_pos (fst (g_run rcrc hcrc g l0)) = FDone ->
  forallb (fun c => match c with VCall VFinishRead _ | NCall NCommit _ => false | _ => true end) (snd (g_run rcrc hcrc g l0)) = true ->
  forall l c, In c (snd (g_run rcrc hcrc g (l0 ++ l))) -> match c with VCall VFinishRead _ | NCall NCommit _ => False | _ => True end.
Proof.
  intros g l0 D F l c H. rewrite g_run_app in H. cbn [snd] in H. apply in_app_or in H. destruct H as [H|H].
  - pose proof (proj1 (forallb_forall _ _) F c H) as B. destruct c as [o r|o r]; destruct o; try exact Logic.I; discriminate.
  - eapply done_run; eassumption.
Qed.
