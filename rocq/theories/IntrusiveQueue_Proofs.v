From Verif Require Import Base IntrusiveQueue_Model IntrusiveQueue_Spec.

Section Proofs.
Variable T : Type.
Implicit Type q : iq T.

Lemma NoDup_app_l : forall (A : Type) (a b : list A), NoDup (a ++ b) -> NoDup a.
Proof.
  intros A a b. induction a as [|x a IH]; intros H; [constructor|]. inv H. constructor; [|auto].
  intro. apply H2. apply in_or_app. auto.
Qed.

Lemma NoDup_snoc : forall (A : Type) (l : list A) x, NoDup l -> ~ In x l -> NoDup (l ++ [x]).
Proof.
  intros A l x H Hx. eapply Permutation_NoDup; [apply Permutation_cons_append|]. constructor; assumption.
Qed.

(** All containers have distinct addresses below the allocator's next one. *)
Definition iq_wf q : Prop :=
  NoDup (map fst (iq_queue q) ++ map fst (iq_free q)) /\
  Forall (fun a => a < iq_fresh q) (map fst (iq_queue q) ++ map fst (iq_free q)).

Lemma iq_empty_wf : iq_wf iq_empty.
Proof. split; constructor. Qed.

Lemma upd_fst : forall a f (l : list (addr * T)), map fst (upd a f l) = map fst l.
Proof. intros a f l. induction l as [|[b v] l IH]; [reflexivity|]. cbn. destruct (Nat.eqb b a); cbn; congruence. Qed.

Lemma emplace_wf : forall q v, iq_wf q -> iq_wf (fst (iq_emplace_back q v)).
Proof.
  intros q v [H1 H2]. unfold iq_emplace_back, iq_wf. destruct (iq_free q) as [|[a w] free'] eqn:E; cbn [fst iq_queue iq_free iq_fresh].
  - rewrite ?E in H1, H2; rewrite ?E. cbn in *. rewrite !app_nil_r in *. rewrite map_app. cbn. split.
    + apply NoDup_snoc; [assumption|]. intros Hin. rewrite Forall_forall in H2. apply H2 in Hin. lia.
    + apply Forall_app. split; [|repeat constructor].
      eapply Forall_impl; [|exact H2]. cbn. intros; lia.
  - rewrite ?E in H1, H2; rewrite ?E. cbn [map fst] in *. rewrite map_app. cbn [map fst]. rewrite <- app_assoc. cbn [app].
    split; assumption.
Qed.

Lemma pop_wf : forall q, iq_wf q -> iq_wf (iq_pop_front q).
Proof.
  intros q [H1 H2]. unfold iq_pop_front, iq_wf. destruct (iq_queue q) as [|[a v] rest] eqn:E; cbn [iq_queue iq_free iq_fresh].
  - rewrite ?E in H1, H2; rewrite ?E. split; assumption.
  - rewrite ?E in H1, H2; rewrite ?E. cbn [map fst app] in *.
    assert (P: Permutation (a :: map fst rest ++ map fst (iq_free q)) (map fst rest ++ a :: map fst (iq_free q)))
      by apply Permutation_middle.
    split; [eapply Permutation_NoDup; eassumption|eapply Permutation_Forall; eassumption].
Qed.

Lemma map_mut_wf : forall q a f, iq_wf q -> iq_wf (fst (iq_map_mut q a f)).
Proof. intros q a f H. unfold iq_wf, iq_map_mut in *. cbn. rewrite !upd_fst. assumption. Qed.

(** The simulation relation: the queue holds the FIFO's values in order and the address of each element is the handle received
    for its serial number. *)
Definition iq_rel q (hs : list addr) (s : fifo T) : Prop :=
  iq_wf q /\ length hs = f_next s /\
  iq_queue q = map (fun e => (nth (fst e) hs 0, snd e)) (f_elems s) /\
  NoDup (map fst (f_elems s)) /\ Forall (fun i => i < f_next s) (map fst (f_elems s)).

Lemma map_nth_ext : forall (l : list (nat * T)) (hs : list addr) a n, Forall (fun i => i < n) (map fst l) -> length hs = n ->
  map (fun e => (nth (fst e) (hs ++ [a]) 0, snd e)) l = map (fun e => (nth (fst e) hs 0, snd e)) l.
Proof.
  intros l hs a n H Hn. apply map_ext_in. intros e He. rewrite Forall_forall in H.
  rewrite app_nth1; [reflexivity|]. rewrite Hn. apply H. apply in_map. assumption.
Qed.

Lemma rel_push : forall q hs s v q' a, iq_rel q hs s -> iq_emplace_back q v = (q', a) -> iq_rel q' (hs ++ [a]) (fifo_push s v).
Proof.
  intros q hs s v q' a (Hwf & Hl & Hq & Hnd & Hf) E. unfold iq_rel.
  assert (Hwf': iq_wf q') by (pose proof (emplace_wf q v Hwf) as H; rewrite E in H; exact H).
  split; [exact Hwf'|]. cbn [fifo_push f_elems f_next]. rewrite app_length. cbn [length].
  split; [lia|]. rewrite !map_app. cbn [map fst snd].
  split; [|split].
  - rewrite (map_nth_ext _ _ _ _ Hf Hl).
    rewrite (app_nth2 hs [a]) by lia. rewrite Hl, Nat.sub_diag. cbn [nth].
    unfold iq_emplace_back in E. destruct (iq_free q) as [|[b w] fr]; inv E; cbn [iq_queue]; rewrite Hq; reflexivity.
  - apply NoDup_snoc; [assumption|]. intros Hin. rewrite Forall_forall in Hf. apply Hf in Hin. lia.
  - apply Forall_app. split; [eapply Forall_impl; [|exact Hf]; cbn; intros; lia|repeat constructor].
Qed.

Lemma rel_pop : forall q hs s, iq_rel q hs s -> iq_rel (iq_pop_front q) hs (fifo_pop s).
Proof.
  intros q hs s (Hwf & Hl & Hq & Hnd & Hf). unfold iq_rel. split; [apply pop_wf; assumption|].
  cbn [fifo_pop f_elems f_next]. split; [assumption|].
  destruct (f_elems s) as [|e l] eqn:E; cbn [tl map] in *.
  - unfold iq_pop_front. rewrite Hq. splits; auto.
  - unfold iq_pop_front. rewrite Hq. cbn [iq_queue]. inv Hnd. inv Hf. splits; auto.
Qed.

Lemma upd_absent : forall a f (l : list (addr * T)), ~ In a (map fst l) -> upd a f l = l.
Proof.
  intros a f l. induction l as [|[b v] l IH]; intros H; [reflexivity|]. cbn in *.
  destruct (Nat.eqb b a) eqn:E; [apply Nat.eqb_eq in E; subst; exfalso; auto|]. rewrite IH; auto.
Qed.

Lemma upd_map : forall (hs : list addr) (l : list (nat * T)) id f,
  NoDup (map (fun e => nth (fst e) hs 0) l) -> NoDup (map fst l) -> In id (map fst l) ->
  upd (nth id hs 0) f (map (fun e => (nth (fst e) hs 0, snd e)) l) =
  map (fun e => (nth (fst e) hs 0, snd e)) (map (fun e => if Nat.eqb (fst e) id then (fst e, f (snd e)) else e) l) /\
  deref (nth id hs 0) (map (fun e => (nth (fst e) hs 0, snd e)) l) = option_map snd (find (fun e => Nat.eqb (fst e) id) l).
Proof.
  intros hs l id f. induction l as [|[i v] l IH]; intros Hnd Hid Hin; [contradiction|].
  cbn [map fst snd] in *. inv Hnd. inv Hid. cbn [upd deref find fst snd].
  destruct (Nat.eqb i id) eqn:E.
  - apply Nat.eqb_eq in E. subst i. rewrite Nat.eqb_refl. cbn [fst snd option_map]. split; [|reflexivity].
    f_equal. rewrite map_map. apply map_ext_in. intros e He.
    destruct (Nat.eqb (fst e) id) eqn:E2; [|reflexivity].
    apply Nat.eqb_eq in E2. exfalso. apply H3. rewrite <- E2. apply in_map. assumption.
  - destruct Hin as [Hin|Hin]; [apply Nat.eqb_neq in E; contradiction|].
    destruct (Nat.eqb (nth i hs 0) (nth id hs 0)) eqn:E2.
    + exfalso. apply Nat.eqb_eq in E2. apply H1. rewrite E2.
      apply in_map_iff in Hin. destruct Hin as [e [He1 He2]]. apply in_map_iff. exists e. subst id. auto.
    + destruct (IH H2 H4 Hin) as [Ha Hb]. rewrite Ha, Hb. split; reflexivity.
Qed.

Lemma rel_modify : forall q hs s id f q' r, iq_rel q hs s -> In id (map fst (f_elems s)) ->
  iq_map_mut q (nth id hs 0) f = (q', r) -> iq_rel q' hs (fifo_modify s id f) /\ r = fifo_get s id.
Proof.
  intros q hs s id f q' r (Hwf & Hl & Hq & Hnd & Hf) Hin E.
  assert (Hwf': iq_wf q') by (pose proof (map_mut_wf q (nth id hs 0) f Hwf) as H; rewrite E in H; exact H).
  unfold iq_map_mut in E. inv E.
  destruct Hwf as [W1 W2].
  assert (Hnq: NoDup (map (fun e => nth (fst e) hs 0) (f_elems s))).
  { apply NoDup_app_l in W1. rewrite Hq, map_map in W1. cbn in W1. exact W1. }
  destruct (upd_map hs (f_elems s) id f Hnq Hnd Hin) as [Hu Hd].
  rewrite <- Hq in Hu, Hd. rewrite Hd. split.
  - unfold iq_rel. split; [assumption|]. cbn [fifo_modify f_elems f_next iq_queue].
    split; [assumption|]. split; [exact Hu|].
    assert (Hm: map fst (map (fun e : nat * T => if Nat.eqb (fst e) id then (fst e, f (snd e)) else e) (f_elems s)) = map fst (f_elems s)).
    { rewrite map_map. apply map_ext. intros e. destruct (Nat.eqb (fst e) id); reflexivity. }
    rewrite Hm. split; assumption.
  - unfold fifo_get. destruct (find (fun e => Nat.eqb (fst e) id) (f_elems s)) eqn:Ef; [reflexivity|].
    exfalso. apply in_map_iff in Hin. destruct Hin as [e [E1 E2]].
    apply (find_none _ _ Ef) in E2. rewrite E1, Nat.eqb_refl in E2. discriminate.
Qed.

Lemma iq_refines : forall l q hs s, iq_rel q hs s -> legal s l -> crun q hs l = frun s l.
Proof.
  induction l as [|o l IH]; intros q hs s Hr Hl; [reflexivity|].
  destruct o; cbn [crun frun legal] in *.
  - destruct (iq_emplace_back q v) as [q' a] eqn:E. apply IH; [|assumption]. eapply rel_push; eassumption.
  - apply IH; [|assumption]. apply rel_pop; assumption.
  - destruct Hl as [Hin Hl]. destruct (iq_map_mut q (nth id hs 0) f) as [q' r] eqn:E.
    destruct (rel_modify _ _ _ _ _ _ _ Hr Hin E) as [Hr' ->]. f_equal. apply IH; assumption.
  - rewrite (IH q hs s Hr Hl). f_equal. f_equal. destruct Hr as (_ & _ & Hq & _). unfold iq_front. rewrite Hq.
    destruct (f_elems s) as [|[i v] r]; reflexivity.
  - rewrite (IH q hs s Hr Hl). f_equal. f_equal. destruct Hr as (_ & _ & Hq & _). unfold iq_is_empty. rewrite Hq.
    destruct (f_elems s) as [|[i v] r]; reflexivity.
Qed.

Lemma iq_empty_rel : iq_rel iq_empty [] fifo_empty.
Proof. unfold iq_rel. split; [apply iq_empty_wf|]. cbn. splits; constructor. Qed.

Lemma iq_is_fifo : forall l, legal fifo_empty l -> crun (@iq_empty T) [] l = frun fifo_empty l.
Proof. intros l H. apply iq_refines; [apply iq_empty_rel|assumption]. Qed.
End Proofs.
