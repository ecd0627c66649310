From Verif Require Import Base WarnTracker_Model.
Open Scope Z_scope.

Fixpoint wt_state_after (s : wt_state) (l : list (Z * Z)) : wt_state :=
  match l with [] => s | (now, d) :: l' => wt_state_after (fst (should_warn s now d)) l' end.

Lemma wt_run_app : forall l1 l2 s, wt_run s (l1 ++ l2) = wt_run s l1 ++ wt_run (wt_state_after s l1) l2.
Proof.
  induction l1 as [|[now d] l1 IH]; intros l2 s; [reflexivity|].
  cbn. destruct (should_warn s now d) as [s1 b] eqn:E. cbn. rewrite IH. reflexivity.
Qed.

Lemma wt_run_length : forall l s, length (wt_run s l) = length l.
Proof. induction l as [|[n d] l IH]; intros s; [reflexivity|]. cbn. destruct (should_warn s n d). cbn. rewrite IH. reflexivity. Qed.

(** After an emission at [t], with [mid] calls none of which is emitted, the recorded time is [t]. *)
Lemma wt_silent : forall mid s, (forall b, In b (wt_run s mid) -> b = false) -> wt_state_after s mid = s.
Proof.
  induction mid as [|[n d] mid IH]; intros s H; [reflexivity|].
  cbn in *. destruct (should_warn s n d) as [s1 b] eqn:E. cbn in H.
  assert (b = false) by (apply H; left; reflexivity). subst b.
  assert (s1 = s).
  { unfold should_warn in E. destruct s as [last|]; [|inv E; discriminate].
    destruct (d <? Z.max 0 (n - last)); inv E; congruence. }
  subst s1. cbn [fst]. apply IH. intros b Hb. apply H. right. assumption.
Qed.

Lemma nth_error_app_len : forall (A : Type) (l1 l2 : list A), nth_error (l1 ++ l2) (length l1) = nth_error l2 0.
Proof. intros. rewrite nth_error_app2 by lia. rewrite Nat.sub_diag. reflexivity. Qed.

Lemma should_warn_true : forall s n d, snd (should_warn s n d) = true -> fst (should_warn s n d) = Some n.
Proof. intros s n d. unfold should_warn. destruct s as [last|]; [destruct (d <? Z.max 0 (n - last))|]; cbn; congruence. Qed.

Lemma wt_spacing : forall pre mid post t1 d1 t2 d2,
  let l := pre ++ (t1, d1) :: mid ++ (t2, d2) :: post in
  let i := length pre in let j := (length pre + S (length mid))%nat in
  nth_error (wt_run None l) i = Some true ->
  (forall k, (i < k < j)%nat -> nth_error (wt_run None l) k = Some false) ->
  nth_error (wt_run None l) j = Some (d2 <? Z.max 0 (t2 - t1)).
Proof.
  intros pre mid post t1 d1 t2 d2 l i j Hi Hmid.
  subst l i j. rewrite wt_run_app in *. set (s := wt_state_after None pre) in *.
  assert (Hlen: length (wt_run None pre) = length pre) by apply wt_run_length.
  rewrite nth_error_app2 in Hi by lia. rewrite Hlen, Nat.sub_diag in Hi.
  cbn [wt_run] in *. destruct (should_warn s t1 d1) as [s1 b1] eqn:E1. cbn in Hi. inv Hi.
  assert (Hs1: s1 = Some t1).
  { pose proof (should_warn_true s t1 d1) as Hx. rewrite E1 in Hx. apply Hx. reflexivity. }
  subst s1.
  rewrite nth_error_app2 by lia. rewrite Hlen. replace (length pre + S (length mid) - length pre)%nat with (S (length mid)) by lia.
  cbn [nth_error]. rewrite wt_run_app.
  assert (Hlm: length (wt_run (Some t1) mid) = length mid) by apply wt_run_length.
  rewrite nth_error_app2 by lia. rewrite Hlm, Nat.sub_diag.
  rewrite (wt_silent mid (Some t1)).
  - cbn [wt_run]. unfold should_warn. destruct (d2 <? Z.max 0 (t2 - t1)); reflexivity.
  - intros b Hb. apply In_nth_error in Hb. destruct Hb as [k Hk].
    assert (Hkl: (k < length mid)%nat) by (rewrite <- Hlm; apply nth_error_Some; congruence).
    specialize (Hmid (length pre + S k)%nat ltac:(lia)).
    rewrite nth_error_app2 in Hmid by lia. rewrite Hlen in Hmid.
    replace (length pre + S k - length pre)%nat with (S k) in Hmid by lia. cbn [nth_error] in Hmid.
    rewrite wt_run_app in Hmid. rewrite nth_error_app1 in Hmid by lia. congruence.
Qed.

Lemma wt_first : forall t d l, nth_error (wt_run None ((t, d) :: l)) 0 = Some true.
Proof. reflexivity. Qed.
