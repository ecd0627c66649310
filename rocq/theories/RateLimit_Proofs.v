From Verif Require Import Base RateLimit_Model RateLimit_Spec.
Open Scope Z_scope.

(** The state agrees with the attempts [w] already answered in the current window. *)
Definition rl_inv (budget stop : Z) (w : list (attempt * bool)) (s : rl_state) : Prop :=
  rl_sleep_until s = stop /\ window_ok budget w /\
  match rl_status_of s with
  | Limited => w <> [] /\ budget <= admitted_bytes w
  | Ready rem => rem = budget - admitted_bytes w /\ (w = [] \/ admitted_bytes w < budget)
  end.

Lemma admitted_app : forall a b, admitted_bytes (a ++ b) = admitted_bytes a + admitted_bytes b.
Proof.
  intros a b. unfold admitted_bytes. rewrite map_app.
  induction (map (fun p : attempt * bool => if snd p then a_size (fst p) else 0) a) as [|x l IH]; simpl; lia.
Qed.

Lemma admitted_snoc : forall w a b, admitted_bytes (w ++ [(a, b)]) = admitted_bytes w + (if b : bool then a_size a else 0).
Proof. intros w a b. rewrite admitted_app. unfold admitted_bytes at 2. cbn -[Z.add]. destruct b; lia. Qed.

Lemma window_ok_nil : forall b, window_ok b [].
Proof. intros b pre a r post H. destruct pre; discriminate. Qed.

Lemma window_ok_snoc : forall budget w a b, window_ok budget w ->
  (b = true -> w = [] \/ admitted_bytes w < budget) ->
  (b = false -> w <> [] /\ budget <= admitted_bytes w) ->
  window_ok budget (w ++ [(a, b)]).
Proof.
  intros budget w a b Hw Ht Hf pre a' b' post H.
  destruct (exists_last (l := (a', b') :: post) ltac:(discriminate)) as [post' [x Hx]].
  rewrite Hx in H. rewrite app_assoc in H.
  apply app_inj_tail in H. destruct H as [H1 H2]. subst x.
  destruct post' as [|y post'].
  - simpl in Hx. inv Hx. rewrite app_nil_r in *. subst. split; auto.
  - simpl in Hx. inv Hx. apply (Hw pre a' b' post'). reflexivity.
Qed.

Lemma combine_firstn_app : forall (A : Type) (w : list A) (bs1 bs2 : list bool),
  length bs1 = length w -> combine w (firstn (length w) (bs1 ++ bs2)) = combine w bs1.
Proof.
  intros A w bs1 bs2 H. rewrite <- H. rewrite firstn_app, firstn_all, Nat.sub_diag. simpl. rewrite app_nil_r. reflexivity.
Qed.

Lemma combine_app : forall (A B : Type) (a a' : list A) (b b' : list B), length a = length b ->
  combine (a ++ a') (b ++ b') = combine a b ++ combine a' b'.
Proof. intros A B a. induction a; destruct b; simpl; intros; try discriminate; auto. f_equal. apply IHa. lia. Qed.

Lemma windows_ok_gen : forall l budget stop cur bs s,
  length bs = length cur ->
  (forall a, In a l -> 0 <= a_size a) ->
  rl_inv budget stop (combine cur bs) s ->
  forall bw, In bw (zip_windows (windows budget stop cur l) (bs ++ snd (rl_run s l))) ->
  window_ok (fst bw) (snd bw).
Proof.
  induction l as [|a l IH]; intros budget stop cur bs s Hlen Hsz Hinv bw Hin.
  - simpl in Hin. rewrite app_nil_r in Hin. destruct Hin as [<-|[]].
    rewrite <- Hlen, firstn_all. simpl. apply Hinv.
  - simpl in Hin.
    destruct (try_acquire s a) as [s1 b] eqn:Ea. destruct (rl_run s1 l) as [s2 bs2] eqn:Er.
    assert (Hrun: bs2 = snd (rl_run s1 l)) by (rewrite Er; reflexivity).
    destruct Hinv as [Hstop [Hok Hst]].
    unfold try_acquire, rl_refill in Ea. rewrite Hstop in Ea.
    assert (Ha: 0 <= a_size a) by (apply Hsz; left; reflexivity).
    destruct (stop <? a_now a) eqn:Eo.
    + simpl in Hin. destruct Hin as [<-|Hin].
      * cbn [fst snd]. rewrite combine_firstn_app by assumption. assumption.
      * rewrite <- Hlen in Hin. rewrite skipn_app, skipn_all, Nat.sub_diag in Hin. simpl in Hin.
        rewrite Hrun in Hin. change (b :: snd (rl_run s1 l)) with ([b] ++ snd (rl_run s1 l)) in Hin.
        refine (IH _ _ _ _ _ _ _ _ _ Hin); [reflexivity|intros; apply Hsz; right; assumption|].
        cbn -[Z.add Z.sub Z.ltb] in Ea.
        destruct (a_size a <? a_num a) eqn:Ec; inv Ea; (split; [reflexivity|split]).
        -- apply (window_ok_snoc (a_num a) [] a true (window_ok_nil _)); [auto|discriminate].
        -- cbn -[Z.add Z.sub]. unfold admitted_bytes; cbn -[Z.add Z.sub]. split; [lia|right; lia].
        -- apply (window_ok_snoc (a_num a) [] a true (window_ok_nil _)); [auto|discriminate].
        -- cbn -[Z.add Z.sub]. unfold admitted_bytes; cbn -[Z.add Z.sub]. split; [discriminate|lia].
    + cbn [snd] in Hin. rewrite Hrun in Hin.
      replace (bs ++ b :: snd (rl_run s1 l)) with ((bs ++ [b]) ++ snd (rl_run s1 l)) in Hin
        by (rewrite <- app_assoc; reflexivity).
      refine (IH _ _ _ _ _ _ _ _ _ Hin); [rewrite !app_length; simpl; lia|intros; apply Hsz; right; assumption|].
      rewrite combine_app by (symmetry; assumption). cbn [combine].
      destruct (rl_status_of s) as [|rem] eqn:Es.
      * inv Ea. split; [reflexivity|]. split.
        -- apply window_ok_snoc; [assumption|discriminate|auto].
        -- rewrite Es. rewrite admitted_snoc.
           destruct Hst. split; [destruct (combine cur bs); discriminate|lia].
      * destruct Hst as [Hr Hlt].
        destruct (a_size a <? rem) eqn:Ec; inv Ea; (split; [reflexivity|split]).
        -- apply window_ok_snoc; [assumption| tauto |discriminate].
        -- cbn [rl_status_of]. rewrite admitted_snoc. split; [lia|right; lia].
        -- apply window_ok_snoc; [assumption| tauto |discriminate].
        -- cbn [rl_status_of]. rewrite admitted_snoc.
           split; [destruct (combine cur bs); discriminate|lia].
Qed.

Lemma windows_ok : forall t0 num l,
  (forall a, In a l -> 0 <= a_size a) ->
  forall bw, In bw (zip_windows (windows num t0 [] l) (snd (rl_run (rl_new t0 num) l))) ->
  window_ok (fst bw) (snd bw).
Proof.
  intros t0 num l Hsz bw Hin.
  apply (windows_ok_gen l num t0 [] [] (rl_new t0 num)); auto.
  split; [reflexivity|]. split; [apply window_ok_nil|]. cbn -[Z.sub]. unfold admitted_bytes. cbn -[Z.sub]. split; [lia|auto].
Qed.

(** Any request made after the fill instant is admitted: no size is starved. *)
Lemma after_window_admitted : forall s a, rl_sleep_until s < a_now a -> snd (try_acquire s a) = true.
Proof.
  intros s a H. unfold try_acquire, rl_refill.
  destruct (rl_sleep_until s <? a_now a) eqn:E; [|lia].
  cbn -[Z.ltb Z.sub]. destruct (a_size a <? a_num a); reflexivity.
Qed.

Lemma sleep_until_bound : forall l s,
  (forall a, In a l -> Z.abs (a_per a) <= 0 + Z.abs (a_per a)) ->
  forall P, (forall a, In a l -> Z.abs (a_per a) <= P) -> 0 <= P ->
  forall T, (forall a, In a l -> a_now a <= T) -> rl_sleep_until s <= T + P ->
  rl_sleep_until (fst (rl_run s l)) <= T + P.
Proof.
  induction l as [|a l IH]; intros s _ P HP HP0 T HT Hs; [exact Hs|].
  simpl. destruct (try_acquire s a) as [s1 b] eqn:Ea. destruct (rl_run s1 l) as [s2 bs] eqn:Er. simpl.
  replace s2 with (fst (rl_run s1 l)) by (rewrite Er; reflexivity).
  apply IH; auto.
  - intros; lia.
  - intros; apply HP; right; assumption.
  - intros; apply HT; right; assumption.
  - assert (H1: Z.abs (a_per a) <= P) by (apply HP; left; reflexivity).
    assert (H2: a_now a <= T) by (apply HT; left; reflexivity).
    unfold try_acquire, rl_refill in Ea.
    destruct (rl_sleep_until s <? a_now a); cbn -[Z.ltb Z.add Z.sub] in Ea.
    + destruct (a_size a <? a_num a); inv Ea; cbn -[Z.add]; lia.
    + destruct (rl_status_of s); [inv Ea; lia|]. destruct (a_size a <? rem); inv Ea; cbn -[Z.add]; lia.
Qed.

Lemma no_starvation : forall t0 num P l a,
  0 <= P -> (forall x, In x l -> Z.abs (a_per x) <= P) ->
  (forall x, In x l -> t0 <= a_now x /\ a_now x + P < a_now a) -> t0 < a_now a ->
  snd (try_acquire (fst (rl_run (rl_new t0 num) l)) a) = true.
Proof.
  intros t0 num P l a HP Hper Hnow Ht0.
  apply after_window_admitted.
  destruct l as [|x l]; [exact Ht0|].
  assert (rl_sleep_until (fst (rl_run (rl_new t0 num) (x :: l))) <= (a_now a - P - 1) + P); [|lia].
  apply sleep_until_bound; auto.
  - intros; lia.
  - intros y Hy. apply Hnow in Hy. lia.
  - cbn -[Z.add Z.sub]. specialize (Hnow x (or_introl eq_refl)). lia.
Qed.
