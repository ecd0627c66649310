From Verif Require Import Base Serve_Model Serve_Spec.

Lemma exec_app : forall l1 l2 s, exec s (l1 ++ l2) = match exec s l1 with Some s' => exec s' l2 | None => None end.
Proof. induction l1 as [|l l1 IH]; intros l2 s; cbn [exec app]; [reflexivity|]. destruct (step s l); auto. Qed.
Lemma exec_snoc : forall ls l s s', exec s (ls ++ [l]) = Some s' -> exists s0, exec s ls = Some s0 /\ step s0 l = Some s'.
Proof. intros ls l s s' H. rewrite exec_app in H. destruct (exec s ls) as [s0|]; [|discriminate]. exists s0. split; auto. cbn [exec] in H. destruct (step s0 l); [exact H|discriminate]. Qed.
Lemma place_app : forall c l1 l2 x, place c x (l1 ++ l2) = place c (place c x l1) l2.
Proof. induction l1 as [|l l1 IH]; intros l2 x; [reflexivity|]. cbn [app place]. destruct l; apply IH. Qed.
Lemma count_app : forall (p : label -> bool) l1 l2, length (filter p (l1 ++ l2)) = length (filter p l1) + length (filter p l2).
Proof. intros. rewrite filter_app, app_length. reflexivity. Qed.

(** The table of tasks. *)
Lemma find_none : forall l c, find_cx l c = None <-> ~ In c (map fst l).
Proof. induction l as [|[d x] l IH]; intros c; cbn; [tauto|]. destruct (Nat.eqb_spec d c); subst; [split; [discriminate|intros H; exfalso; auto]|]. rewrite IH. tauto. Qed.
Lemma find_app : forall l c d x, find_cx (l ++ [(d, x)]) c = match find_cx l c with Some y => Some y | None => if Nat.eqb d c then Some x else None end.
Proof. induction l as [|[e y] l IH]; intros; cbn; [reflexivity|]. destruct (Nat.eqb e c); auto. Qed.
Lemma find_set : forall l c d x, find_cx (set_cx l d x) c = if Nat.eqb d c then match find_cx l c with Some _ => Some x | None => None end else find_cx l c.
Proof.
  induction l as [|[e y] l IH]; intros c d x; cbn; [destruct (Nat.eqb d c); reflexivity|].
  destruct (Nat.eqb_spec e d) as [->|Hed]; cbn.
  - destruct (Nat.eqb_spec d c); reflexivity.
  - destruct (Nat.eqb_spec e c) as [->|Hec]; [destruct (Nat.eqb_spec d c); [congruence|reflexivity]|]. apply IH.
Qed.
Lemma set_keys : forall l d x, map fst (set_cx l d x) = map fst l.
Proof. induction l as [|[e y] l IH]; intros; cbn; [reflexivity|]. destruct (Nat.eqb e d); cbn; congruence. Qed.
Lemma del_in : forall l d c, In c (map fst (del_cx l d)) -> In c (map fst l).
Proof. induction l as [|[e y] l IH]; intros d c; cbn; [auto|]. destruct (Nat.eqb e d); cbn; [auto|]. intros [H|H]; auto. right. eapply IH; eauto. Qed.
Lemma del_nodup : forall l d, NoDup (map fst l) -> NoDup (map fst (del_cx l d)).
Proof. induction l as [|[e y] l IH]; intros d H; cbn in *; [auto|]. inv H. destruct (Nat.eqb e d); cbn; auto. constructor; auto. intros H. apply H2. eapply del_in; eauto. Qed.
Lemma find_del : forall l c d, NoDup (map fst l) -> find_cx (del_cx l d) c = if Nat.eqb d c then None else find_cx l c.
Proof.
  induction l as [|[e y] l IH]; intros c d H; cbn in *; [destruct (Nat.eqb d c); reflexivity|]. inv H.
  destruct (Nat.eqb_spec e d) as [->|Hed]; cbn.
  - destruct (Nat.eqb_spec d c) as [->|]; [apply find_none; auto|reflexivity].
  - destruct (Nat.eqb_spec e c) as [->|]; [destruct (Nat.eqb_spec d c); [congruence|reflexivity]|]. apply IH. auto.
Qed.
Lemma nodup_snoc : forall l (c : nat), NoDup l -> ~ In c l -> NoDup (l ++ [c]).
Proof. induction l; intros c H Hc; cbn; [constructor; [intros []|constructor]|]. inv H. constructor; [|apply IHl; auto; intros Hi; apply Hc; right; auto]. rewrite in_app_iff. intros [Hi|[Hi|[]]]; [auto|]. apply Hc. left. auto. Qed.

Definition loop_over (ls : list label) : bool := existsb ends_loop ls.
Record inv (n : nat) (g : Z) (ls : list label) (s : st) : Prop := {
  i_total : total s = n + accepts ls;
  i_active : active s = (g + Z.of_nat (accepts ls) - Z.of_nat (ends ls))%Z;
  i_nodup : NoDup (map fst (cxs s));
  i_place : forall c, find_cx (cxs s) c = place c None ls;
  i_open : accepts ls = ends ls + length (filter (fun p => match snd p with Served => false | _ => true end) (cxs s));
  i_srv : loop_over ls = match srv s with Accepting => false | _ => true end;
  i_trig : trig s = Running <-> srv s = Accepting;
  i_asked : asked s = true <-> In LAsk ls;
  i_clean : srv s = Returned true -> cxs s = [];
  i_wanted : srv s = Closing \/ srv s = Returned true -> In LAsk ls }.

Lemma open_app : forall (l1 l2 : list (nat * cx)), length (filter (fun p => match snd p with Served => false | _ => true end) (l1 ++ l2)) = length (filter (fun p => match snd p with Served => false | _ => true end) l1) + length (filter (fun p => match snd p with Served => false | _ => true end) l2).
Proof. intros. rewrite filter_app, app_length. reflexivity. Qed.
Notation opens l := (length (filter (fun p => match snd p with Served => false | _ => true end) l)).
Lemma open_told : forall l c, find_cx l c = Some Serving -> opens (set_cx l c Told) = opens l.
Proof. induction l as [|[d x] l IH]; intros c H; cbn in *; [discriminate|]. destruct (Nat.eqb d c); [inv H; reflexivity|]. cbn. destruct x; cbn; rewrite ?IH; auto. Qed.
Lemma open_served : forall l c x, find_cx l c = Some x -> x <> Served -> opens l = S (opens (set_cx l c Served)).
Proof. induction l as [|[d x] l IH]; intros c y H Hy; cbn in *; [discriminate|]. destruct (Nat.eqb d c); [inv H; destruct y; [reflexivity|reflexivity|congruence]|]. cbn. destruct x; cbn; rewrite (IH c y); auto. Qed.
Lemma open_del : forall l c, find_cx l c = Some Served -> opens (del_cx l c) = opens l.
Proof. induction l as [|[d x] l IH]; intros c H; cbn in *; [discriminate|]. destruct (Nat.eqb d c); [inv H; reflexivity|]. cbn. destruct x; cbn; rewrite ?IH; auto. Qed.
Lemma set_nil : forall l c x, set_cx l c x = [] -> l = [].
Proof. intros [|[d y] l] c x; cbn; [auto|]. destruct (Nat.eqb d c); discriminate. Qed.

Lemma inv_step : forall n g ls s l s', inv n g ls s -> step s l = Some s' -> inv n g (ls ++ [l]) s'.
Proof.
  intros n g ls [sv tr cs to ac ak] l s' I E. destruct I as [I1 I2 I3 I4 I5 I6 I7 I8 I9 I10]. cbn [srv trig cxs total active asked] in *.
  assert (Hacc : accepts (ls ++ [l]) = accepts ls + (if is_accept l then 1 else 0)) by (unfold accepts; rewrite count_app; cbn; destruct (is_accept l); reflexivity).
  assert (Hend : ends (ls ++ [l]) = ends ls + (if is_end l then 1 else 0)) by (unfold ends; rewrite count_app; cbn; destruct (is_end l); reflexivity).
  assert (Hlo : loop_over (ls ++ [l]) = loop_over ls || ends_loop l) by (unfold loop_over; rewrite existsb_app; cbn; rewrite orb_false_r; reflexivity).
  assert (Hin : In LAsk (ls ++ [l]) <-> In LAsk ls \/ l = LAsk) by (rewrite in_app_iff; cbn; intuition congruence).
  destruct l; cbn [step srv trig cxs total active asked is_accept is_end ends_loop] in *.
  - inv E. constructor; cbn [srv trig cxs total active asked]; rewrite ?Hacc, ?Hend, ?Hlo, ?Hin; auto; try lia; try tauto.
    all: try (rewrite I6; apply orb_false_r).
    all: try (intros c; rewrite place_app; apply I4).
  - destruct sv; try discriminate. destruct (find_cx cs c) eqn:Ec; [discriminate|]. inv E.
    constructor; cbn [srv trig cxs total active asked]; rewrite ?Hacc, ?Hend, ?Hlo, ?Hin; auto; try lia; try discriminate.
    all: try (rewrite map_app; apply nodup_snoc; auto; apply find_none; auto; fail).
    all: try (intros d; rewrite place_app, find_app, I4; cbn [place]; destruct (Nat.eqb_spec c d) as [->|]; [rewrite <- I4, Ec; reflexivity|]; destruct (place d None ls); reflexivity; fail).
    all: try (rewrite open_app; cbn; lia; fail).
    all: try (rewrite I6; reflexivity; fail).
    all: try (rewrite I8; intuition congruence; fail).
    all: try (intros [H|H]; discriminate; fail).
  - destruct sv; try discriminate. inv E. constructor; cbn [srv trig cxs total active asked]; rewrite ?Hacc, ?Hend, ?Hlo, ?Hin; auto; try lia; try discriminate.
    all: try (intros c; rewrite place_app; apply I4; fail).
    all: try (apply orb_true_r; fail).
    all: try (split; discriminate; fail).
    all: try (rewrite I8; intuition congruence; fail).
    all: try (intros [H|H]; discriminate; fail).
  - destruct sv; try discriminate. destruct ak; try discriminate. inv E. constructor; cbn [srv trig cxs total active asked]; rewrite ?Hacc, ?Hend, ?Hlo, ?Hin; auto; try lia; try discriminate.
    all: try (intros c; rewrite place_app; apply I4; fail).
    all: try (apply orb_true_r; fail).
    all: try (split; discriminate; fail).
    all: try (rewrite I8; intuition congruence; fail).
    all: try (intros _; left; apply I8; reflexivity; fail).
  - destruct sv; try discriminate. destruct cs; try discriminate. inv E. constructor; cbn [srv trig cxs total active asked]; rewrite ?Hacc, ?Hend, ?Hlo, ?Hin; auto; try lia; try discriminate.
    all: try (intros c; rewrite place_app; apply I4; fail).
    all: try (rewrite I6; reflexivity; fail).
    all: try (split; discriminate; fail).
    all: try (rewrite I8; intuition congruence; fail).
  - destruct tr; [discriminate| |].
    all: destruct (find_cx cs c) as [[]|] eqn:Ec; try discriminate; inv E.
    all: constructor; cbn [srv trig cxs total active asked]; rewrite ?Hacc, ?Hend, ?Hlo, ?Hin; auto; try lia; try discriminate.
    all: try (rewrite set_keys; auto; fail).
    all: try (intros d; rewrite place_app, find_set, I4; cbn [place]; destruct (Nat.eqb_spec c d) as [->|]; [rewrite <- I4, Ec; reflexivity|reflexivity]).
    all: try (rewrite open_told by auto; lia).
    all: try (rewrite I6; apply orb_false_r).
    all: try (rewrite I8; intuition congruence).
    all: try (intros H; left; auto; fail).
    all: try (intros H; apply I9 in H; subst; reflexivity).
  - destruct (find_cx cs c) as [x|] eqn:Ec; [|discriminate].
    assert (Hx : x <> Served) by (destruct x; [discriminate|discriminate|discriminate E]).
    assert (E' : s' = mkSt sv tr (set_cx cs c Served) to (ac - 1) ak) by (destruct x; inv E; auto; congruence). subst s'. clear E.
    pose proof (open_served _ _ _ Ec Hx) as Ho.
    constructor; cbn [srv trig cxs total active asked]; rewrite ?Hacc, ?Hend, ?Hlo, ?Hin; auto; try lia.
    all: try (rewrite set_keys; auto; fail).
    all: try (intros d; rewrite place_app, find_set, I4; cbn [place]; destruct (Nat.eqb_spec c d) as [->|]; [rewrite <- I4, Ec; reflexivity|reflexivity]; fail).
    all: try (rewrite I6; apply orb_false_r; fail).
    all: try (rewrite I8; intuition congruence; fail).
    all: try (intros H; apply I9 in H; subst; reflexivity; fail).
  - destruct (find_cx cs c) as [x|] eqn:Ec; [|discriminate]. destruct x; try discriminate. inv E.
    constructor; cbn [srv trig cxs total active asked]; rewrite ?Hacc, ?Hend, ?Hlo, ?Hin; auto; try lia.
    all: try (apply del_nodup; auto; fail).
    all: try (intros d; rewrite place_app, find_del, I4 by auto; cbn [place]; destruct (Nat.eqb_spec c d); reflexivity; fail).
    all: try (rewrite open_del by auto; lia; fail).
    all: try (rewrite I6; apply orb_false_r; fail).
    all: try (rewrite I8; intuition congruence; fail).
    all: try (intros H; apply I9 in H; subst; reflexivity; fail).
Qed.
Theorem inv_exec : forall n g ls s, exec (init n g) ls = Some s -> inv n g ls s.
Proof.
  intros n g ls. induction ls as [|l ls IH] using rev_ind; intros s H.
  - inv H. constructor; cbn; auto; try lia; try (intros; discriminate); try (split; intros; auto; try discriminate; tauto).
    + constructor.
    + intros [H|H]; discriminate.
  - apply exec_snoc in H. destruct H as [s0 [H1 H2]]. eapply inv_step; eauto.
Qed.

Theorem metrics : forall n g ls s, exec (init n g) ls = Some s ->
  total s = n + accepts ls /\ active s = (g + Z.of_nat (accepts ls) - Z.of_nat (ends ls))%Z.
Proof. intros n g ls s H. apply inv_exec in H. destruct H. auto. Qed.

Lemma place_absent : forall c l2 x, place c x l2 = None -> x <> None -> In (LDrop c) l2.
Proof.
  induction l2 as [|l l2 IH]; intros x H Hx; cbn [place] in H; [congruence|].
  destruct l; try (right; eapply IH; eauto; fail).
  all: destruct (Nat.eqb_spec c0 c) as [->|]; try (right; eapply IH; eauto; discriminate).
  left. reflexivity.
Qed.
(** A connection that is gone had ended: nothing but an end leads to [Served]. *)
Lemma drop_needs : forall n g ls c s, exec (init n g) (ls ++ [LDrop c]) = Some s -> place c None ls = Some Served.
Proof.
  intros n g ls c s H. apply exec_snoc in H. destruct H as [s0 [H1 H2]]. pose proof (inv_exec _ _ _ _ H1) as I. cbn [step] in H2.
  rewrite <- (i_place _ _ _ _ I). destruct (find_cx (cxs s0) c) as [[]|]; try discriminate. reflexivity.
Qed.
Lemma place_served : forall c l2 x, place c x l2 = Some Served -> x <> Some Served -> In (LEnd c) l2.
Proof.
  induction l2 as [|l l2 IH]; intros x H Hx; cbn [place] in H; [congruence|].
  destruct l; try (right; eapply IH; eauto; fail).
  all: destruct (Nat.eqb_spec c0 c) as [->|]; try (right; eapply IH; eauto; discriminate).
  left. reflexivity.
Qed.
Lemma first_drop : forall c l, In (LDrop c) l -> exists a b, l = a ++ LDrop c :: b /\ ~ In (LDrop c) a.
Proof.
  induction l as [|x l IH]; intros H; [destruct H|].
  assert (D : x = LDrop c \/ x <> LDrop c) by (destruct x; try (right; discriminate); destruct (Nat.eq_dec c0 c); [left; congruence|right; congruence]).
  destruct D as [->|D]; [exists [], l; split; auto; intros []|].
  destruct H as [H|H]; [congruence|]. destruct (IH H) as [a [b [-> Ha]]]. exists (x :: a), b. split; auto. intros [Hx|Hx]; auto.
Qed.
Theorem waits : forall n g l1 c l2 s, exec (init n g) (l1 ++ LAccept c :: l2) = Some s -> srv s = Returned true -> In (LEnd c) l2.
Proof.
  intros n g l1 c l2 s H Hs. pose proof (inv_exec _ _ _ _ H) as I. pose proof (i_place _ _ _ _ I c) as P. rewrite (i_clean _ _ _ _ I Hs) in P. cbn [find_cx] in P.
  rewrite place_app in P. cbn [place] in P. rewrite Nat.eqb_refl in P. symmetry in P. apply place_absent in P; [|discriminate].
  destruct (first_drop _ _ P) as [a [b [-> Ha]]]. apply in_or_app. left.
  replace (l1 ++ LAccept c :: a ++ LDrop c :: b) with (((l1 ++ LAccept c :: a) ++ [LDrop c]) ++ b) in H by (rewrite <- !app_assoc; cbn; rewrite <- ?app_assoc; reflexivity).
  rewrite exec_app in H. destruct (exec (init n g) ((l1 ++ LAccept c :: a) ++ [LDrop c])) as [s0|] eqn:E; [|discriminate].
  apply drop_needs in E. rewrite place_app in E. cbn [place] in E. rewrite Nat.eqb_refl in E. eapply place_served; [exact E|discriminate].
Qed.
Theorem returned : forall n g ls s, exec (init n g) ls = Some s -> srv s = Returned true -> active s = g /\ In LAsk ls /\ total s = n + ends ls.
Proof.
  intros n g ls s H Hs. apply inv_exec in H. destruct H as [I1 I2 I3 I4 I5 I6 I7 I8 I9 I10]. rewrite (I9 Hs) in I5. cbn in I5.
  split; [lia|]. split; [auto|lia].
Qed.
Theorem closed : forall n g l1 l l2 s, exec (init n g) (l1 ++ l :: l2) = Some s -> ends_loop l = true -> forall c, ~ In (LAccept c) l2.
Proof.
  intros n g l1 l l2 s H Hl c Hc. apply in_split in Hc. destruct Hc as [a [b ->]].
  replace (l1 ++ l :: a ++ LAccept c :: b) with ((l1 ++ l :: a) ++ LAccept c :: b) in H by (rewrite <- app_assoc; reflexivity).
  rewrite exec_app in H. destruct (exec (init n g) (l1 ++ l :: a)) as [s0|] eqn:E; [|discriminate]. cbn [exec step] in H.
  pose proof (i_srv _ _ _ _ (inv_exec _ _ _ _ E)) as P. unfold loop_over in P. rewrite existsb_app in P. cbn [existsb] in P. rewrite Hl, orb_true_r in P.
  destruct (srv s0); try discriminate.
Qed.
Theorem told_when : forall n g l1 c l2 s, exec (init n g) (l1 ++ LTell c :: l2) = Some s -> place c None l1 = Some Serving /\ existsb ends_loop l1 = true.
Proof.
  intros n g l1 c l2 s H. rewrite exec_app in H. destruct (exec (init n g) l1) as [s0|] eqn:E; [|discriminate]. cbn [exec step] in H.
  pose proof (inv_exec _ _ _ _ E) as I. rewrite <- (i_place _ _ _ _ I). pose proof (i_srv _ _ _ _ I) as P. pose proof (i_trig _ _ _ _ I) as T. unfold loop_over in P. rewrite P.
  destruct (trig s0) eqn:Et; [discriminate| |]; destruct (find_cx (cxs s0) c) as [[]|]; try discriminate; split; auto; destruct (srv s0); auto; destruct T as [_ T]; discriminate (T eq_refl).
Qed.
Theorem can_tell : forall n g ls s c, exec (init n g) ls = Some s -> existsb ends_loop ls = true -> place c None ls = Some Serving -> exists s', step s (LTell c) = Some s'.
Proof.
  intros n g ls s c H Hl Hp. apply inv_exec in H. rewrite <- (i_place _ _ _ _ H) in Hp. pose proof (i_srv _ _ _ _ H) as P. unfold loop_over in P. rewrite Hl in P.
  pose proof (i_trig _ _ _ _ H) as T. cbn [step]. rewrite Hp. destruct (trig s); eauto. destruct T as [T _]. rewrite T in P by reflexivity. discriminate.
Qed.
Lemma find_head : forall d x l, find_cx ((d, x) :: l) d = Some x.
Proof. intros. cbn. rewrite Nat.eqb_refl. reflexivity. Qed.
Lemma drains : forall l tr to ac ak, exists ls s', exec (mkSt Closing tr l to ac ak) ls = Some s' /\ srv s' = Returned true /\ (forall a, In a ls -> a = LReturn \/ exists c, In c (map fst l) /\ (a = LEnd c \/ a = LDrop c)).
Proof.
  induction l as [|[d x] l IH]; intros tr to ac ak.
  - exists [LReturn]. eexists. split; [reflexivity|]. split; [reflexivity|]. intros a [<-|[]]. auto.
  - destruct x.
    1,2: destruct (IH tr to (ac - 1)%Z ak) as [ls [s' [H1 [H2 H3]]]]; exists (LEnd d :: LDrop d :: ls), s'.
    3: destruct (IH tr to ac ak) as [ls [s' [H1 [H2 H3]]]]; exists (LDrop d :: ls), s'.
    all: (split; [cbn [exec step cxs srv trig total active asked]; cbn [find_cx set_cx del_cx]; rewrite Nat.eqb_refl; cbn [exec step cxs srv trig total active asked find_cx del_cx]; rewrite ?Nat.eqb_refl; exact H1|]).
    all: split; [exact H2|].
    all: intros a Ha; cbn [In map fst] in *; repeat match goal with H : _ \/ _ |- _ => destruct H as [H|H] end; subst; eauto 6.
    all: match goal with H : In ?a ?l, H3 : forall a, In a ?l -> _ |- _ => destruct (H3 _ H) as [->|[c [Hc Hd]]]; eauto 6 end.
Qed.
Theorem can_return : forall n g ls s, exec (init n g) ls = Some s -> srv s = Closing ->
  exists ls' s', exec s ls' = Some s' /\ srv s' = Returned true /\ (forall a, In a ls' -> a = LReturn \/ exists c, place c None ls <> None /\ (a = LEnd c \/ a = LDrop c)).
Proof.
  intros n g ls s H Hs. apply inv_exec in H. destruct s as [sv tr cs to ac ak]. cbn in Hs. subst sv. destruct (drains cs tr to ac ak) as [ls' [s' [H1 [H2 H3]]]].
  exists ls', s'. split; auto. split; auto. intros a Ha. destruct (H3 _ Ha) as [->|[c [Hc Hd]]]; auto. right. exists c. split; auto.
  rewrite <- (i_place _ _ _ _ H). cbn [cxs]. intros Hn. apply find_none in Hn. auto.
Qed.
