From Verif Require Import Base Str_Base Flags_Model Flags_Spec.

(** * Counting *)
Section Count.
Local Open Scope N_scope.
Lemma succ_div_mod : forall n d, 0 < d -> ((n + 1) / d = n / d /\ (n + 1) mod d = n mod d + 1 /\ n mod d + 1 < d) \/ ((n + 1) / d = n / d + 1 /\ (n + 1) mod d = 0 /\ n mod d + 1 = d).
Proof.
  intros n d Hd. pose proof (N.div_mod n d ltac:(lia)) as H. pose proof (N.mod_lt n d ltac:(lia)) as Hl.
  destruct (N.eq_dec (n mod d + 1) d) as [E|E].
  - right. assert (Hx : n + 1 = d * (n / d + 1) + 0) by nia.
    splits; [symmetry; eapply N.div_unique; [|exact Hx]; lia|symmetry; eapply N.mod_unique; [|exact Hx]; lia|auto].
  - left. assert (Hx : n + 1 = d * (n / d) + (n mod d + 1)) by nia.
    splits; [symmetry; eapply N.div_unique; [|exact Hx]; lia|symmetry; eapply N.mod_unique; [|exact Hx]; lia|lia].
Qed.
Lemma count_mod : forall k d m, 0 < d -> k <= d -> count (fun r => r mod d <? k) m = (N.of_nat m / d) * k + N.min k (N.of_nat m mod d).
Proof.
  intros k d m Hd Hk. induction m as [|m IH].
  - cbn [count]. change (N.of_nat 0) with 0. rewrite N.div_0_l, N.mod_0_l by lia. lia.
  - cbn [count]. rewrite IH. replace (N.of_nat (S m)) with (N.of_nat m + 1) by lia.
    destruct (succ_div_mod (N.of_nat m) d Hd) as [(H1 & H2 & H3)|(H1 & H2 & H3)]; rewrite H1, H2; destruct (N.of_nat m mod d <? k) eqn:E; (apply N.ltb_lt in E || apply N.ltb_ge in E); nia.
Qed.
Lemma count_ext : forall p q m, (forall r, p r = q r) -> count p m = count q m.
Proof. intros p q m H. induction m; simpl; auto. rewrite IHm, H. reflexivity. Qed.
Lemma count_true : forall m, count (fun _ => true) m = N.of_nat m.
Proof. induction m; cbn [count]; auto. rewrite IHm. lia. Qed.
Lemma count_false : forall m, count (fun _ => false) m = 0.
Proof. induction m; cbn [count]; auto. rewrite IHm. lia. Qed.
Lemma lookup_has : forall fs name f, has fs name f -> lookup fs name = Some f.
Proof.
  induction fs as [|[k v] fs IH]; intros name f [Hn Hi]; [destruct Hi|]. cbn [lookup]. inv Hn. destruct Hi as [Hi|Hi].
  - inv Hi. rewrite String.eqb_refl. reflexivity.
  - destruct (String.eqb_spec k name) as [->|Hne]; [|apply IH; split; auto]. exfalso. apply H1. apply (in_map fst) in Hi. exact Hi.
Qed.
Lemma lookup_has_not : forall fs name, has_not fs name -> lookup fs name = None.
Proof.
  unfold has_not. induction fs as [|[k v] fs IH]; intros name H; [reflexivity|]. cbn [lookup map fst In] in *.
  destruct (String.eqb_spec k name) as [->|Hne]; [exfalso; auto|]. apply IH. auto.
Qed.
Theorem getters : forall fs name b n t,
  (forall f, has fs name f ->
     get_bool fs name b = match f with FBool x => x | _ => b end
     /\ get_integer fs name n = match f with FInteger x => x | _ => n end
     /\ get_string fs name t = match f with FString x => x | _ => t end
     /\ (forall r, (forall i, f <> FInteger i) -> feature_enabled fs name b r = b))
  /\ (has_not fs name -> get_bool fs name b = b /\ get_integer fs name n = n /\ get_string fs name t = t /\ forall r, feature_enabled fs name b r = b).
Proof.
  intros fs name b n t. unfold get_bool, get_integer, get_string, feature_enabled. split.
  - intros f H. apply lookup_has in H. rewrite H. destruct f; repeat split; auto. intros r Hf. exfalso. eapply Hf. reflexivity.
  - intros H. apply lookup_has_not in H. rewrite H. auto.
Qed.
Theorem enabled_count : forall fs name d i m, has fs name (FInteger i) ->
  count (feature_enabled fs name d) m = if 10000 <=? i then N.of_nat m else (N.of_nat m / 10000) * i + N.min i (N.of_nat m mod 10000).
Proof.
  intros fs name d i m H. apply lookup_has in H. unfold feature_enabled. rewrite H. destruct (10000 <=? i) eqn:E1.
  - apply N.leb_le in E1. rewrite (count_ext _ (fun _ => true)); [apply count_true|]. intros r. destruct (i =? 0) eqn:E2; [apply N.eqb_eq in E2; lia|].
    destruct (i <=? 9999) eqn:E3; auto. apply N.leb_le in E3. lia.
  - apply N.leb_gt in E1. rewrite <- count_mod by lia. apply count_ext. intros r. destruct (i =? 0) eqn:E2.
    + apply N.eqb_eq in E2. subst. symmetry. apply N.ltb_ge. lia.
    + destruct (i <=? 9999) eqn:E3; auto. apply N.leb_gt in E3. lia.
Qed.
Theorem enabled_monotone : forall fs fs' name d i j r, has fs name (FInteger i) -> has fs' name (FInteger j) -> i <= j ->
  feature_enabled fs name d r = true -> feature_enabled fs' name d r = true.
Proof.
  intros fs fs' name d i j r Hi Hj Hle H. apply lookup_has in Hi. apply lookup_has in Hj. unfold feature_enabled in *. rewrite Hi in H. rewrite Hj.
  destruct (i =? 0) eqn:E1; [discriminate|]. apply N.eqb_neq in E1. destruct (j =? 0) eqn:E2; [apply N.eqb_eq in E2; lia|].
  destruct (j <=? 9999) eqn:E3; auto. destruct (i <=? 9999) eqn:E4; [apply N.ltb_lt in H; apply N.ltb_lt; lia|apply N.leb_gt in E4; apply N.leb_le in E3; lia].
Qed.
End Count.

Section Loader.
Context {Raw Config : Type}.
Variable parse : string -> option Raw.
Variable convert : option Raw -> option Config.
Notation exec := (exec parse convert).
Notation step := (step parse convert).
Notation load := (load parse convert).

Lemma exec_app : forall ls1 ls2 s, exec s (ls1 ++ ls2) = match exec s ls1 with Some s' => exec s' ls2 | None => None end.
Proof. induction ls1 as [|l ls1 IH]; intros; simpl; auto. destruct (step s l); auto. Qed.
Lemma exec_snoc : forall ls l s s', exec s (ls ++ [l]) = Some s' -> exists s0, exec s ls = Some s0 /\ step s0 l = Some s'.
Proof. intros ls l s s' H. rewrite exec_app in H. destruct (exec s ls) as [s0|]; [|discriminate]. simpl in H. exists s0. split; auto. destruct (step s0 l); congruence. Qed.
Lemma content_app : forall l1 l2 f, content f (l1 ++ l2) = content (content f l1) l2.
Proof. induction l1 as [|a l1 IH]; intros; simpl; auto. destruct a; apply IH. Qed.
Lemma in_place_app : forall l1 l2 b, in_place b (l1 ++ l2) = in_place (in_place b l1) l2.
Proof. induction l1 as [|a l1 IH]; intros; simpl; auto. destruct a; apply IH. Qed.

(** What [loaded] leaves alone. *)
Lemma loaded_fields : forall (s : st Config) q g t, disk (loaded parse s q g t) = disk s /\ queue (loaded parse s q g t) = q /\ stg (loaded parse s q g t) = g /\ tsk (loaded parse s q g t) = t
  /\ snapshot (loaded parse s q g t) = snapshot s /\ shut (loaded parse s q g t) = shut s /\ returned (loaded parse s q g t) = returned s
  /\ ok (loaded parse s q g t) + bad (loaded parse s q g t) + io (loaded parse s q g t) = S (ok s + bad s + io s).
Proof. intros. unfold loaded. destruct (disk s) as [text|] eqn:E; [destruct (parse text)|]; simpl; splits; auto; lia. Qed.

(** * Following the file *)
Definition fresh (s : st Config) : Prop :=
  match stg s with
  | Unwatched | Watched => True
  | Loaded c => In ERename (queue s) \/ c = load (disk s)
  | Made => In ERename (queue s) \/ match tsk s with Sending c => c = load (disk s) | Waiting => snapshot s = load (disk s) | Ended => False end
  end.
Record inv (f0 : file) (ls : list label) (s : st Config) : Prop := mkInv {
  i_disk : disk s = content f0 ls;
  i_shut : shut s = None;
  i_run : tsk s <> Ended;
  i_early : stg s <> Made -> tsk s = Waiting;
  i_noerr : ~ In EError (queue s);
  i_fresh : in_place false ls = false -> fresh s }.
Lemma inv_step : forall f0 ls s l s', l <> LFail -> (forall c, l <> LShutdown c) -> inv f0 ls s -> step s l = Some s' -> inv f0 (ls ++ [l]) s'.
Proof.
  intros f0 ls s l s' Hnf Hns [Hd Hs Hr He Hn Hf] H. 
  assert (Hip : in_place false (ls ++ [l]) = in_place (in_place false ls) [l]) by apply in_place_app.
  assert (Hc : content f0 (ls ++ [l]) = content (disk s) [l]) by (rewrite content_app, <- Hd; reflexivity).
  assert (Hw : stg s <> Unwatched -> watching s = true) by (unfold watching; rewrite Hs; destruct (stg s); congruence).
  destruct l; try (exfalso; apply Hnf; reflexivity); try (exfalso; eapply Hns; reflexivity); simpl in Hip, Hc; cbn [Flags_Model.step] in H.
  - injection H as <-. unfold notify. split; cbn; auto.
    + destruct (watching s); auto. intros Hi. apply in_app_or in Hi as [Hi|[Hi|[]]]; [tauto|discriminate].
    + intros _. unfold fresh; cbn. destruct (stg s) eqn:Eg; auto; rewrite Hw by congruence; left; apply in_or_app; right; left; reflexivity.
  - injection H as <-. unfold notify. split; cbn; auto.
    + destruct (watching s); auto. intros Hi. apply in_app_or in Hi as [Hi|[Hi|[]]]; [tauto|discriminate].
    + rewrite Hip. discriminate.
  - injection H as <-. unfold notify. split; cbn; auto.
    + destruct (watching s); auto. intros Hi. apply in_app_or in Hi as [Hi|[Hi|[]]]; [tauto|discriminate].
    + rewrite Hip. intros Hx. specialize (Hf Hx). unfold fresh in *; cbn. destruct (stg s); auto; (destruct Hf as [Hf|Hf]; [left; destruct (watching s); auto; apply in_or_app; auto|right; exact Hf]).
  - destruct (stg s) eqn:Eg; try discriminate. injection H as <-. split; cbn; auto; try (intros _; apply He; discriminate).
  - destruct (stg s) eqn:Eg; try discriminate. injection H as <-. destruct (loaded_fields s (queue s) (Loaded (load (disk s))) (tsk s)) as (F1 & F2 & F3 & F4 & F5 & F6 & F7 & _).
    split; rewrite ?F1, ?F2, ?F3, ?F4, ?F6; auto; try (intros _; apply He; congruence). intros _. unfold fresh. rewrite F3, F1. right. reflexivity.
  - destruct (stg s) eqn:Eg; try discriminate. injection H as <-. split; cbn; auto; try congruence. rewrite Hip. intros Hx. specialize (Hf Hx). unfold fresh in *; cbn. rewrite Eg in Hf.
    rewrite (He ltac:(congruence)). exact Hf.
  - destruct (stg s) eqn:Eg; try discriminate. destruct (tsk s) eqn:Et; try discriminate. unfold fresh in Hf. rewrite Eg, Et in Hf. destruct (queue s) as [|[] q] eqn:Eq.
    + rewrite Hs in H. discriminate.
    + injection H as <-. destruct (loaded_fields s q Made (Sending (load (disk s)))) as (F1 & F2 & F3 & F4 & F5 & F6 & F7 & _).
      split; rewrite ?F1, ?F2, ?F3, ?F4, ?F6; auto; try congruence. { intros Hi; apply Hn; right; exact Hi. } intros _. unfold fresh. rewrite F3, F4, F1. right. reflexivity.
    + injection H as <-. split; cbn; auto; try congruence. { intros Hi; apply Hn; right; exact Hi. } rewrite Hip. intros Hx. destruct (Hf Hx) as [[Hi|Hi]|Hi]; [discriminate|left; exact Hi|right; exact Hi].
    + exfalso. apply Hn. left. reflexivity.
  - destruct (tsk s) eqn:Et; try discriminate. injection H as <-. split; cbn; auto; try congruence. rewrite Hip. intros Hx. specialize (Hf Hx). unfold fresh in *; cbn. rewrite Et in Hf.
    destruct (stg s) eqn:Eg; auto; exfalso; specialize (He ltac:(congruence)); discriminate.
  - rewrite Hs in H. discriminate.
Qed.
Lemma init_inv : forall f0, inv f0 [] (init f0).
Proof. intros. split; cbn; auto; try congruence. Qed.
Lemma inv_exec : forall f0 ls s, no_failure ls -> no_shutdown ls -> exec (init f0) ls = Some s -> inv f0 ls s.
Proof.
  intros f0. induction ls as [|l ls IH] using rev_ind; intros s Hf Hs H.
  - simpl in H. injection H as <-. apply init_inv.
  - apply exec_snoc in H as (s0 & H0 & H1). eapply inv_step; [| |apply IH; eauto|exact H1].
    + intros ->. apply Hf. apply in_or_app. right. left. reflexivity.
    + intros c ->. apply (Hs c). apply in_or_app. right. left. reflexivity.
    + intros Hi. apply Hf. apply in_or_app. auto.
    + intros c Hi. apply (Hs c). apply in_or_app. auto.
Qed.
Theorem converges : forall f0 ls s, exec (init f0) ls = Some s -> no_failure ls -> no_shutdown ls -> in_place false ls = false -> settled s ->
  snapshot s = convert (match content f0 ls with Some text => parse text | None => None end).
Proof.
  intros f0 ls s H Hf Hs Hi (E1 & E2 & E3). destruct (inv_exec _ _ _ Hf Hs H) as [Hd _ _ _ _ Hfr]. specialize (Hfr Hi). unfold fresh in Hfr. rewrite E1, E2, E3 in Hfr.
  rewrite <- Hd. destruct Hfr as [[]|Hfr]. exact Hfr.
Qed.

Definition of_task (l : label) : Prop := l = LTake \/ l = LSend.
Lemma settles_queue : forall n s, length (queue s) <= n -> stg s = Made -> tsk s = Waiting -> shut s = None -> ~ In EError (queue s) ->
  exists ls s', exec s ls = Some s' /\ settled s' /\ disk s' = disk s /\ (forall l, In l ls -> of_task l).
Proof.
  induction n; intros s Hl Hg Ht Hs Hn.
  - destruct (queue s) eqn:Eq; [|simpl in Hl; lia]. exists [], s. splits; auto. + unfold settled; auto. + intros l [].
  - destruct (queue s) as [|e q] eqn:Eq. { exists [], s. splits; auto. + unfold settled; auto. + intros l []. }
    destruct e.
    + assert (E1 : step s LTake = Some (loaded parse s q Made (Sending (load (disk s))))) by (simpl; rewrite Hg, Ht, Eq; reflexivity).
      destruct (loaded_fields s q Made (Sending (load (disk s)))) as (F1 & F2 & F3 & F4 & F5 & F6 & F7 & _).
      set (s1 := loaded parse s q Made (Sending (load (disk s)))) in *.
      set (s2 := mkSt (disk s1) (queue s1) (stg s1) Waiting (load (disk s)) (ok s1) (bad s1) (io s1) (shut s1) (returned s1)).
      assert (E2 : step s1 LSend = Some s2) by (simpl; rewrite F4; reflexivity).
      destruct (IHn s2) as (ls & s' & H1 & H2 & H3 & H4); cbn; rewrite ?F1, ?F2, ?F3, ?F6; auto.
      * simpl in Hl. lia.
      * intros Hi. apply Hn. right. exact Hi.
      * exists (LTake :: LSend :: ls), s'. splits; auto.
        -- cbn [Flags_Model.exec]. rewrite E1. rewrite E2. exact H1.
        -- rewrite H3. cbn. exact F1.
        -- intros l [<-|[<-|Hi]]; [left; auto|right; auto|apply H4; auto].
    + set (s1 := mkSt (disk s) q Made Waiting (snapshot s) (ok s) (bad s) (io s) (shut s) (returned s)).
      assert (E1 : step s LTake = Some s1) by (simpl; rewrite Hg, Ht, Eq; reflexivity).
      destruct (IHn s1) as (ls & s' & H1 & H2 & H3 & H4); cbn; auto.
      * simpl in Hl. lia.
      * intros Hi. apply Hn. right. exact Hi.
      * exists (LTake :: ls), s'. splits; auto.
        -- cbn [Flags_Model.exec]. rewrite E1. exact H1.
        -- intros l [<-|Hi]; [left; auto|apply H4; auto].
    + exfalso. apply Hn. left. reflexivity.
Qed.
Theorem settles : forall f0 ls s, exec (init f0) ls = Some s -> no_failure ls -> no_shutdown ls -> stg s = Made ->
  exists ls' s', exec s ls' = Some s' /\ settled s' /\ disk s' = disk s /\ (forall l, In l ls' -> l = LTake \/ l = LSend).
Proof.
  intros f0 ls s H Hf Hs Hg. destruct (inv_exec _ _ _ Hf Hs H) as [Hd Hsh Hr He Hn _]. destruct (tsk s) eqn:Et; [|clear Hr|congruence].
  - eapply settles_queue; eauto.
  - set (s2 := mkSt (disk s) (queue s) (stg s) Waiting c (ok s) (bad s) (io s) (shut s) (returned s)).
    assert (E2 : step s LSend = Some s2) by (simpl; rewrite Et; reflexivity).
    destruct (settles_queue (length (queue s)) s2) as (ls' & s' & H1 & H2 & H3 & H4); cbn; auto.
    exists (LSend :: ls'), s'. splits; auto.
    + cbn [Flags_Model.exec]. rewrite E2. exact H1.
    + intros l [<-|Hi]; [right; auto|apply H4; auto].
Qed.

(** * Counters *)
Definition renames (q : list event) : nat := length (filter (fun e => match e with ERename => true | _ => false end) q).
Definition was_read (s : st Config) : nat := match stg s with Unwatched | Watched => 0 | _ => 1 end.
Definition swaps (ls : list label) : nat := length (filter is_swap ls).
Lemma renames_app : forall a b, renames (a ++ b) = renames a + renames b.
Proof. intros. unfold renames. rewrite filter_app, app_length. reflexivity. Qed.
Definition seen (ls : list label) : bool := existsb (fun l => match l with LWatch => true | _ => false end) ls.
Lemma loads_step : forall s l s' n, shut s = None -> l <> LFail -> (forall c, l <> LShutdown c) -> stg s <> Unwatched -> ok s + bad s + io s + renames (queue s) = was_read s + n -> step s l = Some s' ->
  ok s' + bad s' + io s' + renames (queue s') = was_read s' + (n + swaps [l]) /\ stg s' <> Unwatched /\ shut s' = None.
Proof.
  intros s l s' n Hs Hnf Hns Hg H H1.
  assert (Hw : watching s = true) by (unfold watching; rewrite Hs; destruct (stg s); congruence).
  destruct l; try (exfalso; apply Hnf; reflexivity); try (exfalso; eapply Hns; reflexivity); cbn [Flags_Model.step] in H1.
  - injection H1 as <-. unfold notify, was_read in *. rewrite Hw. cbn [ok bad io queue stg shut]. rewrite renames_app. cbn. splits; auto; unfold renames in *; lia.
  - injection H1 as <-. unfold notify, was_read in *. rewrite Hw. cbn [ok bad io queue stg shut]. rewrite renames_app. cbn. splits; auto; unfold renames in *; lia.
  - injection H1 as <-. unfold notify, was_read in *. rewrite Hw. cbn [ok bad io queue stg shut]. rewrite renames_app. cbn. splits; auto; unfold renames in *; lia.
  - destruct (stg s); congruence.
  - destruct (stg s) eqn:Eg; try discriminate. injection H1 as <-. destruct (loaded_fields s (queue s) (Loaded (load (disk s))) (tsk s)) as (F1 & F2 & F3 & F4 & F5 & F6 & F7 & F8).
    unfold was_read in *. rewrite F2, F3, F6, F8. rewrite Eg in H. cbn. splits; auto; try congruence; unfold renames in *; cbn in *; lia.
  - destruct (stg s) eqn:Eg; try discriminate. injection H1 as <-. unfold was_read in *. rewrite Eg in H. cbn. splits; auto; try congruence; unfold renames in *; cbn in *; lia.
  - destruct (stg s) eqn:Eg; try discriminate. destruct (tsk s) eqn:Et; try discriminate. unfold was_read in *. rewrite Eg in H. destruct (queue s) as [|[] q] eqn:Eq.
    + rewrite Hs in H1. discriminate.
    + injection H1 as <-. destruct (loaded_fields s q Made (Sending (load (disk s)))) as (F1 & F2 & F3 & F4 & F5 & F6 & F7 & F8).
      rewrite F2, F3, F6, F8. cbn in *. splits; auto; try congruence; unfold renames in *; cbn in *; lia.
    + injection H1 as <-. cbn in *. splits; auto; try congruence; unfold renames in *; cbn in *; lia.
    + injection H1 as <-. cbn in *. splits; auto; try congruence; unfold renames in *; cbn in *; lia.
  - destruct (tsk s) eqn:Et; try discriminate. injection H1 as <-. unfold was_read in *. cbn. splits; auto; unfold renames in *; cbn in *; lia.
  - rewrite Hs in H1. discriminate.
Qed.
Lemma unwatched : forall ls f0 s, ~ In LWatch ls -> exec (init f0) ls = Some s -> stg s = Unwatched /\ queue s = [] /\ ok s = 0 /\ bad s = 0 /\ io s = 0 /\ shut s = None.
Proof.
  induction ls as [|l ls IH] using rev_ind; intros f0 s Hn H.
  - simpl in H. injection H as <-. splits; auto.
  - apply exec_snoc in H as (s0 & H0 & H1). destruct (IH _ _ (fun Hi => Hn (in_or_app _ _ _ (or_introl Hi))) H0) as (E1 & E2 & E3 & E4 & E5 & E6).
    destruct l; cbn [Flags_Model.step] in H1; unfold notify, watching in H1; rewrite ?E1, ?E6 in H1; try discriminate;
      try (injection H1 as <-; cbn; rewrite ?E1; splits; auto; fail).
    + exfalso. apply Hn. apply in_or_app. right. left. reflexivity.
    + destruct (tsk s0); try discriminate. injection H1 as <-. cbn. splits; auto.
Qed.
Theorem loads_counted : forall f0 l1 l2 s, ~ In LWatch l1 -> no_failure l2 -> no_shutdown l2 -> exec (init f0) (l1 ++ LWatch :: l2) = Some s -> settled s ->
  ok s + bad s + io s = 1 + swaps l2.
Proof.
  intros f0 l1 l2 s Hn Hf Hs H (E1 & _ & E3). rewrite exec_app in H. destruct (exec (init f0) l1) as [s0|] eqn:H0; [|discriminate].
  destruct (unwatched _ _ _ Hn H0) as (G1 & G2 & G3 & G4 & G5 & G6).
  cbn [Flags_Model.exec Flags_Model.step] in H. rewrite G1 in H.
  assert (L : forall l2 s1 s n, no_failure l2 -> no_shutdown l2 -> exec s1 l2 = Some s -> stg s1 <> Unwatched -> shut s1 = None ->
    ok s1 + bad s1 + io s1 + renames (queue s1) = was_read s1 + n -> ok s + bad s + io s + renames (queue s) = was_read s + (n + swaps l2)).
  { clear. induction l2 as [|l l2 IH]; intros s1 s n Hf Hs H Hg Hsh Hi.
    - simpl in H. injection H as <-. cbn. lia.
    - cbn [Flags_Model.exec] in H. destruct (step s1 l) as [s2|] eqn:Es; [|discriminate].
      destruct (loads_step s1 l s2 n) as (J1 & J2 & J3); auto.
      { intros ->. apply Hf. left. reflexivity. } { intros c ->. apply (Hs c). left. reflexivity. }
      rewrite (IH s2 s (n + swaps [l])); auto.
      + unfold swaps. cbn. destruct (is_swap l); cbn; lia.
      + intros Hx. apply Hf. right. exact Hx. + intros c Hx. apply (Hs c). right. exact Hx. }
  specialize (L l2 _ s 0 Hf Hs H). cbn in L. rewrite G2, G3, G4, G5 in L. specialize (L ltac:(discriminate) G6 eq_refl).
  rewrite E3 in L. unfold was_read in L. rewrite E1 in L. cbn in L. unfold swaps in *. lia.
Qed.

(** * Shutdown *)
Definition sinv (s : st Config) : Prop := (shut s <> None -> stg s = Made) /\ (tsk s <> Waiting -> stg s = Made).
Lemma sinv_step : forall s l s', sinv s -> step s l = Some s' -> sinv s'.
Proof.
  intros s l s' [H1 H2] H. unfold sinv. destruct l; cbn [Flags_Model.step] in H; try (injection H as <-; cbn; auto; fail).
  - destruct (stg s) eqn:Eg; try discriminate. injection H as <-. cbn. split; intros Hx; exfalso; [apply H1 in Hx|apply H2 in Hx]; discriminate.
  - destruct (stg s) eqn:Eg; try discriminate. injection H as <-. destruct (loaded_fields s (queue s) (Loaded (load (disk s))) (tsk s)) as (F1 & F2 & F3 & F4 & F5 & F6 & F7 & F8).
    rewrite F3, F4, F6. split; intros Hx; exfalso; [apply H1 in Hx|apply H2 in Hx]; discriminate.
  - destruct (stg s) eqn:Eg; try discriminate. injection H as <-. cbn. auto.
  - destruct (stg s) eqn:Eg; try discriminate. destruct (tsk s) eqn:Et; try discriminate. destruct (queue s) as [|[] q] eqn:Eq.
    + destruct (shut s); [|discriminate]. injection H as <-. cbn. auto.
    + injection H as <-. destruct (loaded_fields s q Made (Sending (load (disk s)))) as (F1 & F2 & F3 & F4 & F5 & F6 & F7 & F8). rewrite F3. auto.
    + injection H as <-. cbn. auto.
    + injection H as <-. cbn. auto.
  - destruct (tsk s) eqn:Et; try discriminate. injection H as <-. cbn. split; auto; congruence.
  - destruct (stg s) eqn:Eg; try discriminate. destruct (shut s) eqn:Es; injection H as <-; cbn; auto.
  - destruct (shut s) eqn:Es; try discriminate. destruct (tsk s) eqn:Et; try discriminate. destruct (Nat.eqb c n); try discriminate. injection H as <-. cbn. auto.
Qed.
Lemma sinv_exec : forall ls s s', sinv s -> exec s ls = Some s' -> sinv s'.
Proof.
  induction ls as [|l ls IH]; intros s s' Hs H; cbn [Flags_Model.exec] in H; [congruence|]. destruct (step s l) eqn:E; [|discriminate]. eapply IH; [|exact H]. eapply sinv_step; eauto.
Qed.
Lemma ended_step : forall s l s', tsk s = Ended -> stg s = Made -> step s l = Some s' -> tsk s' = Ended /\ stg s' = Made /\ snapshot s' = snapshot s.
Proof.
  intros s l s' Ht Hg H. destruct l; cbn [Flags_Model.step] in H; rewrite ?Ht, ?Hg in H; try discriminate; try (injection H as <-; cbn; auto; fail).
  - destruct (shut s); injection H as <-; cbn; auto.
  - destruct (shut s); try discriminate. destruct (Nat.eqb c n); try discriminate. injection H as <-. cbn; auto.
Qed.
Lemma ended_exec : forall ls s s', tsk s = Ended -> stg s = Made -> exec s ls = Some s' -> snapshot s' = snapshot s /\ tsk s' = Ended.
Proof.
  induction ls as [|l ls IH]; intros s s' Ht Hg H; cbn [Flags_Model.exec] in H; [injection H as <-; auto|]. destruct (step s l) as [s1|] eqn:E; [|discriminate].
  destruct (ended_step _ _ _ Ht Hg E) as (E1 & E2 & E3). rewrite <- E3. eapply IH; eauto.
Qed.
Theorem final : forall f0 l1 c l2 s1 s, exec (init f0) (l1 ++ [LReturn c]) = Some s1 -> exec s1 l2 = Some s -> snapshot s = snapshot s1.
Proof.
  intros f0 l1 c l2 s1 s H H2. apply exec_snoc in H as (s0 & H0 & H1).
  assert (Hi : sinv s0) by (eapply sinv_exec; [|exact H0]; split; cbn; congruence).
  cbn [Flags_Model.step] in H1. destruct (shut s0) eqn:Es; try discriminate. destruct (tsk s0) eqn:Et; try discriminate. destruct (Nat.eqb c n); try discriminate. injection H1 as <-.
  eapply ended_exec in H2; [apply H2|reflexivity|]. cbn. apply Hi. congruence.
Qed.
Lemma drains : forall n s c, length (queue s) <= n -> stg s = Made -> tsk s = Waiting -> shut s = Some c ->
  exists ls s', exec s (ls ++ [LReturn c]) = Some s' /\ (forall l, In l ls -> l = LTake \/ l = LSend).
Proof.
  induction n; intros s c Hl Hg Ht Hs.
  - destruct (queue s) eqn:Eq; [|simpl in Hl; lia]. exists [LTake]. cbn [app Flags_Model.exec Flags_Model.step]. rewrite Hg, Ht, Eq, Hs. cbn. rewrite Nat.eqb_refl. eexists. split; [reflexivity|]. intros l [<-|[]]. auto.
  - destruct (queue s) as [|e q] eqn:Eq.
    { exists [LTake]. cbn [app Flags_Model.exec Flags_Model.step]. rewrite Hg, Ht, Eq, Hs. cbn. rewrite Nat.eqb_refl. eexists. split; [reflexivity|]. intros l [<-|[]]. auto. }
    destruct e.
    + assert (E1 : step s LTake = Some (loaded parse s q Made (Sending (load (disk s))))) by (simpl; rewrite Hg, Ht, Eq; reflexivity).
      destruct (loaded_fields s q Made (Sending (load (disk s)))) as (F1 & F2 & F3 & F4 & F5 & F6 & F7 & _).
      set (s1 := loaded parse s q Made (Sending (load (disk s)))) in *.
      set (s2 := mkSt (disk s1) (queue s1) (stg s1) Waiting (load (disk s)) (ok s1) (bad s1) (io s1) (shut s1) (returned s1)).
      assert (E2 : step s1 LSend = Some s2) by (simpl; rewrite F4; reflexivity).
      destruct (IHn s2 c) as (ls & s' & H1 & H4); cbn; rewrite ?F1, ?F2, ?F3, ?F6; auto.
      * simpl in Hl. lia.
      * exists (LTake :: LSend :: ls), s'. split; [cbn [app Flags_Model.exec]; rewrite E1, E2; exact H1|]. intros l [<-|[<-|Hi]]; auto.
    + set (s1 := mkSt (disk s) q Made Waiting (snapshot s) (ok s) (bad s) (io s) (shut s) (returned s)).
      assert (E1 : step s LTake = Some s1) by (simpl; rewrite Hg, Ht, Eq; reflexivity).
      destruct (IHn s1 c) as (ls & s' & H1 & H4); cbn; auto.
      * simpl in Hl. lia.
      * exists (LTake :: ls), s'. split; [cbn [app Flags_Model.exec]; rewrite E1; exact H1|]. intros l [<-|Hi]; auto.
    + exists [LTake]. cbn [app Flags_Model.exec Flags_Model.step]. rewrite Hg, Ht, Eq. cbn. rewrite Hs. rewrite Nat.eqb_refl. eexists. split; [reflexivity|]. intros l [<-|[]]. auto.
Qed.
Theorem shutdown_returns : forall f0 ls s c, exec (init f0) ls = Some s -> shut s = Some c ->
  exists ls' s', exec s (ls' ++ [LReturn c]) = Some s' /\ (forall l, In l ls' -> l = LTake \/ l = LSend).
Proof.
  intros f0 ls s c H Hs. assert (Hi : sinv s) by (eapply sinv_exec; [|exact H]; split; cbn; congruence). destruct Hi as [Hi _].
  assert (Hg : stg s = Made) by (apply Hi; congruence). destruct (tsk s) as [|cc|] eqn:Et.
  - eapply drains; eauto.
  - set (s2 := mkSt (disk s) (queue s) (stg s) Waiting cc (ok s) (bad s) (io s) (shut s) (returned s)).
    assert (E2 : step s LSend = Some s2) by (simpl; rewrite Et; reflexivity).
    destruct (drains (length (queue s)) s2 c) as (ls' & s' & H1 & H4); cbn; auto.
    exists (LSend :: ls'), s'. split; [cbn [app Flags_Model.exec]; rewrite E2; exact H1|]. intros l [<-|Hx]; auto.
  - exists []. cbn. rewrite Hs, Et, Nat.eqb_refl. eexists. split; [reflexivity|]. intros l [].
Qed.
(** The first to shut down is the one the loader has, and the others are told at once. *)
Theorem always_something : forall f0 ls s, (forall o, convert o <> None) -> exec (init f0) ls = Some s -> stg s = Made -> snapshot s <> None.
Proof.
  intros f0 ls s Hc H Hg.
  assert (I : (stg s = Made -> snapshot s <> None) /\ (forall c, stg s = Loaded c -> c <> None) /\ (forall c, tsk s = Sending c -> c <> None)); [|tauto].
  clear Hg. revert s H. induction ls as [|l ls IH] using rev_ind; intros s H.
  - simpl in H. injection H as <-. cbn. splits; congruence.
  - apply exec_snoc in H as (s0 & H0 & H1). destruct (IH _ H0) as (I1 & I2 & I3).
    destruct l; cbn [Flags_Model.step] in H1; try (injection H1 as <-; cbn; splits; auto; fail).
    + destruct (stg s0) eqn:Eg; try discriminate. injection H1 as <-. cbn. splits; auto; congruence.
    + destruct (stg s0) eqn:Eg; try discriminate. injection H1 as <-. destruct (loaded_fields s0 (queue s0) (Loaded (load (disk s0))) (tsk s0)) as (F1 & F2 & F3 & F4 & F5 & F6 & F7 & F8).
      rewrite F3, F4. split; [discriminate|]. split; auto. intros c [= <-]. apply Hc.
    + destruct (stg s0) eqn:Eg; try discriminate. injection H1 as <-. cbn. splits; auto; discriminate.
    + destruct (stg s0) eqn:Eg; try discriminate. destruct (tsk s0) eqn:Et; try discriminate. destruct (queue s0) as [|[] q] eqn:Eq.
      * destruct (shut s0); [|discriminate]. injection H1 as <-. cbn. splits; auto; discriminate.
      * injection H1 as <-. destruct (loaded_fields s0 q Made (Sending (load (disk s0)))) as (F1 & F2 & F3 & F4 & F5 & F6 & F7 & F8).
        rewrite F3, F4, F5. split; auto. split; [discriminate|]. intros c [= <-]. apply Hc.
      * injection H1 as <-. cbn. splits; auto; discriminate.
      * injection H1 as <-. cbn. splits; auto; discriminate.
    + destruct (tsk s0) eqn:Et; try discriminate. injection H1 as <-. cbn. splits; auto; discriminate.
    + destruct (stg s0) eqn:Eg; try discriminate. destruct (shut s0); injection H1 as <-; cbn; splits; auto; discriminate.
    + destruct (shut s0); try discriminate. destruct (tsk s0) eqn:Et; try discriminate. destruct (Nat.eqb c n); try discriminate. injection H1 as <-. cbn. splits; auto; discriminate.
Qed.

(** Kinds of loads. *)
Lemma contents_snoc : forall f ls l, contents f (ls ++ [l]) = contents f ls ++ match l with LSwap g | LWrite g => [g] | _ => [] end.
Proof. intros f ls l. unfold contents. rewrite flat_map_app. cbn [flat_map app]. rewrite app_nil_r. reflexivity. Qed.
Lemma kinds_inv : forall f0 ls s, exec (init f0) ls = Some s -> In (disk s) (contents f0 ls) /\
  (ok s <> 0 -> exists t r, In (Some t) (contents f0 ls) /\ parse t = Some r) /\ (bad s <> 0 -> exists t, In (Some t) (contents f0 ls) /\ parse t = None) /\
  (io s <> 0 -> In None (contents f0 ls)).
Proof.
  intros f0 ls. induction ls as [|l ls IH] using rev_ind; intros s' H.
  - cbn in H. inv H. cbn. splits; auto; congruence.
  - apply exec_snoc in H as (s & H & E). destruct (IH _ H) as (D & K1 & K2 & K3). rewrite contents_snoc.
    assert (M : forall x, In x (contents f0 ls) -> forall y, In x (contents f0 ls ++ y)) by (intros; apply in_or_app; auto).
    assert (P1 : ok s <> 0 -> forall y, exists t r, In (Some t) (contents f0 ls ++ y) /\ parse t = Some r) by (intros X y; destruct (K1 X) as (t & r & Y & Z); eauto 6).
    assert (P2 : bad s <> 0 -> forall y, exists t, In (Some t) (contents f0 ls ++ y) /\ parse t = None) by (intros X y; destruct (K2 X) as (t & Y & Z); eauto 6).
    assert (G : forall q g t, let s1 := loaded parse s q g t in In (disk s1) (contents f0 ls) /\ (ok s1 <> 0 -> exists t r, In (Some t) (contents f0 ls) /\ parse t = Some r) /\
      (bad s1 <> 0 -> exists t, In (Some t) (contents f0 ls) /\ parse t = None) /\ (io s1 <> 0 -> In None (contents f0 ls))).
    { intros q g t. cbn zeta. unfold loaded. destruct (disk s) as [x|] eqn:Ed; [destruct (parse x) as [r|] eqn:Ep|]; cbn [disk ok bad io]; repeat match goal with |- _ /\ _ => split end; auto; intros _; eauto. }
    destruct l; cbn [step] in E; repeat dmatch_in E; inv E; rewrite ?app_nil_r; try apply G; cbn [disk ok bad io];
      repeat match goal with |- _ /\ _ => split end; auto; apply in_or_app; right; left; reflexivity.
Qed.
End Loader.
