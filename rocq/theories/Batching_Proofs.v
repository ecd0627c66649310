From Verif Require Import Base Batching_Model Batching_Spec.
Local Open Scope N_scope.

Lemma reads_app a b : reads (a ++ b) = reads a ++ reads b.
Proof. induction a as [|[] a IH]; cbn; rewrite ?IH; reflexivity. Qed.
Lemma uploads_app a b : uploads (a ++ b) = uploads a ++ uploads b.
Proof. induction a as [|[] a IH]; cbn; rewrite ?IH; reflexivity. Qed.
Lemma releases_app a b : releases (a ++ b) = releases a ++ releases b.
Proof. induction a as [|[] a IH]; cbn; rewrite ?IH; reflexivity. Qed.
Lemma bytes_app a b : bytes (a ++ b) = bytes a + bytes b.
Proof. unfold bytes. induction a as [|x a IH]; cbn; [|rewrite IH]; lia. Qed.

Lemma run_app u a b : run u (a ++ b) = match run u a with Some (u', o) => match run u' b with Some (u'', o') => Some (u'', o ++ o') | None => None end | None => None end.
Proof.
  revert u. induction a as [|e a IH]; intros u; cbn.
  - destruct (run u b) as [ [u' o]|]; reflexivity.
  - destruct (step u e) as [ [u1 o1]|]; [|reflexivity]. rewrite IH. destruct (run u1 a) as [ [u2 o2]|]; [|reflexivity].
    destruct (run u2 b) as [ [u3 o3]|]; [|reflexivity]. rewrite app_assoc. reflexivity.
Qed.

Lemma not_reached b l r rs : logs b = rs ++ [r] -> total_bytes b = bytes (logs b) -> limit_reached b l = false -> below (rs ++ [r]) l.
Proof.
  unfold limit_reached, below. intros E T H. rewrite E in *.
  assert (R : (max_bytes l <=? total_bytes b) || (max_logs l <=? N.of_nat (length (rs ++ [r]))) = false) by (destruct rs; exact H).
  apply orb_false_iff in R as [A B]. apply N.leb_gt in A, B. rewrite T in A. auto.
Qed.

(** [cur]: the logs of the batch being built with the limits at the time they were read. *)
Definition open_batch (cur : list (record * limits)) : Prop := forall b1 r l b2, cur = b1 ++ (r, l) :: b2 -> below (map fst b1 ++ [r]) l.
Record inv (u : uploader) (o : list obs) (bs : list (list (record * limits))) (cur : list (record * limits)) : Prop := {
  i_reads : reads o = concat bs ++ cur;
  i_ups : map (map fst) bs = uploads o;
  i_grow : Forall grows bs;
  i_ne : Forall (fun b => b <> []) bs;
  i_cur : logs (u_builder u) = map fst cur;
  i_tot : total_bytes (u_builder u) = bytes (logs (u_builder u));
  i_open : open_batch cur;
  i_dead : u_deadline u = true -> cur <> [];
  i_cursor : releases o ++ firstn (u_cursor u) (u_buf u) = map fst (reads o);
  i_le : (u_cursor u <= length (u_buf u))%nat
}.
Lemma open_grows cur : open_batch cur -> grows cur.
Proof. intros H b1 r l b2 E _. eapply H. exact E. Qed.
Lemma grows_snoc cur x : open_batch cur -> grows (cur ++ [x]).
Proof.
  intros H b1 r l b2 E N2. destruct (exists_last N2) as (b3 & y & ->).
  change (cur ++ [x] = b1 ++ ((r, l) :: b3) ++ [y]) in E. rewrite app_assoc in E. apply app_inj_tail in E as [E _]. eapply H. exact E.
Qed.
Lemma open_snoc cur r l : open_batch cur -> below (map fst cur ++ [r]) l -> open_batch (cur ++ [(r, l)]).
Proof.
  intros H B b1 r' l' b2 E. destruct b2 as [|z b2'] eqn:Eb.
  - apply app_inj_tail in E as [-> E]. inv E. exact B.
  - assert (N2 : b2 <> []) by congruence. rewrite <- Eb in E. clear Eb. destruct (exists_last N2) as (b3 & y & ->).
    change (cur ++ [(r, l)] = b1 ++ ((r', l') :: b3) ++ [y]) in E. rewrite app_assoc in E. apply app_inj_tail in E as [E _]. eapply H. exact E.
Qed.
Lemma firstn_snoc {A} (l : list A) : forall n x, nth_error l n = Some x -> firstn (S n) l = firstn n l ++ [x].
Proof. induction l as [|y l IH]; intros [|n] x; cbn; try discriminate; intros E; [inv E; reflexivity|]. f_equal. apply IH. exact E. Qed.

Lemma inv_new buf : inv (uploader_new buf) [] [] [].
Proof. constructor; cbn; auto; try discriminate; try lia. intros [|z1 z2] z3 z4 z5 z6; discriminate. Qed.
Lemma inv_flush u o bs cur : grows cur -> cur <> [] ->
  reads o = concat bs ++ cur -> map (map fst) bs = uploads o -> Forall grows bs -> Forall (fun b => b <> []) bs -> logs (u_builder u) = map fst cur ->
  releases o ++ firstn (u_cursor u) (u_buf u) = map fst (reads o) -> (u_cursor u <= length (u_buf u))%nat ->
  forall u' o', flush_start u = (u', o') -> inv u' (o ++ o') (bs ++ [cur]) [].
Proof.
  intros G N A B C D E F L u' o' St. unfold flush_start in St. cbn in St. inv St. constructor; cbn.
  - rewrite reads_app. cbn. rewrite concat_app. cbn. rewrite !app_nil_r. exact A.
  - rewrite uploads_app, map_app. cbn. congruence.
  - apply Forall_app. auto.
  - apply Forall_app. auto.
  - reflexivity.
  - reflexivity.
  - intros [|z1 z2] z3 z4 z5 z6; discriminate.
  - discriminate.
  - rewrite releases_app, reads_app. cbn. rewrite !app_nil_r. exact F.
  - exact L.
Qed.
Lemma arm_logs u : u_builder (arm u) = u_builder u /\ u_buf (arm u) = u_buf u /\ u_cursor (arm u) = u_cursor u /\ u_phase (arm u) = u_phase u /\ u_shutdown (arm u) = u_shutdown u /\
  (u_deadline (arm u) = true -> logs (u_builder u) <> [] \/ u_deadline u = true).
Proof. unfold arm. destruct (logs (u_builder u)) eqn:E; splits; auto. left. discriminate. Qed.
Lemma release_inv n : forall u o bs cur u' o', inv u o bs cur -> release n u = (u', o') -> inv u' (o ++ o') bs cur.
Proof.
  induction n as [|n IH]; intros u o bs cur u' o' I; cbn.
  - intros E. inv E. rewrite app_nil_r. destruct I. constructor; auto.
  - destruct (u_buf u) as [|r buf] eqn:Eb; [intros E; inv E; rewrite app_nil_r; destruct I; rewrite Eb in *; constructor; cbn; auto|].
    destruct (u_cursor u) as [|c] eqn:Ec; [intros E; inv E; rewrite app_nil_r; destruct I; rewrite Eb, Ec in *; constructor; cbn; auto|].
    destruct release as [u1 o1] eqn:Er. intros E. inv E.
    change (o ++ ORelease r :: o1)%list with (o ++ [ORelease r] ++ o1)%list. rewrite app_assoc. eapply IH; [|exact Er].
    destruct I. constructor; cbn; auto.
    + rewrite reads_app. cbn. rewrite app_nil_r. auto.
    + rewrite uploads_app. cbn. rewrite app_nil_r. auto.
    + rewrite releases_app, reads_app. cbn. rewrite app_nil_r, <- app_assoc. rewrite Eb, Ec in i_cursor0. exact i_cursor0.
    + rewrite Eb, Ec in i_le0. cbn in i_le0. lia.
Qed.
Lemma inv_silent u o bs cur x : inv u o bs cur -> match x with ODone _ | OAbandoned => True | _ => False end -> inv u (o ++ [x]) bs cur.
Proof.
  intros I H. destruct x; try contradiction; destruct I; constructor; auto; rewrite ?reads_app, ?uploads_app, ?releases_app; cbn; rewrite ?app_nil_r; auto.
Qed.
Lemma inv_step u e o bs cur u' o' : inv u o bs cur -> step u e = Some (u', o') -> exists bs' cur', inv u' (o ++ o') bs' cur'.
Proof.
  intros I St. destruct e as [r|l| |l|a| |]; cbn in St.
  - inv St. exists bs, cur. rewrite app_nil_r. destruct I. constructor; auto; cbn.
    + rewrite firstn_app. replace (u_cursor u - length (u_buf u))%nat with O by lia. rewrite firstn_O, app_nil_r. exact i_cursor0.
    + rewrite app_length. lia.
  - destruct (u_phase u); try discriminate. destruct (nth_error (u_buf u) (u_cursor u)) as [r|] eqn:En; [|discriminate].
    assert (Lt : (u_cursor u < length (u_buf u))%nat) by (apply nth_error_Some; congruence).
    unfold after_select in St.
    set (u1 := mkUploader (u_buf u) (S (u_cursor u)) (add_log (u_builder u) r) (u_deadline u) (u_shutdown u) Idle) in *.
    assert (L1 : logs (u_builder u1) = map fst (cur ++ [(r, l)])) by (destruct I; cbn; rewrite map_app, i_cur0; reflexivity).
    assert (T1 : total_bytes (u_builder u1) = bytes (logs (u_builder u1))).
    { destruct I. cbn. rewrite bytes_app, i_tot0. cbn. lia. }
    assert (R1 : reads (o ++ [ORead r l]) = concat bs ++ cur ++ [(r, l)]) by (destruct I; rewrite reads_app, i_reads0; cbn; rewrite app_assoc; reflexivity).
    assert (P1 : map (map fst) bs = uploads (o ++ [ORead r l])) by (destruct I; rewrite uploads_app; cbn; rewrite app_nil_r; assumption).
    assert (C1 : releases (o ++ [ORead r l]) ++ firstn (S (u_cursor u)) (u_buf u) = map fst (reads (o ++ [ORead r l]))).
    { destruct I. rewrite (firstn_snoc _ _ _ En), releases_app, reads_app, map_app, <- i_cursor0. cbn. rewrite app_nil_r, app_assoc. reflexivity. }
    destruct (limit_reached (u_builder u1) l) eqn:Lr.
    + destruct (flush_start u1) as [u2 o2] eqn:Ef. inv St. exists (bs ++ [cur ++ [(r, l)] ])%list, [].
      change (o ++ ORead r l :: o2)%list with (o ++ [ORead r l] ++ o2)%list. rewrite app_assoc.
      destruct I. eapply inv_flush; [apply grows_snoc; assumption|destruct cur; discriminate|exact R1|exact P1|assumption|assumption|exact L1|exact C1|cbn; lia|exact Ef].
    + inv St. exists bs, (cur ++ [(r, l)])%list. destruct (arm_logs u1) as (A1 & A2 & A3 & A4 & A5 & A6). destruct I. constructor; auto; rewrite ?A1, ?A2, ?A3; auto.
      * apply open_snoc; [assumption|]. apply (not_reached (u_builder u1)); auto. rewrite L1, map_app. reflexivity.
      * intros _. destruct cur; discriminate.
  - destruct (u_phase u); try discriminate. destruct (u_deadline u) eqn:Ed; [|discriminate]. destruct (flush_start u) as [u2 o2] eqn:Ef. inv St.
    exists (bs ++ [cur])%list, []. destruct I. eapply (inv_flush u); [apply open_grows; assumption|auto|first [assumption|reflexivity].. ].
  - destruct (u_phase u); try discriminate. unfold after_select in St. destruct (limit_reached (u_builder u) l) eqn:Lr.
    + destruct (flush_start u) as [u2 o2] eqn:Ef. inv St. exists (bs ++ [cur])%list, []. destruct I.
      eapply (inv_flush u); [apply open_grows; assumption| |first [assumption|reflexivity].. ].
      intros ->. unfold limit_reached in Lr. rewrite i_cur0 in Lr. discriminate.
    + inv St. exists bs, cur. rewrite app_nil_r. destruct (arm_logs u) as (A1 & A2 & A3 & A4 & A5 & A6). destruct I. constructor; auto; rewrite ?A1, ?A2, ?A3; auto.
      intros H. apply A6 in H as [H|H]; [|auto]. rewrite i_cur0 in H. intros ->. apply H. reflexivity.
  - destruct (u_phase u) as [|n|]; try discriminate. destruct (release n u) as [u1 o1] eqn:Er. inv St. exists bs, cur.
    change (o ++ ODone a :: o1)%list with (o ++ [ODone a] ++ o1)%list. rewrite app_assoc. eapply release_inv; [|exact Er]. apply inv_silent; cbn; auto.
  - inv St. exists bs, cur. rewrite app_nil_r. destruct I. constructor; auto.
  - destruct (u_shutdown u); [|discriminate]. destruct (u_phase u); inv St.
    + exists bs, cur. rewrite app_nil_r. destruct I. constructor; auto.
    + exists bs, cur. apply inv_silent; [|exact Logic.I]. destruct I. constructor; auto.
Qed.
Lemma inv_run es : forall u o bs cur u' o', inv u o bs cur -> run u es = Some (u', o') -> exists bs' cur', inv u' (o ++ o') bs' cur'.
Proof.
  induction es as [|e es IH]; intros u o bs cur u' o' I R; cbn in R.
  - inv R. exists bs, cur. rewrite app_nil_r. exact I.
  - destruct (step u e) as [ [u1 o1]|] eqn:St; [|discriminate]. destruct (run u1 es) as [ [u2 o2]|] eqn:Er; inv R.
    destruct (inv_step _ _ _ _ _ _ _ I St) as (bs1 & cur1 & I1). rewrite app_assoc. eapply IH; eauto.
Qed.

Lemma continuous_batches buf es u o : run (uploader_new buf) es = Some (u, o) -> exists bs cur,
  reads o = concat bs ++ cur /\ uploads o = map (map fst) bs /\ Forall (fun b => b <> [] /\ grows b) bs.
Proof.
  intros R. destruct (inv_run _ _ _ _ _ _ _ (inv_new buf) R) as (bs & cur & I). cbn in I. destruct I. exists bs, cur. splits; auto.
  rewrite Forall_forall in *. auto.
Qed.
Lemma constant_limits buf es u o L : run (uploader_new buf) es = Some (u, o) -> Forall (fun x => snd x = L) (reads o) ->
  Forall (fun b => exists b' x, b = b' ++ [x] /\ (b' = [] \/ below b' L)) (uploads o).
Proof.
  intros R C. destruct (continuous_batches _ _ _ _ R) as (bs & cur & A & B & F). rewrite B. rewrite Forall_forall in *. intros b Hb.
  apply in_map_iff in Hb as (g & <- & Hg). destruct (F _ Hg) as [N G]. destruct (exists_last N) as (g' & y & Eg).
  exists (map fst g'), (fst y). split; [rewrite Eg, map_app; reflexivity|].
  destruct g' as [|z g''] eqn:E'; [left; reflexivity|right]. assert (N' : g' <> []) by congruence. rewrite <- E' in *. clear E'.
  destruct (exists_last N') as (h & [r l] & Eh). rewrite Eh, map_app. cbn. rewrite Eh in Eg.
  replace L with l; [apply (G h r l [y]); [rewrite Eg, <- app_assoc; reflexivity|discriminate]|].
  specialize (C (r, l)). cbn in C. apply C. rewrite A. apply in_or_app. left. apply in_concat. exists g. split; [exact Hg|].
  rewrite Eg. apply in_or_app. left. apply in_or_app. right. left. reflexivity.
Qed.

(** Release. *)
Lemma release_conserves n : forall u u' o, release n u = (u', o) -> u_buf u = releases o ++ u_buf u' /\ u_builder u' = u_builder u.
Proof.
  induction n as [|n IH]; intros u u' o; cbn; [intros E; inv E; auto|].
  destruct (u_buf u) as [|r buf] eqn:Eb; [intros E; inv E; cbn; auto|]. destruct (u_cursor u); [intros E; inv E; cbn; auto|].
  destruct release as [u1 o1] eqn:Er. intros E. inv E. apply IH in Er as [A B]. cbn in *. rewrite A. auto.
Qed.
Lemma written_app a b : written (a ++ b) = written a ++ written b.
Proof. unfold written. rewrite map_app, concat_app. reflexivity. Qed.
Lemma kept es : forall u u' o, run u es = Some (u', o) -> u_buf u ++ written es = releases o ++ u_buf u'.
Proof.
  induction es as [|e es IH]; intros u u' o; cbn [run].
  - intros E. inv E. cbn. rewrite app_nil_r. reflexivity.
  - destruct (step u e) as [ [u1 o1]|] eqn:St; [|discriminate]. destruct (run u1 es) as [ [u2 o2]|] eqn:Er; [|discriminate]. intros E. inv E.
    apply IH in Er. rewrite releases_app. change (e :: es) with ([e] ++ es). rewrite written_app.
    assert (S1 : u_buf u ++ written [e] = releases o1 ++ u_buf u1).
    { destruct e as [r|l| |l|a| |]; cbn in St |- *; rewrite ?app_nil_r.
      - inv St. reflexivity.
      - destruct (u_phase u); try discriminate. destruct nth_error; [|discriminate]. unfold after_select in St. cbn in St. destruct limit_reached; cbn in St; inv St; cbn; [reflexivity|].
        match goal with |- _ = u_buf (arm ?x) => destruct (arm_logs x) as (_ & -> & _) end. reflexivity.
      - destruct (u_phase u); try discriminate. destruct (u_deadline u); [|discriminate]. cbn in St. inv St. reflexivity.
      - destruct (u_phase u); try discriminate. unfold after_select in St. destruct limit_reached; cbn in St; inv St; cbn; [reflexivity|].
        destruct (arm_logs u) as (_ & -> & _). reflexivity.
      - destruct (u_phase u); try discriminate. destruct (release n u) as [u3 o3] eqn:Er'. inv St. cbn. apply release_conserves in Er' as [Er' _]. exact Er'.
      - inv St. reflexivity.
      - destruct (u_shutdown u); [|discriminate]. destruct (u_phase u); inv St; reflexivity. }
    rewrite app_assoc, S1, <- !app_assoc. f_equal. exact Er.
Qed.

Fixpoint under_way (p : option (list record)) (o : list obs) : option (list record) :=
  match o with
  | [] => p
  | OUpload b :: o' => under_way (Some b) o'
  | ODone _ :: o' => under_way None o'
  | OAbandoned :: o' => under_way None o'
  | _ :: o' => under_way p o'
  end.
Lemma completed_app p a b : completed p (a ++ b) = completed p a ++ completed (under_way p a) b.
Proof. revert p. induction a as [|[] a IH]; intros p; cbn; rewrite ?IH; try reflexivity. destruct p; cbn; rewrite ?IH; reflexivity. Qed.
Lemma under_way_app p a b : under_way p (a ++ b) = under_way (under_way p a) b.
Proof. revert p. induction a as [|[] a IH]; intros p; cbn; rewrite ?IH; reflexivity. Qed.

Definition rel (u : uploader) (o : list obs) : Prop :=
  match u_phase u with
  | Idle | Stopped => under_way None o = None /\ (u_cursor u = length (logs (u_builder u)) \/ u_phase u = Stopped)
  | Uploading n => exists b, under_way None o = Some b /\ n = length b /\ u_cursor u = length b /\ logs (u_builder u) = [] /\ firstn (u_cursor u) (u_buf u) = b
  end /\ releases o = concat (completed None o) /\ (u_phase u = Idle -> firstn (u_cursor u) (u_buf u) = logs (u_builder u)) /\ (u_cursor u <= length (u_buf u))%nat.

Lemma release_all n : forall u b, firstn n (u_buf u) = b -> length b = n -> u_cursor u = n ->
  release n u = (mkUploader (skipn n (u_buf u)) 0 (u_builder u) (u_deadline u) (u_shutdown u) Idle, map ORelease b).
Proof.
  induction n as [|n IH]; intros u b F L C; cbn.
  - destruct b; [|discriminate]. rewrite C. reflexivity.
  - destruct (u_buf u) as [|r buf] eqn:Eb; cbn in F; [subst b; discriminate|]. rewrite C. subst b. cbn in L.
    erewrite IH; cbn; [reflexivity|reflexivity|lia|reflexivity].
Qed.
Lemma releases_map b : releases (map ORelease b) = b.
Proof. induction b; cbn; congruence. Qed.
Lemma completed_map p b : completed p (map ORelease b) = [] /\ under_way p (map ORelease b) = p.
Proof. induction b; cbn; auto. Qed.

Lemma rel_step u e o u' o' : rel u o -> step u e = Some (u', o') -> ~ In OAbandoned o' -> rel u' (o ++ o').
Proof.
  intros (P & Q & K & Le) St NA. destruct e as [r|l| |l|a| |]; cbn in St.
  - inv St. rewrite app_nil_r. unfold rel. cbn. rewrite firstn_app. replace (u_cursor u - length (u_buf u))%nat with O by lia. rewrite firstn_O, app_nil_r, app_length. splits; auto; lia.
  - destruct (u_phase u) eqn:Ep; try discriminate. destruct (nth_error (u_buf u) (u_cursor u)) as [r|] eqn:En; [|discriminate].
    assert (Lt : (u_cursor u < length (u_buf u))%nat) by (apply nth_error_Some; congruence). destruct P as [P1 [P2|P2] ]; [|discriminate]. specialize (K eq_refl).
    unfold after_select in St.
    set (u1 := mkUploader (u_buf u) (S (u_cursor u)) (add_log (u_builder u) r) (u_deadline u) (u_shutdown u) Idle) in *.
    assert (K1 : firstn (S (u_cursor u)) (u_buf u) = logs (u_builder u1)) by (rewrite (firstn_snoc _ _ _ En), K; reflexivity).
    assert (K2 : S (u_cursor u) = length (logs (u_builder u1))) by (cbn; rewrite app_length; cbn; lia).
    destruct (limit_reached (u_builder u1) l).
    + cbn in St. inv St. unfold rel. cbn [u_phase u_cursor u_buf u_builder logs]. splits.
      * eexists. splits; [rewrite under_way_app, P1; reflexivity|reflexivity|exact K2|reflexivity|exact K1].
      * rewrite releases_app, completed_app, P1. cbn. rewrite !app_nil_r. exact Q.
      * discriminate.
      * lia.
    + inv St. destruct (arm_logs u1) as (A1 & A2 & A3 & A4 & A5 & A6). unfold rel. rewrite A1, A2, A3, A4. cbn [u1 u_phase u_cursor u_buf]. splits.
      * rewrite under_way_app, P1. reflexivity.
      * left. exact K2.
      * rewrite releases_app, completed_app. cbn. rewrite !app_nil_r. exact Q.
      * intros _. exact K1.
      * lia.
  - destruct (u_phase u) eqn:Ep; try discriminate. destruct (u_deadline u); [|discriminate]. cbn in St. inv St. destruct P as [P1 [P2|P2] ]; [|discriminate]. specialize (K eq_refl).
    unfold rel. cbn [u_phase u_cursor u_buf u_builder logs]. splits.
    + eexists. splits; [rewrite under_way_app, P1; reflexivity|reflexivity|exact P2|reflexivity|exact K].
    + rewrite releases_app, completed_app, P1. cbn. rewrite !app_nil_r. exact Q.
    + discriminate.
    + lia.
  - destruct (u_phase u) eqn:Ep; try discriminate. destruct P as [P1 [P2|P2] ]; [|discriminate]. specialize (K eq_refl). unfold after_select in St. destruct limit_reached.
    + cbn in St. inv St. unfold rel. cbn [u_phase u_cursor u_buf u_builder logs]. splits.
      * eexists. splits; [rewrite under_way_app, P1; reflexivity|reflexivity|exact P2|reflexivity|exact K].
      * rewrite releases_app, completed_app, P1. cbn. rewrite !app_nil_r. exact Q.
      * discriminate.
      * lia.
    + inv St. destruct (arm_logs u) as (A1 & A2 & A3 & A4 & A5 & A6). unfold rel. rewrite A1, A2, A3, A4, Ep, app_nil_r. splits; auto.
  - destruct (u_phase u) as [|n|] eqn:Ep; try discriminate. destruct P as (b & P1 & -> & P3 & P4 & P5).
    rewrite (release_all (length b) u b) in St; [|rewrite <- P3; exact P5|reflexivity|exact P3]. injection St as <- <-.
    unfold rel. cbn [u_phase u_cursor u_buf u_builder]. splits.
    + rewrite under_way_app, P1. cbn. apply completed_map.
    + left. rewrite P4. reflexivity.
    + rewrite releases_app, completed_app, P1. cbn. rewrite releases_map. rewrite (proj1 (completed_map None b)), concat_app, Q. cbn. rewrite app_nil_r. reflexivity.
    + intros _. rewrite P4. reflexivity.
    + lia.
  - inv St. rewrite app_nil_r. unfold rel. cbn. splits; auto.
  - destruct (u_shutdown u); [|discriminate]. destruct (u_phase u) eqn:Ep; inv St.
    + rewrite app_nil_r. unfold rel. cbn. destruct P as [P1 P2]. splits; auto; discriminate.
    + exfalso. apply NA. left. reflexivity.
Qed.
Lemma rel_run es : forall u o u' o', rel u o -> run u es = Some (u', o') -> ~ In OAbandoned o' -> rel u' (o ++ o').
Proof.
  induction es as [|e es IH]; intros u o u' o' I R NA; cbn in R.
  - inv R. rewrite app_nil_r. exact I.
  - destruct (step u e) as [ [u1 o1]|] eqn:St; [|discriminate]. destruct (run u1 es) as [ [u2 o2]|] eqn:Er; inv R.
    rewrite app_assoc. eapply IH; [|exact Er|intros H; apply NA; apply in_or_app; auto]. eapply rel_step; eauto. intros H; apply NA; apply in_or_app; auto.
Qed.
Lemma released_completed buf es u o : run (uploader_new buf) es = Some (u, o) -> ~ In OAbandoned o -> releases o = concat (completed None o).
Proof.
  intros R NA. assert (I : rel (uploader_new buf) []) by (unfold rel; cbn; splits; auto; lia).
  pose proof (rel_run _ _ _ _ _ I R NA) as (_ & Q & _). exact Q.
Qed.
Lemma stopped es : forall u, u_phase u = Stopped -> forall u' o, run u es = Some (u', o) -> o = [].
Proof.
  induction es as [|e es IH]; intros u S u' o; cbn; [intros E; inv E; reflexivity|].
  destruct (step u e) as [ [u1 o1]|] eqn:St; [|discriminate]. destruct (run u1 es) as [ [u2 o2]|] eqn:Er; [|discriminate]. intros E. inv E.
  destruct e; cbn in St; rewrite S in St; try discriminate.
  - inv St. cbn. eapply IH; [|exact Er]. reflexivity.
  - inv St. cbn. eapply IH; [|exact Er]. reflexivity.
  - destruct (u_shutdown u); discriminate.
Qed.

(** Trigger uploads. *)
Lemma trigger_ok rs : forall b total d batches d' n, total_bytes b = bytes (logs b) -> trigger_run b total d rs = (batches, d', Uploaded n) ->
  concat batches = logs b ++ recent rs /\ n = total + N.of_nat (length (recent rs)) /\ Forall (fun x => x <> []) batches.
Proof.
  induction rs as [|[ [r [|]| |] l] rs IH]; intros b total d batches d' n T; cbn [trigger_run recent].
  - discriminate.
  - apply IH. exact T.
  - assert (T1 : total_bytes (add_log b r) = bytes (logs (add_log b r))) by (cbn; rewrite bytes_app, T; cbn; lia).
    destruct (limit_reached (add_log b r) l).
    + cbn [take]. destruct (trigger_run (mkBuilder 0 []) (total + 1) d rs) as [ [bs d1] e] eqn:E. intros X. inv X. apply IH in E as (A & B & C); [|reflexivity]. splits.
      * cbn [concat]. rewrite A. cbn. rewrite <- app_assoc. reflexivity.
      * cbn [length]. lia.
      * constructor; [|exact C]. cbn. destruct (logs b); discriminate.
    + intros X. apply IH in X as (A & B & C); [|exact T1]. splits; [|cbn [length]; lia|exact C]. rewrite A. cbn. rewrite <- app_assoc. reflexivity.
  - intros X. inv X. cbn. splits; [|lia|].
    + destruct (logs b) eqn:E; cbn; rewrite ?E, ?app_nil_r; reflexivity.
    + destruct (logs b) eqn:E; constructor; auto; discriminate.
  - discriminate.
Qed.
Lemma trigger_dropped rs : forall b total d batches d' e, trigger_run b total d rs = (batches, d', e) -> d' = d + outside rs.
Proof.
  induction rs as [|[ [r [|]| |] l] rs IH]; intros b total d batches d' e; cbn [trigger_run outside].
  - intros X. inv X. lia.
  - intros X. apply IH in X. lia.
  - destruct (limit_reached (add_log b r) l).
    + cbn [take]. destruct (trigger_run (mkBuilder 0 []) (total + 1) d rs) as [ [bs d1] e1] eqn:E. intros X. inv X. exact (IH _ _ _ _ _ _ E).
    + apply IH.
  - intros X. inv X. lia.
  - intros X. inv X. lia.
Qed.
Lemma trigger_limits rs L : Forall (fun x => snd x = L) rs -> forall b total d batches d' e, total_bytes b = bytes (logs b) -> logs b = [] \/ below (logs b) L ->
  trigger_run b total d rs = (batches, d', e) -> Forall (fun b => exists b' x, b = b' ++ [x] /\ (b' = [] \/ below b' L)) batches.
Proof.
  intros F. induction rs as [|[ [r [|]| |] l] rs IH]; intros b total d batches d' e T B; cbn [trigger_run]; try apply Forall_cons_iff in F as [F1 F2]; cbn in *.
  - intros X. inv X. constructor.
  - intros X. eapply IH; eauto.
  - assert (T1 : total_bytes (add_log b r) = bytes (logs (add_log b r))) by (cbn; rewrite bytes_app, T; cbn; lia).
    destruct (limit_reached (add_log b r) l) eqn:Lr.
    + destruct (trigger_run (mkBuilder 0 []) (total + 1) d rs) as [ [bs d1] e1] eqn:E. intros X. inv X. constructor; [exists (logs b), r; split; [reflexivity|exact B]|].
      eapply IH; [exact F2| | |exact E]; cbn; auto.
    + intros X. eapply IH; [exact F2|exact T1| |exact X]. right. cbn. apply (not_reached (add_log b r)); auto. congruence.
  - intros X. inv X. destruct (logs b) as [|x xs] eqn:El; [constructor|]. constructor; [|constructor].
    assert (N : x :: xs <> []) by discriminate. destruct (exists_last N) as (b' & y & E). exists b', y. split; [exact E|].
    destruct B as [B|B]; [discriminate|right]. rewrite E in B. unfold below in *. rewrite bytes_app, app_length in B. cbn in B. lia.
  - intros X. inv X. constructor.
Qed.
