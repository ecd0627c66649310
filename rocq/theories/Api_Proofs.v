From Verif Require Import Base Api_Model Api_Spec.

(** * C21: the tracker *)

(** The trace of a run is a sequence of blocks. *)
Inductive block : tracker -> list item -> tracker -> bool -> Prop :=
| b_stream : block tracker_new [TStream] tracker_new false
| b_stream_err : block tracker_new [TStream; TError; TEnd] tracker_new true
| b_quit t : block t [] t true
| b_reject t n d w : block t [TReject n d w] t false
| b_track t k u w : block t (TTrack k u w :: snd (track t k u w)) (fst (track t k u w)) false
| b_resp t k u a t' o : resolve t k u a = Some (t', o) -> block t (TResponse k u a :: o) t' false
| b_unknown t k u a : resolve t k u a = None ->
    block t (TResponse k u a :: TError :: drop_tracker t ++ [TEnd]) tracker_new true
| b_end t d : block t (drop_tracker t ++ [TEnd]) tracker_new d
| b_err t : block t (TError :: drop_tracker t ++ [TEnd]) tracker_new true.

Inductive blocks : tracker -> list item -> tracker -> bool -> Prop :=
| bs_nil t : blocks t [] t false
| bs_cons t o t1 o' t2 d : block t o t1 false -> blocks t1 o' t2 d -> blocks t (o ++ o') t2 d
| bs_last t o t1 : block t o t1 true -> blocks t o t1 true.

Lemma blocks_app : forall t o t1 o' t2 d,
  blocks t o t1 false -> blocks t1 o' t2 d -> blocks t (o ++ o') t2 d.
Proof.
  intros t o t1 o' t2 d H. remember false as f eqn:F. revert o' t2 d.
  induction H; intros o2 tt dd B; subst; try discriminate.
  - exact B.
  - rewrite <- app_assoc. eapply bs_cons; eauto.
Qed.

Lemma bs_one : forall t o t1 d, block t o t1 d -> blocks t o t1 d.
Proof.
  intros t o t1 [] B.
  - apply bs_last; exact B.
  - rewrite <- (app_nil_r o). eapply bs_cons; [exact B|apply bs_nil].
Qed.

Lemma responses_blocks : forall rs t o ok t',
  handle_responses t rs = (o, ok, t') ->
  if ok then blocks t o t' false
  else blocks t (o ++ TError :: drop_tracker t' ++ [TEnd]) tracker_new true.
Proof.
  induction rs as [|r rs IH]; intros t o ok t' H.
  - cbn in H. inv H. apply bs_nil.
  - cbn [handle_responses] in H.
    destruct (handle_response t r) as [o1 [t1|]] eqn:E.
    + destruct (handle_responses t1 rs) as [[o2 ok2] t2] eqn:E2. inv H.
      specialize (IH _ _ _ _ E2).
      assert (B : blocks t o1 t1 false).
      { destruct r as [| |st|u e|u d|f|f]; cbn in E.
        - discriminate.
        - inv E. apply bs_nil.
        - inv E. apply bs_nil.
        - destruct (resolve t KUpload u (AUpload (e =? "")%string u)) as [[t3 o3]|] eqn:R; inv E.
          apply bs_one. apply b_resp. exact R.
        - destruct (resolve t KIntent u _) as [[t3 o3]|] eqn:R; inv E.
          apply bs_one. apply b_resp. exact R.
        - destruct f; inv E. apply bs_nil.
        - destruct f; inv E. apply bs_nil. }
      destruct ok.
      * eapply blocks_app; eauto.
      * rewrite <- app_assoc. eapply blocks_app; eauto.
    + inv H. apply bs_last.
      destruct r as [| |st|u e|u d|f|f]; cbn in E.
      * inv E. apply b_err.
      * discriminate.
      * discriminate.
      * destruct (resolve t' KUpload u (AUpload (e =? "")%string u)) as [[t3 o3]|] eqn:R; inv E.
        cbn [app]. apply b_unknown. exact R.
      * destruct (resolve t' KIntent u _) as [[t3 o3]|] eqn:R; inv E.
        cbn [app]. apply b_unknown. exact R.
      * destruct f; inv E. apply b_err.
      * destruct f; inv E. apply b_err.
Qed.

Definition done (s : api) : bool := match a_phase s with PDone => true | _ => false end.

Lemma top_blocks : forall s ok s' o,
  a_tracker s = tracker_new -> top s ok = (s', o) -> blocks tracker_new o (a_tracker s') (done s').
Proof.
  intros s ok s' o T H. unfold top in H.
  destruct (a_killed s).
  - inv H. cbn. rewrite T. apply bs_nil.
  - destruct ok; inv H; cbn.
    + apply bs_one, b_stream.
    + apply bs_one, b_stream_err.
Qed.

Lemma next_blocks : forall s ok s' o,
  next_stream s ok = (s', o) -> blocks (a_tracker s) o (a_tracker s') (done s').
Proof.
  intros s ok s' o H. unfold next_stream in H.
  destruct (top (set_tracker s tracker_new) ok) as [s1 o1] eqn:E. inv H.
  eapply bs_cons; [apply b_end|]. eapply top_blocks; [|exact E]. reflexivity.
Qed.

Lemma handle_rest : forall s rs o ok t (ph : phase),
  ph <> PDone ->
  handle_responses (a_tracker s) rs = (o, ok, t) ->
  let r := if ok then (set_phase (set_tracker s t) ph, o)
           else let (s', o') := fail (set_tracker s t) in (s', o ++ o') in
  blocks (a_tracker s) (snd r) (a_tracker (fst r)) (done (fst r)).
Proof.
  intros s rs o ok t ph P H. apply responses_blocks in H. destruct ok; cbn.
  - replace (done (set_phase (set_tracker s t) ph)) with false; [exact H|].
    destruct ph; try reflexivity. congruence.
  - exact H.
Qed.

Lemma step_blocks : forall s e s' o,
  a_phase s <> PDone -> step s e = (s', o) -> blocks (a_tracker s) o (a_tracker s') (done s').
Proof.
  intros s e s' o P H. unfold step in H.
  assert (Same : forall s, a_phase s <> PDone -> blocks (a_tracker s) [] (a_tracker s) (done s)).
  { intros x Px. replace (done x) with false; [apply bs_nil|].
    unfold done. destruct (a_phase x); congruence. }
  assert (Fin : forall s, blocks (a_tracker s) (snd (finish s)) (a_tracker (fst (finish s)))
                            (done (fst (finish s)))).
  { intros x. apply bs_one. cbn. apply b_end. }
  assert (Fl : forall s, blocks (a_tracker s) (snd (fail s)) (a_tracker (fst (fail s)))
                            (done (fst (fail s)))).
  { intros x. apply bs_one. cbn. apply b_err. }
  destruct (a_phase s) eqn:Ph; [| | | |congruence].
  - (* handshake *)
    destruct e as [rs now dur w ok| |long ok|ok|k u w sent|].
    + destruct rs as [|r rs]; [inv H; apply Same; congruence|].
      destruct r as [| |st|u e|u d|f|f];
        try (specialize (Fl s); rewrite H in Fl; exact Fl).
      * destruct (handle_responses (a_tracker s) rs) as [[o1 ok1] t1] eqn:E.
        pose proof (handle_rest s rs o1 ok1 t1 PMain ltac:(congruence) E) as B.
        cbv zeta in B. rewrite H in B. exact B.
      * destruct (st =? 16).
        { destruct (next_stream (write_kill_file s now dur w) ok) as [s1 o1] eqn:E. inv H.
          apply next_blocks in E.
          apply (bs_cons _ [_] (a_tracker s)); [apply b_reject|exact E]. }
        { inv H. cbn. apply bs_nil. }
    + specialize (Fl s). rewrite H in Fl. exact Fl.
    + inv H. cbn. apply bs_nil.
    + inv H. apply Same; congruence.
    + inv H. apply Same; congruence.
    + specialize (Fin s). rewrite H in Fin. exact Fin.
  - (* main *)
    destruct e as [rs now dur w ok| |long ok|ok|k u w sent|].
    + destruct (handle_responses (a_tracker s) rs) as [[o1 ok1] t1] eqn:E.
      pose proof (handle_rest s rs o1 ok1 t1 PMain ltac:(congruence) E) as B.
      cbv zeta in B. destruct ok1.
      * inv H. cbn in B. unfold done. cbn. rewrite Ph. exact B.
      * rewrite H in B. exact B.
    + specialize (Fl s). rewrite H in Fl. exact Fl.
    + destruct long; [eapply next_blocks; exact H|inv H; cbn; apply bs_nil].
    + inv H. apply Same; congruence.
    + destruct (track (a_tracker s) k u w) as [t1 o1] eqn:E.
      assert (B : block (a_tracker s) (TTrack k u w :: o1) t1 false).
      { pose proof (b_track (a_tracker s) k u w) as B. rewrite E in B. exact B. }
      destruct sent.
      * inv H. unfold done. cbn. rewrite Ph. apply bs_one. exact B.
      * specialize (Fl (set_tracker s t1)).
        destruct (fail (set_tracker s t1)) as [s2 o2]. inv H.
        apply (bs_cons _ (TTrack k u w :: o1) t1); [exact B|exact Fl].
    + specialize (Fin s). rewrite H in Fin. exact Fin.
  - (* backoff *)
    destruct e as [rs now dur w ok| |long ok|ok|k u w sent|];
      try (inv H; apply Same; congruence).
    + eapply next_blocks; exact H.
    + specialize (Fin s). rewrite H in Fin. exact Fin.
  - (* killed: nothing is pending *)
    destruct e as [rs now dur w ok| |long ok|ok|k u w sent|];
      try (inv H; apply Same; congruence).
    inv H. cbn. apply bs_one, b_quit.
Qed.

Lemma step_done : forall s e, a_phase s = PDone -> step s e = (s, []).
Proof. intros s e P. unfold step. rewrite P. reflexivity. Qed.

Lemma steps_done : forall es s, a_phase s = PDone -> steps s es = (s, []).
Proof.
  induction es as [|e es IH]; intros s P; [reflexivity|].
  cbn [steps]. rewrite step_done by exact P. rewrite IH by exact P. reflexivity.
Qed.

Lemma steps_blocks : forall es s s' o,
  a_phase s <> PDone -> steps s es = (s', o) -> blocks (a_tracker s) o (a_tracker s') (done s').
Proof.
  induction es as [|e es IH]; intros s s' o P H.
  - cbn in H. inv H. replace (done s') with false; [apply bs_nil|].
    unfold done. destruct (a_phase s'); congruence.
  - cbn [steps] in H.
    destruct (step s e) as [s1 o1] eqn:E. destruct (steps s1 es) as [s2 o2] eqn:E2. inv H.
    pose proof (step_blocks _ _ _ _ P E) as B.
    destruct (done s1) eqn:D.
    + assert (Ps : a_phase s1 = PDone) by (unfold done in D; destruct (a_phase s1); congruence).
      rewrite steps_done in E2 by exact Ps. inv E2. rewrite app_nil_r, D. exact B.
    + assert (Ps : a_phase s1 <> PDone) by (unfold done in D; destruct (a_phase s1); congruence).
      eapply blocks_app; [exact B|]. apply IH; assumption.
Qed.

Lemma kill_tracker : forall s p, a_tracker (maybe_kill_client s p) = a_tracker s.
Proof. intros s p. unfold maybe_kill_client, write_kill_file. repeat dmatch; reflexivity. Qed.

Lemma run_blocks : forall hash d p, exists t q, blocks tracker_new (snd (run_process hash d p)) t q.
Proof.
  intros hash d p. unfold run_process.
  match goal with |- context [maybe_kill_client ?s0 p] =>
    assert (T : a_tracker (maybe_kill_client s0 p) = tracker_new) by apply kill_tracker;
    set (s := maybe_kill_client s0 p) in * end.
  destruct (top s (p_open p)) as [s1 o1] eqn:E.
  pose proof (top_blocks _ _ _ _ T E) as B.
  destruct (steps s1 (p_events p)) as [s2 o2] eqn:E2. cbn [snd].
  destruct (done s1) eqn:D.
  - assert (Ps : a_phase s1 = PDone) by (unfold done in D; destruct (a_phase s1); congruence).
    rewrite steps_done in E2 by exact Ps. inv E2. rewrite app_nil_r. eauto.
  - assert (Ps : a_phase s1 <> PDone) by (unfold done in D; destruct (a_phase s1); congruence).
    exists (a_tracker s2), (done s2). eapply blocks_app; [exact B|]. eapply steps_blocks; eauto.
Qed.

(** ** Facts about the maps *)

Lemma map_get_in : forall u m w, map_get u m = Some w -> In (u, w) m.
Proof.
  induction m as [|[v x] m IH]; intros w H; cbn in H; [discriminate|].
  destruct (String.eqb_spec u v) as [->|N].
  - inv H. left. reflexivity.
  - right. apply IH. exact H.
Qed.

Lemma map_get_none : forall u m, map_get u m = None <-> ~ In u (map fst m).
Proof.
  induction m as [|[v x] m IH]; cbn; [tauto|].
  destruct (String.eqb_spec u v) as [->|N].
  - split; [discriminate|]. intros H. exfalso. apply H. left. reflexivity.
  - rewrite IH. split; intros H; [intros [->|X]; [congruence|tauto]|tauto].
Qed.

Lemma map_remove_none : forall u m, map_get u m = None -> map_remove u m = m.
Proof.
  induction m as [|[v x] m IH]; cbn; intros H; [reflexivity|].
  destruct (String.eqb_spec u v) as [->|N]; [discriminate|].
  cbn. f_equal. apply IH. exact H.
Qed.

Lemma map_get_remove_same : forall u m, map_get u (map_remove u m) = None.
Proof.
  induction m as [|[v x] m IH]; cbn; [reflexivity|].
  destruct (String.eqb_spec u v) as [->|N]; cbn; [exact IH|].
  destruct (String.eqb_spec u v); [congruence|exact IH].
Qed.

Lemma map_get_remove_other : forall u v m, u <> v -> map_get u (map_remove v m) = map_get u m.
Proof.
  induction m as [|[x y] m IH]; cbn; intros N; [reflexivity|].
  destruct (String.eqb_spec v x) as [->|N1]; cbn.
  - destruct (String.eqb_spec u x); [congruence|]. apply IH; exact N.
  - destruct (String.eqb_spec u x); [reflexivity|]. apply IH; exact N.
Qed.

Lemma map_remove_nodup : forall u m, NoDup (map fst m) -> NoDup (map fst (map_remove u m)).
Proof.
  induction m as [|[v x] m IH]; cbn; intros H; [constructor|].
  apply NoDup_cons_iff in H. destruct H as [H1 H2].
  destruct (String.eqb_spec u v) as [->|N]; cbn; [apply IH, H2|].
  constructor; [|apply IH, H2].
  intros X. apply H1. apply in_map_iff in X. destruct X as [e [Ee Xe] ].
  unfold map_remove in Xe. apply filter_In in Xe. apply in_map_iff. exists e. tauto.
Qed.

Lemma map_remove_perm : forall u m w,
  NoDup (map fst m) -> map_get u m = Some w ->
  Permutation (map snd m) (w :: map snd (map_remove u m)).
Proof.
  induction m as [|[v x] m IH]; cbn; intros w H G; [discriminate|].
  apply NoDup_cons_iff in H. destruct H as [H1 H2].
  destruct (String.eqb_spec u v) as [->|N]; cbn.
  - inv G. fold (map_remove v m). rewrite map_remove_none; [reflexivity|].
    apply map_get_none. exact H1.
  - fold (map_remove u m). rewrite (IH w H2 G). apply perm_swap.
Qed.

Lemma t_map_set : forall t k m k', t_map (t_set t k m) k' = if kind_eqb k k' then m else t_map t k'.
Proof. intros t [] m []; reflexivity. Qed.

(** ** The tracker holds the waiting requests *)

Definition good (l : list item) (t : tracker) : Prop :=
  (forall k, NoDup (map fst (t_map t k))) /\
  (forall k u w, map_get u (t_map t k) = Some w <-> waiting l k u w).

Lemma kind_eqb_eq : forall a b, kind_eqb a b = true <-> a = b.
Proof. intros [] []; cbn; split; congruence. Qed.

(** An item that has no effect on what is waiting under [k] and [u]. *)
Definition neutral (k : kind) (u : string) (x : item) : Prop :=
  x <> TEnd /\ (forall w, x <> TTrack k u w) /\ (forall a, x <> TResponse k u a).

Lemma app_snoc_inv : forall A (l a b : list A) x y,
  l ++ [x] = a ++ y :: b -> (b = [] /\ l = a /\ x = y) \/ (exists b', b = b' ++ [x] /\ l = a ++ y :: b').
Proof.
  intros A l a b x y H. destruct (exists_last (l := y :: b) ltac:(discriminate)) as [z [e E] ].
  rewrite E in H. rewrite app_assoc in H. apply app_inj_tail in H. destruct H as [H ->].
  destruct z as [|z0 z]; cbn in E; inv E.
  - left. rewrite app_nil_r. auto.
  - right. exists z. auto.
Qed.

Lemma waiting_neutral : forall l x k u w,
  neutral k u x -> (waiting (l ++ [x]) k u w <-> waiting l k u w).
Proof.
  intros l x k u w [N1 [N2 N3] ]. split; intros [a [b [E [Ht [Hr He] ] ] ] ].
  - apply app_snoc_inv in E. destruct E as [ [-> [-> E] ]|[b' [-> ->] ] ].
    + exfalso. apply (N2 w). exact E.
    + exists a, b'. splits; [reflexivity| | |].
      * intros w' X. apply (Ht w'). apply in_or_app. left. exact X.
      * intros y X. apply (Hr y). apply in_or_app. left. exact X.
      * intros X. apply He. apply in_or_app. left. exact X.
  - exists a, (b ++ [x]). rewrite E, <- app_assoc. splits; [reflexivity| | |].
    + intros w' X. apply in_app_or in X. destruct X as [X|[X|[] ] ]; [exact (Ht _ X)|exact (N2 _ X)].
    + intros y X. apply in_app_or in X. destruct X as [X|[X|[] ] ]; [exact (Hr _ X)|exact (N3 _ X)].
    + intros X. apply in_app_or in X. destruct X as [X|[X|[] ] ]; [exact (He X)|exact (N1 X)].
Qed.

Lemma waiting_track : forall l k u w w', waiting (l ++ [TTrack k u w]) k u w' <-> w' = w.
Proof.
  intros l k u w w'. split.
  - intros [a [b [E [Ht [Hr He] ] ] ] ].
    apply app_snoc_inv in E. destruct E as [ [-> [-> E] ]|[b' [-> ->] ] ].
    + inv E. reflexivity.
    + exfalso. apply (Ht w). apply in_or_app. right. left. reflexivity.
  - intros ->. exists l, []. splits; auto.
Qed.

Lemma waiting_response : forall l k u a w, ~ waiting (l ++ [TResponse k u a]) k u w.
Proof.
  intros l k u x w [a [b [E [Ht [Hr He] ] ] ] ].
  apply app_snoc_inv in E. destruct E as [ [-> [-> E] ]|[b' [-> ->] ] ]; [discriminate|].
  apply (Hr x). apply in_or_app. right. left. reflexivity.
Qed.

Lemma waiting_end : forall l k u w, ~ waiting (l ++ [TEnd]) k u w.
Proof.
  intros l k u w [a [b [E [Ht [Hr He] ] ] ] ].
  apply app_snoc_inv in E. destruct E as [ [-> [-> E] ]|[b' [-> ->] ] ]; [discriminate|].
  apply He. apply in_or_app. right. left. reflexivity.
Qed.

Definition note (x : item) : Prop :=
  match x with TDeliver _ _ | TFail _ | TError | TStream | TReject _ _ _ => True | _ => False end.

Lemma good_note : forall l x t, note x -> good l t -> good (l ++ [x]) t.
Proof.
  intros l x t Nx [G1 G2]. split; [exact G1|].
  intros k u w. rewrite waiting_neutral; [apply G2|].
  destruct x; cbn in Nx; try contradiction; unfold neutral; splits; intros; discriminate.
Qed.

Lemma good_notes : forall o l t, Forall note o -> good l t -> good (l ++ o) t.
Proof.
  induction o as [|x o IH]; intros l t F G.
  - rewrite app_nil_r. exact G.
  - apply Forall_cons_iff in F. destruct F as [F1 F2].
    replace (l ++ x :: o) with ((l ++ [x]) ++ o) by (rewrite <- app_assoc; reflexivity).
    apply IH; [exact F2|]. apply good_note; assumption.
Qed.

Lemma drop_notes : forall t, Forall note (drop_tracker t).
Proof.
  intros t. unfold drop_tracker. apply Forall_app. split; apply Forall_forall; intros x X;
    apply in_map_iff in X; destruct X as [e [<- _] ]; exact I.
Qed.

Lemma good_end : forall l, good (l ++ [TEnd]) tracker_new.
Proof.
  intros l. split.
  - intros []; constructor.
  - intros k u w. split; [destruct k; cbn; discriminate|]. intros W. exfalso. eapply waiting_end; exact W.
Qed.

Lemma other_neutral : forall k u k' u' x, (k, u) <> (k', u') ->
  (exists w, x = TTrack k' u' w) \/ (exists a, x = TResponse k' u' a) -> neutral k u x.
Proof.
  intros k u k' u' x N [ [w ->]|[a ->] ]; unfold neutral; splits; try congruence; intros; intros E; inv E; congruence.
Qed.

Lemma key_dec : forall (k k' : kind) (u u' : string), {(k, u) = (k', u')} + {(k, u) <> (k', u')}.
Proof. repeat decide equality. Qed.

Lemma good_track_item : forall l t k u w,
  good l t -> good (l ++ [TTrack k u w]) (fst (track t k u w)).
Proof.
  intros l t k u w [G1 G2]. unfold track. cbn [fst]. split.
  - intros k'. rewrite t_map_set. destruct (kind_eqb k k') eqn:K; [|apply G1].
    cbn. constructor; [apply map_get_none, map_get_remove_same|]. apply map_remove_nodup, G1.
  - intros k' u' w'. rewrite t_map_set.
    destruct (key_dec k' k u' u) as [E|N].
    + inv E. rewrite waiting_track. rewrite (proj2 (kind_eqb_eq k k) eq_refl).
      cbn. rewrite String.eqb_refl. split; congruence.
    + rewrite waiting_neutral by (eapply other_neutral; [exact N|left; eauto]).
      rewrite <- G2. destruct (kind_eqb k k') eqn:K; [|reflexivity].
      apply kind_eqb_eq in K. subst k'. cbn.
      destruct (String.eqb_spec u' u) as [->|Nu]; [congruence|].
      rewrite map_get_remove_other by exact Nu. reflexivity.
Qed.

Lemma good_response_item : forall l t k u a t' o,
  good l t -> resolve t k u a = Some (t', o) -> good (l ++ [TResponse k u a]) t'.
Proof.
  intros l t k u a t' o [G1 G2] R. unfold resolve in R.
  destruct (map_get u (t_map t k)) as [w|] eqn:M; [|discriminate]. inv R. split.
  - intros k'. rewrite t_map_set. destruct (kind_eqb k k') eqn:K; [|apply G1].
    apply map_remove_nodup, G1.
  - intros k' u' w'. rewrite t_map_set.
    destruct (key_dec k' k u' u) as [E|N].
    + inv E. rewrite (proj2 (kind_eqb_eq k k) eq_refl). rewrite map_get_remove_same.
      split; [discriminate|]. intros W. exfalso. eapply waiting_response; exact W.
    + rewrite waiting_neutral by (eapply other_neutral; [exact N|right; eauto]).
      rewrite <- G2. destruct (kind_eqb k k') eqn:K; [|reflexivity].
      apply kind_eqb_eq in K. subst k'.
      rewrite map_get_remove_other by (intros X; apply N; congruence). reflexivity.
Qed.

Lemma good_block : forall t o t' d l, block t o t' d -> good l t -> good (l ++ o) t'.
Proof.
  intros t o t' d l B G.
  assert (Snoc : forall x o', l ++ x :: o' = (l ++ [x]) ++ o') by (intros; rewrite <- app_assoc; reflexivity).
  destruct B.
  - apply good_note; [exact I|exact G].
  - replace (l ++ [TStream; TError; TEnd]) with ((l ++ [TStream; TError]) ++ [TEnd])
      by (rewrite <- app_assoc; reflexivity). apply good_end.
  - rewrite app_nil_r. exact G.
  - apply good_note; [exact I|exact G].
  - rewrite Snoc. apply good_notes; [|apply good_track_item; exact G].
    unfold track. cbn. destruct (map_get u (t_map t k)); constructor; [exact I|constructor].
  - rewrite Snoc. apply good_notes; [|eapply good_response_item; eassumption].
    unfold resolve in H. destruct (map_get u (t_map t k)); inv H. constructor; [exact I|constructor].
  - replace (l ++ TResponse k u a :: TError :: drop_tracker t ++ [TEnd])
      with ((l ++ TResponse k u a :: TError :: drop_tracker t) ++ [TEnd])
      by (rewrite <- app_assoc; reflexivity). apply good_end.
  - rewrite app_assoc. apply good_end.
  - replace (l ++ TError :: drop_tracker t ++ [TEnd]) with ((l ++ TError :: drop_tracker t) ++ [TEnd])
      by (rewrite <- app_assoc; reflexivity). apply good_end.
Qed.

Lemma good_nil : good [] tracker_new.
Proof.
  split; [intros []; constructor|]. intros k u w. split; [destruct k; cbn; discriminate|].
  intros [a [b [E _] ] ]. destruct a; discriminate.
Qed.

(** Every item of the trace is in one of the blocks. *)
Lemma app_split : forall A (l o a b : list A) x,
  l ++ o = a ++ x :: b ->
  (exists b', l = a ++ x :: b' /\ b = b' ++ o) \/ (exists a', a = l ++ a' /\ o = a' ++ x :: b).
Proof.
  induction l as [|y l IH]; intros o a b x H.
  - right. exists a. auto.
  - destruct a as [|z a]; cbn in H; inv H.
    + left. exists l. auto.
    + destruct (IH _ _ _ _ H2) as [ [b' [-> ->] ]|[a' [-> ->] ] ]; [left|right]; eexists; split; reflexivity.
Qed.

Lemma locate : forall t o t' d, blocks t o t' d -> forall l a x b, good l t -> o = a ++ x :: b ->
  exists o1 t1 blk t2 d2 a1 b1 o2,
    a = o1 ++ a1 /\ blk = a1 ++ x :: b1 /\ b = b1 ++ o2 /\
    good (l ++ o1) t1 /\ block t1 blk t2 d2 /\ (d2 = true -> o2 = []).
Proof.
  intros t o t' d B. induction B; intros l a x b G E.
  - destruct a; discriminate.
  - apply app_split in E. destruct E as [ [b' [-> ->] ]|[a' [-> E] ] ].
    + exists [], t, (a ++ x :: b'), t1, false, a, b', o'. splits; try reflexivity; try discriminate.
      * rewrite app_nil_r. exact G.
      * exact H.
    + destruct (IHB (l ++ o) a' x b) as [o1 [t3 [blk [t4 [d2 [a1 [b1 [o2 [E1 [E2 [E3 [G1 [Bk D] ] ] ] ] ] ] ] ] ] ] ] ].
      * eapply good_block; eassumption.
      * exact E.
      * subst. exists (o ++ o1), t3, (a1 ++ x :: b1), t4, d2, a1, b1, o2.
        splits; try reflexivity; try assumption.
        -- rewrite app_assoc. reflexivity.
        -- rewrite app_assoc. exact G1.
  - subst. exists [], t, (a ++ x :: b), t1, true, a, b, []. splits; try reflexivity.
    + rewrite app_nil_r. reflexivity.
    + rewrite app_nil_r. exact G.
    + exact H.
Qed.

(** The position of an item that is not a notification in a block. *)
Lemma notes_split : forall o a x b, o = a ++ x :: b -> Forall note o -> note x.
Proof.
  intros o a x b -> F. rewrite Forall_app in F. destruct F as [_ F].
  apply Forall_cons_iff in F. tauto.
Qed.

Lemma drop_split : forall t a x b, drop_tracker t ++ [TEnd] = a ++ x :: b ->
  (x = TEnd /\ a = drop_tracker t /\ b = []) \/
  (exists b', drop_tracker t = a ++ x :: b' /\ b = b' ++ [TEnd]).
Proof.
  intros t a x b E. apply app_split in E. destruct E as [ [b' [E ->] ]|[a' [-> E] ] ].
  - right. eauto.
  - left. destruct a' as [|y [|z a'] ]; inv E. rewrite app_nil_r. auto.
Qed.

Lemma drop_in : forall t x, In x (drop_tracker t) ->
  exists k u w, x = TFail w /\ In (u, w) (t_map t k).
Proof.
  intros t x H. unfold drop_tracker in H. apply in_app_or in H.
  destruct H as [H|H]; apply in_map_iff in H; destruct H as [ [u w] [<- H] ];
    [exists KUpload, u, w|exists KIntent, u, w]; auto.
Qed.

Lemma nodup_get : forall m u w, NoDup (map fst m) -> In (u, w) m -> map_get u m = Some w.
Proof.
  induction m as [|[v x] m IH]; intros u w N H; [contradiction|].
  cbn in N. apply NoDup_cons_iff in N. destruct N as [N1 N2]. cbn.
  destruct H as [H|H].
  - inv H. rewrite String.eqb_refl. reflexivity.
  - destruct (String.eqb_spec u v) as [->|Nu]; [|apply IH; assumption].
    exfalso. apply N1. apply in_map_iff. exists (v, w). auto.
Qed.

Section Trace.
Variables (hash : string -> list Z) (dk : disk) (p : process).
Let tr := snd (run_process hash dk p).

Lemma response_known : forall a k u x b w,
  tr = a ++ TResponse k u x :: b -> waiting a k u w -> exists b', b = TDeliver w x :: b'.
Proof.
  intros a k u x b w E W. destruct (run_blocks hash dk p) as [t [q B] ]. fold tr in B.
  destruct (locate _ _ _ _ B [] a _ b good_nil E)
    as [o1 [t1 [blk [t2 [d2 [a1 [b1 [o2 [E1 [E2 [E3 [G1 [Bk D] ] ] ] ] ] ] ] ] ] ] ] ].
  cbn in G1. subst a b.
  destruct Bk; try (exfalso; destruct a1 as [|? [|? [|? [|? a1] ] ] ]; inv E2; fail).
  - destruct a1 as [|y a1]; inv E2.
    apply notes_split in H1; [contradiction H1|].
    unfold track. cbn. destruct (map_get u0 (t_map t0 k0)); constructor; [exact I|constructor].
  - destruct a1 as [|y a1]; inv E2.
    + rewrite app_nil_r in W. unfold resolve in H. destruct G1 as [_ G2].
      apply G2 in W. rewrite W in H. inv H. cbn. eauto.
    + unfold resolve in H. destruct (map_get u0 (t_map t0 k0)); inv H.
      destruct a1 as [|? [|? a1] ]; discriminate.
  - destruct a1 as [|y [|z a1] ]; inv E2.
    + rewrite app_nil_r in W. unfold resolve in H. destruct G1 as [_ G2].
      apply G2 in W. rewrite W in H. discriminate.
    + apply drop_split in H3. destruct H3 as [ [H3 _]|[b' [H3 _] ] ]; [discriminate|].
      apply notes_split in H3; [contradiction H3|apply drop_notes].
  - apply drop_split in E2. destruct E2 as [ [E2 _]|[b' [E2 _] ] ]; [discriminate|].
    apply notes_split in E2; [contradiction E2|apply drop_notes].
  - destruct a1 as [|z a1]; inv E2.
    apply drop_split in H1. destruct H1 as [ [H1 _]|[b' [H1 _] ] ]; [discriminate|].
    apply notes_split in H1; [contradiction H1|apply drop_notes].
Qed.

Lemma response_unknown : forall a k u x b,
  tr = a ++ TResponse k u x :: b -> (forall w, ~ waiting a k u w) ->
  exists fs, b = TError :: fs ++ [TEnd] /\ Forall (fun y => exists w, y = TFail w) fs.
Proof.
  intros a k u x b E W. destruct (run_blocks hash dk p) as [t [q B] ]. fold tr in B.
  destruct (locate _ _ _ _ B [] a _ b good_nil E)
    as [o1 [t1 [blk [t2 [d2 [a1 [b1 [o2 [E1 [E2 [E3 [G1 [Bk D] ] ] ] ] ] ] ] ] ] ] ] ].
  cbn in G1. subst a b.
  destruct Bk; try (exfalso; destruct a1 as [|? [|? [|? [|? a1] ] ] ]; inv E2; fail).
  - destruct a1 as [|y a1]; inv E2.
    apply notes_split in H1; [contradiction H1|].
    unfold track. cbn. destruct (map_get u0 (t_map t0 k0)); constructor; [exact I|constructor].
  - destruct a1 as [|y a1]; inv E2.
    + rewrite app_nil_r in W. unfold resolve in H. destruct G1 as [_ G2].
      destruct (map_get u (t_map t0 k)) as [w|] eqn:M; [|discriminate].
      apply G2 in M. exfalso. exact (W w M).
    + unfold resolve in H. destruct (map_get u0 (t_map t0 k0)); inv H.
      destruct a1 as [|? [|? a1] ]; discriminate.
  - destruct a1 as [|y [|z a1] ]; inv E2.
    + rewrite D by reflexivity. exists (drop_tracker t0). rewrite app_nil_r. split; [reflexivity|].
      apply Forall_forall. intros y Y. apply drop_in in Y.
      destruct Y as [k' [u' [w' [-> _] ] ] ]. eauto.
    + apply drop_split in H3. destruct H3 as [ [H3 _]|[b' [H3 _] ] ]; [discriminate|].
      apply notes_split in H3; [contradiction H3|apply drop_notes].
  - apply drop_split in E2. destruct E2 as [ [E2 _]|[b' [E2 _] ] ]; [discriminate|].
    apply notes_split in E2; [contradiction E2|apply drop_notes].
  - destruct a1 as [|z a1]; inv E2.
    apply drop_split in H1. destruct H1 as [ [H1 _]|[b' [H1 _] ] ]; [discriminate|].
    apply notes_split in H1; [contradiction H1|apply drop_notes].
Qed.

Lemma drop_no_deliver : forall t a w x b, drop_tracker t ++ [TEnd] = a ++ TDeliver w x :: b -> False.
Proof.
  intros t a w x b E. apply drop_split in E. destruct E as [ [E _]|[b' [E _] ] ]; [discriminate|].
  assert (X : In (TDeliver w x) (drop_tracker t)) by (rewrite E; apply in_or_app; right; left; reflexivity).
  apply drop_in in X. destruct X as [k' [u' [w' [X _] ] ] ]. discriminate.
Qed.

Lemma delivered : forall a w x b,
  tr = a ++ TDeliver w x :: b -> exists a' k u, a = a' ++ [TResponse k u x] /\ waiting a' k u w.
Proof.
  intros a w x b E. destruct (run_blocks hash dk p) as [t [q B] ]. fold tr in B.
  destruct (locate _ _ _ _ B [] a _ b good_nil E)
    as [o1 [t1 [blk [t2 [d2 [a1 [b1 [o2 [E1 [E2 [E3 [G1 [Bk D] ] ] ] ] ] ] ] ] ] ] ] ].
  cbn in G1. subst a b.
  destruct Bk; try (exfalso; destruct a1 as [|? [|? [|? [|? a1] ] ] ]; inv E2; fail).
  - destruct a1 as [|y a1]; inv E2. unfold track in H1. cbn in H1.
    destruct (map_get u (t_map t0 k)); [destruct a1 as [|? [|? a1] ]|destruct a1]; discriminate.
  - destruct a1 as [|y a1]; inv E2. unfold resolve in H.
    destruct (map_get u (t_map t0 k)) as [w0|] eqn:M; inv H.
    destruct a1 as [|? [|? a1] ]; inv H2. exists o1, k, u. split; [reflexivity|].
    destruct G1 as [_ G2]. apply G2. exact M.
  - destruct a1 as [|y [|z a1] ]; inv E2. exfalso; eapply drop_no_deliver; eassumption.
  - exfalso; eapply drop_no_deliver; eassumption.
  - destruct a1 as [|z a1]; inv E2. exfalso; eapply drop_no_deliver; eassumption.
Qed.

Lemma drop_failed : forall l t a w b,
  good l t -> drop_tracker t ++ [TEnd] = a ++ TFail w :: b ->
  (exists k u, waiting l k u w) /\
  exists fs, b = fs ++ [TEnd] /\ Forall (fun y => exists w, y = TFail w) fs.
Proof.
  intros l t a w b [G1 G2] E. apply drop_split in E. destruct E as [ [E _]|[b' [E ->] ] ]; [discriminate|].
  split.
  - assert (X : In (TFail w) (drop_tracker t)) by (rewrite E; apply in_or_app; right; left; reflexivity).
    apply drop_in in X. destruct X as [k' [u' [w' [X Y] ] ] ]. inv X.
    exists k', u'. apply G2. apply nodup_get; [apply G1|exact Y].
  - exists b'. split; [reflexivity|]. apply Forall_forall. intros y Y.
    assert (X : In y (drop_tracker t)) by (rewrite E; apply in_or_app; right; right; exact Y).
    apply drop_in in X. destruct X as [k' [u' [w' [X _] ] ] ]. eauto.
Qed.

(** A request fails only if another takes its identifier or the stream ends. *)
Lemma failed : forall a w b, tr = a ++ TFail w :: b ->
  (exists a' k u w', a = a' ++ [TTrack k u w'] /\ waiting a' k u w) \/
  (exists fs b', b = fs ++ TEnd :: b' /\ Forall (fun y => exists w, y = TFail w) fs).
Proof.
  intros a w b E. destruct (run_blocks hash dk p) as [t [q B] ]. fold tr in B.
  destruct (locate _ _ _ _ B [] a _ b good_nil E)
    as [o1 [t1 [blk [t2 [d2 [a1 [b1 [o2 [E1 [E2 [E3 [G1 [Bk D] ] ] ] ] ] ] ] ] ] ] ] ].
  cbn in G1. subst a b.
  assert (Dr : forall t a, good o1 t -> drop_tracker t ++ [TEnd] = a ++ TFail w :: b1 ->
    exists fs b', b1 ++ o2 = fs ++ TEnd :: b' /\ Forall (fun y => exists w, y = TFail w) fs).
  { intros t3 a3 G3 E4. apply drop_failed with (l := o1) in E4; [|exact G3].
    destruct E4 as [_ [fs [-> F] ] ]. exists fs, o2. rewrite <- app_assoc. auto. }
  destruct Bk; try (exfalso; destruct a1 as [|? [|? [|? [|? a1] ] ] ]; inv E2; fail).
  - destruct a1 as [|y a1]; inv E2. unfold track in H1. cbn in H1.
    destruct (map_get u (t_map t0 k)) as [w1|] eqn:M; [destruct a1 as [|? [|? a1] ]|destruct a1]; inv H1.
    left. exists o1, k, u, w0. split; [reflexivity|]. destruct G1 as [_ G2]. apply G2. exact M.
  - exfalso. unfold resolve in H. destruct (map_get u (t_map t0 k)); inv H.
    destruct a1 as [|? [|? [|? a1] ] ]; inv E2.
  - destruct a1 as [|y [|z a1] ]; inv E2. right. eapply Dr; eassumption.
  - right. eapply Dr; eassumption.
  - destruct a1 as [|z a1]; inv E2. right. eapply Dr; eassumption.
Qed.
End Trace.

(** ** Every request is told exactly once *)

Fixpoint told (l : list item) : list waiter :=
  match l with
  | [] => []
  | TDeliver w _ :: l | TFail w :: l => w :: told l
  | _ :: l => told l
  end.
Definition holders (t : tracker) := map snd (t_uploads t) ++ map snd (t_intents t).

Lemma told_app : forall a b, told (a ++ b) = told a ++ told b.
Proof. induction a as [|x a IH]; intros b; cbn; [reflexivity|]. destruct x; cbn; rewrite IH; reflexivity. Qed.
Lemma tracked_app : forall a b, tracked (a ++ b) = tracked a ++ tracked b.
Proof. induction a as [|x a IH]; intros b; cbn; [reflexivity|]. destruct x; cbn; rewrite IH; reflexivity. Qed.

Lemma told_map_fail : forall m : list (string * waiter),
  told (map (fun e => TFail (snd e)) m) = map snd m /\ tracked (map (fun e => TFail (snd e)) m) = [].
Proof. induction m as [|e m [IH1 IH2] ]; cbn; [auto|]. rewrite IH1. auto. Qed.

Lemma told_drop : forall t, told (drop_tracker t ++ [TEnd]) = holders t.
Proof.
  intros t. unfold drop_tracker, holders. rewrite !told_app, !(proj1 (told_map_fail _)). cbn.
  rewrite app_nil_r. reflexivity.
Qed.
Lemma tracked_drop : forall t, tracked (drop_tracker t ++ [TEnd]) = [].
Proof.
  intros t. unfold drop_tracker. rewrite !tracked_app, !(proj2 (told_map_fail _)). reflexivity.
Qed.

Lemma holders_remove : forall t k u w,
  (forall k, NoDup (map fst (t_map t k))) -> map_get u (t_map t k) = Some w ->
  Permutation (holders t) (w :: holders (t_set t k (map_remove u (t_map t k)))).
Proof.
  intros t k u w N G. unfold holders. specialize (N k). destruct k; cbn in *.
  - rewrite (map_remove_perm _ _ _ N G). reflexivity.
  - rewrite (map_remove_perm _ _ _ N G). symmetry. apply Permutation_middle.
Qed.

Lemma holders_add : forall t k u w m,
  Permutation (holders (t_set t k ((u, w) :: m))) (w :: holders (t_set t k m)).
Proof.
  intros t [] u w m; unfold holders; cbn; [reflexivity|].
  symmetry. apply Permutation_middle.
Qed.

Lemma t_set_same : forall t k, t_set t k (t_map t k) = t.
Proof. intros [a b] []; reflexivity. Qed.

Lemma perm_block : forall t o t' d,
  (forall k, NoDup (map fst (t_map t k))) -> block t o t' d ->
  Permutation (holders t ++ tracked o) (told o ++ holders t').
Proof.
  intros t o t' d N B. destruct B; cbn [tracked told].
  - reflexivity.
  - reflexivity.
  - rewrite app_nil_r. reflexivity.
  - rewrite app_nil_r. reflexivity.
  - unfold track. cbn [fst snd]. rewrite holders_add.
    destruct (map_get u (t_map t k)) as [w0|] eqn:M; cbn [tracked told app].
    + rewrite (holders_remove _ _ _ _ N M). cbn.
      rewrite <- Permutation_cons_append. reflexivity.
    + rewrite map_remove_none by exact M. rewrite t_set_same.
      symmetry. apply Permutation_cons_append.
  - unfold resolve in H. destruct (map_get u (t_map t k)) as [w0|] eqn:M; inv H.
    cbn. rewrite app_nil_r. apply holders_remove; assumption.
  - rewrite told_drop, tracked_drop, !app_nil_r. reflexivity.
  - rewrite told_drop, tracked_drop, !app_nil_r. reflexivity.
  - rewrite told_drop, tracked_drop, !app_nil_r. reflexivity.
Qed.

Lemma perm_blocks : forall t o t' d, blocks t o t' d -> forall l, good l t ->
  good (l ++ o) t' /\ Permutation (holders t ++ tracked o) (told o ++ holders t').
Proof.
  intros t o t' d B. induction B; intros l G.
  - rewrite app_nil_r. cbn. rewrite app_nil_r. auto.
  - pose proof (good_block _ _ _ _ _ H G) as G1. specialize (IHB _ G1). destruct IHB as [G2 P2].
    rewrite app_assoc. split; [exact G2|].
    rewrite tracked_app, told_app, app_assoc.
    rewrite (perm_block _ _ _ _ (proj1 G) H). rewrite <- !app_assoc, P2. reflexivity.
  - split; [eapply good_block; eassumption|]. eapply perm_block; [apply (proj1 G)|exact H].
Qed.

Lemma told_notifications : forall l w,
  List.length (notifications l w) = count_occ Nat.eq_dec (told l) w.
Proof.
  induction l as [|x l IH]; intros w; [reflexivity|].
  unfold notifications in *. cbn [filter].
  destruct x; cbn [notified told count_occ]; try apply IH;
    destruct (Nat.eqb_spec w0 w); destruct (Nat.eq_dec w0 w); try contradiction; cbn; rewrite IH; reflexivity.
Qed.

Lemma holders_waiting : forall l t w, good l t -> (In w (holders t) <-> exists k u, waiting l k u w).
Proof.
  intros l t w [G1 G2]. unfold holders. rewrite in_app_iff, !in_map_iff. split.
  - intros [ [ [u v] [E H] ]|[ [u v] [E H] ] ]; cbn in E; subst v;
      [exists KUpload, u|exists KIntent, u]; apply G2, nodup_get; try apply G1; exact H.
  - intros [k [u W] ]. apply G2 in W. apply map_get_in in W.
    destruct k; [left|right]; exists (u, w); auto.
Qed.

Lemma once : forall hash dk p w,
  let l := snd (run_process hash dk p) in
  NoDup (tracked l) -> In w (tracked l) ->
  ((exists k u, waiting l k u w) /\ notifications l w = []) \/
  ((forall k u, ~ waiting l k u w) /\ List.length (notifications l w) = 1%nat).
Proof.
  intros hash dk p w l N Hw. destruct (run_blocks hash dk p) as [t [q B] ]. fold l in B.
  destruct (perm_blocks _ _ _ _ B [] good_nil) as [G P]. cbn in P, G.
  assert (C : count_occ Nat.eq_dec (tracked l) w = 1%nat).
  { apply NoDup_count_occ' with (decA := Nat.eq_dec) in Hw; assumption. }
  rewrite (proj1 (Permutation_count_occ Nat.eq_dec _ _) P w) in C. rewrite count_occ_app in C.
  pose proof (told_notifications l w) as T.
  destruct (count_occ Nat.eq_dec (holders t) w) as [|n] eqn:Eh.
  - right. split; [|unfold waiter in *; lia]. intros k u W. apply count_occ_not_In in Eh. apply Eh.
    apply (holders_waiting l). exact G. eauto.
  - left. split.
    + apply (holders_waiting l t w G). apply (count_occ_In Nat.eq_dec). unfold waiter in *; lia.
    + destruct (notifications l w); [reflexivity|cbn in T; unfold waiter in *; lia].
Qed.

(** ** Answers come from responses *)

Definition sent (rs : list response) (k : kind) (u : string) (a : answer) : Prop :=
  match k with
  | KUpload => exists e, In (RAck u e) rs /\ a = AUpload (String.eqb e "") u
  | KIntent => exists d, In (RIntent u d) rs /\ a = AIntent u (match d with Some b => b | None => true end)
  end.

Lemma sent_mono : forall r rs k u a, sent rs k u a -> sent (r :: rs) k u a.
Proof. intros r rs [] u a [e [H ->] ]; exists e; split; auto; right; exact H. Qed.

Lemma resolve_out : forall t k u a t' o, resolve t k u a = Some (t', o) -> exists w, o = [TDeliver w a].
Proof. intros. unfold resolve in H. destruct (map_get u (t_map t k)); inv H. eauto. Qed.

Lemma responses_sent : forall rs t o ok t' k u a,
  handle_responses t rs = (o, ok, t') -> In (TResponse k u a) o -> sent rs k u a.
Proof.
  induction rs as [|r rs IH]; intros t o ok t' k u a H I; cbn [handle_responses] in H.
  - inv H. contradiction.
  - destruct (handle_response t r) as [o1 t1] eqn:E.
    assert (S : In (TResponse k u a) o1 -> sent (r :: rs) k u a).
    { intros I1. destruct r as [| |st|u' e|u' d|f|f]; cbn in E; try (inv E; contradiction).
      - destruct (resolve t KUpload u' _) as [ [t2 o2]|] eqn:R; inv E.
        + apply resolve_out in R. destruct R as [w ->].
          destruct I1 as [I1|[I1|[] ] ]; inv I1. exists e. split; [left|]; reflexivity.
        + destruct I1 as [I1|[] ]; inv I1. exists e. split; [left|]; reflexivity.
      - destruct (resolve t KIntent u' _) as [ [t2 o2]|] eqn:R; inv E.
        + apply resolve_out in R. destruct R as [w ->].
          destruct I1 as [I1|[I1|[] ] ]; inv I1. exists d. split; [left|]; reflexivity.
        + destruct I1 as [I1|[] ]; inv I1. exists d. split; [left|]; reflexivity. }
    destruct t1 as [t1|].
    + destruct (handle_responses t1 rs) as [ [o2 ok2] t2] eqn:E2. inv H.
      apply in_app_or in I. destruct I as [I|I]; [apply S, I|].
      apply sent_mono. eapply IH; eassumption.
    + inv H. apply S, I.
Qed.

Definition no_resp (o : list item) : Prop := forall k u a, ~ In (TResponse k u a) o.

Lemma no_resp_drop : forall t o, no_resp o -> no_resp (drop_tracker t ++ o).
Proof.
  intros t o N k u a H. apply in_app_or in H. destruct H as [H|H]; [|exact (N _ _ _ H)].
  apply drop_in in H. destruct H as [? [? [? [H _] ] ] ]. discriminate.
Qed.

Lemma no_resp_cons : forall x o, (forall k u a, x <> TResponse k u a) -> no_resp o -> no_resp (x :: o).
Proof. intros x o N1 N2 k u a [H|H]; [exact (N1 _ _ _ H)|exact (N2 _ _ _ H)]. Qed.
Lemma no_resp_nil : no_resp [].
Proof. intros k u a []. Qed.

Lemma no_resp_top : forall s ok, no_resp (snd (top s ok)).
Proof.
  intros s ok. unfold top. repeat dmatch; cbn;
    repeat (apply no_resp_cons; [discriminate|]); apply no_resp_nil.
Qed.
Lemma no_resp_next : forall s ok, no_resp (snd (next_stream s ok)).
Proof.
  intros s ok. unfold next_stream.
  pose proof (no_resp_top (set_tracker s tracker_new) ok) as T.
  destruct (top (set_tracker s tracker_new) ok) as [s1 o1]. cbn in *. rewrite <- app_assoc.
  apply no_resp_drop. apply no_resp_cons; [discriminate|exact T].
Qed.
Lemma no_resp_finish : forall s, no_resp (snd (finish s)).
Proof. intros s. cbn. apply no_resp_drop. apply no_resp_cons; [discriminate|apply no_resp_nil]. Qed.
Lemma no_resp_fail : forall s, no_resp (snd (fail s)).
Proof. intros s. cbn. apply no_resp_cons; [discriminate|]. apply (no_resp_finish s). Qed.

Lemma step_sent : forall s e s' o k u a,
  step s e = (s', o) -> In (TResponse k u a) o ->
  exists rs n d w ok, e = EData rs n d w ok /\ sent rs k u a.
Proof.
  intros s e s' o k u a H I. unfold step in H.
  assert (Fl : forall x y, fail x = y -> o = snd y -> False).
  { intros x y <- ->. exact (no_resp_fail x _ _ _ I). }
  assert (Fi : forall x y, finish x = y -> o = snd y -> False).
  { intros x y <- ->. exact (no_resp_finish x _ _ _ I). }
  assert (Nx : forall x ok y, next_stream x ok = y -> o = snd y -> False).
  { intros x ok y <- ->. exact (no_resp_next x ok _ _ _ I). }
  destruct (a_phase s) eqn:Ph;
    destruct e as [rs now dur w ok| |long ok|ok|k' u' w snt|];
    try (inv H; contradiction);
    try (exfalso; eapply Fl; [exact H|reflexivity]);
    try (exfalso; eapply Fi; [exact H|reflexivity]);
    try (exfalso; eapply Nx; [exact H|reflexivity]).
  - destruct rs as [|r rs]; [inv H; contradiction|].
    destruct r as [| |st|u1 e1|u1 d1|f|f]; try (exfalso; eapply Fl; [exact H|reflexivity]).
    + destruct (handle_responses (a_tracker s) rs) as [ [o1 ok1] t1] eqn:E.
      exists (RHandshake :: rs), now, dur, w, ok. split; [reflexivity|]. apply sent_mono.
      destruct ok1.
      * inv H. eapply responses_sent; eassumption.
      * pose proof (no_resp_fail (set_tracker s t1)) as NF.
        destruct (fail (set_tracker s t1)) as [s2 o2]. inv H.
        apply in_app_or in I. destruct I as [I|I]; [eapply responses_sent; eassumption|].
        exfalso. exact (NF _ _ _ I).
    + destruct (st =? 16); [|inv H; contradiction].
      pose proof (no_resp_next (write_kill_file s now dur w) ok) as NN.
      destruct (next_stream (write_kill_file s now dur w) ok) as [s1 o1]. inv H.
      destruct I as [I|I]; [discriminate|]. exfalso. exact (NN _ _ _ I).
  - destruct (handle_responses (a_tracker s) rs) as [ [o1 ok1] t1] eqn:E.
    exists rs, now, dur, w, ok. split; [reflexivity|].
    destruct ok1.
    + inv H. eapply responses_sent; eassumption.
    + pose proof (no_resp_fail (set_tracker s t1)) as NF.
      destruct (fail (set_tracker s t1)) as [s2 o2]. inv H.
      apply in_app_or in I. destruct I as [I|I]; [eapply responses_sent; eassumption|].
      exfalso. exact (NF _ _ _ I).
  - destruct long; [exfalso; eapply Nx; [exact H|reflexivity]|inv H; contradiction].
  - exfalso. unfold track in H. destruct snt.
    + inv H. destruct I as [I|I]; [discriminate|].
      destruct (map_get u' (t_map (a_tracker s) k')); [destruct I as [I|[] ]; discriminate|contradiction].
    + match type of H with context [fail ?x] => pose proof (no_resp_fail x) as NF; destruct (fail x) as [s2 o2] end.
      inv H. destruct I as [I|I]; [discriminate|].
      apply in_app_or in I. destruct I as [I|I]; [|exact (NF _ _ _ I)].
      destruct (map_get u' (t_map (a_tracker s) k')); [destruct I as [I|[] ]; discriminate|contradiction].
Qed.

Lemma steps_sent : forall es s s' o k u a,
  steps s es = (s', o) -> In (TResponse k u a) o ->
  exists rs n d w ok, In (EData rs n d w ok) es /\ sent rs k u a.
Proof.
  induction es as [|e es IH]; intros s s' o k u a H I; cbn [steps] in H.
  - inv H. contradiction.
  - destruct (step s e) as [s1 o1] eqn:E. destruct (steps s1 es) as [s2 o2] eqn:E2. inv H.
    apply in_app_or in I. destruct I as [I|I].
    + destruct (step_sent _ _ _ _ _ _ _ E I) as [rs [n [d [w [ok [-> S] ] ] ] ] ].
      exists rs, n, d, w, ok. split; [left; reflexivity|exact S].
    + destruct (IH _ _ _ _ _ _ E2 I) as [rs [n [d [w [ok [X S] ] ] ] ] ].
      exists rs, n, d, w, ok. split; [right; exact X|exact S].
Qed.

Lemma run_sent : forall hash dk p k u a,
  In (TResponse k u a) (snd (run_process hash dk p)) ->
  exists rs n d w ok, In (EData rs n d w ok) (p_events p) /\ sent rs k u a.
Proof.
  intros hash dk p k u a I. unfold run_process in I.
  match type of I with context [top ?s ?ok] =>
    pose proof (no_resp_top s ok) as NT; destruct (top s ok) as [s1 o1] end.
  destruct (steps s1 (p_events p)) as [s2 o2] eqn:E. cbn in *.
  apply in_app_or in I. destruct I as [I|I]; [exfalso; exact (NT _ _ _ I)|].
  eapply steps_sent; eassumption.
Qed.

(** * C22: kills *)

(** A killed client does nothing but wait. *)
Lemma killed_top : forall s ok, a_killed s = true -> top s ok = (set_phase s PKilled, []).
Proof. intros s ok K. unfold top. rewrite K. reflexivity. Qed.

Definition dead (s : api) : Prop := a_killed s = true /\ (a_phase s = PKilled \/ a_phase s = PDone).

Lemma dead_step : forall s e, dead s ->
  dead (fst (step s e)) /\ snd (step s e) = [] /\ a_disk (fst (step s e)) = a_disk s.
Proof.
  intros s e [K [P|P] ]; unfold step; rewrite P.
  - destruct e; cbn; unfold dead; rewrite ?P; auto.
  - cbn. unfold dead. auto.
Qed.

Lemma dead_steps : forall es s, dead s ->
  snd (steps s es) = [] /\ a_disk (fst (steps s es)) = a_disk s.
Proof.
  induction es as [|e es IH]; intros s D; [auto|]. cbn [steps].
  destruct (dead_step s e D) as [D1 [O1 K1] ]. destruct (step s e) as [s1 o1]. cbn in *.
  destruct (IH s1 D1) as [O2 K2]. destruct (steps s1 es) as [s2 o2]. cbn in *. subst. split; [reflexivity|congruence].
Qed.

Lemma next_killed : forall s ok, a_killed s = true ->
  dead (fst (next_stream s ok)) /\ ~ In TStream (snd (next_stream s ok)) /\
  (forall n d w, ~ In (TReject n d w) (snd (next_stream s ok))) /\
  a_disk (fst (next_stream s ok)) = a_disk s.
Proof.
  intros s ok K. unfold next_stream. rewrite killed_top by exact K. cbn.
  rewrite app_nil_r. splits.
  - split; [exact K|left; reflexivity].
  - intros X. apply in_app_or in X. destruct X as [X|[X|[] ] ]; [|discriminate].
    apply drop_in in X. destruct X as [? [? [? [X _] ] ] ]. discriminate.
  - intros n d w X. apply in_app_or in X. destruct X as [X|[X|[] ] ]; [|discriminate].
    apply drop_in in X. destruct X as [? [? [? [X _] ] ] ]. discriminate.
  - reflexivity.
Qed.

Definition no_reject (o : list item) : Prop := forall n d w, ~ In (TReject n d w) o.

Lemma no_reject_responses : forall rs t o ok t',
  handle_responses t rs = (o, ok, t') -> no_reject o.
Proof.
  induction rs as [|r rs IH]; intros t o ok t' H n d w I; cbn [handle_responses] in H.
  - inv H. contradiction.
  - destruct (handle_response t r) as [o1 t1] eqn:E.
    assert (S : ~ In (TReject n d w) o1).
    { intros I1. destruct r as [| |st|u' e|u' d'|f|f]; cbn in E; try (inv E; contradiction).
      - destruct (resolve t KUpload u' _) as [ [t2 o2]|] eqn:R; inv E.
        + apply resolve_out in R. destruct R as [x ->]. destruct I1 as [I1|[I1|[] ] ]; discriminate.
        + destruct I1 as [I1|[] ]; discriminate.
      - destruct (resolve t KIntent u' _) as [ [t2 o2]|] eqn:R; inv E.
        + apply resolve_out in R. destruct R as [x ->]. destruct I1 as [I1|[I1|[] ] ]; discriminate.
        + destruct I1 as [I1|[] ]; discriminate. }
    destruct t1 as [t1|].
    + destruct (handle_responses t1 rs) as [ [o2 ok2] t2] eqn:E2. inv H.
      apply in_app_or in I. destruct I as [I|I]; [exact (S I)|]. eapply IH; eassumption.
    + inv H. exact (S I).
Qed.

Lemma no_reject_top : forall s ok, no_reject (snd (top s ok)).
Proof.
  intros s ok n d w. unfold top. repeat dmatch; cbn; intros H;
    repeat (destruct H as [H|H]; [discriminate|]); contradiction.
Qed.
Lemma no_reject_drop : forall t o, no_reject o -> no_reject (drop_tracker t ++ o).
Proof.
  intros t o N n d w H. apply in_app_or in H. destruct H as [H|H]; [|exact (N _ _ _ H)].
  apply drop_in in H. destruct H as [? [? [? [H _] ] ] ]. discriminate.
Qed.
Lemma no_reject_next : forall s ok, no_reject (snd (next_stream s ok)).
Proof.
  intros s ok. unfold next_stream.
  pose proof (no_reject_top (set_tracker s tracker_new) ok) as T.
  destruct (top (set_tracker s tracker_new) ok) as [s1 o1]. cbn in *. rewrite <- app_assoc.
  apply no_reject_drop. intros n d w [H|H]; [discriminate|exact (T _ _ _ H)].
Qed.
Lemma no_reject_finish : forall s, no_reject (snd (finish s)).
Proof. intros s. cbn. apply no_reject_drop. intros n d w [H|[] ]; discriminate. Qed.
Lemma no_reject_fail : forall s, no_reject (snd (fail s)).
Proof. intros s. cbn. intros n d w [H|H]; [discriminate|]. exact (no_reject_finish s _ _ _ H). Qed.

(** A rejection in the trace of a step: it is the first item, and kills. *)
Lemma step_reject : forall s e s' o a n d wr b,
  step s e = (s', o) -> o = a ++ TReject n d wr :: b ->
  a = [] /\ ~ In TStream b /\ dead s' /\
  (wr = true -> a_disk s' = KillFile (n + d) (a_hash s)).
Proof.
  intros s e s' o a n d wr b H E.
  assert (I : In (TReject n d wr) o) by (rewrite E; apply in_or_app; right; left; reflexivity).
  unfold step in H.
  assert (Fl : forall x y, fail x = y -> o = snd y -> False).
  { intros x y <- ->. exact (no_reject_fail x _ _ _ I). }
  assert (Fi : forall x y, finish x = y -> o = snd y -> False).
  { intros x y <- ->. exact (no_reject_finish x _ _ _ I). }
  assert (Nx : forall x ok y, next_stream x ok = y -> o = snd y -> False).
  { intros x ok y <- ->. exact (no_reject_next x ok _ _ _ I). }
  destruct (a_phase s) eqn:Ph;
    destruct e as [rs now dur w ok| |long ok|ok|k' u' w snt|];
    try (injection H as <- <-; contradiction);
    try (exfalso; eapply Fl; [exact H|reflexivity]);
    try (exfalso; eapply Fi; [exact H|reflexivity]);
    try (exfalso; eapply Nx; [exact H|reflexivity]).
  - destruct rs as [|r rs]; [injection H as <- <-; contradiction|].
    destruct r as [| |st|u1 e1|u1 d1|f|f]; try (exfalso; eapply Fl; [exact H|reflexivity]).
    + exfalso. destruct (handle_responses (a_tracker s) rs) as [ [o1 ok1] t1] eqn:E1.
      pose proof (no_reject_responses _ _ _ _ _ E1) as NR.
      destruct ok1.
      * injection H as <- <-. exact (NR _ _ _ I).
      * pose proof (no_reject_fail (set_tracker s t1)) as NF.
        destruct (fail (set_tracker s t1)) as [s2 o2]. injection H as <- <-.
        apply in_app_or in I. destruct I as [I|I]; [exact (NR _ _ _ I)|exact (NF _ _ _ I)].
    + destruct (st =? 16); [|injection H as <- <-; contradiction].
      destruct (next_killed (write_kill_file s now dur w) ok eq_refl) as [D [NS [NR K] ] ].
      destruct (next_stream (write_kill_file s now dur w) ok) as [s1 o1]. cbn in D, NS, NR, K.
      injection H as <- <-. destruct a as [|y a].
      * cbn in E. injection E as <- <- <- <-. splits; auto.
        intros Ew. destruct w; cbn in Ew; try discriminate. exact K.
      * exfalso. cbn in E. injection E as _ E. rewrite E in NR. apply (NR n d wr).
        apply in_or_app. right. left. reflexivity.
  - exfalso. destruct (handle_responses (a_tracker s) rs) as [ [o1 ok1] t1] eqn:E1.
    pose proof (no_reject_responses _ _ _ _ _ E1) as NR.
    destruct ok1.
    + injection H as <- <-. exact (NR _ _ _ I).
    + pose proof (no_reject_fail (set_tracker s t1)) as NF.
      destruct (fail (set_tracker s t1)) as [s2 o2]. injection H as <- <-.
      apply in_app_or in I. destruct I as [I|I]; [exact (NR _ _ _ I)|exact (NF _ _ _ I)].
  - exfalso. destruct long; [eapply Nx; [exact H|reflexivity]|injection H as <- <-; contradiction].
  - exfalso. unfold track in H. destruct snt.
    + injection H as <- <-. destruct I as [I|I]; [discriminate|].
      destruct (map_get u' (t_map (a_tracker s) k')); [destruct I as [I|[] ]; discriminate|contradiction].
    + match type of H with context [fail ?x] => pose proof (no_reject_fail x) as NF; destruct (fail x) as [s2 o2] end.
      injection H as <- <-. destruct I as [I|I]; [discriminate|].
      apply in_app_or in I. destruct I as [I|I]; [|exact (NF _ _ _ I)].
      destruct (map_get u' (t_map (a_tracker s) k')); [destruct I as [I|[] ]; discriminate|contradiction].
Qed.

Lemma top_hash : forall s ok, a_hash (fst (top s ok)) = a_hash s.
Proof. intros. unfold top. repeat dmatch; reflexivity. Qed.
Lemma next_hash : forall s ok, a_hash (fst (next_stream s ok)) = a_hash s.
Proof.
  intros s ok. unfold next_stream. pose proof (top_hash (set_tracker s tracker_new) ok) as T.
  destruct (top (set_tracker s tracker_new) ok). exact T.
Qed.
Lemma step_hash : forall s e, a_hash (fst (step s e)) = a_hash s.
Proof.
  intros s e. unfold step.
  destruct (a_phase s); destruct e as [rs now dur w ok| |long ok|ok|k' u' w snt|]; try reflexivity;
    try apply next_hash.
  - destruct rs as [|r rs]; [reflexivity|].
    destruct r as [| |st|u1 e1|u1 d1|f|f]; try reflexivity.
    + destruct (handle_responses (a_tracker s) rs) as [ [o1 []] t1]; reflexivity.
    + destruct (st =? 16); [|reflexivity].
      pose proof (next_hash (write_kill_file s now dur w) ok) as N.
      destruct (next_stream (write_kill_file s now dur w) ok). exact N.
  - destruct (handle_responses (a_tracker s) rs) as [ [o1 []] t1]; reflexivity.
  - destruct long; [apply next_hash|reflexivity].
  - destruct (track (a_tracker s) k' u' w). destruct snt; reflexivity.
Qed.

Lemma steps_reject : forall es s s' o a n d wr b,
  steps s es = (s', o) -> o = a ++ TReject n d wr :: b ->
  ~ In TStream b /\ (wr = true -> a_disk s' = KillFile (n + d) (a_hash s)).
Proof.
  induction es as [|e es IH]; intros s s' o a n d wr b H E; cbn [steps] in H.
  - injection H as <- <-. destruct a; discriminate.
  - destruct (step s e) as [s1 o1] eqn:E1. destruct (steps s1 es) as [s2 o2] eqn:E2.
    injection H as <- <-. apply app_split in E. destruct E as [ [b' [Eo ->] ]|[a' [-> Eo] ] ].
    + destruct (step_reject _ _ _ _ _ _ _ _ _ E1 Eo) as [-> [NS [D K] ] ].
      destruct (dead_steps es s1 D) as [O2 K2]. rewrite E2 in O2, K2. cbn in O2, K2. subst o2.
      rewrite app_nil_r. split; [exact NS|]. intros W. rewrite K2. apply K, W.
    + destruct (IH _ _ _ _ _ _ _ _ E2 Eo) as [NS K]. split; [exact NS|].
      intros W. rewrite (K W). f_equal. pose proof (step_hash s e) as Hh. rewrite E1 in Hh. exact Hh.
Qed.

Section Kill.
Variable hash : string -> list Z.

Lemma kill_hash : forall s p, a_hash (maybe_kill_client s p) = a_hash s.
Proof. intros s p. unfold maybe_kill_client, write_kill_file. repeat dmatch; reflexivity. Qed.

(** A rejection silences the rest of the process and is on disk when it ends. *)
Lemma rejected : forall dk p a n d wr b,
  snd (run_process hash dk p) = a ++ TReject n d wr :: b ->
  ~ In TStream b /\ (wr = true -> fst (run_process hash dk p) = KillFile (n + d) (hash (p_key p))).
Proof.
  intros dk p a n d wr b E. unfold run_process in *.
  match type of E with context [maybe_kill_client ?s0 p] =>
    pose proof (kill_hash s0 p) as Hh; set (s := maybe_kill_client s0 p) in * end.
  pose proof (top_hash s (p_open p)) as Th. pose proof (no_reject_top s (p_open p)) as NT.
  destruct (top s (p_open p)) as [s1 o1]. cbn [fst snd] in *.
  destruct (steps s1 (p_events p)) as [s2 o2] eqn:E2. cbn [fst snd] in *.
  apply app_split in E. destruct E as [ [b' [Eo ->] ]|[a' [-> Eo] ] ].
  - exfalso. apply (NT n d wr). rewrite Eo. apply in_or_app. right. left. reflexivity.
  - destruct (steps_reject _ _ _ _ _ _ _ _ _ E2 Eo) as [NS K]. split; [exact NS|].
    intros W. rewrite (K W), Th, Hh. reflexivity.
Qed.

(** A client started with a valid kill file does nothing. *)
Lemma start_killed : forall limit h p,
  p_now p < limit -> hash (p_key p) = h -> p_read p = true ->
  run_process hash (KillFile limit h) p = (KillFile limit h, []).
Proof.
  intros limit h p L Hh R. unfold run_process, maybe_kill_client. cbn [a_disk read_kill_file].
  rewrite R. rewrite (proj2 (Z.ltb_lt _ _) L). cbn [a_hash andb].
  unfold list_Z_eqb. destruct (list_eq_dec Z.eq_dec (hash (p_key p)) h) as [_|N]; [|contradiction].
  rewrite killed_top by reflexivity.
  match goal with |- context [steps ?s ?es] => 
    destruct (dead_steps es s) as [O K]; [split; [reflexivity|left; reflexivity]|];
    destruct (steps s es) as [s2 o2] end.
  cbn in *. subst. rewrite K. reflexivity.
Qed.

Lemma stays_killed : forall limit h ps,
  Forall (fun p => p_now p < limit /\ hash (p_key p) = h /\ p_read p = true) ps ->
  fst (run_processes hash (KillFile limit h) ps) = KillFile limit h /\
  Forall silent (snd (run_processes hash (KillFile limit h) ps)).
Proof.
  induction ps as [|p ps IH]; intros F; [cbn; auto|].
  apply Forall_cons_iff in F. destruct F as [ [F1 [F2 F3] ] F].
  cbn [run_processes]. rewrite start_killed by assumption.
  destruct (IH F) as [A B]. destruct (run_processes hash (KillFile limit h) ps) as [d os]. cbn in *.
  split; [exact A|]. constructor; [intros []|exact B].
Qed.

Lemma generic_killed : forall dk p,
  (dk = NoFile \/ dk = Garbage \/ p_read p = false) -> p_generic p <> 0 ->
  snd (run_process hash dk p) = [] /\
  (p_write p = WOk -> fst (run_process hash dk p) = KillFile (p_now p + p_generic p) (hash (p_key p))).
Proof.
  intros dk p D G. unfold run_process, maybe_kill_client. cbn [a_disk].
  replace (read_kill_file dk (p_read p)) with (@None (Z * list Z)).
  2:{ destruct D as [-> |[-> | ->] ]; try reflexivity. destruct dk; reflexivity. }
  rewrite (proj2 (Z.eqb_neq _ _) G). cbn [negb].
  rewrite killed_top by reflexivity.
  match goal with |- context [steps ?s ?es] => 
    destruct (dead_steps es s) as [O K]; [split; [reflexivity|left; reflexivity]|];
    destruct (steps s es) as [s2 o2] end.
  cbn in *. subst. split; [reflexivity|]. intros W. rewrite K, W. reflexivity.
Qed.

Lemma not_killed : forall limit h p,
  limit <= p_now p \/ hash (p_key p) <> h -> p_read p = true ->
  exists tl, snd (run_process hash (KillFile limit h) p) = TStream :: tl.
Proof.
  intros limit h p D R. unfold run_process, maybe_kill_client. cbn [a_disk read_kill_file].
  rewrite R.
  replace ((p_now p <? limit) && list_Z_eqb (hash (p_key p)) h) with false.
  2:{ symmetry. apply andb_false_iff. destruct D as [D|D]; [left; apply Z.ltb_ge; exact D|right].
      unfold list_Z_eqb. destruct (list_eq_dec Z.eq_dec (hash (p_key p)) h); congruence. }
  unfold top. cbn [a_killed a_hash].
  replace ((p_now p <? limit) && list_Z_eqb (hash (p_key p)) h) with false.
  2:{ symmetry. apply andb_false_iff. destruct D as [D|D]; [left; apply Z.ltb_ge; exact D|right].
      unfold list_Z_eqb. destruct (list_eq_dec Z.eq_dec (hash (p_key p)) h); congruence. }
  cbn [a_killed].
  destruct (p_open p);
    match goal with |- context [steps ?s ?es] => destruct (steps s es) as [s2 o2] end; cbn; eauto.
Qed.
End Kill.

Lemma rejected_silent : forall hash dk p a n d wr b,
  snd (run_process hash dk p) = a ++ TReject n d wr :: b -> silent b.
Proof. intros hash dk p a n d wr b E. exact (proj1 (rejected hash dk p a n d wr b E)). Qed.

Lemma rejected_restarts : forall hash dk p a n d b ps,
  snd (run_process hash dk p) = a ++ TReject n d true :: b ->
  Forall (fun q => p_now q < n + d /\ p_key q = p_key p /\ p_read q = true) ps ->
  Forall silent (snd (run_processes hash (fst (run_process hash dk p)) ps)).
Proof.
  intros hash dk p a n d b ps E F.
  rewrite (proj2 (rejected hash dk p a n d true b E) eq_refl).
  apply stays_killed. eapply Forall_impl; [|exact F].
  intros q [H1 [H2 H3] ]. rewrite H2. auto.
Qed.

Lemma configured_silent : forall hash dk p ps,
  dk = NoFile \/ dk = Garbage -> p_generic p <> 0 ->
  silent (snd (run_process hash dk p)) /\
  (p_write p = WOk ->
   Forall (fun q => p_now q < p_now p + p_generic p /\ p_key q = p_key p /\ p_read q = true) ps ->
   Forall silent (snd (run_processes hash (fst (run_process hash dk p)) ps))).
Proof.
  intros hash dk p ps D G.
  destruct (generic_killed hash dk p ltac:(tauto) G) as [O K]. split.
  - rewrite O. intros [].
  - intros W F. rewrite (K W). apply stays_killed. eapply Forall_impl; [|exact F].
    intros q [H1 [H2 H3] ]. rewrite H2. auto.
Qed.

(** ** Nothing the connected client receives is skipped *)

Lemma handled_app : forall a b, handled (a ++ b) = handled a ++ handled b.
Proof. induction a as [|x a IH]; intros b; cbn; [reflexivity|]. destruct x; cbn; rewrite IH; reflexivity. Qed.

Lemma responses_handled : forall rs t o ok t',
  handle_responses t rs = (o, ok, t') ->
  exists tl, received rs = handled o ++ tl /\ (ok = true -> tl = []).
Proof.
  induction rs as [|r rs IH]; intros t o ok t' H; cbn [handle_responses] in H.
  - inv H. exists []. auto.
  - destruct (handle_response t r) as [o1 [t1|] ] eqn:E.
    + destruct (handle_responses t1 rs) as [ [o2 ok2] t2] eqn:E2. inv H.
      destruct (IH _ _ _ _ E2) as [tl [R K] ]. exists tl. split; [|exact K].
      rewrite handled_app, <- app_assoc, <- R.
      destruct r as [| |st|u' e|u' d|f|f]; cbn in E; try (inv E; reflexivity).
      * destruct (resolve t KUpload u' _) as [ [t3 o3]|] eqn:Rs; inv E.
        apply resolve_out in Rs. destruct Rs as [w ->]. reflexivity.
      * destruct (resolve t KIntent u' _) as [ [t3 o3]|] eqn:Rs; inv E.
        apply resolve_out in Rs. destruct Rs as [w ->]. reflexivity.
    + inv H. destruct r as [| |st|u' e|u' d|f|f]; cbn in E; try discriminate.
      * inv E. exists (received rs). split; [reflexivity|discriminate].
      * destruct (resolve t' KUpload u' _) as [ [t3 o3]|]; inv E.
        exists (received rs). split; [reflexivity|discriminate].
      * destruct (resolve t' KIntent u' _) as [ [t3 o3]|]; inv E.
        exists (received rs). split; [reflexivity|discriminate].
      * destruct f; inv E. exists (received rs). split; [reflexivity|discriminate].
      * destruct f; inv E. exists (received rs). split; [reflexivity|discriminate].
Qed.

Lemma handled_drop : forall t, handled (drop_tracker t ++ [TEnd]) = [].
Proof.
  intros t. rewrite handled_app. unfold drop_tracker. rewrite handled_app.
  assert (M : forall m : list (string * waiter), handled (map (fun e => TFail (snd e)) m) = [])
    by (induction m; cbn; auto). rewrite !M. reflexivity.
Qed.

Lemma connected_handles : forall s rs n d w ok,
  a_phase s = PMain ->
  let r := step s (EData rs n d w ok) in
  (a_phase (fst r) = PMain /\ handled (snd r) = received rs) \/
  (a_phase (fst r) = PDone /\ In TError (snd r) /\ exists tl, received rs = handled (snd r) ++ tl).
Proof.
  intros s rs n d w ok P r. subst r. unfold step. rewrite P.
  destruct (handle_responses (a_tracker s) rs) as [ [o k] t] eqn:E.
  destruct (responses_handled _ _ _ _ _ E) as [tl [R K] ].
  destruct k.
  - left. split; [exact P|]. cbn. rewrite R, (K eq_refl), app_nil_r. reflexivity.
  - right. cbn. splits; [reflexivity| |].
    + apply in_or_app. right. left. reflexivity.
    + exists tl. rewrite handled_app. cbn [handled]. rewrite handled_drop, app_nil_r. exact R.
Qed.

Lemma connected_tracks : forall s k u w snt,
  a_phase s = PMain -> exists tl, snd (step s (ERequest k u w snt)) = TTrack k u w :: tl.
Proof.
  intros s k u w snt P. unfold step. rewrite P. destruct (track (a_tracker s) k u w).
  destruct snt; cbn; eauto.
Qed.

Lemma rejection_kills : forall s rs n d w ok es,
  a_phase s = PHandshake ->
  let r := steps s (EData (RErrorShutdown 16 :: rs) n d w ok :: es) in
  ~ In TStream (snd r) /\ (w = WOk -> a_disk (fst r) = KillFile (n + d) (a_hash s)).
Proof.
  intros s rs n d w ok es P r. subst r.
  destruct (steps s (EData (RErrorShutdown 16 :: rs) n d w ok :: es)) as [s' o] eqn:E.
  assert (X : exists b, o = [] ++ TReject n d (match w with WOk => true | _ => false end) :: b).
  { cbn [steps] in E. unfold step in E. rewrite P in E. cbn [Z.eqb Pos.eqb] in E.
    destruct (next_stream (write_kill_file s n d w) ok) as [s1 o1].
    destruct (steps s1 es) as [s2 o2]. injection E as _ <-. cbn. eauto. }
  destruct X as [b Eo]. destruct (steps_reject _ _ _ _ _ _ _ _ _ E Eo) as [NS K]. cbn.
  split.
  - rewrite Eo. intros [X|X]; [discriminate|exact (NS X)].
  - intros ->. apply K. reflexivity.
Qed.
