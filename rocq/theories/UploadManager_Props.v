From Verif Require Import Base BufferManager_Model BufferManager_Spec
  UploadManager_Model UploadManager_Spec UploadManager_Proofs UploadManagerUse_Proofs.
Local Open Scope Z_scope.

(* C65: in every execution at most one task reads a buffer object, at most one upload of
   a trigger buffer is under way, and the manager never dies of a second consumer *)
Theorem C65_one_upload : forall (order : bufs -> bufs), (forall m, Permutation (order m) m) ->
  forall cs s, reach order cs s ->
  (forall t1 t2, In t1 (um_tasks s) -> In t2 (um_tasks s) -> consuming t1 -> consuming t2 ->
     tk_h t1 = tk_h t2 -> t1 = t2) /\
  (forall t1 t2, In t1 (um_tasks s) -> In t2 (um_tasks s) -> uploading t1 -> uploading t2 ->
     tk_buf t1 = tk_buf t2 -> t1 = t2) /\
  um_mode s <> MStopped.
Proof. exact one_upload. Qed.
Print Assumptions C65_one_upload.

(* C65: a request starts exactly one upload for every requested trigger buffer that is
   known and has no upload under way *)
Theorem C65_started : forall (order : bufs -> bufs), (forall m, Permutation (order m) m) ->
  forall cs s ids, reach order cs s -> um_mode s = MIdle ->
  exists s' new, ustep order s (UTrigger ids) = Some s' /\
    um_tasks s' = um_tasks s ++ new /\
    um_reqs s' = um_reqs s ++ [mkRequest ids (map tk_id new)] /\
    um_mode s' = MIdle /\
    NoDup (map tk_buf new) /\
    (forall t, In t new -> tk_kind t = TKTrigger (length (um_reqs s)) /\ tk_st t = TReading /\
       aget (tk_buf t) (um_trig s) = Some (tk_h t)) /\
    (forall i, In i (map tk_buf new) <->
       In i ids /\ aget i (um_trig s) <> None /\
       ~ exists t, In t (um_tasks s) /\ uploading t /\ tk_buf t = i).
Proof. exact started. Qed.
Print Assumptions C65_started.

(* C65: a request is answered at most once, only when all uploads it started are over,
   and it can be answered as soon as they are *)
Theorem C65_answer : forall (order : bufs -> bufs), (forall m, Permutation (order m) m) ->
  forall cs s, reach order cs s ->
  NoDup (um_answers s) /\
  (forall r, In r (um_answers s) -> exists q, nth_error (um_reqs s) r = Some q /\
     forall t, In t (um_tasks s) -> tk_kind t = TKTrigger r -> ~ consuming t) /\
  (forall r q, nth_error (um_reqs s) r = Some q -> ~ In r (um_answers s) ->
     (forall t, In t (um_tasks s) -> tk_kind t = TKTrigger r -> ~ consuming t) ->
     exists s', ustep order s (UAnswer r) = Some s' /\ um_answers s' = r :: um_answers s).
Proof. exact answers. Qed.
Print Assumptions C65_answer.

(* C65: ... but a request for a buffer whose upload an earlier request started is
   answered while that upload is still running *)
Theorem C65_early_answer_refuted : forall (order : bufs -> bufs),
  (forall m, Permutation (order m) m) ->
  exists ls t, let s := urun order um_new ls in
    um_answers s = [1%nat] /\ nth_error (um_reqs s) 1 = Some (mkRequest [1] []) /\
    um_tasks s = [t] /\ tk_buf t = 1 /\ tk_kind t = TKTrigger 0 /\ consuming t.
Proof. exact early_answer. Qed.
Print Assumptions C65_early_answer_refuted.

(* C79: whenever no update is under way the upload manager agrees with the buffer manager:
   it knows exactly the trigger buffers, it has started an upload for every continuous
   buffer and for the stream buffer, and no upload reads a buffer that was removed *)
Theorem C79_agreement : forall (order : bufs -> bufs), (forall m, Permutation (order m) m) ->
  forall cs s, reach order cs s -> (forall c, In c cs -> NoDup (conf_ids c)) -> um_api s = None ->
  (forall i h, aget i (um_trig s) = Some h <-> bfind i (bm_bufs (um_bm s)) = Some (BTrigger, h)) /\
  (forall i h, bfind i (bm_bufs (um_bm s)) = Some (BContinuous, h) ->
     exists t, In t (um_tasks s) /\ tk_kind t = TKContinuous /\ tk_buf t = i /\ tk_h t = h) /\
  (forall h, bm_stream (um_bm s) = Some h ->
     exists t, In t (um_tasks s) /\ tk_kind t = TKStream /\ tk_h t = h) /\
  (forall t, In t (um_tasks s) -> consuming t -> current s t).
Proof. exact view. Qed.
Print Assumptions C79_agreement.

(* C79: an update can always go on by itself, unless the manager waits for a trigger
   upload of a removed buffer *)
Theorem C79_progress : forall (order : bufs -> bufs), (forall m, Permutation (order m) m) ->
  forall cs s, reach order cs s -> um_api s <> None ->
  (exists l s', internal l /\ ustep order s l = Some s') \/
  (exists n i t r, um_mode s = MWait n (Some i) /\ In t (um_tasks s) /\ tk_id t = n /\ tk_buf t = i /\
     tk_kind t = TKTrigger r /\ consuming t).
Proof. exact progress. Qed.
Print Assumptions C79_progress.

(* C79: when no running trigger upload reads a buffer that is to be removed, the update
   needs a bounded number of steps of its own, whatever order they are taken in, and ends
   with the update complete *)
Theorem C79_completes_partial : forall (order : bufs -> bufs), (forall m, Permutation (order m) m) ->
  forall cs s, reach order cs s ->
  (forall t r, In t (um_tasks s) -> tk_kind t = TKTrigger r -> consuming t ->
     ~ In (BRemoved (tk_buf t)) (match um_chan s with Some e => [e] | None => [] end
                                 ++ match um_api s with Some l => l | None => [] end) /\
     forall i, um_mode s <> MWait (tk_id t) i) ->
  exists bound, forall ls s', Forall internal ls -> steps order s ls = Some s' ->
  (length ls <= bound)%nat /\
  (um_api s' <> None -> exists l s2, internal l /\ ustep order s' l = Some s2) /\
  exists ls2 s2, Forall internal ls2 /\ steps order s' ls2 = Some s2 /\ um_api s2 = None.
Proof. exact completes. Qed.
Print Assumptions C79_completes_partial.

(* C79: a configuration that removes a trigger buffer while its upload waits for a
   response is never finished, whatever happens: the API task waits for the upload
   manager, the upload manager for the upload and the upload for the API task *)
Theorem C79_deadlock_refuted : forall (order : bufs -> bufs),
  (forall m, Permutation (order m) m) ->
  exists before c, NoDup (conf_ids c) /\
    let s := urun order um_new before in
    um_api s = None /\
    (exists t, um_tasks s = [t] /\ uploading t /\
       bfind (tk_buf t) (bm_bufs (um_bm s)) = Some (BTrigger, tk_h t)) /\
    forall later, um_api (urun order s (UConfig c :: USend :: UHandle :: later)) <> None /\
      um_answers (urun order s (UConfig c :: USend :: UHandle :: later)) = [].
Proof. exact deadlock. Qed.
Print Assumptions C79_deadlock_refuted.

(* --- non-trivial cases --- *)
Definition ex_order : bufs -> bufs := fun m => rev m.
Definition ex_conf (l : list (Z * btype)) (st : bool) : conf :=
  mkConf (map (fun e => mkBconf (fst e) (Some (snd e))) l) st (fun _ => true).

Example ex_order_perm : forall m, Permutation (ex_order m) m.
Proof. intros m. apply Permutation_sym, Permutation_rev. Qed.

(* two trigger buffers, a continuous one and streaming; one upload answered, the other
   still running when its buffer stays and others go *)
Definition ex_labels : list label :=
  [UConfig (ex_conf [(1, BTrigger); (2, BContinuous); (3, BTrigger)] true);
   USend; UHandle; USend; UHandle; USend; UTrigger [1]; UHandle; USend; UHandle; UReturn;
   UTrigger [3; 1; 7; 3]; UUpload 1; UEnd 3; URespond 1; UEnd 1; UAnswer 0; UComplete 1;
   UConfig (ex_conf [(1, BTrigger)] false); USend; UHandle].

Lemma ex_reach_steps (order : bufs -> bufs) ls : forall cs s s', reach order cs s -> steps order s ls = Some s' ->
  reach order (cs ++ flat_map (fun l => match l with UConfig c => [c] | _ => [] end) ls) s'.
Proof.
  induction ls as [|l ls IH]; cbn; intros cs s s' R H.
  - inv H. rewrite app_nil_r. auto.
  - destruct (ustep order s l) as [s1|] eqn:E; [|discriminate]. rewrite app_assoc.
    eapply IH; eauto. eapply reach_step; eauto.
Qed.

Example ex_state : exists s cs, steps ex_order um_new ex_labels = Some s /\ reach ex_order cs s /\
  (forall c, In c cs -> NoDup (conf_ids c)) /\
  um_answers s = [0%nat] /\ um_mode s = MWait 0 (Some 2) /\ um_api s = Some [BRemoved 3; BStreamRemoved 3] /\
  map tk_buf (um_tasks s) = [2; 1; -1; 3] /\
  map tk_st (um_tasks s) = [TReading; TDone; TReading; TSignalled] /\
  (forall t r, In t (um_tasks s) -> tk_kind t = TKTrigger r -> consuming t ->
     ~ In (BRemoved (tk_buf t)) (match um_chan s with Some e => [e] | None => [] end
                                 ++ match um_api s with Some l => l | None => [] end) /\
     forall i, um_mode s <> MWait (tk_id t) i) /\
  exists s2, steps ex_order s [UStop 0; UResume; USend; UHandle; USend; UHandle; UStop 2; UResume; UReturn]
             = Some s2 /\ um_api s2 = None /\ um_trig s2 = [(1, 0%nat)].
Proof.
  eexists _, _. split; [vm_compute; reflexivity|]. split.
  - eapply (ex_reach_steps ex_order ex_labels [] um_new); [apply reach_new|vm_compute; reflexivity].
  - splits; try reflexivity.
    + intros c [<-|[<-|[]]]; vm_compute; repeat constructor; cbn; intuition congruence.
    + intros t r [<-|[<-|[<-|[<-|[]]]]] K C; try discriminate; destruct C; discriminate.
    + eexists. split; [vm_compute; reflexivity|]. split; reflexivity.
Qed.
