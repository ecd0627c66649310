From Verif Require Import Base BufferManager_Model BufferManager_Spec BufferManager_Proofs.
Local Open Scope Z_scope.

(* C77: a configuration update leaves exactly the configured buffers, keeps the ones
   that were there, creates the others, announces removals before creations, and
   changes nothing when it fails.  [order] is the iteration order of the hash map. *)
Theorem C77_update : forall (order : bufs -> bufs), (forall m, Permutation (order m) m) ->
  forall history s evs mk, run_confs order bm_new history = (s, evs, mk) ->
  forall c, NoDup (conf_ids c) ->
  let u := apply_conf order s c in
  let before := fun i => bfind i (bm_bufs s) in
  let after := fun i => bfind i (bm_bufs (u_state u)) in
  (u_ok u = true <-> usable (fun i => before i <> None) c) /\
  (u_ok u = false ->
     (forall i, after i = before i) /\ bm_stream (u_state u) = bm_stream s /\
     u_events u = [] /\ u_marked u = []) /\
  (u_ok u = true ->
     (forall i, after i <> None <-> In i (conf_ids c)) /\
     (forall i v, In i (conf_ids c) -> before i = Some v -> after i = Some v) /\
     (forall i t h, before i = None -> after i = Some (t, h) ->
        conf_type c i t /\ ~ ev_handles evs h) /\
     exists gone new strm,
       u_events u = map BRemoved gone
                    ++ map (fun e => BCreated (fst (snd e)) (fst e) (snd (snd e))) new ++ strm /\
       NoDup gone /\ NoDup (map fst new) /\ NoDup (map (fun e => snd (snd e)) new) /\
       (forall i, In i gone <-> before i <> None /\ ~ In i (conf_ids c)) /\
       (forall i t h, In (i, (t, h)) new <-> before i = None /\ after i = Some (t, h)) /\
       match bm_stream s, cf_streaming c with
       | Some h, true => strm = [] /\ bm_stream (u_state u) = Some h
       | None, false => strm = [] /\ bm_stream (u_state u) = None
       | Some h, false => strm = [BStreamRemoved h] /\ bm_stream (u_state u) = None
       | None, true => exists h, strm = [BStreamAdded h] /\ bm_stream (u_state u) = Some h /\
                                 ~ ev_handles evs h
       end /\
       (forall h, In h (u_marked u) <->
          exists i t, before i = Some (t, h) /\ ~ In i (conf_ids c))).
Proof. exact update_history. Qed.
Print Assumptions C77_update.

(* C77: a listener that sees only the events knows exactly the buffers there are *)
Theorem C77_announced : forall (order : bufs -> bufs), (forall m, Permutation (order m) m) ->
  forall history s evs mk, run_confs order bm_new history = (s, evs, mk) ->
  (forall c, In c history -> NoDup (conf_ids c)) ->
  (forall i, announced evs i None = bfind i (bm_bufs s)) /\
  announced_stream evs None = bm_stream s /\
  orderly evs [].
Proof. exact announced_history. Qed.
Print Assumptions C77_announced.

(* C77: the type a later configuration gives to a buffer that exists is ignored *)
Theorem C77_type_change_refuted : forall order : bufs -> bufs,
  (forall m, Permutation (order m) m) ->
  exists c1 c2, NoDup (conf_ids c1) /\ NoDup (conf_ids c2) /\ conf_type c2 1 BTrigger /\
    let s := u_state (apply_conf order bm_new c1) in
    u_ok (apply_conf order s c2) = true /\
    u_events (apply_conf order s c2) = [] /\
    exists h, bfind 1 (bm_bufs (u_state (apply_conf order s c2))) = Some (BContinuous, h).
Proof. exact type_change. Qed.
Print Assumptions C77_type_change_refuted.

(* C77: an id listed twice opens a second ring buffer over the file of the first, which
   nobody was told to stop using *)
Theorem C77_repeated_id_refuted : forall order : bufs -> bufs,
  (forall m, Permutation (order m) m) ->
  exists c1 c2 h1 h2, h1 <> h2 /\
    let s := u_state (apply_conf order bm_new c1) in
    bfind 1 (bm_bufs s) = Some (BContinuous, h1) /\
    u_ok (apply_conf order s c2) = true /\
    u_events (apply_conf order s c2) = [BCreated BContinuous 1 h2] /\
    u_opened (apply_conf order s c2) = [(1, h2, false)] /\
    u_marked (apply_conf order s c2) = [].
Proof. exact repeated_id. Qed.
Print Assumptions C77_repeated_id_refuted.

(* C76: as long as the requested buffers stay configured, the flush task answers every
   request, in order *)
Theorem C76_answered_partial : forall (order : bufs -> bufs),
  (forall m, Permutation (order m) m) ->
  forall h,
  (forall p ids a q, h = p ++ FRequest ids a :: q ->
     (forall i, In i ids -> bfind i (bm_bufs (fs_bm (frun order fsys_new p))) <> None) /\
     (forall c i, In (FUpdate c) q -> In i ids -> In i (conf_ids c))) ->
  fs_alive (frun order fsys_new h) = true /\
  (exists later, acks (fs_log (frun order fsys_new h)) ++ later = wanted h) /\
  forall n, (length (fs_chan (frun order fsys_new h)) <= n)%nat ->
    acks (fs_log (frun order fsys_new (h ++ repeat FServe n))) = wanted h.
Proof. exact answered_history. Qed.
Print Assumptions C76_answered_partial.

(* C76: what one request does: named buffers are flushed in order and then the answer is
   sent; no names: all buffers and the stream buffer; an unknown name: no answer and the
   task is over *)
Theorem C76_request : forall (order : bufs -> bufs), (forall m, Permutation (order m) m) ->
  forall h ids a q, let s := frun order fsys_new h in
  fs_alive s = true -> fs_chan s = (ids, a) :: q ->
  let s' := frun order s [FServe] in
  (ids <> [] -> (forall i, In i ids -> bfind i (bm_bufs (fs_bm s)) <> None) ->
     fs_alive s' = true /\ exists l, fs_log s' = fs_log s ++ l ++ map FAck (one a) /\
       Forall2 (fun i e => exists t h, bfind i (bm_bufs (fs_bm s)) = Some (t, h) /\
                                       e = FFlushed h) ids l) /\
  (ids = [] ->
     fs_alive s' = true /\ exists l, fs_log s' = fs_log s ++ l ++ map FAck (one a) /\
       Permutation l (map (fun e => FFlushed (snd (snd e))) (bm_bufs (fs_bm s))
                      ++ match bm_stream (fs_bm s) with Some h => [FStream h] | None => [] end)) /\
  ((exists i, In i ids /\ bfind i (bm_bufs (fs_bm s)) = None) ->
     fs_alive s' = false /\ acks (fs_log s') = acks (fs_log s)).
Proof. exact request_history. Qed.
Print Assumptions C76_request.

(* C76: one request for a buffer that has just been removed ends the task: no later
   request of any kind is ever answered *)
Theorem C76_removed_buffer_refuted : forall order : bufs -> bufs,
  (forall m, Permutation (order m) m) ->
  exists c1 c2, NoDup (conf_ids c1) /\ NoDup (conf_ids c2) /\
  let h := [FUpdate c1; FRequest [1] (Some 0%nat); FServe; FUpdate c2;
            FRequest [1] (Some 1%nat); FServe] in
  (forall i, i = 1 -> In i (conf_ids c1)) /\
  forall later, acks (fs_log (frun order fsys_new (h ++ later))) = [0%nat].
Proof. exact removed_buffer. Qed.
Print Assumptions C76_removed_buffer_refuted.

(* --- non-trivial cases --- *)
Definition ex_order : bufs -> bufs := fun m => rev m.
Definition ex_conf (l : list (Z * btype)) (st : bool) : conf :=
  mkConf (map (fun e => mkBconf (fst e) (Some (snd e))) l) st (fun _ => true).
Definition ex_history : list conf :=
  [ex_conf [(1, BContinuous); (2, BTrigger); (3, BTrigger)] false; ex_conf [(3, BTrigger); (4, BContinuous)] true].

Example ex_order_perm : forall m, Permutation (ex_order m) m.
Proof. intros m. apply Permutation_sym, Permutation_rev. Qed.

Example ex_run : exists s evs mk,
  run_confs ex_order bm_new ex_history = (s, evs, mk) /\
  evs = [BCreated BContinuous 1 0; BCreated BTrigger 2 1; BCreated BTrigger 3 2;
         BRemoved 1; BRemoved 2; BCreated BContinuous 4 3; BStreamAdded 4] /\
  mk = [0%nat; 1%nat] /\ bfind 3 (bm_bufs s) = Some (BTrigger, 2%nat) /\
  (forall c, In c ex_history -> NoDup (conf_ids c)).
Proof.
  eexists _, _, _. split; [vm_compute; reflexivity|]. splits; try reflexivity.
  intros c [<-|[<-|[]]]; vm_compute; repeat constructor; cbn; intuition congruence.
Qed.

Example ex_flush :
  let h := [FUpdate (ex_conf [(1, BContinuous); (2, BTrigger)] true);
            FRequest [2] (Some 0%nat); FRequest [] (Some 1%nat);
            FUpdate (ex_conf [(2, BTrigger)] true); FServe] in
  (forall p ids a q, h = p ++ FRequest ids a :: q ->
     (forall i, In i ids -> bfind i (bm_bufs (fs_bm (frun ex_order fsys_new p))) <> None) /\
     (forall c i, In (FUpdate c) q -> In i ids -> In i (conf_ids c))) /\
  acks (fs_log (frun ex_order fsys_new h)) = [0%nat] /\
  fs_log (frun ex_order fsys_new (h ++ [FServe]))
  = [FFlushed 1; FAck 0; FFlushed 1; FStream 2; FAck 1].
Proof.
  intros h. split; [|split; reflexivity].
  intros p ids a q E. unfold h in E.
  destruct p as [|o1 [|o2 [|o3 [|o4 [|o5 [|o6 p]]]]]]; cbn in E; inv E.
  - split; [intros i [<-|[]]; vm_compute; discriminate|].
    intros c i [X|[X|[X|[]]]] Y; inv X. cbn in *. tauto.
  - split; [intros i []|intros c i _ []].
Qed.
