From Verif Require Import Base Str_Base StatsStore_Model StatsFile_Model StatsFile_Spec StatsFile_Proofs StatsDue_Spec.
Local Open Scope list_scope. Local Open Scope Z_scope.

(** * Safety, whatever fails *)
Lemma loop_safe v old : forall l w t w', upload_loop v old l w = (Ok (Some t), w') -> (old = true -> t_start t + v_window v <= v_now v) /\ t_end t <> None.
Proof.
  induction l as [|e l IH]; intros w t w' H; cbn [upload_loop] in H; [discriminate|].
  destruct (old && (v_now v <? e_start e + v_window v)) eqn:O; [discriminate|].
  assert (D1 : old = true -> e_start e + v_window v <= v_now v). { intros ->. cbn in O. apply Z.ltb_ge in O. exact O. }
  assert (Y : forall e1 w1, e_start e1 = e_start e -> e_end e1 <> None ->
    bind (read_file (e_name e1)) (fun q => match q with Some q => ret (Some {| t_uuid := q_uuid q; t_metrics := q_metrics q; t_start := e_start e1; t_end := e_end e1 |})
                                     | None => delete_pending_upload (e1 :: l);;; upload_loop v old l end) w1 = (Ok (Some t), w') -> (old = true -> t_start t + v_window v <= v_now v) /\ t_end t <> None).
  { intros e1 w1 S N G. unfold bind at 1 in G. destruct (read_file (e_name e1) w1) as [[q| | |] w2]; try discriminate. destruct q as [q|].
    - inv G. cbn [t_start t_end]. rewrite S. auto.
    - unfold bind at 1 in G. destruct (delete_pending_upload (e1 :: l) w2) as [[x| | |] w3]; try discriminate. exact (IH _ _ _ G). }
  unfold bind at 1 in H. destruct (e_end e) as [x|] eqn:N.
  - cbn [ret] in H. apply (Y e w eq_refl ltac:(congruence) H).
  - set (e1 := {| e_name := e_name e; e_start := e_start e; e_end := Some (v_now v) |}) in *. unfold bind at 1, set_mem in H. unfold bind at 1 in H. destruct (write_index (e1 :: l) _) as [[x| | |] w2]; try discriminate. cbn [ret] in H.
    apply (Y e1 w2 eq_refl ltac:(discriminate) H).
Qed.
Lemma pending_safe v old w t w' : get_or_create_pending_upload v old w = (Ok (Some t), w') -> (old = true -> t_start t + v_window v <= v_now v) /\ t_end t <> None.
Proof. unfold get_or_create_pending_upload, bind. destruct (get_initialized w) as [[l| | |] w1]; try discriminate. apply loop_safe. Qed.
Lemma events_sent v old w (s : state) i t : In (ESent t) (snd (finish s (get_or_create_pending_upload v old w) i (upload_events v))) -> (old = true -> t_start t + v_window v <= v_now v) /\ t_end t <> None.
Proof.
  unfold finish. destruct (get_or_create_pending_upload v old w) as [[[x|]| | |] w'] eqn:E; cbn [snd upload_events]; try (intros [H|H]; [discriminate|contradiction]); try contradiction.
  destruct (v_open v); [|contradiction]. intros [H|[]]. inv H. exact (pending_safe _ _ _ _ _ E).
Qed.
Lemma attempt_sent v u w (s : state) i t : In (ESent t) (snd (finish s (attempt (complete_pending_upload u) (get_or_create_pending_upload v true) w) i (upload_events v))) -> t_start t + v_window v <= v_now v /\ t_end t <> None.
Proof.
  unfold attempt. destruct (complete_pending_upload u w) as [[x| | |] w1]; try (cbn; intros [H|H]; [discriminate|contradiction]).
  - intros H. destruct (events_sent _ _ _ _ _ _ H) as [A B]. auto.
  - intros H. destruct (events_sent _ _ _ _ _ _ H) as [A B]. auto.
Qed.
Lemma not_early s v ios b u t : In (ESent t) (snd (step s v ios (Response b u))) -> t_start t + v_window v <= v_now v.
Proof.
  cbn [step]. destruct (s_alive s); [|contradiction]. destruct (s_inflight s); [|contradiction]. unfold answered. cbn [snd]. intros [H|H]; [discriminate|]. destruct b; [|contradiction]. apply attempt_sent in H. tauto.
Qed.
Lemma always_closed s v ios o t : In (ESent t) (snd (step s v ios o)) -> t_end t <> None.
Proof.
  destruct o as [st dy n| |b u|]; cbn [step].
  - destruct (s_alive s); [|contradiction]. unfold finish. destruct (merge_delta_snapshot_to_disk _ _ _ _) as [[x| | |] w]; cbn; intros H; try contradiction; destruct H as [H|H]; try discriminate; contradiction.
  - destruct (s_alive s); [|contradiction]. destruct (s_inflight s); [contradiction|]. intros H. exact (proj2 (events_sent _ _ _ _ _ _ H)).
  - destruct (s_alive s); [|contradiction]. destruct (s_inflight s); [|contradiction]. unfold answered. cbn [snd]. intros [H|H]; [discriminate|]. destruct b; [|contradiction]. apply attempt_sent in H. tauto.
  - intros [H|[]]. discriminate.
Qed.

(** * If nothing fails *)
Lemma loop_sends v old e q rest : forall pre d m, ~ In (e_name e) (map e_name pre) -> (forall x y, In x pre -> d_files d (e_name x) <> FReq y) -> d_files d (e_name e) = FReq q ->
  (old = true -> Forall (due v) (pre ++ [e])) -> exists w, upload_loop v old (pre ++ e :: rest) (W d m) = (Ok (Some (upload_of v e q)), w).
Proof.
  induction pre as [|x pre IH]; intros d m N U F O; cbn [app upload_loop].
  - assert (G : old && (v_now v <? e_start e + v_window v) = false).
    { destruct old; auto. specialize (O eq_refl). inv O. unfold due in H1. apply Z.ltb_ge. exact H1. }
    rewrite G. unfold upload_of. destruct (e_end e) as [z|] eqn:E.
    + cbn [bind ret]. unfold bind, read_file, bind, next_io. cbn [ret w_io W w_disk]. rewrite F. unfold ret. rewrite E. eauto.
    + unfold bind, set_mem, write_index, read_file, bind, next_io, put_index, set_disk, ret. cbn. rewrite F. eauto.
  - assert (G : old && (v_now v <? e_start x + v_window v) = false).
    { destruct old; auto. specialize (O eq_refl). cbn [app] in O. inv O. unfold due in H1. apply Z.ltb_ge. exact H1. }
    rewrite G. assert (O2 : old = true -> Forall (due v) (pre ++ [e])) by (intros X; specialize (O X); cbn [app] in O; inv O; auto).
    assert (NX : e_name x <> e_name e) by (intros X; apply N; left; exact X). assert (N2 : ~ In (e_name e) (map e_name pre)) by (intros X; apply N; right; exact X).
    assert (R : forall i, exists w, upload_loop v old (pre ++ e :: rest) (W (D i (set_file (d_files d) (e_name x) FNone)) (MInit (pre ++ e :: rest))) = (Ok (Some (upload_of v e q)), w)).
    { intros i. apply IH; auto.
      - intros y z Hy. cbn [D d_files]. unfold set_file. destruct (String.eqb (e_name y) (e_name x)); [discriminate|]. apply U. right. exact Hy.
      - cbn [D d_files]. unfold set_file. destruct (String.eqb_spec (e_name e) (e_name x)); [congruence|exact F]. }
    pose proof (U x) as UX. destruct (e_end x) as [z|].
    + destruct (R (IGood (pre ++ e :: rest))) as (w & R1). exists w. rewrite <- R1. unfold bind, read_file, bind, next_io. cbn [ret w_io W w_disk].
      destruct (d_files d (e_name x)) as [| |y] eqn:FX; [reflexivity|reflexivity|elim (UX y (or_introl eq_refl) eq_refl)].
    + destruct (R (IGood (pre ++ e :: rest))) as (w & R1). exists w. rewrite <- R1. unfold bind, set_mem, write_index, read_file, bind, next_io, put_index, set_disk, ret. cbn [w_io W w_disk w_mem d_index d_files e_name].
      destruct (d_files d (e_name x)) as [| |y] eqn:FX; [reflexivity|reflexivity|elim (UX y (or_introl eq_refl) eq_refl)].
Qed.
Lemma run_ninv : forall os s, ninv s -> no_write_errors os -> Forall (fun x => 2 <= v_max (fst (fst x))) os -> ninv (fst (run s os)).
Proof.
  induction os as [| [ [v ios] o] os IH]; intros s I K V; [exact I|]. inversion K as [|? ? K1 K2]; subst. inversion V as [|? ? V1 V2]; subst. cbn [fst snd] in *.
  destruct (step_ninv s v ios o V1 K1 I) as [I' _]. cbn [run]. destruct (step s v ios o) as [s1 t1]. cbn [fst] in I'. specialize (IH s1 I' K2 V2). destruct (run s1 os). exact IH.
Qed.
Lemma healthy_index s : healthy s -> s_alive s = true /\ s_mem s <> MTaken /\ NoDup (map e_name (index s)) /\ match s_mem s with MInit l => synced l (W (s_disk s) (s_mem s)) | _ => True end.
Proof.
  intros (os & K & V & N & ->). assert (C0 : consistent []) by (intros x y []). destruct (run_inv os [] [] init init_inv C0 K N ltac:(auto)) as [[Dv R] _].
  assert (I0 : ninv init) by (apply restarted_ninv; exact Logic.I).
  destruct (run_ninv os init I0 K V) as [A _ G _]. specialize (R A). assert (T : s_mem (fst (run init os)) <> MTaken) by (intros X; rewrite X in G; exact G).
  split; [exact A|]. split; [exact T|]. unfold index, ready, start in *. cbn [w_mem] in R. destruct (s_mem (fst (run init os))) as [| |l] eqn:M; [|congruence|].
  - split; [|exact Logic.I]. destruct Dv as [_ I']. destruct (d_index _); try constructor. apply I'.
  - split; [|exact R]. apply (synced_iinv _ _ l {| w_disk := s_disk (fst (run init os)); w_mem := MInit l; w_io := [] |} Dv R).
Qed.
Lemma init_here s e l : healthy s -> index s = e :: l -> get_initialized (start s []) = (Ok (e :: l), W (s_disk s) (MInit (e :: l))).
Proof.
  intros H E. destruct (healthy_index s H) as (_ & T & _ & S). rewrite start_W. destruct (init_eq (s_disk s) (s_mem s) T S) as (d' & I1 & _ & I2).
  change (idx (s_disk s) (s_mem s)) with (index s) in *. rewrite E in *. destruct I2 as [->|[X _]]; [exact I1|discriminate].
Qed.
Lemma split_nodup (e : entry) pre rest : NoDup (map e_name (pre ++ e :: rest)) -> ~ In (e_name e) (map e_name pre).
Proof. rewrite map_app. cbn [map]. intros N X. apply NoDup_remove_2 in N. apply N. apply in_or_app. auto. Qed.
Lemma tick_sends s v pre e rest q : healthy s -> s_inflight s = None -> v_open v = true -> index s = pre ++ e :: rest -> Forall (unreadable s) pre -> d_files (s_disk s) (e_name e) = FReq q ->
  snd (step s v [] UploadTick) = [ESent (upload_of v e q)].
Proof.
  intros H F O I U Q. destruct (healthy_index s H) as (A & _ & N & _). cbn [step]. rewrite A, F. rewrite I in N.
  destruct (loop_sends v false e q rest pre (s_disk s) (MInit (pre ++ e :: rest)) (split_nodup _ _ _ N)) as (w & L); auto; [|discriminate|].
  { intros x y Hx. rewrite Forall_forall in U. exact (U x Hx y). }
  assert (G : get_initialized (start s []) = (Ok (pre ++ e :: rest), W (s_disk s) (MInit (pre ++ e :: rest)))).
  { destruct pre as [|x pre]; exact (init_here s _ _ H I). }
  unfold get_or_create_pending_upload, bind. rewrite G, L. cbn [finish snd upload_events]. rewrite O. reflexivity.
Qed.
Lemma after_answer s v u u0 e0 l : healthy s -> s_inflight s = Some u0 -> index s = e0 :: l -> e_name e0 = u ->
  exists d, d = D (IGood l) (set_file (d_files (s_disk s)) u FNone) /\ snd (step s v [] (Response true u)) = EAnswer true :: snd (finish s (upload_loop v true l (W d (MInit l))) (upload_inflight v) (upload_events v)).
Proof.
  intros H F I <-. destruct (healthy_index s H) as (A & _ & _ & _). eexists. split; [reflexivity|]. cbn [step]. rewrite A, F. unfold answered. cbn [snd]. f_equal. f_equal.
  unfold attempt, complete_pending_upload, bind at 1. rewrite (init_here s _ _ H I). rewrite String.eqb_refl. reflexivity.
Qed.
Lemma next_sends s v u u0 e0 pre e rest q : healthy s -> s_inflight s = Some u0 -> v_open v = true -> index s = e0 :: pre ++ e :: rest -> e_name e0 = u -> Forall (unreadable s) pre ->
  d_files (s_disk s) (e_name e) = FReq q -> Forall (due v) (pre ++ [e]) -> snd (step s v [] (Response true u)) = [EAnswer true; ESent (upload_of v e q)].
Proof.
  intros H F O I E U Q Du. destruct (healthy_index s H) as (A & _ & N & _). rewrite I in N. cbn [map] in N. inversion N as [|? ? N1 N2]; subst. destruct (after_answer s v _ u0 e0 _ H F I eq_refl) as (d & Ed & ->). subst d.
  destruct (loop_sends v true e q rest pre (D (IGood (pre ++ e :: rest)) (set_file (d_files (s_disk s)) (e_name e0) FNone)) (MInit (pre ++ e :: rest)) (split_nodup _ _ _ N2)) as (w & L); auto.
  - intros x y Hx. cbn [D d_files]. unfold set_file. destruct (String.eqb _ _); [discriminate|]. rewrite Forall_forall in U. exact (U x Hx y).
  - cbn [D d_files]. unfold set_file. destruct (String.eqb_spec (e_name e) (e_name e0)) as [X|]; [|exact Q]. elim N1. rewrite <- X. apply in_map. apply in_or_app. right. left. reflexivity.
  - rewrite L. cbn [finish snd upload_events]. rewrite O. reflexivity.
Qed.
Lemma next_waits s v u u0 e0 e rest : healthy s -> s_inflight s = Some u0 -> index s = e0 :: e :: rest -> e_name e0 = u -> ~ due v e -> snd (step s v [] (Response true u)) = [EAnswer true].
Proof.
  intros H F I E Du. destruct (after_answer s v _ u0 e0 _ H F I E) as (d & _ & ->). cbn [upload_loop]. assert (G : v_now v <? e_start e + v_window v = true) by (apply Z.ltb_lt; unfold due in Du; lia). rewrite G. reflexivity.
Qed.
