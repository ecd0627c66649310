(** C41, C42 and C68: statistics on disk. *)
From Verif Require Import Base Str_Base StatsStore_Model StatsFile_Model StatsFile_Spec StatsFile_Proofs.
Local Open Scope string_scope.
Local Open Scope list_scope.
Local Open Scope Z_scope.

(** Two uploads with the same identifier are the same, also across restarts and
    crashes, if writes do not fail and new identifiers are new. *)
Theorem C41_unchanging_partial : forall os a b, no_write_errors os -> NoDup (names os) ->
  In (ESent a) (snd (run init os)) -> In (ESent b) (snd (run init os)) -> t_uuid a = t_uuid b -> a = b.
Proof. exact unchanging. Qed.
Print Assumptions C41_unchanging_partial.

(** What was sent is not changed while it is on disk. *)
Theorem C41_frozen : forall os t e q, no_write_errors os -> NoDup (names os) ->
  In (ESent t) (snd (run init os)) ->
  In e (index (fst (run init os))) -> e_name e = t_uuid t ->
  s_alive (fst (run init os)) = true ->
  d_files (s_disk (fst (run init os))) (e_name e) = FReq q ->
  q_metrics q = t_metrics t /\ e_start e = t_start t /\ e_end e = t_end t.
Proof. exact frozen. Qed.
Print Assumptions C41_frozen.

(** Between two uploads the first one is answered, or the process is started again. *)
Theorem C41_one_in_flight : forall os t1 x mid y t2,
  snd (run init os) = t1 ++ ESent x :: mid ++ ESent y :: t2 ->
  (exists su, In (EAnswer su) mid) \/ In ERestart mid.
Proof. exact one_in_flight. Qed.
Print Assumptions C41_one_in_flight.

(** The index never has more files than the limit, whatever fails. *)
Theorem C41_index_bounded : forall os N, 0 <= N -> Forall (fun x => v_max (fst (fst x)) = N) os ->
  Z.of_nat (List.length (index (fst (run init os)))) <= N.
Proof. exact index_bounded. Qed.
Print Assumptions C41_index_bounded.

(** If nothing fails there are no other files. *)
Theorem C41_files_in_index_partial : forall k os n, no_failures os -> Forall (fun x => well_kinded k (snd x)) os ->
  NoDup (names os) -> ~ In EPanic (snd (run init os)) ->
  d_files (s_disk (fst (run init os))) n <> FNone -> In n (map e_name (index (fst (run init os)))).
Proof. exact files_indexed. Qed.
Print Assumptions C41_files_in_index_partial.

Definition at_ (t : Z) : env := {| v_now := t; v_max := 2; v_window := 10; v_open := true |}.
Definition cnt (n : Z) : metrics := [("a", MCounter n)].
Definition f1 n nm : op := Flush (cnt n) [] nm.

(** Flushes, an upload that fails and is repeated after a restart with the same
    content, a crash in a write, an upload that succeeds, and an eviction. *)
Definition story : history :=
  [(at_ 0, [], f1 1 "u1"); (at_ 5, [], f1 2 "u2"); (at_ 6, [], UploadTick);
   (at_ 7, [], f1 4 "u3"); (at_ 8, [], Response false "u1"); (at_ 8, [], Restart);
   (at_ 9, [], UploadTick); (at_ 9, [IoOk; IoCrash true []], f1 8 "u4");
   (at_ 10, [], UploadTick); (at_ 11, [], f1 16 "u5"); (at_ 12, [], Response true "u1");
   (at_ 50, [], f1 32 "u6"); (at_ 61, [], f1 64 "u7"); (at_ 72, [], f1 128 "u8"); (at_ 73, [], UploadTick)].
Example C41_story :
  snd (run init story) =
    [ESent {| t_uuid := "u1"; t_metrics := cnt 3; t_start := 0; t_end := Some 6 |}; EAnswer false; ERestart;
     ESent {| t_uuid := "u1"; t_metrics := cnt 3; t_start := 0; t_end := Some 6 |}; ERestart;
     ESent {| t_uuid := "u1"; t_metrics := cnt 3; t_start := 0; t_end := Some 6 |}; EAnswer true;
     ESent {| t_uuid := "u7"; t_metrics := cnt 64; t_start := 61; t_end := Some 72 |}] /\
  no_write_errors story /\ NoDup (names story).
Proof.
  splits.
  - vm_compute. reflexivity.
  - repeat constructor; discriminate.
  - vm_compute. repeat constructor; cbn; intuition discriminate.
Qed.

(** If a write of the index fails, the end of a file is only in memory. It is sent,
    and after a restart more data is added to it and sent with the same
    identifier. *)
Theorem C41_write_error_refuted : exists os a b,
  NoDup (names os) /\ In (ESent a) (snd (run init os)) /\ In (ESent b) (snd (run init os)) /\
  t_uuid a = t_uuid b /\ t_metrics a <> t_metrics b.
Proof.
  exists [(at_ 0, [], f1 1 "u1"); (at_ 1, [IoWriteErr false], UploadTick); (at_ 2, [], UploadTick);
          (at_ 3, [], Restart); (at_ 4, [], f1 2 "u2"); (at_ 5, [], UploadTick)].
  exists {| t_uuid := "u1"; t_metrics := cnt 1; t_start := 0; t_end := Some 1 |}.
  exists {| t_uuid := "u1"; t_metrics := cnt 3; t_start := 0; t_end := Some 5 |}.
  splits.
  - vm_compute. repeat constructor; cbn; intuition discriminate.
  - vm_compute. auto.
  - vm_compute. auto.
  - reflexivity.
  - discriminate.
Qed.
Print Assumptions C41_write_error_refuted.

(** If the limit is lowered, one file at most is removed for each new one: the index
    stays longer than the limit. *)
Theorem C41_lowered_limit_refuted : exists os v n,
  v_max v = 1 /\ no_failures (os ++ [(v, [], n)]) /\
  Z.of_nat (List.length (index (fst (run init (os ++ [(v, [], n)]))))) > v_max v.
Proof.
  exists (map (fun t => ({| v_now := t; v_max := 3; v_window := 10; v_open := true |}, [],
                         f1 1 (String (Ascii.ascii_of_nat (Z.to_nat (t / 20) + 48)) ""))) [0; 20; 40]).
  exists {| v_now := 60; v_max := 1; v_window := 10; v_open := true |}, (f1 1 "x").
  splits; [reflexivity| |].
  - repeat constructor.
  - vm_compute. reflexivity.
Qed.
Print Assumptions C41_lowered_limit_refuted.

(** If a file cannot be read once and there is nothing to add, the file is
    forgotten but stays on disk. *)
Theorem C41_orphan_refuted : exists os n,
  no_write_errors os /\ NoDup (names os) /\ ~ In EPanic (snd (run init os)) /\
  d_files (s_disk (fst (run init os))) n <> FNone /\ index (fst (run init os)) = [].
Proof.
  exists [(at_ 0, [], f1 1 "u1"); (at_ 1, [IoReadErr], Flush [] [] "u2")], "u1".
  splits.
  - repeat constructor; discriminate.
  - vm_compute. repeat constructor; cbn; intuition discriminate.
  - vm_compute. tauto.
  - vm_compute. discriminate.
  - vm_compute. reflexivity.
Qed.
Print Assumptions C41_orphan_refuted.

(** What was flushed is on disk, or in a file that has left the index (modulo 2^64,
    as counters wrap). *)
Theorem C42_conserved : forall k os i, no_failures os -> Forall (fun x => well_kinded k (snd x)) os ->
  NoDup (names os) -> ~ In EPanic (snd (run init os)) ->
  (stored (fst (run init os)) i + gone_all init os i) mod U64 = flushed_all i os mod U64.
Proof. exact conserved. Qed.
Print Assumptions C42_conserved.

(** A file that contains something leaves the index only as the oldest one, when
    there are too many, or when it is acknowledged; and an answer to the upload in
    flight acknowledges what was sent. *)
Theorem C42_left_only : forall k os v o n i,
  no_failures os -> Forall (fun x => well_kinded k (snd x)) (os ++ [(v, [], o)]) ->
  NoDup (names (os ++ [(v, [], o)])) -> ~ In EPanic (snd (run init (os ++ [(v, [], o)]))) ->
  let s := fst (run init os) in let s' := fst (step s v [] o) in
  In n (map e_name (index s)) -> ~ In n (map e_name (index s')) -> in_file s i n <> 0 ->
  (exists e r, index s = e :: r /\ n = e_name e) /\
  ((exists st dy nm, o = Flush st dy nm /\ v_max v <= Z.of_nat (List.length (index s))) \/
   (o = Response true n /\ s_inflight s <> None /\
     (s_inflight s = Some n -> exists t, In (ESent t) (snd (run init os)) /\ t_uuid t = n /\
        forall q, d_files (s_disk s) n = FReq q -> q_metrics q = t_metrics t))).
Proof. exact left_only. Qed.
Print Assumptions C42_left_only.

(** When no upload is in flight, the next attempt sends the oldest file. *)
Theorem C42_oldest_sent : forall k os v e r q, no_failures os -> Forall (fun x => well_kinded k (snd x)) os ->
  NoDup (names os) -> ~ In EPanic (snd (run init os)) ->
  let s := fst (run init os) in
  s_inflight s = None -> index s = e :: r -> d_files (s_disk s) (e_name e) = FReq q -> v_open v = true ->
  exists t, snd (step s v [] UploadTick) = [ESent t] /\ t_uuid t = e_name e /\ t_metrics t = q_metrics q /\
    s_inflight (fst (step s v [] UploadTick)) = Some (e_name e).
Proof. exact oldest_sent. Qed.
Print Assumptions C42_oldest_sent.

Definition plain : history :=
  [(at_ 0, [], f1 1 "u1"); (at_ 5, [], Flush (cnt 2) [("h", MHist 7)] "u2"); (at_ 6, [], UploadTick);
   (at_ 7, [], f1 4 "u3"); (at_ 8, [], Restart); (at_ 9, [], UploadTick); (at_ 12, [], Response true "u1");
   (at_ 50, [], f1 32 "u6"); (at_ 61, [], f1 64 "u7"); (at_ 72, [], Flush [] (cnt 128) "u8")].
Definition kinds (i : string) : kind := if String.eqb i "h" then KHistogram else KCounter.
Example C42_plain :
  no_failures plain /\ Forall (fun x => well_kinded kinds (snd x)) plain /\ NoDup (names plain) /\
  ~ In EPanic (snd (run init plain)) /\
  stored (fst (run init plain)) "a" = 192 /\ gone_all init plain "a" = 39 /\ gone_all init plain "h" = 7 /\
  flushed_all "a" plain = 231.
Proof.
  splits; try (vm_compute; reflexivity).
  - repeat constructor.
  - repeat constructor; cbn; intuition discriminate.
  - vm_compute. repeat constructor; cbn; intuition discriminate.
  - vm_compute. intuition discriminate.
Qed.
(** In this history the first file is acknowledged. *)
Example C42_acknowledged :
  let s := fst (run init (firstn 6 plain)) in let s' := fst (step s (at_ 12) [] (Response true "u1")) in
  map e_name (index s) = ["u1"; "u3"] /\ map e_name (index s') = ["u3"] /\ in_file s "a" "u1" = 3 /\
  s_inflight s = Some "u1".
Proof. vm_compute. splits; reflexivity. Qed.

(** A crash during the write of a file that is already on disk loses what was in
    it. *)
Theorem C42_crash_refuted : exists x y i,
  no_write_errors [x; y] /\ NoDup (names [x; y]) /\
  stored (fst (run init [x])) i = 1 /\ stored (fst (run init [x; y])) i = 0 /\
  snd (run init [x; y]) = [ERestart].
Proof.
  exists (at_ 0, [], f1 1 "u1"), (at_ 1, [IoOk; IoCrash true []], f1 2 "u2"), "a".
  splits; try (vm_compute; reflexivity).
  - repeat constructor; discriminate.
  - vm_compute. repeat constructor; cbn; intuition discriminate.
Qed.
Print Assumptions C42_crash_refuted.

(** The task does not panic if writes do not fail and at least two files are
    allowed, whatever else fails. *)
Theorem C68_no_panic_partial : forall os, no_write_errors os -> Forall (fun x => 2 <= v_max (fst (fst x))) os ->
  ~ In EPanic (snd (run init os)).
Proof. exact no_panic. Qed.
Print Assumptions C68_no_panic_partial.
Example C68_story : no_write_errors story /\ Forall (fun x => 2 <= v_max (fst (fst x))) story.
Proof. split; repeat constructor; discriminate. Qed.

(** A failed creation of the directory is followed by a panic. *)
Theorem C68_write_error_refuted : exists os,
  Forall (fun x => v_max (fst (fst x)) = 2) os /\ In EPanic (snd (run init os)) /\ s_alive (fst (run init os)) = false.
Proof.
  exists [(at_ 0, [IoOk; IoOk; IoWriteErr false], f1 1 "u1"); (at_ 1, [], f1 1 "u2"); (at_ 2, [], UploadTick)].
  splits; [repeat constructor|vm_compute; auto|vm_compute; auto].
Qed.
Print Assumptions C68_write_error_refuted.

(** With a limit of no files the first flush panics. *)
Theorem C68_no_files_refuted : exists os,
  no_failures os /\ In EPanic (snd (run init os)).
Proof.
  exists [({| v_now := 0; v_max := 0; v_window := 10; v_open := true |}, [], f1 1 "u1")].
  splits; [repeat constructor|vm_compute; auto].
Qed.
Print Assumptions C68_no_files_refuted.

(** With a limit of one file, a flush without data while an upload is in flight
    empties the index, and the answer to the upload panics. *)
Theorem C68_one_file_refuted : exists os,
  no_failures os /\ Forall (fun x => v_max (fst (fst x)) = 1) os /\ NoDup (names os) /\
  In EPanic (snd (run init os)).
Proof.
  set (at1 := fun t => {| v_now := t; v_max := 1; v_window := 10; v_open := true |}).
  exists [(at1 0, [], f1 1 "u1"); (at1 1, [], UploadTick); (at1 20, [], Flush [] [] "u2");
          (at1 21, [], Response true "u1")].
  splits; [repeat constructor|repeat constructor| |vm_compute; auto].
  vm_compute. repeat constructor; cbn; intuition discriminate.
Qed.
Print Assumptions C68_one_file_refuted.
