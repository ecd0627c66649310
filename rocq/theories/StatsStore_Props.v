(** C38, C39, C40 and C61: the in-memory metric store. *)
From Verif Require Import Base Str_Base StatsStore_Model StatsStore_Spec StatsStore_Proofs.
From Verif Require Import Histogram_Model Histogram_Spec Histogram_Proofs.
Local Open Scope string_scope.
Local Open Scope list_scope.
Local Open Scope Z_scope.

(** Any interleaving of lookups, increments, clones, drops and snapshots, if no
    handle is dropped just between the two steps in which a snapshot looks at a
    metric: for every metric, what was reported and what is still there is what was
    incremented (modulo 2^64, as the counters). *)
Theorem C39_conserved_partial : forall l os i, no_drop_in_check (store_new l) os ->
  (reported i (snd (StatsStore_Model.run (store_new l) os))
    + live (fst (StatsStore_Model.run (store_new l) os)) i) mod U64
  = incremented i (snd (StatsStore_Model.run (store_new l) os)) mod U64.
Proof. exact conserved. Qed.
Print Assumptions C39_conserved_partial.

(** Without any assumption on the interleaving: from the moment a handle is handed
    out until it is given up, everything incremented through it and all other handles
    of the metric is reported or still there. *)
Theorem C38_handle_kept : forall l a o b i h,
  let s0 := fst (StatsStore_Model.run (store_new l) a) in
  In (EHandle i h) (snd (StatsStore_Model.step s0 o)) -> ~ In (Drop h) b ->
  let s1 := fst (StatsStore_Model.step s0 o) in
  (reported i (snd (StatsStore_Model.run s1 b)) + live (fst (StatsStore_Model.run s1 b)) i) mod U64
  = (incremented i (snd (StatsStore_Model.run s1 b)) + live s1 i) mod U64.
Proof. exact handle_kept. Qed.
Print Assumptions C38_handle_kept.

(** A snapshot that nothing else interferes with reports everything: nothing is left
    (and by the theorems above, nothing is lost or reported twice). *)
Theorem C38_snapshot_takes_all : forall l a i,
  let s := fst (StatsStore_Model.run (store_new l) a) in
  s_snap s = None ->
  let s' := fst (StatsStore_Model.run s (snapshot (List.length (s_metrics s)))) in
  s_snap s' = None /\ live s' i = 0.
Proof. exact snapshot_takes_all. Qed.
Print Assumptions C38_snapshot_takes_all.

Ltac no_drop_tac :=
  lazymatch goal with
  | |- True => exact I
  | |- no_drop_in_check _ [] => exact I
  | |- no_drop_in_check _ _ =>
      split; [intros ? ? ? E; first [discriminate E | vm_compute; discriminate]
             | no_drop_tac]
  | |- _ /\ _ =>
      split; [intros ? ? ? E; first [discriminate E | vm_compute; discriminate]
             | no_drop_tac]
  end.
(** Two metrics, two threads, two snapshots, with increments in the middle of the
    first one; the second metric is dropped from the store and made again. *)
Definition hist1 : list StatsStore_Model.op :=
  [Lookup KCounter "a"; Lookup KCounter "b"; Inc 0 5; SnapBegin; SnapSwap; Inc 1 7; SnapCheck;
   Inc 0 1; SnapSwap; Inc 0 2; SnapCheck; SnapEnd; Drop 1; SnapBegin; SnapSwap; SnapSwap; SnapEnd;
   SnapBegin; SnapSwap; SnapCheck; SnapSwap; SnapCheck; SnapEnd; Lookup KCounter "b"; Inc 2 4].
Example C38_history :
  no_drop_in_check (store_new (Some 2)) hist1 /\
  snd (StatsStore_Model.run (store_new (Some 2)) hist1)
  = [EHandle "a" 0; EHandle "b" 1; EInc "a" 5; EInc "b" 7; EInc "a" 1; EReport "a" 6; EInc "a" 2;
     EReport "b" 7; EReport "a" 2; EHandle "b" 2; EInc "b" 4] /\
  live (fst (StatsStore_Model.run (store_new (Some 2)) hist1)) "b" = 4.
Proof. split; [|split; vm_compute; reflexivity]. unfold hist1. no_drop_tac. Qed.
Example C38_takes_all :
  let s := fst (StatsStore_Model.run (store_new (Some 2)) hist1) in
  s_snap s = None /\ List.length (s_metrics s) = 2%nat /\
  snd (StatsStore_Model.run s (snapshot 2)) = [EReport "b" 4].
Proof. vm_compute. auto. Qed.
Example C38_kept :
  In (EHandle "a" 0) (snd (StatsStore_Model.step (fst (StatsStore_Model.run (store_new (Some 2)) [])) (Lookup KCounter "a")))
  /\ ~ In (Drop 0) (tl hist1).
Proof. vm_compute. intuition discriminate. Qed.

(** A recording thread looks a metric up, increments it and drops it, while a
    snapshot is between its two steps: the increment is reported nowhere. *)
Theorem C39_dynamic_refuted : exists i n os,
  os = [Lookup KCounter i] ++ [SnapBegin; SnapSwap] ++ [Inc 0 n; Drop 0] ++ [SnapCheck; SnapEnd] /\
  let (s, t) := StatsStore_Model.run (store_new (Some 500)) os in
  incremented i t = n /\ reported i t = 0 /\ live s i = 0 /\ s_snap s = None /\ n <> 0.
Proof.
  exists "x", 5. eexists. split; [reflexivity|]. vm_compute. repeat split; discriminate.
Qed.
Print Assumptions C39_dynamic_refuted.

(** The dynamic path is safe with every other interleaving. *)
Theorem C39_dynamic_partial : forall l os i, no_drop_in_check (store_new l) os ->
  live (fst (StatsStore_Model.run (store_new l) os)) i = 0 ->
  reported i (snd (StatsStore_Model.run (store_new l) os)) mod U64
  = incremented i (snd (StatsStore_Model.run (store_new l) os)) mod U64.
Proof.
  intros l os i N L. rewrite <- (conserved l os i N), L, Z.add_0_r. reflexivity.
Qed.
Print Assumptions C39_dynamic_partial.
Example C39_history :
  no_drop_in_check (store_new (Some 500))
    [Lookup KCounter "x"; SnapBegin; Inc 0 5; Drop 0; SnapSwap; SnapEnd; SnapBegin; SnapSwap; SnapCheck; SnapEnd] /\
  reported "x" (snd (StatsStore_Model.run (store_new (Some 500))
    [Lookup KCounter "x"; SnapBegin; Inc 0 5; Drop 0; SnapSwap; SnapEnd; SnapBegin; SnapSwap; SnapCheck; SnapEnd])) = 5.
Proof. split; [|vm_compute; reflexivity]. no_drop_tac. Qed.

(** The number of metrics, for a limit that does not change. *)
Theorem C40_bounded : forall os L, 0 <= L -> Forall (fun o => ~ is_set_limit o) os ->
  Z.of_nat (List.length (s_metrics (fst (StatsStore_Model.run (store_new (Some L)) os)))) <= L.
Proof. exact bounded. Qed.
Print Assumptions C40_bounded.

(** With any change of the limit: a step ends below the limit or not above the number
    before. *)
Theorem C40_bounded_changing : forall s o L, s_limit s = Some L -> ~ is_set_limit o ->
  Z.of_nat (List.length (s_metrics (fst (StatsStore_Model.step s o)))) <= Z.max L (Z.of_nat (List.length (s_metrics s))).
Proof. intros s o L E N. apply (size_step s o L E N). Qed.
Print Assumptions C40_bounded_changing.

(** A lowered limit does not shrink the store. *)
Theorem C40_lowered_refuted : exists os L,
  let s := fst (StatsStore_Model.run (store_new (Some 500)) os) in
  s_limit s = Some L /\ L < Z.of_nat (List.length (s_metrics s)).
Proof.
  exists [Lookup KCounter "a"; Lookup KCounter "b"; SetLimit 1; Lookup KCounter "a"], 1. vm_compute. auto.
Qed.
Print Assumptions C40_lowered_refuted.

(** A metric someone has a handle of can be looked up, full or not, and gives a handle
    of the same cell. *)
Theorem C40_existing_usable : forall l a h m,
  let s := fst (StatsStore_Model.run (store_new l) a) in
  find_handle h (s_handles s) = Some m -> s_snap s = None ->
  exists h', snd (StatsStore_Model.step s (Lookup (m_kind m) (m_id m))) = [EHandle (m_id m) h'] /\
    find_handle h' (s_handles (fst (StatsStore_Model.step s (Lookup (m_kind m) (m_id m))))) = Some m.
Proof. exact existing_usable. Qed.
Print Assumptions C40_existing_usable.

(** A new metric beyond the limit is refused, counted, and changes nothing else. *)
Theorem C40_new_refused : forall l a k i L,
  let s := fst (StatsStore_Model.run (store_new l) a) in
  s_snap s = None -> (forall m, In m (s_metrics s) -> m_id m <> i) -> s_limit s = Some L ->
  L <= Z.of_nat (List.length (s_metrics s)) ->
  let (s', t) := StatsStore_Model.step s (Lookup k i) in
  t = [EOverflow i] /\ s_overflow s' = s_overflow s + 1 /\ s_metrics s' = s_metrics s /\
  s_handles s' = s_handles s /\ forall j, live s' j = live s j.
Proof. exact new_refused. Qed.
Print Assumptions C40_new_refused.

Example C40_history :
  snd (StatsStore_Model.run (store_new (Some 2))
    [Lookup KCounter "a"; Lookup KHistogram "b"; Lookup KCounter "c"; Lookup KCounter "b"; Lookup KCounter "a"; Inc 2 3])
  = [EHandle "a" 0; EHandle "b" 1; EOverflow "c"; EChangedType "b"; EHandle "a" 2; EInc "a" 3].
Proof. vm_compute. reflexivity. Qed.

(** For every additive observation of the values that the sketch and its encoding
    keep: recording, merging (of histograms built in any way), and writing to and
    reading from disk keep it. *)
Theorem C61_preserved :
  forall (value sketch bytes : Type) make_sketch s_accept s_merge s_encode s_decode
    (weigh : value -> Z) (s_weight : sketch -> Z),
  s_weight make_sketch = 0 ->
  (forall s v, s_weight (s_accept s v) = s_weight s + weigh v) ->
  (forall a b, s_weight (s_merge a b) = s_weight a + s_weight b) ->
  (forall s, exists s', s_decode (s_encode s : bytes) = Some s' /\ s_weight s' = s_weight s) ->
  forall os, exists h,
    Histogram_Model.run value sketch bytes make_sketch s_accept s_merge s_encode s_decode os = Some h /\
    observed weigh s_weight h = total weigh (recorded value os).
Proof. exact preserved. Qed.
Print Assumptions C61_preserved.

(** A snapshot takes everything. *)
Theorem C61_snapshot :
  forall (value sketch : Type) make_sketch s_is_empty (weigh : value -> Z) (s_weight : sketch -> Z),
  s_weight make_sketch = 0 -> (forall s, s_is_empty s = true -> s_weight s = 0) ->
  forall h,
    let r := snap value sketch make_sketch s_is_empty h in
    observed weigh s_weight (snd r) = 0 /\
    (match fst r with Some t => observed weigh s_weight t | None => 0 end) = observed weigh s_weight h.
Proof. exact snap_weight. Qed.
Print Assumptions C61_snapshot.

(** Up to five values are kept as they are. *)
Theorem C61_inline_exact :
  forall (value sketch bytes : Type) make_sketch s_accept s_merge s_encode s_decode (l : list value),
  (List.length l <= 5)%nat ->
  Histogram_Model.run value sketch bytes make_sketch s_accept s_merge s_encode s_decode (map (Observe value) l)
  = Some (Inline value sketch l).
Proof. exact inline_exact. Qed.
Print Assumptions C61_inline_exact.

(** A sketch that keeps the number and the sum: nine values through a merge and a
    reload. *)
Definition toy := Histogram_Model.run Z (Z * Z) (Z * Z) (0, 0) (fun s v => (fst s + 1, snd s + v))
  (fun a b => (fst a + fst b, snd a + snd b)) (fun s => s) Some.
Example C61_history :
  toy [Observe Z 1; Observe Z 2; Merge Z [Observe Z 3; Observe Z 4]; Observe Z 5; Reload Z; Observe Z 6;
       Merge Z [Observe Z 10; Merge Z [Observe Z 20; Reload Z]; Observe Z 30] ]
  = Some (Sketch Z (Z * Z) (9, 81)) /\
  toy [Observe Z 1; Merge Z [Observe Z 3; Observe Z 4]; Reload Z] = Some (Inline Z (Z * Z) [1; 3; 4]).
Proof. vm_compute. auto. Qed.
