(** C120-C123: the server's metrics. [valid]: what the crate prometheus takes as names and labels. *)
From Verif Require Import Base Str_Base Collector_Model Collector_Spec Collector_Proofs.

(** * C120: one metric for each kind, name and labels *)
Theorem C120_identity : forall valid ls s i j r r' a b, exec valid init ls = Some s -> got ls s i r a -> got ls s j r' b -> r_vec r = false -> r_vec r' = false -> (a = b <-> same r r').
Proof. exact identity. Qed.
Print Assumptions C120_identity.
(** What is gathered of a metric is what was done to it through any of its handles, in order. *)
Theorem C120_values : forall valid ls s i r a, exec valid init ls = Some s -> got ls s i r a -> r_vec r = false ->
  exists m, nth_error (reg s) a = Some m /\ In m (gather s) /\ serves m r /\ m_uses m = uses_of (given s) a ls.
Proof. exact values. Qed.
Print Assumptions C120_values.
(** Nothing else is gathered. *)
Theorem C120_gathered : forall valid ls s m, exec valid init ls = Some s -> In m (gather s) -> exists i r a, got ls s i r a /\ r_vec r = false /\ serves m r /\ nth_error (reg s) a = Some m.
Proof. exact gathered. Qed.
Print Assumptions C120_gathered.
(** A vector is given once. *)
Theorem C120_vec : forall valid ls s i j r r' a, exec valid init ls = Some s -> got ls s i r a -> got ls s j r' a -> r_vec r = true -> i = j.
Proof. exact vec_own. Qed.
Print Assumptions C120_vec.

Local Open Scope string_scope.
Definition any (k : kind) (n : string) (l : labels) (v : list string) : bool := true.
Definition api : scope := scope_of "api" [("", [("env", "dev")]); ("v1", [("zone", "a")])].
(** Two ways to the same counter, another counter of the name, and a gauge. *)
Definition some_actions : list action :=
  [AMake (RCounter api "calls" [("env", "prod")]); AUse 0 (UInc 2); AMake (RGauge (root "api:v1") "load");
   AMake (RCounter (scope_of "api:v1" [("", [("zone", "b"); ("env", "prod")])]) "calls" [("zone", "a")]); AUse 2 (UInc 3); AUse 1 (USet 7);
   AMake (RCounter api "calls" []); AUse 3 (UInc 5); AUse 0 (UInc 1)]%list.
Example C120_ex : exists s, exec any init some_actions = Some s /\ given s = [Some 1; Some 2; Some 1; Some 3] /\ map m_uses (gather s) = [[UInc 2; UInc 3; UInc 1]; [USet 7]; [UInc 5]]
  /\ got some_actions s 0 (RCounter api "calls" [("env", "prod")]) 1 /\ same (RCounter api "calls" [("env", "prod")]) (RCounter (scope_of "api:v1" [("", [("zone", "b"); ("env", "prod")])]) "calls" [("zone", "a")]).
Proof.
  eexists. split; [vm_compute; reflexivity|]. split; [reflexivity|]. split; [reflexivity|]. split; [split; reflexivity|]. split; [reflexivity|]. split; [reflexivity|].
  apply labels_eqb_spec. vm_compute. reflexivity.
Qed.
Example C120_vec_ex : exists s, exec any init [AMake (RVec Counter api "x" ["k"]); AMake (RVec Gauge api "y" [])]%list = Some s /\ given s = [Some 1; Some 2].
Proof. eexists. split; [vm_compute; reflexivity|reflexivity]. Qed.

(** * C121: when asking for a metric panics *)
Theorem C121_panics_partial : forall valid ls r s, exec valid init (ls ++ [AMake r])%list = Some s ->
  nth_error (given s) (length (requests ls)) = Some None <->
  (r_vec r = true \/ ~ exists i r' a, got ls s i r' a /\ r_vec r' = false /\ same r' r)
  /\ (valid (r_kind r) (r_name r) (r_labels r) (r_vars r) = false
      \/ conflict "stats:label_tracker:label_overflow" [] [] (r_name r) (r_labels r) (r_vars r)
      \/ exists i r' a, got ls s i r' a /\ conflict (r_name r') (r_labels r') (r_vars r') (r_name r) (r_labels r) (r_vars r)).
Proof. exact panics. Qed.
Print Assumptions C121_panics_partial.
Example C121_ex : exists s, exec any init (some_actions ++ [AMake (RGauge api "calls")])%list = Some s /\ nth_error (given s) (length (requests some_actions)) = Some None.
Proof. eexists. split; [vm_compute; reflexivity|reflexivity]. Qed.
(** Two counters of one name, one with a label more; a metric and a vector; a vector twice: the second request panics though each alone is fine. *)
Theorem C121_labels_refuted : exists r r' s s1 s2, exec any init [AMake r; AMake r'] = Some s /\ given s = [Some 1; None]
  /\ exec any init [AMake r] = Some s1 /\ given s1 = [Some 1] /\ exec any init [AMake r'] = Some s2 /\ given s2 = [Some 1] /\ r_kind r = Counter /\ r_kind r' = Counter /\ ~ same r r'.
Proof.
  exists (RCounter (root "a") "x" []), (RCounter (root "a") "x" [("k", "v")]). do 3 eexists. repeat (split; [vm_compute; reflexivity|]).
  intros [_ [_ H]]. specialize (H "k"). discriminate.
Qed.
Print Assumptions C121_labels_refuted.
Theorem C121_vec_refuted : exists r s, exec any init [AMake r; AMake r] = Some s /\ given s = [Some 1; None] /\ r_vec r = true.
Proof. exists (RVec Counter (root "a") "x" ["k"]). eexists. repeat (split; [vm_compute; reflexivity|]). reflexivity. Qed.
Print Assumptions C121_vec_refuted.

(** * C122: names and labels of scopes *)
Theorem C122_counter : forall valid ls s i a n path name l, exec valid init ls = Some s -> got ls s i (RCounter (scope_of n path) name l) a ->
  exists m, nth_error (reg s) a = Some m /\ m_name m = join (n :: map fst path) name /\ forall k v, lookup (m_labels m) k = Some v <-> bound (flat_map snd path ++ l)%list k v.
Proof.
  intros valid ls s i a n path name l H Hg. destruct (values valid ls s i _ a H Hg eq_refl) as [m [Hm [_ [[_ [_ [N [L _]]]] _]]]]. exists m. split; auto.
  split; [rewrite N; apply scope_name|]. intros k v. rewrite L. cbn [r_labels]. unfold final_labels. rewrite scope_labels. apply lookup_bound.
Qed.
Print Assumptions C122_counter.
Theorem C122_others : forall valid ls s i a n path name r, exec valid init ls = Some s -> got ls s i r a -> (r = RGauge (scope_of n path) name \/ exists b, r = RHistogram (scope_of n path) name b) ->
  exists m, nth_error (reg s) a = Some m /\ m_name m = join (n :: map fst path) name /\ forall k v, lookup (m_labels m) k = Some v <-> bound (flat_map snd path) k v.
Proof.
  intros valid ls s i a n path name r H Hg Hr. assert (Hv : r_vec r = false) by (destruct Hr as [->|[b ->]]; reflexivity).
  destruct (values valid ls s i _ a H Hg Hv) as [m [Hm [_ [[_ [_ [N [L _]]]] _]]]]. exists m. split; auto.
  split; [rewrite N; destruct Hr as [->|[b ->]]; apply scope_name|]. intros k v. rewrite L. destruct Hr as [->|[b ->]]; cbn [r_labels]; rewrite scope_labels; apply lookup_bound.
Qed.
Print Assumptions C122_others.
Example C122_ex : metric_name api "calls" = "api:v1:calls" /\ join ["api"; ""; "v1"] "calls" = "api:v1:calls" /\ bound ([("env", "dev")] ++ [("zone", "a"); ("env", "prod")])%list "env" "prod".
Proof. split; [reflexivity|]. split; [reflexivity|]. exists [("env", "dev"); ("zone", "a")], []. split; [reflexivity|intros []]. Qed.
(** A vector made in a scope with labels does not carry them. *)
Theorem C122_vec_refuted : exists r s m, exec any init [AMake r] = Some s /\ r = RVec Counter api "x" ["k"] /\ sc_labels api <> [] /\ nth_error (reg s) 1 = Some m /\ m_labels m = [].
Proof. exists (RVec Counter api "x" ["k"]). do 2 eexists. split; [vm_compute; reflexivity|]. split; [reflexivity|]. split; [discriminate|]. split; reflexivity. Qed.
Print Assumptions C122_vec_refuted.

(** * C123: buckets *)
(** The buckets of a histogram are those of the first request for it. *)
Theorem C123_first_partial : forall valid ls s i r a, exec valid init ls = Some s -> got ls s i r a -> (forall j r', got ls s j r' a -> i <= j) ->
  exists m, nth_error (reg s) a = Some m /\ m_buckets m = r_buckets r.
Proof. exact first_buckets. Qed.
Print Assumptions C123_first_partial.
Definition two_histograms : list action := [AMake (RHistogram api "x" (Some [1; 2]%Z)); AMake (RHistogram api "x" (Some [3]%Z))].
Example C123_ex : exists s, exec any init two_histograms = Some s /\ got two_histograms s 0 (RHistogram api "x" (Some [1; 2]%Z)) 1 /\ (forall j r', got two_histograms s j r' 1 -> 0 <= j)%nat.
Proof. eexists. split; [vm_compute; reflexivity|]. split; [split; reflexivity|]. intros. lia. Qed.
(** So one who asks for other buckets does not get them, without notice. *)
Theorem C123_others_refuted : exists s i r a m, exec any init two_histograms = Some s /\ got two_histograms s i r a /\ nth_error (reg s) a = Some m /\ r_buckets r = Some [3]%Z /\ m_buckets m = Some [1; 2]%Z.
Proof. eexists. exists 1, (RHistogram api "x" (Some [3]%Z)), 1. eexists. split; [vm_compute; reflexivity|]. split; [split; reflexivity|]. split; [reflexivity|]. split; reflexivity. Qed.
Print Assumptions C123_others_refuted.
