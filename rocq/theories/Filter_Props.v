(** C27, C28: log filters. *)
From Verif Require Import Base Str_Base Version_Model Log_Model LogMatcher_Model Filter_Model Filter_Spec Filter_Proofs Matcher_Spec.
Local Open Scope string_scope.

(** C27. Every captured field of the result can be traced back through the transforms of the chain. *)
Theorem C27_provenance : forall re_match re_replace to_i32 fs l f,
  In f (l_fields (process re_match re_replace to_i32 fs l)) -> origin re_replace (concat (map fi_transforms fs)) l Captured f.
Proof. exact provenance. Qed.
Print Assumptions C27_provenance.

(** In terms of names: captured before, named by a capture transform, or set as captured. *)
Theorem C27_names : forall re_match re_replace to_i32 fs l f,
  In f (l_fields (process re_match re_replace to_i32 fs l)) ->
  has_field (f_key f) (l_fields l) \/ In (CaptureField (f_key f)) (concat (map fi_transforms fs)) \/
  exists v o, In (SetField (f_key f) v Captured o) (concat (map fi_transforms fs)).
Proof. exact names. Qed.
Print Assumptions C27_names.

Theorem C27_rest_unchanged : forall re_match re_replace to_i32 fs l, same_but_fields (process re_match re_replace to_i32 fs l) l.
Proof. exact frame_process. Qed.
Print Assumptions C27_rest_unchanged.

(** A removed field stays away unless a later transform sets it. *)
Theorem C27_removed : forall re_match re_replace to_i32 pre f post ts1 k ts2 l,
  fi_transforms f = (ts1 ++ RemoveField k :: ts2)%list -> selects re_match to_i32 f (process re_match re_replace to_i32 pre l) = true ->
  Forall (fun t => ~ sets k t) (ts2 ++ concat (map fi_transforms post))%list ->
  ~ has_field k (l_fields (process re_match re_replace to_i32 (pre ++ f :: post) l)) /\
  ~ has_field k (l_matching (process re_match re_replace to_i32 (pre ++ f :: post) l)).
Proof. exact removed. Qed.
Print Assumptions C27_removed.

Theorem C27_unselected : forall re_match re_replace to_i32 fs l,
  (forall f, In f fs -> selects re_match to_i32 f l = false) -> process re_match re_replace to_i32 fs l = l.
Proof. exact unselected. Qed.
Print Assumptions C27_unselected.

(** The chain consists of the filters that can be read, in their order; one that cannot be read costs only itself, and is counted. *)
Theorem C27_chain : forall re_ok cfgs fs n, chain_new re_ok cfgs = (fs, n) <-> gives re_ok cfgs fs n.
Proof. exact chain_gives. Qed.
Print Assumptions C27_chain.

(** What the transforms do. Capturing moves the first matching-only field of the name, in place of captured ones. *)
Theorem C27_capture : forall re_replace k l,
  (without k (l_matching l) -> transform_apply re_replace (CaptureField k) l = l) /\
  (forall a f b, l_matching l = (a ++ f :: b)%list -> f_key f = k -> without k a ->
     let r := transform_apply re_replace (CaptureField k) l in l_matching r = (a ++ b)%list /\ l_fields r = (others k (l_fields l) ++ [f])%list).
Proof. exact capture_moves. Qed.
Print Assumptions C27_capture.

(** Setting puts the field in place of those of its name in the list asked for, the other list stays. *)
Theorem C27_set : forall re_replace k v ft o l s, o = true \/ log_field_value l k = None ->
  match v with StringValue x => x = s | ExistingField k' => log_field_value l k' = Some s end ->
  let r := transform_apply re_replace (SetField k v ft o) l in
  match ft with
  | Captured => l_fields r = (others k (l_fields l) ++ [mkField k (VStr s)])%list /\ l_matching r = l_matching l
  | MatchingOnly => l_matching r = (others k (l_matching l) ++ [mkField k (VStr s)])%list /\ l_fields r = l_fields l
  end.
Proof. exact set_puts. Qed.
Print Assumptions C27_set.
(** Nothing to copy: nothing happens. *)
Theorem C27_set_missing : forall re_replace k k' ft o l, log_field_value l k' = None -> transform_apply re_replace (SetField k (ExistingField k') ft o) l = l.
Proof. exact set_missing. Qed.
Print Assumptions C27_set_missing.

(** Rewriting changes the text of the first field of the name, captured ones first, and nothing else. *)
Theorem C27_rewrite : forall re_replace k p r l,
  (forall a v b, l_fields l = (a ++ mkField k v :: b)%list -> without k a ->
     transform_apply re_replace (RegexMatchAndSubstitute k p r) l = with_fields l (a ++ mkField k match v with VStr s => VStr (re_replace p r s) | VBytes x => VBytes x end :: b)%list) /\
  (forall a v b, without k (l_fields l) -> l_matching l = (a ++ mkField k v :: b)%list -> without k a ->
     transform_apply re_replace (RegexMatchAndSubstitute k p r) l = with_matching l (a ++ mkField k match v with VStr s => VStr (re_replace p r s) | VBytes x => VBytes x end :: b)%list) /\
  (without k (l_fields l) -> without k (l_matching l) -> transform_apply re_replace (RegexMatchAndSubstitute k p r) l = l).
Proof. exact rewrites. Qed.
Print Assumptions C27_rewrite.

Definition any : tree := TNot (TOr []).
Definition case_log : log := mkLog 1 0 (VStr "hi") [mkField "a" (VStr "1"); mkField "s" (VStr "pw")] [mkField "m" (VStr "2"); mkField "h" (VStr "3")] "sid" 5%Z.
Definition case_chain : list filter :=
  [mkFilter any [CaptureField "m"; RemoveField "s"; SetField "n" (ExistingField "_message") Captured false];
   mkFilter (TBase (LIsSetValue (IField "m"))) [RegexMatchAndSubstitute "m" "2" "x"; SetField "a" (StringValue "z") Captured false]].
Example C27_case : l_fields (process (fun _ _ => false) (fun _ r _ => r) (fun _ => None) case_chain case_log) =
    [mkField "a" (VStr "1"); mkField "m" (VStr "x"); mkField "n" (VStr "hi")] /\
  Forall (fun t => ~ sets "s" t) ([SetField "n" (ExistingField "_message") Captured false] ++ [RegexMatchAndSubstitute "m" "2" "x"; SetField "a" (StringValue "z") Captured false])%list.
Proof. split; [reflexivity|]. repeat constructor; cbn; intros E; congruence. Qed.

Example C27_chain_case : chain_new (fun p => negb (String.eqb p "(")) [mkFilterCfg None []; mkFilterCfg (Some (CNot (COr []))) [Some (CaptureFieldCfg "m"); Some (RegexCfg "m" "2" "x")];
    mkFilterCfg (Some (COr [])) [Some (RegexCfg "m" "(" "x")]; mkFilterCfg (Some (COr [])) [Some (SetFieldCfg "n" (Some (Some (StringValueCfg "v"))) FTUnknown true)]] =
  ([mkFilter any [CaptureField "m"; RegexMatchAndSubstitute "m" "2" "x"]], 3%N).
Proof. reflexivity. Qed.

(** C28. Partial: the field of that name has to be text; the first one counts. *)
Theorem C28_no_override_partial : forall re_replace n v ft l s,
  n <> "_message" -> first n (l_fields l ++ l_matching l) (VStr s) -> transform_apply re_replace (SetField n v ft false) l = l.
Proof. exact no_override. Qed.
Print Assumptions C28_no_override_partial.

(** A binary field is overwritten. *)
Theorem C28_binary_refuted : forall re_replace, exists n v ft l,
  has_field n (l_fields l) /\ transform_apply re_replace (SetField n v ft false) l <> l /\
  l_fields (transform_apply re_replace (SetField n v ft false) l) = [mkField n (VStr "new")].
Proof.
  intros. exists "k", (StringValue "new"), Captured, (mkLog 1 0 (VStr "hi") [mkField "k" (VBytes "data")] [] "sid" 5%Z).
  splits; [eexists; split; [left; reflexivity|reflexivity]|discriminate|reflexivity].
Qed.
Print Assumptions C28_binary_refuted.

Example C28_case : first "a" (l_fields case_log ++ l_matching case_log) (VStr "1") /\ first "h" (l_fields case_log ++ l_matching case_log) (VStr "3").
Proof. split; repeat constructor; congruence. Qed.
