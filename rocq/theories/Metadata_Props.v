(** C29: metadata attached to logs. *)
From Verif Require Import Base Str_Base Log_Model Metadata_Model Metadata_Spec Metadata_Proofs Matcher_Spec.
Local Open Scope string_scope.

(** C29. [source] lists the usable fields of one origin; earlier sources win; for replay, resource and internal logs
    the provider's fields are only used for matching. *)
Theorem C29_normalized : forall globals ts provider fields matching log_type m,
  normalized_metadata globals (Some ts) (Some provider) fields matching log_type = Some m ->
  forall po pc lo lc mo mc, source provider Ootb po -> source provider Custom pc -> source fields Ootb lo -> source fields Custom lc ->
  source matching Ootb mo -> source matching Custom mc ->
  m_time m = ts /\ NoDup (map f_key (m_fields m)) /\ NoDup (map f_key (m_matching m)) /\
  (~ In log_type [1; 3; 4]%N ->
     forall k v, (In (mkField k v) (m_fields m) <-> picks k [po; lo; lc; globals; pc] v) /\
                 (In (mkField k v) (m_matching m) <-> picks k [mo; mc] v)) /\
  (In log_type [1; 3; 4]%N ->
     forall k v, (In (mkField k v) (m_fields m) <-> picks k [lo; lc; globals] v) /\
                 (In (mkField k v) (m_matching m) <-> picks k [po; mo; mc; pc] v)).
Proof. exact normalized. Qed.
Print Assumptions C29_normalized.

(** There is metadata exactly if the provider has a time and fields. *)
Theorem C29_provider : forall globals ts provider fields matching log_type,
  normalized_metadata globals ts provider fields matching log_type = None <-> ts = None \/ provider = None.
Proof. exact provider_needed. Qed.
Print Assumptions C29_provider.

(** The sources always exist, so the theorem speaks about every call that succeeds. *)
Theorem C29_sources : forall l kd, exists s, source l kd s.
Proof. exact source_exists. Qed.
Print Assumptions C29_sources.

(** The caller is told whether a field was taken: exactly if its name may be used. *)
Theorem C29_told : forall globals f, (snd (add_field globals f) = true <-> admissible (f_key f)) /\ (~ admissible (f_key f) -> fst (add_field globals f) = globals).
Proof. intros globals f. rewrite <- verify_admissible. unfold add_field. destruct (verify_custom_field_name f); cbn; intuition congruence. Qed.
Print Assumptions C29_told.
Example C29_told_case : snd (add_field [] (mkField "user" (VStr "x"))) = true /\ snd (add_field [] (mkField "_user" (VStr "x"))) = false.
Proof. split; reflexivity. Qed.

(** The globally added fields are the admissible ones added last and not removed since. *)
Theorem C29_globals : forall ops k v,
  (In (mkField k v) (fold_left gstep ops []) <-> added k v ops) /\ (In (mkField k v) (fold_left gstep ops []) -> admissible k).
Proof. exact globals_run. Qed.
Print Assumptions C29_globals.

Definition fo k v := mkAnnotated (mkField k (VStr v)) Ootb.
Definition fc k v := mkAnnotated (mkField k (VStr v)) Custom.
Example C29_case : option_map m_fields (normalized_metadata (fold_left gstep [Add "g" (VStr "1"); Add "_u" (VStr "1"); Add "c" (VStr "1"); Add "g" (VStr "2"); Remove "x"] [])
    (Some 3%Z) (Some [fo "os" "p"; fc "c" "p"; fc "g" "p"; fc "_x" "p"; fc "q" "p"]) [fo "os" "l"; fo "_z" "l"; fc "model" "l"; fc "c" "l"] [] 0) =
  Some [mkField "os" (VStr "p"); mkField "_z" (VStr "l"); mkField "c" (VStr "l"); mkField "g" (VStr "2"); mkField "q" (VStr "p")].
Proof. reflexivity. Qed.
