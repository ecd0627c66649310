(** C24 (trees), C25, C26: matcher trees and buffer selection. *)
From Verif Require Import Base Str_Base Version_Model Log_Model LogMatcher_Model BufferMatcher_Model Matcher_Spec Matcher_Proofs.
Local Open Scope string_scope.

(** C24 for whole matcher trees, used when workflow configurations are compared. *)
Theorem C24_equal_trees : forall re_ok re_match to_i32 c1 c2 t1 t2,
  tree_new re_ok c1 = Some t1 -> tree_new re_ok c2 = Some t2 -> tree_eqb t1 t2 = true ->
  forall level ltype message fields,
  do_match re_match to_i32 t1 level ltype message fields = do_match re_match to_i32 t2 level ltype message fields.
Proof. exact equal_trees. Qed.
Print Assumptions C24_equal_trees.

(** C25. Partial: two deviations, refuted below, are excluded by hypotheses: conditions on the log type that are not
    equalities, and binary captured fields hiding a matching field. *)
Theorem C25_formula_partial : forall re_ok re_match to_i32 c t level ltype message captured matching,
  tree_new re_ok c = Some t -> types_by_equality c -> (forall k b, ~ first k captured (VBytes b)) ->
  (do_match re_match to_i32 t level ltype message (fields_ref_value captured matching) = true <->
   holds re_match to_i32 level ltype message (visible captured matching) c).
Proof. exact tree_formula. Qed.
Print Assumptions C25_formula_partial.

(** The same for an arbitrary field lookup. *)
Theorem C25_any_fields_partial : forall re_ok re_match to_i32 level ltype message fields c t,
  tree_new re_ok c = Some t -> types_by_equality c ->
  (do_match re_match to_i32 t level ltype message fields = true <->
   holds re_match to_i32 level ltype message (fun k s => fields k = Some s) c).
Proof. exact formula. Qed.
Print Assumptions C25_any_fields_partial.

(** The matchers of buffers. *)
Theorem C25_buffer_formula : forall re_ok re_match level ltype message fields c t,
  btree_new re_ok c = Some t ->
  (bdo_match re_match t ltype level message fields = true <-> bholds re_match level ltype message (fun k s => fields k = Some s) c).
Proof. exact bformula. Qed.
Print Assumptions C25_buffer_formula.

Theorem C25_precedence_partial : forall captured matching k s, (forall b, ~ first k captured (VBytes b)) ->
  (fields_ref_value captured matching k = Some s <-> visible captured matching k s).
Proof. exact precedence. Qed.
Print Assumptions C25_precedence_partial.

(** "log_type <> 1" matches exactly the logs of type 1. *)
Theorem C25_type_operator_refuted : forall re_ok re_match to_i32, exists c t level ltype message captured matching,
  tree_new re_ok c = Some t /\ (forall k b, ~ first k captured (VBytes b)) /\
  do_match re_match to_i32 t level ltype message (fields_ref_value captured matching) = true /\
  ~ holds re_match to_i32 level ltype message (visible captured matching) c.
Proof.
  intros. exists (CBase (Some (TagMatch "log_type" (Some (IntValueMatch (Some OpNe) 1))))), (TBase (LLogType 1)), 0%N, 1%N, (VStr ""), [], [].
  splits; try reflexivity.
  - intros k b F. inversion F.
  - cbn. intros [(A & _)|[(_ & A)|(_ & A & _)] ]; congruence.
Qed.
Print Assumptions C25_type_operator_refuted.

(** A binary captured field lets the matching field of the same name through. *)
Theorem C25_precedence_refuted : exists captured matching k s,
  fields_ref_value captured matching k = Some s /\ ~ visible captured matching k s.
Proof.
  exists [mkField "k" (VBytes "b")], [mkField "k" (VStr "t")], "k", "t". split; [reflexivity|].
  intros [F|(A & _)]; [inversion F; congruence|]. apply Forall_cons_iff in A as [A _]. apply A. reflexivity.
Qed.
Print Assumptions C25_precedence_refuted.

Definition case_cfg : matcher_cfg :=
  CAnd [CNot (CBase (Some (MessageMatch (Some OpRegex) "x.*")));
        COr [CBase (Some (TagMatch "log_level" (Some (IntValueMatch (Some OpGe) 3)))); CBase (Some (TagMatch "log_type" (Some (IntValueMatch (Some OpEq) 7))))];
        CBase (Some (TagMatch "app" (Some (SemVerValueMatch (Some OpLt) "2.0"))))].
Example C25_case : types_by_equality case_cfg /\
  exists t, tree_new (fun _ => true) case_cfg = Some t /\
    do_match (fun _ _ => false) (fun _ => None) t 1 7 (VStr "hello") (fields_ref_value [mkField "a" (VStr "z"); mkField "app" (VStr "1.9")] [mkField "app" (VStr "3")]) = true /\
    do_match (fun _ _ => false) (fun _ => None) t 1 7 (VStr "hello") (fields_ref_value [mkField "a" (VStr "z")] [mkField "app" (VStr "3")]) = false.
Proof. split; [cbn; splits; auto; discriminate|]. eexists. splits; reflexivity. Qed.

(** C26. *)
Theorem C26_selection : forall re_ok re_match level ltype message fields cfg sel,
  selector_new re_ok cfg = Some sel -> forall id,
  In id (buffers re_match sel ltype level message fields) <->
  routed re_match level ltype message (fun k s => fields k = Some s) cfg id.
Proof. exact selection. Qed.
Print Assumptions C26_selection.

Theorem C26_once : forall re_match level ltype message fields sel, NoDup (buffers re_match sel ltype level message fields).
Proof. exact (selection_sorted (fun _ => true)). Qed.
Print Assumptions C26_once.

(** Only the set of configured buffers matters. *)
Theorem C26_order : forall re_ok re_match level ltype message fields cfg cfg' sel sel',
  selector_new re_ok cfg = Some sel -> selector_new re_ok cfg' = Some sel' -> (forall b, In b cfg <-> In b cfg') ->
  buffers re_match sel ltype level message fields = buffers re_match sel' ltype level message fields.
Proof. exact order_independent. Qed.
Print Assumptions C26_order.

Example C26_case : exists sel,
  selector_new (fun _ => true) [mkBufferCfg "z" [mkFilterCfg "1" (Some (BNot (BBase (Some BAnyMatch)))); mkFilterCfg "2" (Some (BBase (Some (BTagMatch "k" (Some Prefix) "ab"))))];
     mkBufferCfg "a" [mkFilterCfg "3" None; mkFilterCfg "4" (Some (BBase (Some (BLogLevelMatch (Some BGe) 2))))]; mkBufferCfg "n" []] = Some sel /\
  buffers (fun _ _ => false) sel 0 3 (VStr "m") (fun _ => Some "abc") = ["a"; "z"] /\
  buffers (fun _ _ => false) sel 0 1 (VStr "m") (fun _ => Some "abc") = ["z"] /\
  buffers (fun _ _ => false) sel 0 1 (VStr "m") (fun _ => None) = [].
Proof. eexists. splits; reflexivity. Qed.
