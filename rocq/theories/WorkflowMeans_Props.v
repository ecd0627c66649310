(** The claims about the definitions of workflows. *)
From Verif Require Import Base Str_Base Log_Model LogMatcher_Model Workflow_Model WorkflowMeans_Spec WorkflowMeans_Proofs.
Local Open Scope string_scope. Local Open Scope list_scope.

(** C147. A definition is accepted exactly if it is complete. *)
Theorem C147_accepted : forall re_ok p, config_new re_ok p <> None <-> complete_definition re_ok p.
Proof. exact config_complete. Qed.
(** C147. The workflow that runs is the one the definition describes. *)
Theorem C147_means : forall re_ok p c, config_new re_ok p = Some c -> means re_ok p c.
Proof. exact config_means. Qed.
(** C147. In a list of definitions an incomplete one costs only itself. *)
Theorem C147_list : forall re_ok l, accepted re_ok l (configs_new re_ok l).
Proof. exact configs_accepted. Qed.

(** A definition with two states of the same name, two bounds of a stream and a diagram with an extraction. *)
Definition two_states : workflow_proto :=
  mkWorkflowP "w" [
    mkStateP "a" [mkTransitionP "b" (Some (PTimeout 7)) [Some (PFlush "f" ["y"; "x"; "y"] (Some (["s"], [Some 5%N; None; Some 3%N]))); Some (PSankey "d" 4 [("k", Some (TFixed "v"))])] [None; Some (mkExtensionP "d" (Some (TExtract "q")) true)]];
    mkStateP "b" []; mkStateP "b" []] (Some Parallel) (Some 2%N) (Some 9%N).
Example C147_case : configs_new (fun _ => true) [two_states; mkWorkflowP "no states" [] (Some Parallel) None None; mkWorkflowP "zero" [mkStateP "a" []] (Some Exclusive) (Some 0%N) None] =
  [mkConfig "w" [mkState "a" [mkTransition 2 (TimeoutMatch 7) [AFlush (mkFlush "f" ["x"; "y"] (Some (mkStreaming ["s"] (Some 3%N)))); ASankey (mkSankeyAction "d" 4 [("k", TFixed "v")])]
      [mkExtraction "d" (TExtract "q") true 4]]; mkState "b" []; mkState "b" []] Parallel (Some 2000000%Z) (Some 9%N)].
Proof. vm_compute. reflexivity. Qed.
Example C147_complete_case : complete_definition (fun _ => true) two_states.
Proof. apply C147_accepted. vm_compute. discriminate. Qed.
Print Assumptions C147_accepted.
Print Assumptions C147_means.
Print Assumptions C147_list.
