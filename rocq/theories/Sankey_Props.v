(** C114-C117. The task that negotiates and uploads Sankey paths. *)
From Verif Require Import Base Str_Base Workflow_Model Sankey_Model Sankey_Spec Sankey_Proofs.
Local Open Scope string_scope.
Local Open Scope list_scope.

(** C114. An upload is made only for the path taken last, unchanged, right after the server was asked about it and said yes. *)
Theorem C114_consent : forall ls s tr a id pid nodes b, run init ls = Some (s, tr) -> tr = a ++ IUpload id pid nodes :: b ->
  exists p a1 a2, a = a1 ++ ITaken p :: a2 /\ no_take a2 /\ id = p_sankey p /\ pid = p_id p /\ nodes = p_nodes p /\
    filter of_processor a2 = [IIntent id pid; IDecision (Some true)].
Proof. exact consent. Qed.
Print Assumptions C114_consent.

(** C115. A path that is among the last hundred settled is not asked about; any other one is asked about and, if the server says yes, uploaded,
    before the next one is taken. ([api s]: the API task is still there.) *)
Theorem C115_asked_partial : forall ls s tr a p b c, run init ls = Some (s, tr) -> tr = a ++ ITaken p :: b ++ c -> no_take b ->
  (c = [] /\ proc s = Idle \/ exists q c', c = ITaken q :: c') ->
  (known a (key_of p) -> filter of_processor b = []) /\ (~ known a (key_of p) -> api s = true -> complete p (filter of_processor b)).
Proof. exact asked. Qed.
Print Assumptions C115_asked_partial.

(** C116. Paths are mixed up at most with paths of the same diagram and the same path id: one whose ids did not come before is asked about. *)
Theorem C116_new_partial : forall ls s tr a p b c, run init ls = Some (s, tr) -> tr = a ++ ITaken p :: b ++ c -> no_take b ->
  (c = [] /\ proc s = Idle \/ exists q c', c = ITaken q :: c') -> (forall q, In q (taken a) -> key_of q <> key_of p) -> api s = true ->
  complete p (filter of_processor b).
Proof. intros ls s tr a p b c H E Hb Hc Hn Ha. exact (proj2 (asked ls s tr a p b c H E Hb Hc) (new_path a p Hn) Ha). Qed.
Print Assumptions C116_new_partial.

(** C117. Every path taken ends as exactly one of: already processed, dropped, failed request, upload; every upload as a success or a failure;
    [working], [sending]: the one at work. *)
Theorem C117_counters : forall ls s tr, run init ls = Some (s, tr) ->
  initiations (cnt s) = count is_taken tr /\ uploads (cnt s) = count is_yes tr /\ drops (cnt s) = count is_no tr /\ successes (cnt s) = count is_stored tr /\
  initiations (cnt s) = already (cnt s) + drops (cnt s) + uploads (cnt s) + request_failures (cnt s) + match proc s with Asking _ | Asked _ => 1 | _ => 0 end /\
  uploads (cnt s) = successes (cnt s) + failures (cnt s) + match proc s with Uploading _ | Uploaded _ => 1 | _ => 0 end /\
  (api s = true -> request_failures (cnt s) = count is_no_decision tr /\ failures (cnt s) = count is_no_result tr).
Proof. exact counters. Qed.
Print Assumptions C117_counters.

(** Paths are taken in the order in which they were handed over, none is left out, and a path is lost only when ten others wait. *)
Theorem C117_order : forall ls s tr, run init ls = Some (s, tr) -> handed tr = taken tr ++ queue s /\
  (forall a p b, tr = a ++ ILost p :: b -> length (handed a) = length (taken a) + 10).
Proof. exact in_order. Qed.
Print Assumptions C117_order.

(** A path of the diagram "d". *)
Definition toy (nodes : list string) : path := mkPath "d" nodes (String.concat "/" nodes) false.
(** One path through all of it. *)
Definition whole (p : path) (d : option bool) (r : option bool) : list label :=
  [LEmit p; LTake; LSend; LDecide d] ++ match d with Some true => [LSend; LResult r] | _ => [] end.

(** Two paths, the first uploaded and coming again, the second dropped. *)
Example C114_ex : exists s tr, run init (whole (toy ["a"; "b"]) (Some true) (Some true) ++ whole (toy ["c"]) (Some false) None ++ [LEmit (toy ["a"; "b"]); LTake]) = Some (s, tr) /\
  tr = [IQueued (toy ["a"; "b"]); ITaken (toy ["a"; "b"]); IIntent "d" "a/b"; IDecision (Some true); IUpload "d" "a/b" ["a"; "b"]; IResult (Some true);
        IQueued (toy ["c"]); ITaken (toy ["c"]); IIntent "d" "c"; IDecision (Some false); IQueued (toy ["a"; "b"]); ITaken (toy ["a"; "b"])] /\
  proc s = Idle /\ api s = true /\ cnt s = mkStats 3 1 1 1 0 1 0 /\ known [ITaken (toy ["a"; "b"]); IResult (Some true)] ("d", "a/b").
Proof. eexists. eexists. split; [vm_compute; reflexivity|]. repeat split. left. reflexivity. Qed.

(** Eleven paths at once: the last one is lost. *)
Example C117_ex : exists s tr, run init (map (fun n => LEmit (toy [n])) (repeat "x" 11)) = Some (s, tr) /\ In (ILost (toy ["x"])) tr /\ length (queue s) = 10.
Proof. eexists. eexists. split; [vm_compute; reflexivity|]. split; [cbn; do 10 right; left; reflexivity|reflexivity]. Qed.

(** C115 refuted: the server answers that it could not take the path; this counts as a success and the path is not offered again. *)
Theorem C115_rejected_refuted : exists p s tr, run init (whole p (Some true) (Some false) ++ [LEmit p; LTake]) = Some (s, tr) /\
  proc s = Idle /\ api s = true /\ successes (cnt s) = 1 /\ failures (cnt s) = 0 /\
  tr = [IQueued p; ITaken p; IIntent (p_sankey p) (p_id p); IDecision (Some true); IUpload (p_sankey p) (p_id p) (p_nodes p); IResult (Some false); IQueued p; ITaken p].
Proof. exists (toy ["a"]). eexists. eexists. split; [vm_compute; reflexivity|]. repeat split. Qed.
Print Assumptions C115_rejected_refuted.

(** C116 refuted: the path id is made from the values without what separates them, so that another path of the diagram is never offered, whatever
    the hash function is. *)
Theorem C116_same_id_refuted : forall sha : string -> string, exists k1 k2 s tr,
  let p1 := path_new sha "d" k1 in let p2 := path_new sha "d" k2 in
  p_nodes p1 <> p_nodes p2 /\ run init (whole p1 (Some true) (Some true) ++ [LEmit p2; LTake]) = Some (s, tr) /\ proc s = Idle /\ api s = true /\
  (forall id pid nodes, In (IUpload id pid nodes) tr -> nodes = p_nodes p1) /\ filter is_intent tr = [IIntent "d" (p_id p1)].
Proof.
  intros sha. exists (mkSankey [mkNode "log" true; mkNode "in" true] false), (mkSankey [mkNode "login" true] false). eexists. eexists. cbn zeta.
  split; [discriminate|]. split; [apply twice; reflexivity|].
  repeat split; try reflexivity. intros id pid nodes H. repeat (destruct H as [H|H]; [try discriminate; inversion H; reflexivity|]). contradiction.
Qed.
Print Assumptions C116_same_id_refuted.
