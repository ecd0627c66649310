(** C58: the label tracker bounds the cardinality of labels. *)
From Verif Require Import Base Str_Base Labels_Model Labels_Proofs.
Local Open Scope string_scope.
Local Open Scope list_scope.

(** Called by one thread. However many label sets are passed through unchanged, they contain at most [max] different labels (name and value
    joined by an underscore, as the code does). *)
Theorem C58_sequential_bound : forall max l ks, NoDup ks ->
  (forall k, In k ks -> exists i n v o a b, nth_error l i = Some (n, v) /\ nth_error (snd (track_all max lt_new l)) i = Some o /\
     (o = Some v /\ v <> repeat "label_overflow" (List.length v)) /\ In (a, b) (combine n v) /\ k = String.append a (String.append "_" b)) ->
  List.length ks <= max.
Proof. exact sequential_bound. Qed.
Print Assumptions C58_sequential_bound.

(** Hence at most [max] pairs of name and value, if no name contains an underscore. *)
Theorem C58_pairs_bound : forall max l ps, NoDup ps ->
  (forall a b, In (a, b) ps -> has "_" a = false /\ exists i n v o, nth_error l i = Some (n, v) /\ nth_error (snd (track_all max lt_new l)) i = Some o /\
     (o = Some v /\ v <> repeat "label_overflow" (List.length v)) /\ In (a, b) (combine n v)) ->
  List.length ps <= max.
Proof. exact pairs_bound. Qed.
Print Assumptions C58_pairs_bound.

(** With underscores in names it is false: two different labels share one entry. *)
Theorem C58_pairs_refuted : exists l, snd (track_all 1 lt_new l) = [Some ["b_c"]; Some ["c"]] /\ l = [(["a"], ["b_c"]); (["a_b"], ["c"])].
Proof. eexists. split; [|reflexivity]. vm_compute. reflexivity. Qed.
Print Assumptions C58_pairs_refuted.

(** Label sets whose labels were all used before are passed through, and change nothing. *)
Theorem C58_known_passes : forall max l n v, List.length n = List.length v ->
  (forall a b, In (a, b) (combine n v) -> exists i n' v' o, nth_error l i = Some (n', v') /\ nth_error (snd (track_all max lt_new l)) i = Some o /\
     (o = Some v' /\ v' <> repeat "label_overflow" (List.length v')) /\ In (a, b) (combine n' v')) ->
  track_all max lt_new (l ++ [(n, v)]) = (fst (track_all max lt_new l), snd (track_all max lt_new l) ++ [Some v]).
Proof. exact known_passes. Qed.
Print Assumptions C58_known_passes.

(** Any other is passed through too, or replaced entirely; the latter only if [max] labels have been seen, this one not among them. *)
Theorem C58_all_or_nothing : forall max l n v, List.length n = List.length v ->
  exists o, snd (track_all max lt_new (l ++ [(n, v)])) = snd (track_all max lt_new l) ++ [Some o] /\
  (o = v \/ o = repeat "label_overflow" (List.length v) /\ exists ks a b, NoDup ks /\ List.length ks = max /\ In (a, b) (combine n v) /\ ~ In (String.append a (String.append "_" b)) ks /\
     forall k, In k ks -> exists n' v' c d, In (n', v') (l ++ [(n, v)]) /\ In (c, d) (combine n' v') /\ k = String.append c (String.append "_" d)).
Proof. exact all_or_nothing. Qed.
Print Assumptions C58_all_or_nothing.
Example labels_case : snd (track_all 3 lt_new [(["m"; "p"], ["get"; "/"]); (["m"; "p"], ["get"; "/x"]); (["m"; "p"], ["put"; "/x"]); (["m"; "p"], ["get"; "/"])]) =
  [Some ["get"; "/"]; Some ["get"; "/x"]; Some ["label_overflow"; "label_overflow"]; Some ["get"; "/"]].
Proof. vm_compute. reflexivity. Qed.

(** Called by several threads, in any interleaving of their accesses to the shared map and counter: the bound is exceeded by less than the number
    of threads. (The code's comment calls the check "close enough".) *)
Theorem C58_concurrent_bound : forall max programs schedule ks, NoDup ks ->
  (forall k, In k ks -> exists t r, In t (sh_threads (sh_run max (sh_new programs) schedule)) /\ In (r, true) (th_done t) /\ In k r) ->
  List.length ks <= max + List.length programs - 1.
Proof. exact concurrent_bound. Qed.
Print Assumptions C58_concurrent_bound.
(** The bound is reached: two threads both pass the check. *)
Example race_case : let s := sh_run 1 (sh_new [ [["a"]; ["c"] ]; [["b"] ] ]) [0; 1; 0; 1; 0; 1; 0; 1; 0; 1; 0; 0] in
  map th_done (sh_threads s) = [ [(["a"], true); (["c"], false)]; [(["b"], true)] ].
Proof. vm_compute. reflexivity. Qed.
