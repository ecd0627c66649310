(** C155: metrics whose labels come late count everything, under the labels of their first use. *)
From Verif Require Import Base Str_Base Labels_Model Late_Model Late_Spec Late_Proofs.
Local Open Scope string_scope. Local Open Scope list_scope.

(** The series of a metric, once it is used, stays; it carries the labels of the first use or, all of them replaced, the mark of overflow; and metrics of one
    vector that were first used with equal labels have one series. *)
Theorem C155_labels : forall max names ops later w w' m v given,
  run max names world_new ops = Some w -> run max names w later = Some w' -> nth_error (vectors ops) m = Some v -> first_use m ops = Some given ->
  exists l, (l = given \/ l = overflow given) /\ nth_error (w_metrics w) m = Some (v, Some l) /\ nth_error (w_metrics w') m = Some (v, Some l) /\
    forall m', nth_error (vectors ops) m' = Some v -> first_use m' ops = Some given -> nth_error (w_metrics w) m' = Some (v, Some l).
Proof.
  intros max names ops later w w' m v given R R' V F.
  assert (X : forall k, nth_error (vectors ops) k = Some v -> first_use k ops = Some given -> exists l, nth_error (w_metrics w) k = Some (v, Some l)).
  { intros k Vk Fk. pose proof (run_vectors max names ops world_new w R) as M. cbn in M. rewrite <- M in Vk. rewrite nth_error_map in Vk. destruct (nth_error (w_metrics w) k) as [[v1 l1]|] eqn:E; inversion Vk; subst.
    destruct (used_resolved max names ops w k _ l1 R E) as [l2 ->]; [congruence|]. exists l2. reflexivity. }
  destruct (X m V F) as [l E]. exists l. destruct (agree max names ops w m m v l l given R E E F F) as [_ O]. destruct (run_metrics max names later w w' m v (Some l) R' E) as (l2 & E2 & K). rewrite K in E2 by discriminate.
  split; [exact O|]. split; [exact E|]. split; [exact E2|]. intros m' V' F'. destruct (X m' V' F') as [l' E']. destruct (agree max names ops w m m' v l l' given R E E' F F') as [-> _]. exact E'.
Qed.

(** Every series shows the sum of what was counted through its metrics, and a vector the sum of what was counted through all of its metrics: labels that overflow lose
    no counts. *)
Theorem C155_conserved : forall max names ops w,
  run max names world_new ops = Some w ->
  (forall v l, value (v, l) (w_values w) = counted (fun m => match nth_error (w_metrics w) m with Some (v', Some l') => same (v, l) (v', l') | _ => false end) ops) /\
  (forall v, total v (w_values w) = counted (fun m => match nth_error (vectors ops) m with Some v' => Nat.eqb v v' | None => false end) ops).
Proof.
  intros max names ops w R. split.
  - intros v l. exact (run_value max names v l ops world_new w R).
  - intros v. rewrite (run_total max names v ops world_new w R). cbn [w_values world_new total]. rewrite N.add_0_l. pose proof (run_vectors max names ops world_new w R) as M. cbn in M. rewrite <- M. clear. generalize ops. intros o. induction o as [|[x|m n l] o IH]; cbn [counted]; [reflexivity|exact IH|]. rewrite IH. f_equal. unfold of_vector. rewrite nth_error_map. destruct (nth_error (w_metrics w) m) as [[? ?]|]; reflexivity.
Qed.

(** A use of a metric never panics if the number of labels at its first use is right; later labels are not looked at. *)
Theorem C155_no_panic : forall max names ops w m v n labels,
  run max names world_new ops = Some w -> nth_error (vectors ops) m = Some v -> (first_use m ops = None -> length labels = length (names v)) -> step max names w (Inc m n labels) <> None.
Proof.
  intros max names ops w m v n labels R V L. pose proof (run_vectors max names ops world_new w R) as M. cbn in M. rewrite <- M in V. rewrite nth_error_map in V. destruct (nth_error (w_metrics w) m) as [[v1 l1]|] eqn:E; inversion V; subst. exact (no_panic max names ops w m v l1 n labels R E L).
Qed.
Print Assumptions C155_labels.
Print Assumptions C155_conserved.
Print Assumptions C155_no_panic.

(** Two metrics of a vector with two labels, and one of another; room for three labels. *)
Definition toy_names (v : nat) : list string := match v with O => ["method"; "path"] | _ => ["code"] end.
Definition toy_ops := [NewMetric 0; NewMetric 0; NewMetric 1; NewMetric 0; Inc 0 2 ["get"; "/"]; Inc 1 3 ["get"; "/"]; Inc 0 4 []; Inc 2 5 ["200"]; Inc 3 6 ["put"; "/"]; Inc 3 1 ["get"; "/"]].
Example C155_case : (match run 3 toy_names world_new toy_ops with Some w => (w_values w, w_metrics w) | None => ([], []) end)
  = ([((0%nat, ["get"; "/"]), 9%N); ((1%nat, ["200"]), 5%N); ((0%nat, ["label_overflow"; "label_overflow"]), 7%N)],
     [(0%nat, Some ["get"; "/"]); (0%nat, Some ["get"; "/"]); (1%nat, Some ["200"]); (0%nat, Some ["label_overflow"; "label_overflow"])]).
Proof. vm_compute. reflexivity. Qed.
Example C155_uses : vectors toy_ops = [0; 0; 1; 0]%nat /\ first_use 0 toy_ops = Some ["get"; "/"] /\ first_use 1 toy_ops = Some ["get"; "/"] /\ first_use 3 toy_ops = Some ["put"; "/"].
Proof. splits; reflexivity. Qed.
