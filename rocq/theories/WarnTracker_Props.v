(** C56. Rate limited warnings. *)
From Verif Require Import Base WarnTracker_Model WarnTracker_Proofs.
Open Scope Z_scope.

(** In any history of one call site, the call following an emitted warning (all calls in between suppressed) is emitted iff
    its clock reading is more than its interval after the emitted one. So consecutive emissions are more than the
    interval apart, and a call that late is always emitted. *)
Theorem C56_spacing : forall pre mid post t1 d1 t2 d2,
  let l := pre ++ (t1, d1) :: mid ++ (t2, d2) :: post in
  let i := length pre in let j := (length pre + S (length mid))%nat in
  nth_error (wt_run None l) i = Some true ->
  (forall k, (i < k < j)%nat -> nth_error (wt_run None l) k = Some false) ->
  nth_error (wt_run None l) j = Some (d2 <? Z.max 0 (t2 - t1)).
Proof. exact wt_spacing. Qed.
Print Assumptions C56_spacing.

(** The very first call is emitted. *)
Theorem C56_first : forall t d l, nth_error (wt_run None ((t, d) :: l)) 0 = Some true.
Proof. exact wt_first. Qed.
Print Assumptions C56_first.

(** Interval 10: emitted at 0, suppressed at 5 and 10, emitted at 11. *)
Example C56_witness : wt_run None [(0, 10); (5, 10); (10, 10); (11, 10)] = [true; false; false; true].
Proof. reflexivity. Qed.
