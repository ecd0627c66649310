From Verif Require Import Base Str_Base Flags_Model Flags_Spec Flags_Proofs.

(** * C110: the snapshot follows the file *)
Section C110.
Context {Raw Config : Type}.
Variable parse : string -> option Raw.
Variable convert : option Raw -> option Config.
Theorem C110_follows_partial : forall f0 ls s, exec parse convert (init f0) ls = Some s -> no_failure ls -> no_shutdown ls -> in_place false ls = false -> settled s ->
  snapshot s = convert (match content f0 ls with Some text => parse text | None => None end).
Proof. intros f0 ls s. eapply converges. Qed.
Theorem C110_settles : forall f0 ls s, exec parse convert (init f0) ls = Some s -> no_failure ls -> no_shutdown ls -> stg s = Made ->
  exists ls' s', exec parse convert s ls' = Some s' /\ settled s' /\ disk s' = disk s /\ (forall l, In l ls' -> l = LTake \/ l = LSend).
Proof. intros f0 ls s. eapply settles. Qed.
Theorem C110_always_something : forall f0 ls s, (forall o, convert o <> None) -> exec parse convert (init f0) ls = Some s -> stg s = Made -> snapshot s <> None.
Proof. intros f0 ls s. eapply always_something. Qed.
End C110.
Print Assumptions C110_follows_partial.
Print Assumptions C110_settles.
Print Assumptions C110_always_something.

Definition toy_parse (t : string) : option flags := if String.eqb t "bad" then None else Some [("k", FString t)]%string.
Notation run := (exec toy_parse flags_conversion).
(** The file is swapped between the watch and the first read, again between that and the making, and once more while the task has read but not sent. *)
Definition races : list label :=
  [LWrite (Some "0"%string); LWatch; LSwap (Some "1"%string); LRead; LSwap (Some "2"%string); LTouch; LMake; LTake; LSwap (Some "3"%string); LSend; LTake; LSend; LTake; LTake].
Example C110_ex : exists s, run (init None) races = Some s /\ no_failure races /\ no_shutdown races /\ in_place false races = false /\ stg s = Made /\ tsk s = Sending (Some [("k", FString "3")]%string).
Proof.
  eexists. split; [vm_compute; reflexivity|]. splits; try reflexivity.
  - intros H. simpl in H. repeat (destruct H as [H|H]; [discriminate|]). exact H.
  - intros c H. simpl in H. repeat (destruct H as [H|H]; [discriminate|]). exact H.
Qed.
Definition races2 : list label := races ++ [LSend].
Example C110_settled_ex : exists s, run (init None) races2 = Some s /\ settled s /\ snapshot s = Some [("k", FString "3")]%string.
Proof. eexists. split; [vm_compute; reflexivity|]. unfold settled; splits; reflexivity. Qed.
Example C110_conversion_ex : forall o, flags_conversion o <> None.
Proof. discriminate. Qed.

(** A failure of the notifications ends the task: the snapshot never changes again. A write in place goes unnoticed. *)
Definition failed : list label := [LWatch; LRead; LMake; LFail; LTake].
Theorem C110_failure_refuted : exists ls s, run (init None) ls = Some s /\ no_shutdown ls /\ stg s = Made
  /\ forall ls' s', run s ls' = Some s' -> snapshot s' = snapshot s.
Proof.
  exists failed. eexists. split; [vm_compute; reflexivity|]. splits; [|reflexivity|].
  - intros c H. simpl in H. repeat (destruct H as [H|H]; [discriminate|]). exact H.
  - intros ls' s' H. eapply ended_exec in H; [apply H|reflexivity|reflexivity].
Qed.
Print Assumptions C110_failure_refuted.
Definition written : list label := [LWatch; LRead; LMake; LWrite (Some "1"%string); LTake].
Theorem C110_in_place_refuted : exists ls s, run (init None) ls = Some s /\ no_failure ls /\ no_shutdown ls /\ settled s
  /\ snapshot s <> flags_conversion (match content None ls with Some text => toy_parse text | None => None end).
Proof.
  exists written. eexists. split; [vm_compute; reflexivity|]. unfold settled; splits; try reflexivity; try discriminate.
  - intros H. simpl in H. repeat (destruct H as [H|H]; [discriminate|]). exact H.
  - intros c H. simpl in H. repeat (destruct H as [H|H]; [discriminate|]). exact H.
Qed.
Print Assumptions C110_in_place_refuted.

(** * C111: every load is counted once *)
Section C111.
Context {Raw Config : Type}.
Variable parse : string -> option Raw.
Variable convert : option Raw -> option Config.
Theorem C111_counted : forall f0 l1 l2 s, ~ In LWatch l1 -> no_failure l2 -> no_shutdown l2 -> exec parse convert (init f0) (l1 ++ LWatch :: l2) = Some s -> settled s ->
  ok s + bad s + io s = 1 + length (filter is_swap l2).
Proof. intros f0 l1 l2 s. eapply loads_counted. Qed.
(** Under the counter of its kind: a success only if the file once had something that can be read as YAML, and so on. *)
Theorem C111_kinds : forall f0 ls s, exec parse convert (init f0) ls = Some s ->
  (ok s <> 0 -> exists t r, In (Some t) (contents f0 ls) /\ parse t = Some r) /\ (bad s <> 0 -> exists t, In (Some t) (contents f0 ls) /\ parse t = None) /\
  (io s <> 0 -> In None (contents f0 ls)).
Proof. intros f0 ls s H. exact (proj2 (kinds_inv parse convert f0 ls s H)). Qed.
End C111.
Print Assumptions C111_counted.
Print Assumptions C111_kinds.
Example C111_ex : exists s, run (init None) ([LWrite (Some "0"%string)] ++ LWatch :: tl (tl races2)) = Some s /\ settled s /\ ok s + bad s + io s = 4.
Proof. eexists. split; [vm_compute; reflexivity|]. unfold settled; splits; reflexivity. Qed.

Example C111_kinds_ex : exists s, run (init None) [LWatch; LRead; LMake; LSwap (Some "bad"%string); LTake; LSend; LSwap (Some "1"%string); LTake] = Some s /\ ok s = 1 /\ bad s = 1 /\ io s = 1.
Proof. eexists. split; [vm_compute; reflexivity|]. repeat split. Qed.

(** * C112: a feature of the number i is on for i of every 10000 random numbers, and on for more as the number grows *)
Local Open Scope N_scope.
Theorem C112_share : forall fs name d i m, has fs name (FInteger i) ->
  count (feature_enabled fs name d) m = if 10000 <=? i then N.of_nat m else (N.of_nat m / 10000) * i + N.min i (N.of_nat m mod 10000).
Proof. exact enabled_count. Qed.
Print Assumptions C112_share.
Theorem C112_monotone : forall fs fs' name d i j r, has fs name (FInteger i) -> has fs' name (FInteger j) -> i <= j ->
  feature_enabled fs name d r = true -> feature_enabled fs' name d r = true.
Proof. exact enabled_monotone. Qed.
Print Assumptions C112_monotone.
Theorem C112_typed : forall fs name b n t,
  (forall f, has fs name f ->
     get_bool fs name b = match f with FBool x => x | _ => b end
     /\ get_integer fs name n = match f with FInteger x => x | _ => n end
     /\ get_string fs name t = match f with FString x => x | _ => t end
     /\ (forall r, (forall i, f <> FInteger i) -> feature_enabled fs name b r = b))
  /\ (has_not fs name -> get_bool fs name b = b /\ get_integer fs name n = n /\ get_string fs name t = t /\ forall r, feature_enabled fs name b r = b).
Proof. exact getters. Qed.
Print Assumptions C112_typed.
Definition some_flags : flags := [("a", FBool true); ("b", FInteger 25)]%string.
Example C112_ex : has some_flags "b" (FInteger 25) /\ has some_flags "a" (FBool true) /\ has_not some_flags "c" /\ feature_enabled some_flags "b" false 10024 = true
  /\ feature_enabled some_flags "b" false 10025 = false /\ feature_enabled some_flags "a" false 1 = false.
Proof.
  assert (Hn : NoDup (map fst some_flags)) by (repeat constructor; simpl; intros H; repeat (destruct H as [H|H]; [discriminate|]); exact H).
  unfold has, has_not. repeat match goal with |- _ /\ _ => split end; auto; try reflexivity; try (simpl; auto; fail).
  simpl. intros H. repeat (destruct H as [H|H]; [discriminate|]). exact H.
Qed.
Local Close Scope N_scope.

(** * C113: shutdown waits for the task, after which nothing changes *)
Section C113.
Context {Raw Config : Type}.
Variable parse : string -> option Raw.
Variable convert : option Raw -> option Config.
Theorem C113_final_partial : forall f0 l1 c l2 s1 s, exec parse convert (init f0) (l1 ++ [LReturn c]) = Some s1 -> exec parse convert s1 l2 = Some s -> snapshot s = snapshot s1.
Proof. intros f0 l1 c l2 s1 s. eapply final. Qed.
Theorem C113_returns : forall f0 ls s c, exec parse convert (init f0) ls = Some s -> shut s = Some c ->
  exists ls' s', exec parse convert s (ls' ++ [LReturn c]) = Some s' /\ (forall l, In l ls' -> l = LTake \/ l = LSend).
Proof. intros f0 ls s c. eapply shutdown_returns. Qed.
End C113.
Print Assumptions C113_final_partial.
Print Assumptions C113_returns.
(** One who shuts down while another is waiting is told at once, and may see a change after that. *)
Definition closing : list label := [LWatch; LRead; LMake; LSwap (Some "1"%string); LShutdown 0].
Example C113_ex : exists s1 s2, run (init None) closing = Some s1 /\ shut s1 = Some 0
  /\ run (init None) ((closing ++ [LTake; LSend; LTake]) ++ [LReturn 0]) = Some s2 /\ exists s3, run s2 [LSwap None; LShutdown 3] = Some s3.
Proof. eexists. eexists. split; [vm_compute; reflexivity|]. split; [reflexivity|]. split; [vm_compute; reflexivity|]. eexists. vm_compute. reflexivity. Qed.
Theorem C113_second_refuted : exists ls c s1 ls' s, run (init None) ls = Some s1 /\ In c (returned s1) /\ run s1 ls' = Some s /\ snapshot s <> snapshot s1.
Proof.
  exists (closing ++ [LShutdown 1]), 1. eexists. exists [LTake; LSend]. eexists. split; [vm_compute; reflexivity|]. split; [left; reflexivity|]. split; [vm_compute; reflexivity|]. discriminate.
Qed.
Print Assumptions C113_second_refuted.
