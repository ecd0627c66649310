(** C158: a record tells its log. *)
From Verif Require Import Base Str_Base Record_Model Record_Spec Record_Proofs.
Local Open Scope Z_scope. Local Open Scope list_scope.

(** Whatever log is made with a builder that is not finished, the record given to the output is read as that log and nothing else; the answer of the output is passed on and the builder is as new. *)
Theorem C158_record : forall (R : Type) b a (f : list object * nat -> R), root b = None ->
  exists h r, make_log b a f = Done builder_new (h, r) (f (h, r)) /\ (exists s, sees h r s) /\ forall s, sees h r s -> tells s a.
Proof.
  intros R b a f N. destruct (make_ok R b a f N) as (h & r & E & s & S & T). exists h, r. splits; [exact E|eauto|].
  intros s' S'. rewrite (sees_fun _ _ _ _ S' S). exact T.
Qed.

(** So one builder serves any sequence of logs, whatever the outputs answer: it never panics, and each record is that of its own log. *)
Theorem C158_sequence : forall (R : Type) (l : list (args * (list object * nat -> R))),
  exists ds, make_logs builder_new l = Some ds /\
    Forall2 (fun x d => snd d = snd x (fst d) /\ (exists s, sees (fst (fst d)) (snd (fst d)) s) /\ forall s, sees (fst (fst d)) (snd (fst d)) s -> tells s (fst x)) l ds.
Proof.
  intros R l. destruct (logs_ok R l builder_new eq_refl) as (ds & E & F). exists ds. split; [exact E|]. clear E.
  induction F as [|x d l ds [A (s & S & T)] F IH]; constructor; [|exact IH].
  splits; [exact A|eauto|]. intros s' S'. rewrite (sees_fun _ _ _ _ S' S). exact T.
Qed.

(** A reader of the same bytes never sees two different logs. *)
Theorem C158_one_reading : forall h r s s', sees h r s -> sees h r s' -> s = s'.
Proof. exact sees_fun. Qed.

(** A log of 1.5 seconds before 1970 with a binary field, of which the output fails, and one after it with ids. *)
Definition toy_early : args := {| a_level := 1%N; a_type := 0%N; a_message := PString "hello"; a_fields := [("k"%string, PBytes [1%N; 255%N]); ("k"%string, PString "v")]; a_session := "s"; a_time := -1500000000; a_actions := []; a_streams := [] |}.
Definition toy_next : args := {| a_level := 4%N; a_type := 2%N; a_message := PBytes []; a_fields := []; a_session := "s2"; a_time := 1700000000123456789; a_actions := ["a1"%string; "a2"%string]; a_streams := ["t"%string] |}.
Example C158_witness : exists h r h' r',
  make_logs builder_new [(toy_early, fun _ => false); (toy_next, fun _ => true)] = Some [((h, r), false); ((h', r'), true)] /\
  sees h r {| s_level := 1%N; s_type := 0%N; s_message := PString "hello"; s_fields := [("k"%string, PBytes [1%N; 255%N]); ("k"%string, PString "v")]; s_session := "s"; s_seconds := -2; s_nanos := 500000000; s_actions := []; s_streams := [] |} /\
  sees h' r' {| s_level := 4%N; s_type := 2%N; s_message := PBytes []; s_fields := []; s_session := "s2"; s_seconds := 1700000000; s_nanos := 123456789; s_actions := ["a1"%string; "a2"%string]; s_streams := ["t"%string] |}.
Proof.
  destruct (make_logs builder_new [(toy_early, fun _ => false); (toy_next, fun _ => true)]) as [ds|] eqn:E; [|vm_compute in E; discriminate].
  vm_compute in E. inv E. do 4 eexists. split; [reflexivity|].
  split; (econstructor; [reflexivity| | | | | | | ]); repeat (first [reflexivity | econstructor]).
Qed.
(** The builder must be as new: a finished one panics. *)
Example C158_finished : make_log {| made := []; root := Some 0%nat |} toy_next (fun _ => true) = Panic.
Proof. reflexivity. Qed.

Print Assumptions C158_record.
Print Assumptions C158_sequence.
Print Assumptions C158_one_reading.
