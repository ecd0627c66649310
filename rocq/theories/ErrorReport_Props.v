From Verif Require Import Base Str_Base ErrorReport_Model ErrorReport_Spec ErrorReport_Proofs.

(** * C106: the first five errors before the handler is disabled are reported, in order, each once; the others are counted *)
Theorem C106_first_five : forall ls s, exec init ls = Some s ->
  length (given s) <= 5
  /\ exists rest, firstn 5 (map snd (errors (before_disable ls))) = map it_text (given s) ++ rest /\ length rest <= 1 /\ (h_lock s = Free -> rest = []).
Proof. exact first_five. Qed.
Print Assumptions C106_first_five.
Theorem C106_counted : forall l1 c l2 s, never_registered c l1 -> no_register l2 -> exec init (l1 ++ LRegister c :: l2) = Some s ->
  counters s c + (length (firstn 5 (errors (before_disable (l1 ++ LRegister c :: l2)))) - length (firstn 5 (errors (before_disable l1)))) = length (errors l2).
Proof. exact counted. Qed.
Print Assumptions C106_counted.

Lemma ex_some : forall (o : option st) (P : st -> Prop), match o with Some s => P s | None => False end -> exists s, o = Some s /\ P s.
Proof. intros [s|] P H; [exists s; auto|destruct H]. Qed.
Definition report (t : nat) (m : string) : list label := [LError t m "d"; LDetails t None; LCall t].
(** Two errors before a counter is there, six after it by two threads, of which the last three find no report left. *)
Definition busy : list label := [LSet (RUser 7)] ++ report 0 "a" ++ report 1 "b".
Definition busy2 : list label := report 0 "c" ++ report 1 "d" ++ report 0 "e" ++ [LError 0 "f" "d"; LError 1 "g" "d"; LDisable; LError 0 "h" "d"].
Example C106_ex : exists s, exec init (busy ++ LRegister 3 :: busy2) = Some s /\ map it_text (given s) = ["d: a"; "d: b"; "d: c"; "d: d"; "d: e"]%string
  /\ counters s 3 = 3 /\ h_lock s = Free /\ never_registered 3 busy /\ no_register busy2.
Proof.
  apply ex_some. match goal with |- context [exec ?a ?b] => let v := eval vm_compute in (exec a b) in change (exec a b) with v; cbv iota beta end. splits; try reflexivity.
  - intros H. simpl in H. repeat (destruct H as [H|H]; [discriminate|]). exact H.
  - intros c H. simpl in H. repeat (destruct H as [H|H]; [discriminate|]). exact H.
Qed.

(** * C107: an error goes to the reporter of the innermost [with_reporter] of its thread, else to the one last set *)
Theorem C107_told_partial : forall ls s, (forall t, flat t ls) -> exec init ls = Some s ->
  exists rest, firstn 5 (attributed [] (before_disable ls)) = map (fun i => (it_to i, it_text i)) (given s) ++ rest
    /\ length rest <= 1 /\ (h_lock s = Free -> rest = []).
Proof. exact attribution. Qed.
Print Assumptions C107_told_partial.
Theorem C107_details : forall ls s, exec init ls = Some s ->
  exists rest, details_made ls = map it_details (given s) ++ rest /\ length rest <= 1 /\ (h_lock s = Free -> rest = []).
Proof. exact details_told. Qed.
Print Assumptions C107_details.

(** While a thread is in [with_reporter], another reports elsewhere. *)
Definition two : list label := [LSet (RUser 1); LEnter 0 (RUser 2); LError 1 "a" "d"; LDetails 1 None; LCall 1; LError 0 "b" "d"; LDetails 0 (Some "x"%string); LCall 0; LLeave 0; LClear] ++ report 0 "c".
Lemma flat_dec : forall t ls, (forall n, n <= length ls -> length (scopes t [] (firstn n ls)) <= 1) -> ~ In (LUnwind t) ls -> flat t ls.
Proof. intros t ls H Hu. split; auto. intros n. destruct (le_lt_dec n (length ls)); auto. rewrite firstn_all2 by lia. specialize (H (length ls) (le_n _)). rewrite firstn_all in H. exact H. Qed.
Example C107_ex : exists s, exec init two = Some s /\ (forall t, flat t two)
  /\ map (fun i => (it_to i, it_text i)) (given s) = [(RUser 1, "d: a"%string); (RUser 2, "d: b"%string); (RDefault, "d: c"%string)]
  /\ details_made two = [None; Some "x"%string; None].
Proof.
  apply ex_some. match goal with |- context [exec ?a ?b] => let v := eval vm_compute in (exec a b) in change (exec a b) with v; cbv iota beta end. split; [|split; reflexivity]. intros t. apply flat_dec.
  - intros n Hn. do 14 (destruct n as [|n]; [destruct t; simpl; lia|]). simpl in Hn. lia.
  - simpl. intros H. repeat (destruct H as [H|H]; [discriminate|]). exact H.
Qed.
(** The end of an inner [with_reporter] takes away the outer one's reporter too; a panic in one leaves its reporter behind. *)
Definition nested : list label := [LSet (RUser 1); LEnter 0 (RUser 2); LEnter 0 (RUser 3); LLeave 0] ++ report 0 "a".
Theorem C107_nested_refuted : exists ls s, exec init ls = Some s /\ h_lock s = Free /\ (forall t, ~ In (LUnwind t) ls)
  /\ firstn 5 (attributed [] (before_disable ls)) <> map (fun i => (it_to i, it_text i)) (given s).
Proof.
  exists nested. apply ex_some. match goal with |- context [exec ?a ?b] => let v := eval vm_compute in (exec a b) in change (exec a b) with v; cbv iota beta end. splits; [reflexivity| |discriminate].
  intros t H. simpl in H. repeat (destruct H as [H|H]; [discriminate|]). exact H.
Qed.
Print Assumptions C107_nested_refuted.
Definition unwound : list label := [LSet (RUser 1); LEnter 0 (RUser 2); LUnwind 0] ++ report 0 "a".
Theorem C107_panic_refuted : exists ls s, exec init ls = Some s /\ h_lock s = Free /\ (forall t n, length (scopes t [] (firstn n ls)) <= 1)
  /\ firstn 5 (attributed [] (before_disable ls)) <> map (fun i => (it_to i, it_text i)) (given s).
Proof.
  exists unwound. apply ex_some. match goal with |- context [exec ?a ?b] => let v := eval vm_compute in (exec a b) in change (exec a b) with v; cbv iota beta end. splits; [reflexivity| |discriminate].
  intros t n. destruct (le_lt_dec n 6).
  - do 7 (destruct n as [|n]; [destruct t; simpl; lia|]). lia.
  - rewrite firstn_all2 by (simpl; lia). destruct t; simpl; lia.
Qed.
Print Assumptions C107_panic_refuted.

(** * C108: a report ends, and others can follow *)
Theorem C108_ends_partial : forall ls s, no_reentry ls -> exec init ls = Some s ->
  exists t rest s', exec s rest = Some s' /\ h_lock s' = Free /\ (rest = [] \/ rest = [LCall t] \/ rest = [LDetails t None; LCall t]).
Proof. exact report_ends. Qed.
Print Assumptions C108_ends_partial.
Example C108_ex : exists s, exec init (busy ++ [LError 0 "z" "d"]) = Some s /\ h_lock s <> Free /\ no_reentry (busy ++ [LError 0 "z" "d"]).
Proof. apply ex_some. match goal with |- context [exec ?a ?b] => let v := eval vm_compute in (exec a b) in change (exec a b) with v; cbv iota beta end. split; [discriminate|]. intros t H. simpl in H. repeat (destruct H as [H|H]; [discriminate|]). exact H. Qed.
(** A reporter, or a closure for the details, that comes upon an unexpected error itself blocks the handler for all threads for good. *)
Theorem C108_reentry_refuted : forall l1 t l2 s, exec init (l1 ++ LReenter t :: l2) = Some s -> forall l, needs_lock l -> step s l = None.
Proof. exact reentry_blocks. Qed.
Print Assumptions C108_reentry_refuted.
Example C108_reentry_ex : exists s, exec init ([LError 0 "a" "d"; LDetails 0 None] ++ LReenter 0 :: [LEnter 1 (RUser 3)]) = Some s.
Proof. eexists. reflexivity. Qed.

(** * C109: the metadata reporter passes the session, the metadata and the fields *)
Theorem C109_metadata : forall fs s md p, In p md -> NoDup (map key md) -> get (metadata_fields fs s md) (key p) = Some (snd p).
Proof. exact metadata_told. Qed.
Print Assumptions C109_metadata.
Theorem C109_session : forall fs s md, (forall p, In p md -> key p <> "x-session-id"%string) -> get (metadata_fields fs s md) "x-session-id" = Some s.
Proof. exact session_told. Qed.
Print Assumptions C109_session.
Theorem C109_fields : forall fs s md k, (forall p, In p md -> key p <> k) -> k <> "x-session-id"%string -> get (metadata_fields fs s md) k = get fs k.
Proof. exact fields_kept. Qed.
Print Assumptions C109_fields.
Definition md : list (string * string) := [("app_id", "a"); ("os", "b")]%string.
Example C109_ex : In ("app_id", "a")%string md /\ NoDup (map key md) /\ (forall p, In p md -> key p <> "x-session-id"%string) /\ (forall p, In p md -> key p <> "f"%string)
  /\ metadata_fields [("f", "v")]%string "s" md = [("x-os", "b"); ("x-app-id", "a"); ("x-session-id", "s"); ("f", "v")]%string.
Proof.
  splits; try reflexivity.
  - left. reflexivity.
  - simpl. constructor; [intros [H|[]]; discriminate|]. constructor; [intros []|constructor].
  - intros p [<-|[<-|[]]]; discriminate.
  - intros p [<-|[<-|[]]]; discriminate.
Qed.
(** A metadata entry "session_id" hides the session. *)
Theorem C109_session_refuted : exists fs s md, get (metadata_fields fs s md) "x-session-id" <> Some s.
Proof. exists [], "s"%string, [("session_id", "other")]%string. discriminate. Qed.
Print Assumptions C109_session_refuted.
