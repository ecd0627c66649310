(** C160: what a panic does. *)
From Verif Require Import Base Str_Base Panic_Model.
Local Open Scope string_scope. Local Open Scope list_scope.

(** A report of a panic: of the standard library, a backtrace, or a line that begins like one. *)
Definition report (i : info) (e : effect) : bool := match e with Standard _ | Backtrace _ => true | Error l => prefix "panic: " l | Exit _ => false end.
Definition is_exit (e : effect) : bool := match e with Exit _ => true | _ => false end.
(** How the calls of a process end. *)
Inductive ends_with : list (bool * panic_type) -> bool * panic_type -> Prop := ends : forall l x, ends_with (l ++ [x]) x.

Lemma calls_app : forall l l' h, calls h (l ++ l') = calls (calls h l) l'.
Proof. induction l as [|[e t] l IH]; intros l' h; [reflexivity|]. apply IH. Qed.

(** After any calls a panic is reported exactly once, before anything else. *)
Theorem C160_reported_once : forall l i, length (filter (report i) (calls standard l i)) = 1%nat /\ exists e es, calls standard l i = e :: es /\ report i e = true.
Proof.
  intros l i. destruct l as [|x l] using rev_ind; [split; [reflexivity|]; exists (Standard i), []; split; reflexivity|]. clear IHl.
  rewrite calls_app. destruct x as [[|] [|]]; cbn; (split; [reflexivity|]); do 2 eexists; split; reflexivity.
Qed.

(** It ends the process, with code 1 and as the last thing, exactly if the last call asked for it. Missing: that it does so if any call asked for it. *)
Theorem C160_exit_partial : forall l e t i, ends_with l (e, t) ->
  match t with
  | ForceAbort => exists es, calls standard l i = es ++ [Exit 1] /\ filter is_exit es = []
  | BacktraceOnly => filter is_exit (calls standard l i) = []
  end.
Proof.
  intros l e t i H. remember (e, t) as x. destruct H as [l x]. subst x. rewrite calls_app. destruct e, t; cbn; try reflexivity.
  - eexists [_; _]. split; reflexivity.
  - eexists [_; _]. split; reflexivity.
Qed.

(** With LOG_PANIC at the last call the report is one line that has the text of the panic and its place. *)
Theorem C160_line : forall l t i, ends_with l (true, t) -> exists a b c es, calls standard l i = Error (a ++ b ++ """ location=" ++ c)%string :: es /\ a = "panic: message=""" /\
  (forall s, i_payload i = Static s \/ i_payload i = Owned s -> b = s) /\ (forall f n, i_location i = Some (f, n) -> c = (f ++ ":" ++ dec_string n)%string).
Proof.
  intros l t i H. remember (true, t) as x. destruct H as [l x]. subst x. rewrite calls_app.
  assert (X : (forall s, i_payload i = Static s \/ i_payload i = Owned s -> message i = s) /\ (forall f n, i_location i = Some (f, n) -> location i = (f ++ ":" ++ dec_string n)%string)).
  { split; [intros s [E|E]; unfold message; rewrite E; reflexivity|intros f n E; unfold location; rewrite E; reflexivity]. }
  destruct X as [X Y]. exists "panic: message=""", (message i), (location i).
  destruct t; [exists []|exists [Error "Forcing process exit after panic"; Exit 1]]; (split; [reflexivity|]); splits; auto.
Qed.

(** Without it the report is the backtrace of that panic. *)
Theorem C160_backtrace : forall l t i, ends_with l (false, t) -> exists es, calls standard l i = Backtrace i :: es.
Proof. intros l t i H. remember (false, t) as x. destruct H as [l x]. subst x. rewrite calls_app. destruct t; eexists; reflexivity. Qed.

(** So a later call takes back that a panic ends the process. *)
Theorem C160_forced_refuted : ~ (forall l e i, In (e, ForceAbort) l -> exists x, In x (calls standard l i) /\ is_exit x = true).
Proof.
  intros H. destruct (H [(false, ForceAbort); (false, BacktraceOnly)] false {| i_payload := Other; i_location := None |} (or_introl eq_refl)) as (x & [<-|[]] & E). discriminate.
Qed.

Example C160_witness : ends_with [(false, BacktraceOnly); (true, ForceAbort)] (true, ForceAbort) /\
  calls standard [(false, BacktraceOnly); (true, ForceAbort)] {| i_payload := Owned "boom"; i_location := Some ("a.rs", 12%N) |} =
    [Error "panic: message=""boom"" location=a.rs:12"; Error "Forcing process exit after panic"; Exit 1].
Proof. split; [exact (ends [_] _)|reflexivity]. Qed.
Example C160_witness_only : ends_with [(true, ForceAbort); (false, BacktraceOnly)] (false, BacktraceOnly).
Proof. exact (ends [_] _). Qed.

Print Assumptions C160_reported_once.
Print Assumptions C160_exit_partial.
Print Assumptions C160_line.
Print Assumptions C160_backtrace.
Print Assumptions C160_forced_refuted.
