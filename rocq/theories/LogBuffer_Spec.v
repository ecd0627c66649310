(** What the log buffer is for, told with what can be seen. *)
From Verif Require Import Base Str_Base Log_Model Metadata_Model Metadata_Spec Matcher_Spec LogBuffer_Model.
Local Open Scope string_scope. Local Open Scope list_scope.

Section Spec.
Context {V E : Type}.

(** The calls the channel accepted, and the messages the loop took. *)
Fixpoint accepted (e : list (event V E)) : list (nat * call) :=
  match e with [] => [] | Called k c Accepted :: e => (k, c) :: accepted e | _ :: e => accepted e end.
Fixpoint taken (e : list (event V E)) : list (nat * call) :=
  match e with [] => [] | Taken k c _ :: e => (k, c) :: taken e | _ :: e => taken e end.

(** What the application did to its global fields with the accepted calls before call [k]. *)
Definition field_ops (l : list (nat * call)) : list gop :=
  flat_map (fun x => match snd x with CAdd f => [Add (f_key f) (f_val f)] | CRemove k => [Remove k] | _ => [] end) l.
Definition ops_before (k : nat) (e : list (event V E)) : list gop := field_ops (List.filter (fun x => Nat.ltb (fst x) k) (accepted e)).

(** The fields called [key] of a log of type [ty]: from the provider ([p]), the call ([l], [m] for matching) and the globally added ones, first come first served.
    For replay, resource and internal logs the provider's are only for matching. [o]: the platform's own, [c]: custom ones. *)
Definition carries (ty : N) (po pc lo lc mo mc globals : list field) (key : string) (fields matching : list field) : Prop :=
  (~ In ty [1; 3; 4]%N -> forall v, (In (mkField key v) fields <-> picks key [po; lo; lc; globals; pc] v) /\ (In (mkField key v) matching <-> picks key [mo; mc] v)) /\
  (In ty [1; 3; 4]%N -> forall v, (In (mkField key v) fields <-> picks key [lo; lc; globals] v) /\ (In (mkField key v) matching <-> picks key [po; mo; mc; pc] v)).

(** The logs that were dealt with, in order: passed on, replaced by a log about them, or refused by the provider. *)
Fixpoint outcomes (e : list (event V E)) : list nat :=
  match e with [] => [] | (Wrote k _ _ | WroteInternal k _ _ | Failed k) :: e => k :: outcomes e | _ :: e => outcomes e end.
(** The calls that returned, in order. *)
Fixpoint returns (e : list (event V E)) : list nat := match e with [] => [] | Returned k :: e => k :: returns e | _ :: e => returns e end.
(** Logs kept for later, and those passed on later. *)
Fixpoint kept (e : list (event V E)) : list log :=
  match e with [] => [] | (Wrote _ l Kept | WroteInternal _ l Kept) :: e => l :: kept e | _ :: e => kept e end.
Fixpoint replayed (e : list (event V E)) : list log := match e with [] => [] | Replayed l _ :: e => l :: replayed e | _ :: e => replayed e end.
(** The numbers of the logs, and of the calls that wait, in a list of calls. *)
Definition log_ids (l : list (nat * call)) : list nat := map fst (List.filter (fun x => match snd x with CLog _ _ => true | _ => false end) l).
Definition waiting_ids (l : list (nat * call)) : list nat :=
  map fst (List.filter (fun x => match snd x with CLog _ true | CFlush true => true | _ => false end) l).

(** Names that are not the application's. *)
Definition internal_name (k : string) : Prop := exists r, k = ("_" ++ r)%string.

(** The network quality, as told by others and by responses that came in. *)
Definition is_response (c : call) : bool :=
  match c with
  | CLog l _ => (ln_type l =? 8)%N && match ln_message l with VStr m => String.eqb m "HTTPResponse" | VBytes _ => false end &&
                match Network_Model.get_int_field_value (map a_field (ln_fields l)) "_status_code" with Some _ => true | None => false end
  | _ => false
  end.
Fixpoint quality_after (q : quality) (e : list (event V E)) : quality :=
  match e with
  | [] => q
  | QualitySet q :: e => quality_after q e
  | Taken _ c _ :: e => quality_after (if is_response c then Online else q) e
  | _ :: e => quality_after q e
  end.

(** Logs taken, and logs of a type. *)
Definition is_log (c : call) : bool := match c with CLog _ _ => true | _ => false end.
Definition is_type (t : N) (c : call) : bool := match c with CLog l _ => (ln_type l =? t)%N | _ => false end.
(** The counters of the report. *)
Definition counters : list (string * (call -> bool)) :=
  [("_logs", is_log); ("_device_logs", is_type 6); ("_internal_logs", is_type 4); ("_network_logs", is_type 8); ("_normal_logs", is_type 0);
   ("_lifecycle_logs", is_type 2); ("_replay_logs", is_type 1); ("_resource_logs", is_type 3)].
(** The report is asked for: the periodic log about resources, and the flag is on. *)
Definition reports (c : call) (t : tenv V) : bool :=
  match c with
  | CLog l _ => (ln_type l =? 3)%N && match ln_message l with VStr m => String.eqb m "" | VBytes _ => false end && t_report t
  | _ => false
  end.
(** How many logs that satisfy [p] were taken, in all and since the last report. *)
Fixpoint tally (p : call -> bool) (n : nat) (e : list (event V E)) : nat :=
  match e with [] => n | Taken _ c _ :: e => tally p (if p c then S n else n) e | _ :: e => tally p n e end.
Fixpoint tally_since (p : call -> bool) (n : nat) (e : list (event V E)) : nat :=
  match e with
  | [] => n
  | Taken _ c t :: e => tally_since p (if reports c t then 0 else if p c then S n else n) e
  | _ :: e => tally_since p n e
  end.

(** The logs written and not refused by the pre-config buffer, in order. *)
Fixpoint delivered (e : list (event V E)) : list log :=
  match e with
  | [] => []
  | (Wrote _ l h | WroteInternal _ l h) :: e => match h with Dropped => delivered e | _ => l :: delivered e end
  | _ :: e => delivered e
  end.

(** The loop ended: told to, or by a panic. *)
Definition ended {C R} (l : list (label C V R)) (e : list (event V E)) : Prop := In Stop l \/ In Died e.
(** A configuration has arrived. *)
Definition configured {C R} (l : list (label C V R)) : Prop := exists c vs, In (Config c vs) l.
(** The loop has nothing to do and waits for nobody. *)
Definition quiet {C R B} (step : B -> label C V R -> option (B * list (event V E))) (b : B) : Prop :=
  (forall t, step b (Take t) = None) /\ step b StatsDone = None /\ step b BuffersDone = None.
(** What the loop itself does, and the answers it waits for. *)
Definition loop_label {C R} (t : tenv V) (x : label C V R) : Prop := x = Take t \/ x = StatsDone \/ x = BuffersDone.

(** The same history with a provider that makes no calls, and what can be seen of it. *)
Definition mute (t : tenv V) : tenv V := mkTenv (t_now t) (t_clock t) (t_report t) (t_time t) (t_provider t) [] (t_pipe t).
Definition muted {C R} (x : label C V R) : label C V R := match x with Take t => Take (mute t) | x => x end.
Fixpoint apart (e : list (event V E)) : list (event V E) :=
  match e with [] => [] | Guarded _ :: e => apart e | Taken k c t :: e => Taken k c (mute t) :: apart e | x :: e => x :: apart e end.
(** The provider does not flush. *)
Definition flushless {C R} (x : label C V R) : Prop := match x with Take t => forall w a, ~ In (CFlush w, a) (t_inner t) | _ => True end.

(** The wall clock as the session sees it. *)
Fixpoint clocks {C R} (l : list (label C V R)) : list Z :=
  match l with [] => [] | Take t :: l => k_now (t_clock t) :: clocks l | SessionId k :: l => k_now k :: clocks l | _ :: l => clocks l end.
End Spec.
