(** Vocabulary of the statements about logs on their way from the call to the buffers. *)
From Verif Require Import Base Str_Base Log_Model WorkflowEngine_Model WorkflowEngine_Spec Pipeline_Model Pipeline_Spec LogBuffer_Model LogBuffer_Spec Sdk_Model.
Local Open Scope string_scope. Local Open Scope list_scope.

Notation slabel := (label conf env turn).
Notation sevent := (event env effect).

(** The configurations received, in order. *)
Fixpoint confs (l : list slabel) : list conf := match l with [] => [] | Config c _ :: l => c :: confs l | _ :: l => confs l end.
(** The filters apply: as the first configuration found the flag, then as told. *)
Fixpoint filters_on (o : option bool) (l : list slabel) : option bool :=
  match l with
  | [] => o
  | Config c _ :: l => filters_on (match o with None => Some (k_filter c) | _ => o end) l
  | Run (FilterFlag b) :: l => filters_on (Some b) l
  | _ :: l => filters_on o l
  end.
(** There is a workflow engine: as the last configuration found the flag, unless it was switched off since. *)
Fixpoint workflows_on (o : bool) (l : list slabel) : bool :=
  match l with
  | [] => o
  | Config c _ :: l => workflows_on (k_workflows c) l
  | Run (WorkflowsFlag false) :: l => workflows_on false l
  | _ :: l => workflows_on o l
  end.
(** The continuous buffers of a configuration. *)
Definition conts (c : conf) : list string := pr_conts (u_producers (k_update c)).
(** Each configuration is coherent and keeps the continuous buffers of the one before. *)
Fixpoint keeps_buffers (before : list string) (cs : list conf) : Prop :=
  match cs with [] => True | c :: cs => coherent (k_update c) /\ incl before (conts c) /\ keeps_buffers (conts c) cs end.
(** What the surroundings told the pipeline during this step. *)
Definition told (x : slabel) (v : env) : Prop := match x with Take t => v = t_pipe t | Config _ vs => exists n, v = vs n | _ => False end.

(** The logs that were given to the pipeline, in order, with what the pipeline did for each. *)
Fixpoint given (e : list sevent) : list (log * list effect) :=
  match e with
  | [] => []
  | (Wrote _ l (Piped es) | WroteInternal _ l (Piped es) | Replayed l es) :: e => (l, es) :: given e
  | _ :: e => given e
  end.
