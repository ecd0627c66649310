(** The requests to flush buffers that the workflows engine makes (C150). *)
From Verif Require Import Base Str_Base Version_Model Log_Model LogMatcher_Model Workflow_Model Workflow_Spec WorkflowEngine_Model.
Local Open Scope string_scope. Local Open Scope list_scope.

(** The requests that wait for the consumer of the requests. *)
Definition waiting (y : system) : list (nat * list string) := e_buffers (y_engine y).
(** The action whose approval is dealt with next. *)
Definition approved_next (y : system) (p : pending) : Prop := exists rest, y_outputs y = Approved p :: rest.

Section Requests.
Variables (re_match : string -> string -> bool) (to_i32 : string -> option Z) (sha : string -> string) (f64 : string -> option Z).
(** The requests made in this process, with the action they were made for: what is new in
    the queue. *)
Fixpoint requests (y : system) (ops : list op) (r : list (string * nat)) : list (string * nat) :=
  match ops with
  | [] => r
  | o :: ops' =>
    match step re_match to_i32 sha f64 y o with
    | None => r
    | Some (y', _) =>
      requests y' ops'
        match o, y_outputs y with
        | Restart _ _, _ => []
        | RunOnce, Approved p :: _ => map (fun x => (pa_id p, fst x)) (skipn (List.length (waiting y)) (waiting y')) ++ r
        | _, _ => r
        end
    end
  end.
End Requests.

(** A request for that action is not answered. *)
Definition running (y : system) (r : list (string * nat)) (id : string) : Prop := exists n, In (id, n) r /\ ~ In n (y_done y).
