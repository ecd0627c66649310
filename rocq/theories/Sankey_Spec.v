(** What the Sankey processor is to do, in terms of what can be seen of it. *)
From Verif Require Import Base Str_Base Lru_Spec Workflow_Model Sankey_Model.

(** The paths handed over, and those taken, in order. *)
Definition handed (tr : list item) : list path := flat_map (fun i => match i with IQueued p => [p] | _ => [] end) tr.
Definition taken (tr : list item) : list path := flat_map (fun i => match i with ITaken p => [p] | _ => [] end) tr.

(** The paths settled or seen again during a history, latest first, with the path that was taken last. A path is settled by the server's decision
    to drop it and by an answer to its upload; a path that comes again while it is among the last hundred of these is seen again. *)
Definition see (a : option path * list key) (i : item) : option path * list key :=
  match i, a with
  | ITaken p, (_, us) => (Some p, if existsb (key_eqb (key_of p)) (firstn 100 (recent key key_eqb us)) then key_of p :: us else us)
  | IDecision (Some false), (Some p, us) | IResult (Some _), (Some p, us) => (Some p, key_of p :: us)
  | _, _ => a
  end.
(** Whether a path is among the last hundred of these. *)
Definition known (tr : list item) (k : key) : Prop := In k (firstn 100 (recent key key_eqb (snd (fold_left see tr (None, []))))).

(** What is seen of the processor itself. *)
Definition of_processor (i : item) : bool := match i with IQueued _ | ILost _ => false | _ => true end.
Definition no_take (tr : list item) : Prop := forall p, ~ In (ITaken p) tr.
(** All that is to be seen of the processor about a path it does not know, until it is done with it. *)
Inductive complete (p : path) : list item -> Prop :=
| Unanswered : complete p [IIntent (p_sankey p) (p_id p); IDecision None]
| Dropped : complete p [IIntent (p_sankey p) (p_id p); IDecision (Some false)]
| Sent r : complete p [IIntent (p_sankey p) (p_id p); IDecision (Some true); IUpload (p_sankey p) (p_id p) (p_nodes p); IResult r].
(** Counting. *)
Definition count (f : item -> bool) (tr : list item) : nat := length (filter f tr).
Definition is_taken i := match i with ITaken _ => true | _ => false end.
Definition is_intent i := match i with IIntent _ _ => true | _ => false end.
Definition is_upload i := match i with IUpload _ _ _ => true | _ => false end.
Definition is_yes i := match i with IDecision (Some true) => true | _ => false end.
Definition is_no i := match i with IDecision (Some false) => true | _ => false end.
Definition is_stored i := match i with IResult (Some _) => true | _ => false end.
Definition is_no_decision i := match i with IDecision None => true | _ => false end.
Definition is_no_result i := match i with IResult None => true | _ => false end.
