(** Specification of C21 and C22, stated over traces of a run. *)
From Verif Require Export Api_Model.

(** The request [w] of kind [k] and identifier [u] is still waiting after the
    trace [l]: it was the last to be tracked under that identifier, and since
    then there was neither a response with that identifier nor the end of the
    stream. *)
Definition waiting (l : list item) (k : kind) (u : string) (w : waiter) : Prop :=
  exists a b, l = a ++ TTrack k u w :: b /\
    (forall w', ~ In (TTrack k u w') b) /\ (forall x, ~ In (TResponse k u x) b) /\ ~ In TEnd b.

(** The notifications of a request in a trace. *)
Definition notified (x : item) (w : waiter) : bool :=
  match x with
  | TDeliver w' _ | TFail w' => Nat.eqb w' w
  | _ => false
  end.
Definition notifications (l : list item) (w : waiter) : list item :=
  filter (fun x => notified x w) l.

(** The requests tracked in a trace. *)
Fixpoint tracked (l : list item) : list waiter :=
  match l with
  | [] => []
  | TTrack _ _ w :: l => w :: tracked l
  | _ :: l => tracked l
  end.

(** A trace in which no stream was opened. *)
Definition silent (l : list item) : Prop := ~ In TStream l.

(** The responses to requests among those received, and those in a trace. *)
Fixpoint received (rs : list response) : list item :=
  match rs with
  | [] => []
  | RAck u e :: rs => TResponse KUpload u (AUpload (String.eqb e "") u) :: received rs
  | RIntent u d :: rs =>
      TResponse KIntent u (AIntent u (match d with Some b => b | None => true end)) :: received rs
  | _ :: rs => received rs
  end.
Fixpoint handled (l : list item) : list item :=
  match l with
  | [] => []
  | TResponse k u a :: l => TResponse k u a :: handled l
  | _ :: l => handled l
  end.
