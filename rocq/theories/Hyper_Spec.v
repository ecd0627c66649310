(** What can be said of a run of the network from its observations alone. *)
From Verif Require Import Base Hyper_Model.

Section Spec.
Context {B : Type}.

(** The blocks the API task sent on stream [k], those that left on its request, those that arrived in its response, and the events the API
    task received from it; each in order. *)
Fixpoint sent (k : nat) (tr : list (item B)) : list B :=
  match tr with [] => [] | OSent j b :: tr' => if Nat.eqb j k then b :: sent k tr' else sent k tr' | _ :: tr' => sent k tr' end.
Fixpoint wire (k : nat) (tr : list (item B)) : list B :=
  match tr with [] => [] | OWire j b :: tr' => if Nat.eqb j k then b :: wire k tr' else wire k tr' | _ :: tr' => wire k tr' end.
Fixpoint frames (k : nat) (tr : list (item B)) : list B :=
  match tr with [] => [] | OFrame j b :: tr' => if Nat.eqb j k then b :: frames k tr' else frames k tr' | _ :: tr' => frames k tr' end.
Fixpoint got (k : nat) (tr : list (item B)) : list (event B) :=
  match tr with [] => [] | OEvent j e :: tr' => if Nat.eqb j k then e :: got k tr' else got k tr' | _ :: tr' => got k tr' end.

Definition prefix {A} (l1 l2 : list A) : Prop := exists r, l2 = l1 ++ r.

(** The events of a stream: blocks of the response, in order and without a gap; then at most one closure, which comes after all of them. *)
Definition well_delivered (fs : list B) (es : list (event B)) : Prop :=
  (exists ds, es = map EData ds /\ prefix ds fs) \/ (exists w, es = map EData fs ++ [EClosed w]).

(** The server never answers the handshake request with an error shutdown. *)
Definition polite (ls : list (label B)) : Prop := forall q, ~ In (LGet DErrorShutdown q) ls.

(** A label that depends on the other end of the connection. *)
Definition from_peer (l : label B) : bool :=
  match l with LResponse _ | LFrame _ | LEnd | LTake | LHangUp => true | _ => false end.

(** The stream whose request is open, if any. *)
Definition live (n : net B) : option nat := match n with NConnecting k | NStream k | NBody k _ | NEvent k _ => Some k | _ => None end.

(** The network task is on stream [k], or about to report its end. *)
Definition serves (n : net B) (k : nat) : Prop := live n = Some k \/ exists w, n = NClose k w.

(** A step of the network task or of the transport that does not depend on the API task, nor ends anything. *)
Definition helpful (l : label B) : bool := match l with LRecv | LResponse ROk | LGive | LTell | LTake => true | _ => false end.

(** The network task is waiting for the API task and the API task for the network task. *)
Definition stuck (n : net B) (a : api B) (s : st B) : Prop := s_net s = n /\ s_api s = a.
End Spec.
