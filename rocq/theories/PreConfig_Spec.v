(** What is processed, as a function of the history of messages. *)
From Verif Require Import Base PreConfig_Model.

Section Spec.
Context {L M F C : Type} (size : L -> N) (build : F -> M -> option L).

(** The logs of a history, each built with the fields in force. *)
Fixpoint logs (f : F) (h : list (msg M F C)) : list L :=
  match h with
  | [] => []
  | EmitLog m :: h' => match build f m with Some l => l :: logs f h' | None => logs f h' end
  | ChangeFields f' :: h' => logs f' h'
  | Config _ :: h' => logs f h'
  end.
(** The same with the configuration in force. *)
Fixpoint logs_under (c : C) (f : F) (h : list (msg M F C)) : list (C * L) :=
  match h with
  | [] => []
  | EmitLog m :: h' => match build f m with Some l => (c, l) :: logs_under c f h' | None => logs_under c f h' end
  | ChangeFields f' :: h' => logs_under c f' h'
  | Config c' :: h' => logs_under c' f h'
  end.
Fixpoint fields_after (f : F) (h : list (msg M F C)) : F :=
  match h with [] => f | ChangeFields f' :: h' => fields_after f' h' | _ :: h' => fields_after f h' end.

Definition no_config (h : list (msg M F C)) : Prop := forall c, ~ In (Config c) h.

Fixpoint bytes (l : list L) : N := match l with [] => 0%N | x :: l' => (size x + bytes l')%N end.

(** [kept n b ls ks]: ks are the logs of ls that are kept when n logs and b bytes are free: each log in turn is kept exactly when it fits. *)
Inductive kept : N -> N -> list L -> list L -> Prop :=
| kept_nil n b : kept n b [] []
| kept_yes n b x ls ks : (1 <= n)%N -> (size x <= b)%N -> kept (n - 1) (b - size x) ls ks -> kept n b (x :: ls) (x :: ks)
| kept_no n b x ls ks : (n = 0 \/ b < size x)%N -> kept n b ls ks -> kept n b (x :: ls) ks.
End Spec.
