(** Shared imports and small tactics. Models nothing of /repo. *)
From Coq Require Export List ZArith NArith Lia Bool Arith Permutation.
From Coq Require Export ZifyBool ZifyNat ZifyN.
Export ListNotations.

Ltac Zify.zify_post_hook ::= Z.div_mod_to_equations.

(** Case analysis on the scrutinee of a [match]/[if] of the goal or of a hypothesis. *)
Ltac dmatch :=
  match goal with
  | |- context [match ?x with _ => _ end] => let E := fresh "E" in destruct x eqn:E
  end.
Ltac dmatch_in H :=
  match type of H with
  | context [match ?x with _ => _ end] => let E := fresh "E" in destruct x eqn:E
  end.
Ltac inv H := inversion H; subst; clear H.
(** Split conjunctions only (unlike [repeat split], never goes under an implication). *)
Ltac splits := repeat match goal with |- _ /\ _ => split end.
