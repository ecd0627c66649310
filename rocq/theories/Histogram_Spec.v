(** Specification of C61: any additive observation of the recorded values, such as
    their number or their exact sum. *)
From Verif Require Import Base Histogram_Model.
Local Open Scope Z_scope.

Definition total {value} (weigh : value -> Z) (l : list value) : Z :=
  fold_right (fun v a => weigh v + a) 0 l.

(** The observation of a histogram, given that of a sketch. *)
Definition observed {value sketch} (weigh : value -> Z) (s_weight : sketch -> Z)
  (h : hist value sketch) : Z :=
  match h with Inline _ _ l => total weigh l | Sketch _ _ s => s_weight s end.
