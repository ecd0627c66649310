(** What the rate limiter promises, stated on histories only. *)
From Verif Require Import Base RateLimit_Model.
Open Scope Z_scope.

(** A history cut into refill windows. [(budget, attempts)] per window. A window is opened by the first attempt
    later than the end of the previous one; it ends [per] after that attempt. *)
Fixpoint windows (budget stop : Z) (cur : list attempt) (l : list attempt) : list (Z * list attempt) :=
  match l with
  | [] => [(budget, cur)]
  | a :: l' =>
      if stop <? a_now a
      then (budget, cur) :: windows (a_num a) (a_now a + Z.abs (a_per a)) [a] l'
      else windows budget stop (cur ++ [a]) l'
  end.

(** Pair every attempt of a list of windows with its result. *)
Fixpoint zip_windows (ws : list (Z * list attempt)) (bs : list bool) : list (Z * list (attempt * bool)) :=
  match ws with
  | [] => []
  | (b, w) :: ws' => (b, combine w (firstn (length w) bs)) :: zip_windows ws' (skipn (length w) bs)
  end.

(** Bytes admitted among some attempts. *)
Definition admitted_bytes (l : list (attempt * bool)) : Z :=
  fold_right Z.add 0 (map (fun p => if snd p : bool then a_size (fst p) else 0) l).

(** In a window: whenever an attempt is admitted, the bytes admitted before it in the window are below the
    budget (or it is the first attempt of the window); whenever one is rejected, the budget is used up. *)
Definition window_ok (budget : Z) (w : list (attempt * bool)) : Prop :=
  forall pre a b post, w = pre ++ (a, b) :: post ->
    (b = true -> pre = [] \/ admitted_bytes pre < budget) /\
    (b = false -> pre <> [] /\ budget <= admitted_bytes pre).
