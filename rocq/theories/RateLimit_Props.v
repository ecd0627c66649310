(** C16. Upload rate limiter. *)
From Verif Require Import Base RateLimit_Model RateLimit_Spec RateLimit_Proofs.
Open Scope Z_scope.

(** For every history of attempts (any clock readings, any changes of budget and period), in every refill window
    an attempt is admitted only while the bytes admitted earlier in that window are below the window's budget (or
    it opens the window), and rejected only when the budget is used up. Hence the bytes admitted in a window
    exceed the budget by less than the last admitted request. *)
Theorem C16_window_bound : forall t0 num l,
  (forall a, In a l -> 0 <= a_size a) ->
  forall bw, In bw (zip_windows (windows num t0 [] l) (snd (rl_run (rl_new t0 num) l))) ->
  window_ok (fst bw) (snd bw).
Proof. exact windows_ok. Qed.
Print Assumptions C16_window_bound.

(** A request that arrives more than the (largest) period after all earlier ones is admitted whatever its size. *)
Theorem C16_no_starvation : forall t0 num P l a,
  0 <= P -> (forall x, In x l -> Z.abs (a_per x) <= P) ->
  (forall x, In x l -> t0 <= a_now x /\ a_now x + P < a_now a) -> t0 < a_now a ->
  snd (try_acquire (fst (rl_run (rl_new t0 num) l)) a) = true.
Proof. exact no_starvation. Qed.
Print Assumptions C16_no_starvation.

(** Two windows: the first admits 60 + 60 of a budget of 100 and rejects the rest, the second admits again. *)
Example C16_witness :
  let a t s := mkAttempt t 100 10 s in
  let l := [a 1 60; a 2 60; a 3 5; a 12 500; a 13 1] in
  (forall x, In x l -> 0 <= a_size x) /\
  snd (rl_run (rl_new 0 100) l) = [true; true; false; true; false] /\
  map (fun bw => length (snd bw)) (zip_windows (windows 100 0 [] l) (snd (rl_run (rl_new 0 100) l))) = [0; 3; 2]%nat.
Proof.
  cbv zeta. split; [|split; reflexivity]. simpl. intros x H.
  repeat match goal with H : _ \/ _ |- _ => destruct H as [<-|H] end; try contradiction; simpl; lia.
Qed.

Example C16_starvation_witness :
  let a t s := mkAttempt t 100 10 s in
  snd (try_acquire (fst (rl_run (rl_new 0 100) [a 1 60; a 2 60])) (a 13 100000)) = true.
Proof. reflexivity. Qed.
