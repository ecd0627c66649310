(** C156: a scrape shows every collector once per chain, after its callbacks; gauges count what lives. *)
From Verif Require Import Base Gather_Model Gather_Spec Gather_Proofs.

(** If no collector is chained to itself, directly or not, gathering ends, and its output is that of the collectors in the order of chaining, each after its callbacks
    and those of the collectors before it. *)
Theorem C156_gather_partial : forall u, acyclic u -> forall c s, exists l fuel0,
  listing u c l /\ (forall l', listing u c l' -> l' = l) /\ forall fuel, fuel0 <= fuel -> gather_all u fuel [] c s = let (s', o) := visit u l s in Done s' o.
Proof.
  intros u [rank R] c s. destruct (gather_ok u rank R (S (rank c)) c [] s) as (l & L & _); [lia|intros h []|]. exists l, (S (rank c)). split; [exact L|]. split; [intros l' L'; symmetry; exact (listing_unique u c l L l' L')|].
  intros fuel F. destruct (gather_ok u rank R fuel c [] s) as (l' & L' & G); [lia|intros h []|]. rewrite <- (listing_unique u c l L l' L') in G. exact G.
Qed.

(** With finitely many collectors, gathering ends or waits for ever for its own lock, never runs on. *)
Theorem C156_ends : forall u n c s, (forall c d, In d (chained u c) -> d < n) -> c < n -> gather_all u (S n) [] c s <> OutOfFuel.
Proof. intros u n c s B C. apply (fuel_enough u n B); [exact C|constructor|intros h []|cbn [length]; lia]. Qed.

(** A collector that is chained to itself makes the scrape wait for ever. *)
Theorem C156_cycle_refuted : forall u c before after s, chained u c = before ++ c :: after -> (forall d, In d before -> chained u d = [] /\ d <> c) ->
  forall fuel, gather_all u (S (S fuel)) [] c s = Deadlock.
Proof. intros u c before after s. apply self_deadlock. Qed.

(** The callback of a chained collector may come too late for the metrics of the one it is chained to: the scrape shows the value before it. *)
Definition late_setup := mkSetup (fun c => [7]) (fun c => match c with 1 => [fun s c m => if Nat.eqb c 0 then (s c m + 1)%Z else s c m] | _ => [] end) (fun c => match c with 0 => [1] | _ => [] end).
Theorem C156_callback_refuted : exists u s, acyclic u /\ match gather_all u 3 [] 0 s with Done s' o => s 0 7 = 0%Z /\ s' 0 7 = 1%Z /\ o = [(0, 7, 0%Z); (1, 7, 0%Z)] | _ => False end.
Proof.
  exists late_setup, (fun _ _ => 0%Z). split; [|cbn; auto]. exists (fun c => match c with 0 => 1 | _ => 0 end). intros [|c] d H; [|contradiction]. destruct H as [<-|[]]. lia.
Qed.

(** A gauge that is changed by its guards only shows the number of guards alive, and the assertion that it is positive when one is dropped holds. *)
Theorem C156_gauge : forall ops, proper [] [] ops -> let g := fold_left gstep ops (mkGauge 0 [] true) in
  g_ok g = true /\ g_value g = Z.of_nat (length (g_alive g)) /\ (g_value g = Z.of_nat (count_make ops) - Z.of_nat (count_drop ops))%Z.
Proof. intros ops P. destruct (gauge_run ops (mkGauge 0 [] true) [] (NoDup_nil _) (fun x H => H) eq_refl eq_refl P) as (A & B & C). cbn zeta. splits; [exact A|exact B|]. rewrite C. cbn [g_value]. lia. Qed.
Print Assumptions C156_gather_partial.
Print Assumptions C156_ends.
Print Assumptions C156_cycle_refuted.
Print Assumptions C156_callback_refuted.
Print Assumptions C156_gauge.

(** A collector with two chained ones, both chained to a third with a callback: it is shown twice. *)
Definition toy_setup := mkSetup (fun c => match c with 0 => [1; 2] | _ => [5] end) (fun c => match c with 3 => [fun s c m => if Nat.eqb c 3 then (s c m + 1)%Z else s c m] | _ => [] end)
  (fun c => match c with 0 => [1; 2] | 1 => [3] | 2 => [3] | _ => [] end).
Example C156_acyclic : acyclic toy_setup.
Proof. exists (fun c => match c with 0 => 2 | 1 => 1 | 2 => 1 | _ => 0 end). intros [|[|[|c]]] d H; cbn in H; intuition (subst; lia). Qed.
Example C156_case : (match gather_all toy_setup 5 [] 0 (fun _ _ => 4%Z) with Done _ o => o | _ => [] end) = [(0, 1, 4%Z); (0, 2, 4%Z); (1, 5, 4%Z); (3, 5, 5%Z); (2, 5, 4%Z); (3, 5, 6%Z)].
Proof. reflexivity. Qed.
Example C156_guards : proper [] [] [Make 1; Make 2; Drop 1; Make 3; Drop 3; Drop 2; Make 9] /\ g_value (fold_left gstep [Make 1; Make 2; Drop 1; Make 3; Drop 3; Drop 2; Make 9] (mkGauge 0 [] true)) = 1%Z.
Proof. split; [|reflexivity]. cbn. intuition congruence. Qed.
Example C156_self : chained (mkSetup (fun _ => []) (fun _ => []) (fun c => match c with 0 => [1; 0] | _ => [] end)) 0 = [1] ++ 0 :: [].
Proof. reflexivity. Qed.
