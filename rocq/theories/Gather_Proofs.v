From Verif Require Import Base Gather_Model Gather_Spec.
Lemma visit_app u a : forall b s, visit u (a ++ b) s = let (s1, o1) := visit u a s in let (s2, o2) := visit u b s1 in (s2, o1 ++ o2).
Proof.
  induction a as [|c a IH]; intros b s; cbn [app visit]; [destruct (visit u b s); reflexivity|]. rewrite IH. destruct (visit u a _) as [s1 o1]. destruct (visit u b s1) as [s2 o2]. rewrite app_assoc. reflexivity.
Qed.
Section Acyclic.
Variables (u : setup) (rank : nat -> nat).
Hypothesis ranked : forall c d, In d (chained u c) -> rank d < rank c.
(** A chain that is held is above. *)
Lemma gather_ok : forall fuel c held s, rank c < fuel -> (forall h, In h held -> rank c < rank h) ->
  exists l, listing u c l /\ gather_all u fuel held c s = let (s', o) := visit u l s in Done s' o.
Proof.
  induction fuel as [|fuel IH]; intros c held s F H; [lia|]. cbn [gather_all].
  assert (N : existsb (Nat.eqb c) held = false).
  { apply not_true_is_false. intros E. apply existsb_exists in E as (h & I & E). apply Nat.eqb_eq in E. subst. specialize (H _ I). lia. }
  rewrite N. assert (E : forall cs s, (forall d, In d cs -> In d (chained u c)) -> exists l, listings u cs l /\ gather_each (gather_all u fuel (c :: held)) cs s = let (s', o) := visit u l s in Done s' o).
  { induction cs as [|d cs IHc]; intros s1 I; [exists []; split; [constructor|reflexivity]|]. pose proof (ranked c d (I d (or_introl eq_refl))) as Rd.
    destruct (IH d (c :: held) s1) as (l & L & G); [lia|intros h [<-|Ih]; [exact Rd|specialize (H h Ih); lia]|]. cbn [gather_each]. rewrite G. destruct (visit u l s1) as [s2 o2] eqn:V.
    destruct (IHc s2) as (l' & L' & G'); [intros x X; apply I; right; exact X|]. rewrite G'. exists (l ++ l'). split; [constructor; assumption|]. rewrite visit_app, V. destruct (visit u l' s2). reflexivity. }
  destruct (E (chained u c) (call_all u c s) (fun d X => X)) as (l & L & ->). exists (c :: l). split; [constructor; exact L|]. cbn [visit]. unfold call_all, registry. destruct (visit u l _). reflexivity.
Qed.
End Acyclic.
(** A listing is unique. *)
Scheme listing_mut := Induction for listing Sort Prop with listings_mut := Induction for listings Sort Prop.
Lemma listing_unique u c l : listing u c l -> forall l', listing u c l' -> l = l'.
Proof.
  intros L. apply (listing_mut u (fun c l _ => forall l', listing u c l' -> l = l') (fun cs l _ => forall l', listings u cs l' -> l = l')) with (n := c) (l := l); auto.
  - intros c0 l0 _ IH l' X. inversion X; subst. f_equal. apply IH. assumption.
  - intros l' X. inversion X. reflexivity.
  - intros c0 cs l0 l1 _ IH _ IH' l' X. inversion X; subst. f_equal; [apply IH|apply IH']; assumption.
Qed.
(** Enough fuel, with cycles too: the collectors held are distinct. *)
Lemma fuel_enough u n : (forall c d, In d (chained u c) -> d < n) -> forall fuel c held s, c < n -> NoDup held -> (forall h, In h held -> h < n) -> n < fuel + length held -> gather_all u fuel held c s <> OutOfFuel.
Proof.
  intros B. induction fuel as [|fuel IH]; intros c held s C D H L.
  - exfalso. assert (length held <= length (seq 0 n)) by (apply NoDup_incl_length; [exact D|intros h I; apply in_seq; specialize (H h I); lia]). rewrite seq_length in *. lia.
  - cbn [gather_all]. destruct (existsb (Nat.eqb c) held) eqn:E; [discriminate|]. assert (N : ~ In c held).
    { intros I. assert (X : existsb (Nat.eqb c) held = true) by (apply existsb_exists; exists c; split; [exact I|apply Nat.eqb_refl]). congruence. }
    assert (G : forall cs s, (forall d, In d cs -> d < n) -> gather_each (gather_all u fuel (c :: held)) cs s <> OutOfFuel).
    { induction cs as [|d cs IHc]; intros s1 I; [discriminate|]. cbn [gather_each]. assert (X : gather_all u fuel (c :: held) d s1 <> OutOfFuel).
      { apply IH; [apply I; left; reflexivity|constructor; assumption|intros h [<-|Ih]; [exact C|apply H; exact Ih]|cbn [length]; lia]. }
      destruct (gather_all u fuel (c :: held) d s1) as [s2 o2| |]; try congruence. specialize (IHc s2 (fun x Y => I x (or_intror Y))). destruct (gather_each _ cs s2); congruence. }
    specialize (G (chained u c) (call_all u c s) (fun d X => B c d X)). destruct (gather_each _ (chained u c) _); congruence.
Qed.
(** A collector in its own list. *)
Lemma self_deadlock u c before after s : chained u c = before ++ c :: after -> (forall d, In d before -> chained u d = [] /\ d <> c) -> forall fuel, gather_all u (S (S fuel)) [] c s = Deadlock.
Proof.
  intros E B fuel. cbn [gather_all existsb]. 
  assert (G : forall s, gather_each (gather_all u (S fuel) [c]) (chained u c) s = Deadlock).
  { rewrite E. clear E. induction before as [|d l IH]; intros s1; cbn [app gather_each].
    - cbn [gather_all existsb]. rewrite Nat.eqb_refl. reflexivity.
    - destruct (B d (or_introl eq_refl)) as [D N]. cbn [gather_all existsb]. destruct (Nat.eqb_spec d c); [contradiction|]. cbn [orb]. rewrite D. cbn [gather_each]. rewrite IH; [reflexivity|]. intros x X. apply B. right. exact X. }
  cbn [gather_all] in G. rewrite G. reflexivity.
Qed.
(** Gauges. *)
Lemma remove_length i l : NoDup l -> In i l -> S (length (remove Nat.eq_dec i l)) = length l.
Proof.
  induction l as [|x l IH]; intros D I; [contradiction|]. inversion D; subst. cbn [remove]. destruct (Nat.eq_dec i x) as [->|N].
  - rewrite notin_remove by assumption. reflexivity.
  - cbn [length]. rewrite IH; [reflexivity|assumption|]. destruct I; [congruence|assumption].
Qed.
Lemma remove_nodup i l : NoDup l -> NoDup (remove Nat.eq_dec i l).
Proof. induction l as [|x l IH]; intros D; [constructor|]. inversion D; subst. cbn [remove]. destruct (Nat.eq_dec i x); [auto|]. constructor; [|auto]. intros X. apply in_remove in X. tauto. Qed.
Lemma gauge_run ops : forall g made, NoDup (g_alive g) -> incl (g_alive g) made -> g_value g = Z.of_nat (length (g_alive g)) -> g_ok g = true -> proper (g_alive g) made ops ->
  let g' := fold_left gstep ops g in g_ok g' = true /\ g_value g' = Z.of_nat (length (g_alive g')) /\ (g_value g' = g_value g + Z.of_nat (count_make ops) - Z.of_nat (count_drop ops))%Z.
Proof.
  induction ops as [|o ops IH]; intros g made D I V K P; cbn zeta; [cbn; splits; auto; lia|]. destruct o as [i|i]; cbn [fold_left proper] in *; destruct P as [P0 P].
  - destruct (IH (gstep g (Make i)) (i :: made)) as (A & B & C); cbn [gstep g_alive g_value g_ok]; auto.
    + constructor; auto.
    + intros x [<-|X]; [left; reflexivity|right; auto].
    + rewrite V. cbn [length]. lia.
    + splits; auto. cbn [gstep g_alive g_value g_ok] in C. rewrite C. unfold count_make, count_drop. cbn [filter length]. lia.
  - pose proof (remove_length i _ D P0) as L. destruct (IH (gstep g (Drop i)) made) as (A & B & C); cbn [gstep g_alive g_value g_ok]; auto.
    + apply remove_nodup; auto.
    + intros x X. apply in_remove in X. apply I. tauto.
    + lia.
    + rewrite K. cbn. apply Z.ltb_lt. lia.
    + splits; auto. cbn [gstep g_alive g_value g_ok] in C. rewrite C. unfold count_make, count_drop. cbn [filter length]. lia.
Qed.
