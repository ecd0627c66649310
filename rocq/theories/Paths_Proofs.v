From Verif Require Import Base Str_Base Paths_Model Paths_Spec.
Local Open Scope string_scope. Local Open Scope list_scope.

Lemma find_method_in n l m : find_method n l = Some m -> In m l /\ m_name m = n.
Proof. induction l as [|x l IH]; cbn; [discriminate|]. destruct (String.eqb_spec (m_name x) n) as [E|E]; [intros H; inv H; auto|]. intros H. destruct (IH H). auto. Qed.
Lemma find_method_unique n l m : NoDup (map m_name l) -> In m l -> m_name m = n -> find_method n l = Some m.
Proof.
  induction l as [|x l IH]; cbn; [contradiction|]. intros D I E. inversion D; subst. destruct (String.eqb_spec (m_name x) (m_name m)) as [F|F].
  - destruct I as [->|I]; [reflexivity|]. exfalso. apply H1. rewrite F. apply in_map. exact I.
  - destruct I as [->|I]; [congruence|auto].
Qed.
Lemma find_some svc n l : forall f0 s m, find svc n l f0 = (s, Some m) -> exists s', s = Some s' /\ In s' l /\ s_name s' = svc /\ find_method n (s_methods s') = Some m.
Proof.
  induction l as [|x l IH]; intros f0 s m; cbn [find]; [discriminate|]. destruct (String.eqb_spec (s_name x) svc) as [E|E].
  - destruct (find_method n (s_methods x)) as [m'|] eqn:F.
    + intros H. inv H. exists x. splits; auto. left. reflexivity.
    + intros H. destruct (IH _ _ _ H) as (s' & A & B & C & D). exists s'. splits; auto. right. exact B.
  - intros H. destruct (IH _ _ _ H) as (s' & A & B & C & D). exists s'. splits; auto. right. exact B.
Qed.
Lemma find_unique svc n l s m : NoDup (map s_name l) -> In s l -> s_name s = svc -> find_method n (s_methods s) = Some m -> forall f0, find svc n l f0 = (Some s, Some m).
Proof.
  induction l as [|x l IH]; [contradiction|]. intros D I E F f0. cbn [map] in D. inversion D; subst. cbn [find]. destruct (String.eqb_spec (s_name x) (s_name s)) as [G|G].
  - destruct I as [->|I]; [rewrite F; reflexivity|]. exfalso. apply H1. rewrite G. apply in_map. exact I.
  - destruct I as [->|I]; [congruence|]. apply IH; auto.
Qed.
Lemma made_defined f svc n out inc p : new_with_fd f svc n out inc = Path p -> defines f svc n out inc /\ p = ("/" ++ f_package f ++ "." ++ svc ++ "/" ++ n)%string.
Proof.
  unfold new_with_fd. destruct (find svc n (f_services f) None) as [s [m|]] eqn:F; [|destruct s; discriminate]. destruct (find_some _ _ _ _ _ _ F) as (s' & -> & I & N & M). destruct (find_method_in _ _ _ M) as [Im Nm].
  destruct (String.eqb_spec (m_input m) out) as [A|A]; [|discriminate]. destruct (String.eqb_spec (m_output m) inc) as [B|B]; [|discriminate]. cbn [negb]. intros H. inv H. split; [|reflexivity]. exists s'. splits; auto. destruct m; exact Im.
Qed.
Lemma defined_made f svc n out inc : well_formed f -> defines f svc n out inc -> new_with_fd f svc n out inc = Path ("/" ++ f_package f ++ "." ++ svc ++ "/" ++ n)%string.
Proof.
  intros [W1 W2] (s & I & N & M). pose proof (find_method_unique n _ _ (W2 s I) M eq_refl) as F. unfold new_with_fd. rewrite (find_unique svc n _ s _ W1 I N F None). cbn [m_input m_output m_name]. rewrite !String.eqb_refl. cbn [negb]. rewrite N. reflexivity.
Qed.

(** Reading a path. *)
Lemma free_app c a b : free c (a ++ b)%string <-> free c a /\ free c b.
Proof. induction a as [|d a IH]; cbn; [tauto|]. rewrite IH. tauto. Qed.
Lemma split_first c a : forall a' b b', free c a -> free c a' -> (a ++ String c b)%string = (a' ++ String c b')%string -> a = a' /\ b = b'.
Proof.
  induction a as [|x a IH]; intros [|x' a'] b b' F F' E; cbn in *.
  - inv E. auto.
  - inv E. destruct F' as [F' _]. congruence.
  - inv E. destruct F as [F _]. congruence.
  - inv E. destruct (IH a' b b') as [-> ->]; [tauto|tauto|assumption|]. auto.
Qed.
Lemma split_last c a : forall a' b b', free c b -> free c b' -> (a ++ String c b)%string = (a' ++ String c b')%string -> a = a' /\ b = b'.
Proof.
  induction a as [|x a IH]; intros [|x' a'] b b' F F' E; cbn in *.
  - inv E. auto.
  - inv E. apply free_app in F as [_ F]. cbn in F. tauto.
  - inv E. apply free_app in F' as [_ F']. cbn in F'. tauto.
  - inv E. destruct (IH a' b b') as [-> ->]; auto.
Qed.
Lemma app_ass_str a b c : ((a ++ b) ++ c)%string = (a ++ (b ++ c))%string.
Proof. induction a as [|x a IH]; cbn; congruence. Qed.
Lemma path_inj p s n p' s' n' : named p s n -> named p' s' n' -> ("/" ++ p ++ "." ++ s ++ "/" ++ n)%string = ("/" ++ p' ++ "." ++ s' ++ "/" ++ n')%string -> p = p' /\ s = s' /\ n = n'.
Proof.
  intros (A1 & A2 & A3 & A4) (B1 & B2 & B3 & B4) E. cbn in E. inversion E as [E']. clear E.
  assert (X : ((p ++ String "." s) ++ String "/" n)%string = ((p' ++ String "." s') ++ String "/" n')%string) by (rewrite !app_ass_str; exact E').
  apply split_first in X as [X ->]; [|apply free_app; cbn; intuition discriminate|apply free_app; cbn; intuition discriminate]. apply split_last in X as [-> ->]; auto.
Qed.

(** Routers. *)
Lemma register_ok {H} (new : list (string * H)) : forall routes, NoDup (map fst (routes ++ new)) -> register routes new = Some (routes ++ new).
Proof.
  induction new as [|[p h] new IH]; intros routes D; cbn [register]; [rewrite app_nil_r; reflexivity|].
  assert (N : existsb (fun r => String.eqb p (fst r)) routes = false).
  { apply not_true_is_false. intros E. apply existsb_exists in E as ([q h'] & I & E). apply String.eqb_eq in E. cbn in E. subst q. rewrite map_app in D. cbn in D. apply NoDup_remove_2 in D. apply D. apply in_or_app. left. apply (in_map fst) in I. exact I. }
  rewrite N. rewrite IH; rewrite <- app_assoc; [reflexivity|exact D].
Qed.
Lemma dispatch_in {H} (routes : list (string * H)) p h : NoDup (map fst routes) -> In (p, h) routes -> dispatch routes p = Some h.
Proof.
  induction routes as [|[q k] routes IH]; cbn; [contradiction|]. intros D I. inversion D; subst. destruct (String.eqb_spec p q) as [->|N].
  - destruct I as [I|I]; [inv I; reflexivity|]. exfalso. apply H2. apply (in_map fst) in I. exact I.
  - destruct I as [I|I]; [inv I; congruence|auto].
Qed.
