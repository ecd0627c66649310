From Verif Require Import Base PreConfig_Model PreConfig_Spec.

Section Proofs.
Context {L M F C : Type} (size : L -> N) (build : F -> M -> option L).
Local Notation run := (run size build).
Local Notation bytes := (bytes size).
Local Notation kept := (kept size).

Lemma bytes_app : forall a b, bytes (a ++ b) = (bytes a + bytes b)%N.
Proof. induction a as [|x a IH]; intros b; cbn; [reflexivity|]. rewrite IH. lia. Qed.

Lemma run_cons : forall m h (a : alb L F C), run a (m :: h) = run (step size build a m) h.
Proof. reflexivity. Qed.

(** Before the first configuration. *)
Lemma run_uninit : forall (h : list (msg M F C)) p f out,
  no_config h -> p_size p = bytes (p_items p) -> (bytes (p_items p) <= p_max_size p)%N -> (N.of_nat (length (p_items p)) <= p_max_count p)%N ->
  exists ks, kept (p_max_count p - N.of_nat (length (p_items p))) (p_max_size p - bytes (p_items p)) (logs build f h) ks /\
    run (mkAlb (Uninitialized p) f out) h =
      mkAlb (Uninitialized (mkPre (p_max_count p) (p_max_size p) (bytes (p_items p ++ ks)) (p_items p ++ ks))) (fields_after f h) out /\
    (bytes (p_items p ++ ks) <= p_max_size p)%N /\ (N.of_nat (length (p_items p ++ ks)) <= p_max_count p)%N.
Proof.
  induction h as [|m h IH]; intros p f out Hn Hs Hb Hc.
  - exists []. rewrite app_nil_r. cbn. rewrite <- Hs. destruct p. splits; [constructor|reflexivity|rewrite Hs; exact Hb|exact Hc].
  - assert (Hn': no_config h) by (intros c Hin; apply (Hn c); right; exact Hin).
    destruct m as [c|m|f']; [exfalso; apply (Hn c); left; reflexivity| |apply (IH p f' out Hn' Hs Hb Hc)].
    rewrite run_cons. cbn [logs fields_after step a_fields]. destruct (build f m) as [l|]; [|apply (IH p f out Hn' Hs Hb Hc)].
    unfold write_log. cbn [a_state a_fields a_out]. unfold push.
    destruct (p_max_count p <=? N.of_nat (length (p_items p)))%N eqn:E1; cbn [fst].
    + apply N.leb_le in E1. destruct (IH p f out Hn' Hs Hb Hc) as (ks & Hk & Hr & Hx). exists ks. splits; try tauto.
      apply kept_no; [lia|exact Hk].
    + apply N.leb_gt in E1. destruct (p_max_size p <? p_size p + size l)%N eqn:E2; cbn [fst].
      * apply N.ltb_lt in E2. destruct (IH p f out Hn' Hs Hb Hc) as (ks & Hk & Hr & Hx). exists ks. splits; try tauto.
        apply kept_no; [right; lia|exact Hk].
      * apply N.ltb_ge in E2.
        destruct (IH (mkPre (p_max_count p) (p_max_size p) (p_size p + size l) (p_items p ++ [l])) f out Hn') as (ks & Hk & Hr & Hx & Hy); cbn [p_size p_items p_max_size p_max_count] in *.
        { rewrite bytes_app. cbn. lia. } { rewrite bytes_app. cbn. lia. } { rewrite app_length. cbn. lia. }
        rewrite <- app_assoc in *. cbn [app] in *. exists (l :: ks). splits; try assumption.
        apply kept_yes; [lia|lia|]. rewrite bytes_app, app_length in Hk. cbn in Hk.
        replace (p_max_count p - N.of_nat (length (p_items p)) - 1)%N with (p_max_count p - N.of_nat (length (p_items p) + 1))%N by lia.
        replace (p_max_size p - bytes (p_items p) - size l)%N with (p_max_size p - (bytes (p_items p) + (size l + 0)))%N by lia. exact Hk.
Qed.

Lemma run_init : forall (h : list (msg M F C)) c f out, a_out (run (mkAlb (Initialized c) f out) h) = out ++ logs_under build c f h.
Proof.
  induction h as [|m h IH]; intros c f out; [cbn; rewrite app_nil_r; reflexivity|]. rewrite run_cons. cbn [logs_under].
  destruct m as [c'|m|f']; cbn [step update a_state a_fields a_out]; [apply IH| |apply IH].
  destruct (build f m) as [l|]; [|apply IH]. unfold write_log. cbn [a_state a_fields a_out]. rewrite IH, <- app_assoc. reflexivity.
Qed.

Lemma run_app : forall h1 h2 (a : alb L F C), run a (h1 ++ h2) = run (run a h1) h2.
Proof. intros. unfold PreConfig_Model.run. apply fold_left_app. Qed.

Lemma replay_first : forall (h1 h2 : list (msg M F C)) c f max_count max_size, no_config h1 ->
  exists ks, kept max_count max_size (logs build f h1) ks /\
    a_out (run (alb_new max_count max_size f) (h1 ++ Config c :: h2)) = map (fun l => (c, l)) ks ++ logs_under build c (fields_after f h1) h2.
Proof.
  intros h1 h2 c f mc ms Hn.
  destruct (run_uninit h1 (pre_new mc ms) f [] Hn eq_refl) as (ks & Hk & Hr & _); [cbn; lia|cbn; lia|].
  exists ks. cbn [p_max_count p_max_size p_items pre_new length PreConfig_Spec.bytes] in *. rewrite !N.sub_0_r in Hk. split; [exact Hk|].
  rewrite run_app. unfold alb_new. rewrite Hr. cbn [app]. rewrite run_cons. cbn [step update a_state a_fields a_out replay pop_all p_items].
  rewrite run_init. reflexivity.
Qed.

Lemma nothing_before : forall (h : list (msg M F C)) f max_count max_size, no_config h ->
  exists p, a_state (run (alb_new max_count max_size f) h) = Uninitialized p /\ a_out (run (alb_new max_count max_size f) h) = [] /\
    kept max_count max_size (logs build f h) (p_items p) /\ (bytes (p_items p) <= max_size)%N /\ (N.of_nat (length (p_items p)) <= max_count)%N.
Proof.
  intros h f mc ms Hn. destruct (run_uninit h (pre_new mc ms) f [] Hn eq_refl) as (ks & Hk & Hr & H1 & H2); [cbn; lia|cbn; lia|].
  cbn [p_max_count p_max_size p_items pre_new length PreConfig_Spec.bytes app] in *. rewrite !N.sub_0_r in Hk.
  unfold alb_new. rewrite Hr. cbn. eexists. splits; try reflexivity; cbn; assumption.
Qed.

(** The kept logs are determined by the limits and form a subsequence. *)
Lemma kept_functional : forall n b ls k1, kept n b ls k1 -> forall k2, kept n b ls k2 -> k1 = k2.
Proof.
  intros n b ls k1 H. induction H as [n b|n b x ls ks Hn Hb H IH|n b x ls ks Hx H IH]; intros k2 H2.
  - inversion H2; reflexivity.
  - inversion H2; subst; [f_equal; auto|lia].
  - inversion H2; subst; [lia|auto].
Qed.
Lemma kept_total : forall ls n b, (bytes ls <= b)%N -> (N.of_nat (length ls) <= n)%N -> kept n b ls ls.
Proof.
  induction ls as [|x ls IH]; intros n b Hb Hn; [constructor|]. cbn in *. apply kept_yes; [lia|lia|]. apply IH; lia.
Qed.
End Proofs.
