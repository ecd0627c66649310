From Verif Require Import Base Str_Base Lru_Model Lru_Spec Lru_Proofs Workflow_Model Sankey_Model Sankey_Spec.

Local Arguments CACHE_SIZE : simpl never.
Local Arguments lru_contains : simpl never.
Local Arguments lru_insert : simpl never.
Local Arguments recent : simpl never.

Lemma key_spec : forall x y, key_eqb x y = true <-> x = y.
Proof.
  intros [a b] [c d]. unfold key_eqb. cbn. rewrite andb_true_iff, !String.eqb_eq. split; [intros [-> ->]; reflexivity|]. intros H. inversion H. auto.
Qed.

Lemma run_app ls1 ls2 s : run s (ls1 ++ ls2) = match run s ls1 with None => None | Some (s1, o1) => match run s1 ls2 with None => None | Some (s2, o2) => Some (s2, o1 ++ o2) end end.
Proof.
  revert s. induction ls1 as [|l ls1 IH]; intros s; cbn.
  - destruct (run s ls2) as [[? ?]|]; reflexivity.
  - destruct (step s l) as [[s1 o1]|]; [|reflexivity]. rewrite IH. destruct (run s1 ls1) as [[s2 o2]|]; [|reflexivity].
    destruct (run s2 ls2) as [[s3 o3]|]; [|reflexivity]. rewrite app_assoc. reflexivity.
Qed.

Lemma run_ind (P : st -> list item -> Prop) : P init [] ->
  (forall s tr l s' o, P s tr -> step s l = Some (s', o) -> P s' (tr ++ o)) -> forall ls s tr, run init ls = Some (s, tr) -> P s tr.
Proof.
  intros H0 HS ls. induction ls as [|l ls IH] using rev_ind; intros s tr H.
  - cbn in H. inv H. assumption.
  - rewrite run_app in H. destruct (run init ls) as [[s1 o1]|]; [|discriminate]. cbn in H.
    destruct (step s1 l) as [[s2 o2]|] eqn:E; [|discriminate]. inv H. rewrite app_nil_r. eapply HS; [apply IH; reflexivity|eassumption].
Qed.

(** ** Lists *)
Lemma snoc_split {A} (tr : list A) x a y b : tr ++ [x] = a ++ y :: b -> (b = [] /\ tr = a /\ x = y) \/ (exists b', b = b' ++ [x] /\ tr = a ++ y :: b').
Proof.
  intros H. destruct (exists_last (l := y :: b)) as [b' [z Hz]]; [discriminate|]. rewrite Hz, app_assoc in H.
  apply app_inj_tail in H. destruct H as [H1 H2]. subst z. destruct b' as [|w b'].
  - cbn in Hz. inversion Hz. subst. left. rewrite app_nil_r. auto.
  - cbn in Hz. inversion Hz. subst. right. exists b'. auto.
Qed.

Lemma no_take_app a b : no_take (a ++ b) <-> no_take a /\ no_take b.
Proof.
  unfold no_take. split.
  - intros H. split; intros p Hp; apply (H p), in_app_iff; auto.
  - intros [H1 H2] p Hp. apply in_app_iff in Hp. destruct Hp; [apply (H1 p)|apply (H2 p)]; assumption.
Qed.

Definition takes (i : item) : bool := match i with ITaken _ => true | _ => false end.
Lemma last_take tr : no_take tr \/ exists a p b, tr = a ++ ITaken p :: b /\ no_take b.
Proof.
  induction tr as [|i tr [IH|(a & p & b & -> & Hb)]] using rev_ind.
  - left. intros p [].
  - destruct i; try (left; apply no_take_app; split; [assumption|intros q [Hq|[]]; discriminate]).
    right. exists tr, p, []. split; [reflexivity|intros q []].
  - destruct i;
    (match goal with
     | |- context [_ ++ [ITaken ?q]] => right; exists (a ++ ITaken p :: b), q, []; split; [reflexivity|intros r []]
     | |- context [_ ++ [?x]] => right; exists a, p, (b ++ [x]); split; [rewrite <- app_assoc; reflexivity|apply no_take_app; split; [assumption|intros r [Hr|[]]; discriminate]]
     end).
Qed.

(** ** What is seen of one path *)
Definition seen (tr : list item) := fold_left see tr (None, []).
Notation fp := (filter of_processor).
Definition at_place (s : st) (k : Prop) (p : path) (l : list item) : Prop :=
  match proc s with
  | Idle => (k -> l = []) /\ (~ k -> api s = true -> complete p l)
  | Asking q => q = p /\ ~ k /\ l = []
  | Asked q => q = p /\ ~ k /\ l = [IIntent (p_sankey p) (p_id p)]
  | Uploading q => q = p /\ ~ k /\ l = [IIntent (p_sankey p) (p_id p); IDecision (Some true)]
  | Uploaded q => q = p /\ ~ k /\ l = [IIntent (p_sankey p) (p_id p); IDecision (Some true); IUpload (p_sankey p) (p_id p) (p_nodes p)]
  end.
Record inv (s : st) (tr : list item) : Prop := {
  i_cache : lru_inv key key_eqb (cache s) (snd (seen tr));
  i_none : no_take tr -> proc s = Idle;
  i_last : forall a p b, tr = a ++ ITaken p :: b -> no_take b -> at_place s (known a (key_of p)) p (fp b);
  i_past : forall a p b q c, tr = a ++ ITaken p :: b ++ ITaken q :: c -> no_take b ->
    (known a (key_of p) -> fp b = []) /\ (~ known a (key_of p) -> api s = true -> complete p (fp b)) }.

Lemma known_dec tr k : existsb (key_eqb k) (firstn 100 (recent key key_eqb (snd (seen tr)))) = true <-> known tr k.
Proof.
  unfold known. fold (seen tr). rewrite existsb_exists. split.
  - intros (x & Hx & E). apply key_spec in E. subst. assumption.
  - intros H. exists k. split; [assumption|apply key_spec; reflexivity].
Qed.
Lemma seen_snoc tr i : seen (tr ++ [i]) = see (seen tr) i.
Proof. unfold seen. rewrite fold_left_app. reflexivity. Qed.
Lemma seen_last tr a p b : tr = a ++ ITaken p :: b -> no_take b -> fst (seen tr) = Some p.
Proof.
  intros -> . revert a. induction b as [|i b IH] using rev_ind; intros a Hb.
  - rewrite seen_snoc. cbn. destruct (seen a). reflexivity.
  - apply no_take_app in Hb. destruct Hb as [Hb Hi]. specialize (IH a Hb).
    replace (a ++ ITaken p :: b ++ [i]) with ((a ++ ITaken p :: b) ++ [i]) by (rewrite <- app_assoc; reflexivity).
    rewrite seen_snoc. destruct (seen (a ++ ITaken p :: b)) as [o us]. cbn in IH. subst o.
    destruct i as [| |q| |[[]|]| |[[]|]]; cbn; try reflexivity. exfalso. apply (Hi q). left. reflexivity.
Qed.
Lemma cache_known s tr k : lru_inv key key_eqb (cache s) (snd (seen tr)) -> (existsb (fun y => key_eqb y k) (cache s) = true <-> known tr k).
Proof.
  intros H. rewrite (existsb_in key key_eqb key_spec). unfold known. fold (seen tr). unfold lru_inv, CACHE_SIZE in H. rewrite <- H. apply in_rev.
Qed.

(** A step that shows nothing and keeps the place, or only lowers the flag. *)
Lemma inv_snoc s tr s' i : inv s tr -> (forall p, i <> ITaken p) -> (api s' = true -> api s = true) ->
  lru_inv key key_eqb (cache s') (snd (see (seen tr) i)) -> (no_take tr -> proc s' = Idle) ->
  (forall k p l, fst (seen tr) = Some p -> at_place s k p l -> at_place s' k p (l ++ fp [i])) -> inv s' (tr ++ [i]).
Proof.
  intros [H1 H2 H3 H4] Hi Ha Hc Hn Hp. constructor.
  - rewrite seen_snoc. assumption.
  - intros Ht. apply no_take_app in Ht. apply Hn, Ht.
  - intros a p b E Hb. apply snoc_split in E. destruct E as [(-> & -> & E)|(b' & -> & E)]; [exfalso; apply (Hi p); congruence|].
    apply no_take_app in Hb. destruct Hb as [Hb _]. rewrite filter_app. apply Hp; [eapply seen_last; eassumption|]. eapply H3; eassumption.
  - intros a p b q c E Hb.
    replace (a ++ ITaken p :: b ++ ITaken q :: c) with ((a ++ ITaken p :: b) ++ ITaken q :: c) in E by (rewrite <- app_assoc; reflexivity).
    apply snoc_split in E. destruct E as [(-> & _ & E)|(c' & -> & E)]; [exfalso; apply (Hi q); congruence|].
    rewrite <- app_assoc in E. cbn in E. destruct (H4 a p b q c' E Hb) as [G1 G2]. split; auto.
Qed.

Lemma at_place_api s s' k p l : proc s' = proc s -> (api s' = true -> api s = true) -> at_place s k p l -> at_place s' k p l.
Proof. unfold at_place. intros -> Ha. destruct (proc s); auto. intros [H1 H2]. split; auto. Qed.

Lemma inv_quiet s tr s' : inv s tr -> (api s' = true -> api s = true) -> cache s' = cache s -> (no_take tr -> proc s' = Idle) ->
  (forall k p l, fst (seen tr) = Some p -> at_place s k p l -> at_place s' k p l) -> inv s' tr.
Proof.
  intros [H1 H2 H3 H4] Ha Hc Hn Hp. constructor.
  - rewrite Hc. assumption.
  - assumption.
  - intros a p b E Hb. apply Hp; [eapply seen_last; eassumption|]. eapply H3; eassumption.
  - intros a p b q c E Hb. destruct (H4 a p b q c E Hb) as [G1 G2]. split; auto.
Qed.

Lemma inv_take s tr p q (cache' : list key) hit n1 n2 :
  inv s tr -> proc s = Idle -> lru_contains key key_eqb (cache s) (key_of p) = (cache', hit) ->
  inv (if hit then mkSt q Idle cache' (api s) n1 else mkSt q (Asking p) cache' (api s) n2) (tr ++ [ITaken p]).
Proof.
  intros [H1 H2 H3 H4] Hp E. unfold lru_contains in E. pose proof (cache_known s tr (key_of p) H1) as Hk.
  assert (Hs: snd (see (seen tr) (ITaken p)) = if existsb (fun y => key_eqb y (key_of p)) (cache s) then key_of p :: snd (seen tr) else snd (seen tr)).
  { unfold see. destruct (seen tr) as [o us] eqn:Es. cbn [snd]. pose proof (known_dec tr (key_of p)) as Hd. rewrite Es in Hd. cbn [snd] in Hd.
    destruct (existsb (key_eqb (key_of p)) _) eqn:E1.
    - destruct (existsb (fun y => key_eqb y (key_of p)) (cache s)) eqn:E2; [reflexivity|]. exfalso. assert (false = true) by (apply Hk, Hd; reflexivity). discriminate.
    - destruct (existsb (fun y => key_eqb y (key_of p)) (cache s)) eqn:E2; [|reflexivity]. exfalso. assert (false = true) by (apply Hd, Hk; reflexivity). discriminate. }
  assert (Hc: lru_inv key key_eqb cache' (snd (seen (tr ++ [ITaken p])))).
  { rewrite seen_snoc, Hs. destruct (existsb _ (cache s)) eqn:E1; inv E; [|assumption]. apply touch_present; auto using key_spec. apply (existsb_in key key_eqb key_spec). assumption. }
  constructor.
  - destruct hit; assumption.
  - intros Ht. exfalso. apply (Ht p). apply in_app_iff. right. left. reflexivity.
  - intros a p' b E' Hb. apply snoc_split in E'. destruct E' as [(-> & -> & E')|(b' & -> & E')].
    + inv E'. destruct (existsb _ (cache s)) eqn:E1; inv E; unfold at_place; cbn [proc api filter].
      * split; [reflexivity|]. intros Hk'. exfalso. apply Hk', Hk. reflexivity.
      * split; [reflexivity|]. split; [|reflexivity]. intros Hk'. apply Hk in Hk'. discriminate.
    + exfalso. apply no_take_app in Hb. destruct Hb as [_ Hb]. apply (Hb p). left. reflexivity.
  - intros a p' b r c E' Hb.
    assert (api (if hit then mkSt q Idle cache' (api s) n1 else mkSt q (Asking p) cache' (api s) n2) = api s) as -> by (destruct hit; reflexivity).
    replace (a ++ ITaken p' :: b ++ ITaken r :: c) with ((a ++ ITaken p' :: b) ++ ITaken r :: c) in E' by (rewrite <- app_assoc; reflexivity).
    apply snoc_split in E'. destruct E' as [(-> & E' & _)|(c' & -> & E')].
    + specialize (H3 a p' b E' Hb). unfold at_place in H3. rewrite Hp in H3. assumption.
    + rewrite <- app_assoc in E'. cbn in E'. eapply H4; eassumption.
Qed.

Lemma inv_step s tr l s' o : inv s tr -> step s l = Some (s', o) -> inv s' (tr ++ o).
Proof.
  intros H E. assert (Hq: forall i, inv s tr -> (match i with IQueued _ | ILost _ => True | _ => False end) -> forall s', cache s' = cache s -> proc s' = proc s -> api s' = api s -> inv s' (tr ++ [i])).
  { intros i Hi Ht s1 E1 E2 E3. apply inv_snoc with (s := s); auto.
    - intros p Hp. subst. assumption.
    - congruence.
    - rewrite E1. pose proof (i_cache _ _ Hi) as G; destruct i; try contradiction; unfold see; destruct (seen tr); exact G.
    - rewrite E2. apply (i_none _ _ Hi).
    - intros k p l' _ Hl. assert (fp [i] = []) as -> by (destruct i; try contradiction; reflexivity). rewrite app_nil_r. eapply at_place_api; [exact E2|congruence|exact Hl]. }
  destruct l as [p| | |d|r|]; cbn [step] in E.
  - destruct (Nat.ltb (length (queue s)) INPUT_CAP); inv E; apply Hq; auto; cbn; auto.
  - destruct (proc s) eqn:Ep; try discriminate. destruct (queue s) as [|p q]; [discriminate|].
    destruct (lru_contains key key_eqb (cache s) (key_of p)) as [c' hit] eqn:Ec. inv E. apply inv_take; assumption.
  - assert (Hno: forall q, proc s = q -> q <> Idle -> no_take tr -> False) by (intros q Hq1 Hq2 Ht; apply Hq2; rewrite <- Hq1; apply (i_none _ _ H Ht)).
    destruct (proc s) eqn:Ep; try discriminate; inv E; destruct (api s) eqn:Ea.
    + inv H1. apply inv_snoc with (s := s); auto; try (intros; discriminate).
      * pose proof (i_cache _ _ H) as G. unfold see. destruct (seen tr). exact G.
      * intros Ht. exfalso. eapply Hno; eauto. discriminate.
      * intros k q l _. unfold at_place. rewrite Ep. cbn. intros (-> & Hk & ->). splits; auto.
    + inv H1. rewrite app_nil_r. apply inv_quiet with (s := s); auto; try (cbn; congruence).
      intros k q l _. unfold at_place. rewrite Ep. cbn. intros (-> & Hk & ->). split; [auto|discriminate].
    + inv H1. apply inv_snoc with (s := s); auto; try (intros; discriminate).
      * pose proof (i_cache _ _ H) as G. unfold see. destruct (seen tr). exact G.
      * intros Ht. exfalso. eapply Hno; eauto. discriminate.
      * intros k q l _. unfold at_place. rewrite Ep. cbn. intros (-> & Hk & ->). splits; auto.
    + inv H1. rewrite app_nil_r. apply inv_quiet with (s := s); auto; try (cbn; congruence).
      intros k q l _. unfold at_place. rewrite Ep. cbn. intros (-> & Hk & ->). split; [intros; contradiction|discriminate].
  - assert (Hno: forall q, proc s = q -> q <> Idle -> no_take tr -> False) by (intros q Hq1 Hq2 Ht; apply Hq2; rewrite <- Hq1; apply (i_none _ _ H Ht)).
    destruct (proc s) eqn:Ep; try discriminate. inv E.
    assert (Hsn: fst (seen tr) = Some p).
    { destruct (last_take tr) as [Ht|(a & q & b & Ht & Hb)]; [exfalso; eapply Hno; eauto; discriminate|].
      pose proof (i_last _ _ H a q b Ht Hb) as G. unfold at_place in G. rewrite Ep in G. destruct G as (-> & _). eapply seen_last; eassumption. }
    pose proof (i_cache _ _ H) as G. destruct (seen tr) as [o us] eqn:Es. cbn [fst snd] in Hsn, G. subst o.
    destruct d as [[|]|].
    + apply inv_snoc with (s := s); auto; try (intros; discriminate).
      * rewrite Es. exact G.
      * intros Ht. exfalso. eapply Hno; eauto. discriminate.
      * intros k q l _. unfold at_place. rewrite Ep. cbn. intros (-> & Hk & ->). splits; auto.
    + apply inv_snoc with (s := s); auto; try (intros; discriminate).
      * rewrite Es. cbn [see snd cache]. apply lru_insert_inv; auto using key_spec.
      * intros k q l _. unfold at_place. rewrite Ep. cbn. intros (-> & Hk & ->). split; [intros; contradiction|]. intros _ _. constructor.
    + apply inv_snoc with (s := s); auto; try (intros; discriminate).
      * rewrite Es. exact G.
      * intros k q l _. unfold at_place. rewrite Ep. cbn. intros (-> & Hk & ->). split; [intros; contradiction|]. intros _ _. constructor.
  - assert (Hno: forall q, proc s = q -> q <> Idle -> no_take tr -> False) by (intros q Hq1 Hq2 Ht; apply Hq2; rewrite <- Hq1; apply (i_none _ _ H Ht)).
    destruct (proc s) eqn:Ep; try discriminate. inv E.
    assert (Hsn: fst (seen tr) = Some p).
    { destruct (last_take tr) as [Ht|(a & q & b & Ht & Hb)]; [exfalso; eapply Hno; eauto; discriminate|].
      pose proof (i_last _ _ H a q b Ht Hb) as G. unfold at_place in G. rewrite Ep in G. destruct G as (-> & _). eapply seen_last; eassumption. }
    pose proof (i_cache _ _ H) as G. destruct (seen tr) as [o us] eqn:Es. cbn [fst snd] in Hsn, G. subst o.
    destruct r as [b|].
    + apply inv_snoc with (s := s); auto; try (intros; discriminate).
      * rewrite Es. cbn [see snd cache]. apply lru_insert_inv; auto using key_spec.
      * intros k q l _. unfold at_place. rewrite Ep. cbn. intros (-> & Hk & ->). split; [intros; contradiction|]. intros _ _. constructor.
    + apply inv_snoc with (s := s); auto; try (intros; discriminate).
      * rewrite Es. exact G.
      * intros k q l _. unfold at_place. rewrite Ep. cbn. intros (-> & Hk & ->). split; [intros; contradiction|]. intros _ _. constructor.
  - inv E. rewrite app_nil_r. apply inv_quiet with (s := s); auto; try (cbn; congruence).
    + cbn. apply (i_none _ _ H).
    + intros k p l _ Hl. eapply at_place_api; [| |eassumption]; cbn; congruence.
Qed.

Lemma run_inv ls s tr : run init ls = Some (s, tr) -> inv s tr.
Proof.
  apply run_ind.
  - constructor; cbn; auto.
    + reflexivity.
    + intros a p b E. destruct a; discriminate.
    + intros a p b q c E. destruct a; discriminate.
  - intros. eapply inv_step; eassumption.
Qed.

Theorem asked ls s tr a p b c : run init ls = Some (s, tr) -> tr = a ++ ITaken p :: b ++ c -> no_take b -> (c = [] /\ proc s = Idle \/ exists q c', c = ITaken q :: c') ->
  (known a (key_of p) -> fp b = []) /\ (~ known a (key_of p) -> api s = true -> complete p (fp b)).
Proof.
  intros H E Hb Hc. apply run_inv in H. destruct Hc as [[-> Hi]|(q & c' & ->)].
  - rewrite app_nil_r in E. pose proof (i_last _ _ H a p b E Hb) as G. unfold at_place in G. rewrite Hi in G. assumption.
  - eapply (i_past _ _ H); eassumption.
Qed.

Theorem new_path a p : (forall q, In q (taken a) -> key_of q <> key_of p) -> ~ known a (key_of p).
Proof.
  intros H Hk. unfold known in Hk. apply firstn_incl in Hk. apply (proj1 (recent_in key key_eqb key_spec _ _)) in Hk.
  fold (seen a) in Hk.
  assert (G: (forall q, fst (seen a) = Some q -> In q (taken a)) /\ (forall k, In k (snd (seen a)) -> exists q, In q (taken a) /\ key_of q = k)).
  { clear. induction a as [|i a [IH1 IH2]] using rev_ind; [split; cbn; [discriminate|intros k []]|].
    rewrite seen_snoc. unfold taken in *. rewrite flat_map_app. cbn [flat_map]. rewrite app_nil_r.
    assert (Hin: forall q, In q (flat_map (fun i => match i with ITaken p => [p] | _ => [] end) a) -> In q (flat_map (fun i => match i with ITaken p => [p] | _ => [] end) a ++ match i with ITaken p => [p] | _ => [] end))
      by (intros; apply in_app_iff; auto).
    destruct (seen a) as [o us] eqn:Es. cbn [fst snd] in *.
    assert (Hold: (forall q, o = Some q -> In q (flat_map (fun i => match i with ITaken p => [p] | _ => [] end) a ++ match i with ITaken p => [p] | _ => [] end)) /\
                  (forall k, In k us -> exists q, In q (flat_map (fun i => match i with ITaken p => [p] | _ => [] end) a ++ match i with ITaken p => [p] | _ => [] end) /\ key_of q = k)).
    { split; [auto|]. intros k Hk. destruct (IH2 k Hk) as (q & Hq1 & Hq2). eauto. }
    destruct Hold as [Ho1 Ho2].
    destruct i as [| |q| |[[|]|]| |[b|]]; cbn [see fst snd]; try (split; assumption).
    - split.
      + intros r Hr. inv Hr. apply in_app_iff. right. left. reflexivity.
      + intros k Hk. destruct (existsb _ _); [|auto]. destruct Hk as [<-|Hk]; [|auto]. exists q. split; [apply in_app_iff; right; left; reflexivity|reflexivity].
    - destruct o as [p|]; [|split; assumption]. cbn [fst snd]. split; [assumption|]. intros k [<-|Hk]; [|auto]. exists p. auto.
    - destruct o as [p|]; [|split; assumption]. cbn [fst snd]. split; [assumption|]. intros k [<-|Hk]; [|auto]. exists p. auto. }
  destruct G as [_ G]. destruct (G _ Hk) as (q & Hq1 & Hq2). apply (H q Hq1 Hq2).
Qed.

(** ** Uploads only after consent *)
Definition agreed (a : list item) id pid nodes : Prop :=
  exists p a1 a2, a = a1 ++ ITaken p :: a2 /\ no_take a2 /\ id = p_sankey p /\ pid = p_id p /\ nodes = p_nodes p /\ fp a2 = [IIntent id pid; IDecision (Some true)].
Theorem consent ls s tr a id pid nodes b : run init ls = Some (s, tr) -> tr = a ++ IUpload id pid nodes :: b -> agreed a id pid nodes.
Proof.
  intros H. revert a id pid nodes b.
  assert (G: inv s tr /\ forall a id pid nodes b, tr = a ++ IUpload id pid nodes :: b -> agreed a id pid nodes); [|apply G].
  revert H. apply (run_ind (fun s tr => inv s tr /\ forall a id pid nodes b, tr = a ++ IUpload id pid nodes :: b -> agreed a id pid nodes)).
  - split; [apply (run_inv []); reflexivity|]. intros a id pid nodes b E. destruct a; discriminate.
  - clear. intros s tr l s' o [Hi IH] E. split; [eapply inv_step; eassumption|].
    intros a id pid nodes b Ht.
    assert (Ho: o = [] \/ exists i, o = [i]).
    { destruct l; cbn in E; repeat (dmatch_in E; try discriminate); inv E; try (right; eexists; reflexivity); try (left; reflexivity);
        repeat match goal with H : _ = (_, _) |- _ => inv H end; try (right; eexists; reflexivity); left; reflexivity. }
    destruct Ho as [->|[i ->]]; [rewrite app_nil_r in Ht; eapply IH; eassumption|].
    apply snoc_split in Ht. destruct Ht as [(-> & -> & ->)|(b' & -> & Ht)]; [|eapply IH; eassumption].
    destruct l; cbn in E; repeat (dmatch_in E; try discriminate); inv E; try discriminate.
    destruct (last_take a) as [Hn|(a1 & q & a2 & -> & Hb)]; [exfalso; pose proof (i_none _ _ Hi Hn); congruence|].
    pose proof (i_last _ _ Hi a1 q a2 eq_refl Hb) as G. unfold at_place in G.
    destruct (proc s) eqn:Ep; try discriminate; destruct (api s); try discriminate.
    repeat match goal with H : _ = (_, _) |- _ => inv H end. match goal with H : Uploading _ = Uploading _ |- _ => injection H as -> end. destruct G as (-> & _ & G). exists q, a1, a2. auto 10.
Qed.

(** ** Counters and order *)
Definition working (s : st) : nat := match proc s with Asking _ | Asked _ => 1 | _ => 0 end.
Definition sending (s : st) : nat := match proc s with Uploading _ | Uploaded _ => 1 | _ => 0 end.
Ltac fin H7 := repeat match goal with |- _ /\ _ => split end; try lia; let Ha := fresh in intros Ha; try discriminate; destruct (H7 Ha); split; lia.
Theorem counters ls s tr : run init ls = Some (s, tr) ->
  initiations (cnt s) = count is_taken tr /\ uploads (cnt s) = count is_yes tr /\ drops (cnt s) = count is_no tr /\ successes (cnt s) = count is_stored tr /\
  initiations (cnt s) = already (cnt s) + drops (cnt s) + uploads (cnt s) + request_failures (cnt s) + working s /\
  uploads (cnt s) = successes (cnt s) + failures (cnt s) + sending s /\
  (api s = true -> request_failures (cnt s) = count is_no_decision tr /\ failures (cnt s) = count is_no_result tr).
Proof.
  revert ls s tr. apply run_ind.
  - cbn. auto 10.
  - intros s tr l s' o (H1 & H2 & H3 & H4 & H5 & H6 & H7) E. unfold count, working, sending in *.
    destruct l as [p| | |d|r|]; cbn [step] in E.
    + destruct (Nat.ltb _ _); inv E; rewrite !filter_app, !app_length; cbn; fin H7.
    + destruct (proc s) eqn:Ep; try discriminate. destruct (queue s) as [|p q]; [discriminate|].
      destruct (lru_contains _ _ _ _) as [c' hit]. inv E. rewrite !filter_app, !app_length.
      destruct hit; cbn in *; fin H7.
    + destruct (proc s) eqn:Ep; try discriminate; destruct (api s) eqn:Ea; inv E; rewrite !filter_app, !app_length; cbn; fin H7.
    + destruct (proc s) eqn:Ep; try discriminate. inv E. rewrite !filter_app, !app_length.
      destruct d as [[|]|]; cbn; fin H7.
    + destruct (proc s) eqn:Ep; try discriminate. inv E. rewrite !filter_app, !app_length.
      destruct r as [[|]|]; cbn; fin H7.
    + inv E. rewrite app_nil_r. cbn. fin H7.
Qed.

Theorem in_order ls s tr : run init ls = Some (s, tr) -> handed tr = taken tr ++ queue s /\
  (forall a p b, tr = a ++ ILost p :: b -> length (handed a) = length (taken a) + 10).
Proof.
  intros H. cut ((handed tr = taken tr ++ queue s /\ length (queue s) <= 10) /\ forall a p b, tr = a ++ ILost p :: b -> length (handed a) = length (taken a) + 10); [tauto|].
  revert ls s tr H. apply (run_ind (fun s tr => (handed tr = taken tr ++ queue s /\ length (queue s) <= 10) /\ (forall a p b, tr = a ++ ILost p :: b -> length (handed a) = length (taken a) + 10))).
  - split; [split; [reflexivity|cbn; lia]|]. intros a p b E. destruct a; discriminate.
  - intros s tr l s' o [[H1 H0] H2] E.
    assert (G: handed (tr ++ o) = taken (tr ++ o) ++ queue s' /\ length (queue s') <= 10 /\
               (o = [] \/ (exists i, o = [i] /\ forall p, i = ILost p -> length (queue s) >= 10))).
    { unfold handed, taken in *. rewrite !flat_map_app, H1.
      destruct l as [p| | |d|r|]; cbn [step] in E.
      - destruct (Nat.ltb _ _) eqn:El; inv E; cbn; rewrite !app_nil_r.
        + rewrite app_assoc. split; [reflexivity|]. split; [rewrite app_length; apply Nat.ltb_lt in El; unfold INPUT_CAP in El; cbn; lia|]. right. eexists. split; [reflexivity|discriminate].
        + split; [reflexivity|]. split; [lia|]. right. eexists. split; [reflexivity|]. apply Nat.ltb_ge in El. unfold INPUT_CAP in El. intros. lia.
      - destruct (proc s); try discriminate. destruct (queue s) as [|p q]; [discriminate|]. destruct (lru_contains _ _ _ _) as [c' hit]. inv E. cbn.
        rewrite app_nil_r. split; [|split; [cbn in H0; destruct hit; cbn; lia|right; eexists; split; [reflexivity|discriminate]]]. rewrite <- app_assoc. destruct hit; reflexivity.
      - destruct (proc s); try discriminate; destruct (api s); inv E; cbn; rewrite !app_nil_r; (split; [reflexivity|split; [lia|]]); auto; right; eexists; (split; [reflexivity|discriminate]).
      - destruct (proc s); try discriminate. inv E. destruct d as [[|]|]; cbn; rewrite !app_nil_r; (split; [reflexivity|split; [lia|]]); right; eexists; (split; [reflexivity|discriminate]).
      - destruct (proc s); try discriminate. inv E. destruct r as [[|]|]; cbn; rewrite !app_nil_r; (split; [reflexivity|split; [lia|]]); right; eexists; (split; [reflexivity|discriminate]).
      - inv E. cbn. rewrite !app_nil_r. split; [reflexivity|split; [lia|left; reflexivity]]. }
    destruct G as (G1 & G0 & G2). split; [split; assumption|].
    intros a p b Ht. destruct G2 as [->|(i & -> & Hi)]; [rewrite app_nil_r in Ht; eapply H2; eassumption|].
    apply snoc_split in Ht. destruct Ht as [(-> & -> & ->)|(b' & -> & Ht)]; [|eapply H2; eassumption].
    specialize (Hi p eq_refl). cbn [step] in E. rewrite H1, app_length.
    lia.
Qed.

(** ** A second path with the same ids *)
Lemma twice p1 p2 : key_of p1 = key_of p2 ->
  run init [LEmit p1; LTake; LSend; LDecide (Some true); LSend; LResult (Some true); LEmit p2; LTake] =
  Some (mkSt [] Idle [key_of p2] true (mkStats 2 1 1 0 0 1 0),
        [IQueued p1; ITaken p1; IIntent (p_sankey p1) (p_id p1); IDecision (Some true); IUpload (p_sankey p1) (p_id p1) (p_nodes p1); IResult (Some true); IQueued p2; ITaken p2]).
Proof.
  intros H. assert (E: key_eqb (key_of p1) (key_of p2) = true) by (apply key_spec; assumption).
  cbv -[key_of key_eqb p_sankey p_id p_nodes]. rewrite E. reflexivity.
Qed.
