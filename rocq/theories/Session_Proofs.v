From Verif Require Import Base Str_Base Session_Model Session_Spec.
Local Open Scope Z_scope.

Section Activity.
Variables (thr wi : Z).

Hypothesis Hwi : 0 <= wi.

Notation step := (act_step thr wi).
Notation run := (act_run thr wi).

Lemma run_app : forall a s b,
  run s (a ++ b) = let (s1, o1) := run s a in let (s2, o2) := run s1 b in (s2, o1 ++ o2).
Proof.
  induction a as [|x a IH]; intros s b; cbn [app act_run].
  - destruct (run s b); reflexivity.
  - destruct (step s x) as [s1 r1]. rewrite IH.
    destruct (run s1 a) as [s2 r2]. destruct (run s2 b) as [s3 r3]. reflexivity.
Qed.

(** What is stored is at most [wi] behind the last use. *)
Definition inv (s : act) : Prop :=
  forall m, a_mem s = Some m ->
  exists w st, m_write m = Some w /\ a_store s = Some st /\ s_id st = m_id m /\
    w <= s_activity st <= m_activity m.

Lemma inv_step : forall s o, inv s -> inv (fst (step s o)).
Proof.
  intros s o I. destruct o as [now g1 g2|now g| | |]; cbn.
  - unfold session_id.
    set (m := match a_mem s with Some m => m | None => _ end).
    destruct ((now <? m_activity m) || (thr <? now - m_activity m)) eqn:B; cbn.
    + intros m' E. injection E as <-. cbn. do 2 eexists. splits; try reflexivity; cbn; lia.
    + destruct (match m_write m with None => true | Some w => wi <? now - w end) eqn:A; cbn.
      * intros m' E. injection E as <-. cbn. do 2 eexists. splits; try reflexivity; cbn; lia.
      * intros m' E. injection E as <-. cbn.
        apply orb_false_iff in B. destruct B as [B1 B2]. apply Z.ltb_ge in B1.
        destruct (a_mem s) as [m0|] eqn:Em.
        -- subst m. destruct (I _ Em) as [w [st [W [S [Hid L] ] ] ] ].
           exists w, st. splits; auto; lia.
        -- exfalso. subst m. destruct (a_store s); discriminate.
  - intros m E. injection E as <-. cbn. do 2 eexists. splits; try reflexivity; cbn; lia.
  - exact I.
  - unfold flush. destruct (a_mem s) as [m0|] eqn:Em; [|exact I].
    intros m E. cbn in E. injection E as <-.
    destruct (I _ Em) as [w [st [W [S [Hid L] ] ] ] ].
    exists w, (to_stored m0). cbn. splits; try reflexivity; try exact W; lia.
  - intros m E. discriminate.
Qed.

Lemma inv_run : forall os s, inv s -> inv (fst (run s os)).
Proof.
  induction os as [|o os IH]; intros s I; [exact I|]. cbn [act_run].
  pose proof (inv_step s o I) as I1. destruct (step s o) as [s1 r1].
  cbn [fst] in I1. specialize (IH _ I1). destruct (run s1 os). exact IH.
Qed.

(** After a use at [t] that returned [i]. *)
Definition used (s : act) (t : Z) (i : string) : Prop :=
  (exists m, a_mem s = Some m /\ m_id m = i /\ m_activity m = t) /\
  (exists st, a_store s = Some st /\ s_id st = i /\ t - wi <= s_activity st <= t).

Lemma use_used : forall s t g1 g2 i, inv s ->
  act_step thr wi s (Use t g1 g2) = i -> exists x, snd i = OId x /\ used (fst i) t x.
Proof.
  intros s t g1 g2 i I <-. cbn. unfold session_id.
  set (m := match a_mem s with Some m => m | None => _ end).
  destruct ((t <? m_activity m) || (thr <? t - m_activity m)) eqn:B; cbn.
  - eexists. split; [reflexivity|]. split; [eexists; splits; reflexivity|].
    eexists. splits; try reflexivity; cbn; lia.
  - destruct (match m_write m with None => true | Some w => wi <? t - w end) eqn:A; cbn.
    + eexists. split; [reflexivity|]. split; [eexists; splits; reflexivity|].
      eexists. splits; try reflexivity; cbn; lia.
    + apply orb_false_iff in B. destruct B as [B1 B2]. apply Z.ltb_ge in B1.
      destruct (a_mem s) as [m0|] eqn:Em.
      * subst m. destruct (I _ Em) as [w [st [W [S [Hid L] ] ] ] ].
        rewrite W in A. apply Z.ltb_ge in A.
        eexists. split; [reflexivity|]. split; [eexists; splits; reflexivity|].
        exists st. cbn. splits; auto; lia.
      * exfalso. subst m. destruct (a_store s); discriminate.
Qed.

(** After that, possibly with restarts. *)
Definition left (s : act) (t : Z) (i : string) (restarted : bool) : Prop :=
  match a_mem s with
  | Some m => m_id m = i /\ m_activity m = t /\ restarted = false
  | None => restarted = true
  end /\
  (exists st, a_store s = Some st /\ s_id st = i /\ t - wi <= s_activity st <= t).

Lemma left_run : forall os s t i b, left s t i b -> Forall passive_or_restart os ->
  left (fst (run s os)) t i (b || existsb (fun o => match o with Restart => true | _ => false end) os).
Proof.
  induction os as [|o os IH]; intros s t i b U F; [cbn; rewrite orb_false_r; exact U|].
  apply Forall_cons_iff in F. destruct F as [F1 F2]. cbn [act_run existsb].
  assert (U1 : left (fst (step s o)) t i (b || match o with Restart => true | _ => false end)).
  { destruct U as [U [st [Es [Ej L] ] ] ].
    destruct o; cbn in F1; try contradiction; cbn; rewrite ?orb_false_r.
    - split; [exact U|exists st; auto].
    - unfold flush. destruct (a_mem s) as [m|] eqn:Em; [|split; [rewrite Em; exact U|exists st; auto] ].
      destruct U as [U1 [U2 U3] ]. split.
      + cbn. auto.
      + exists (to_stored m). cbn. splits; auto; lia.
    - split; [cbn; apply orb_true_r|exists st; auto]. }
  destruct (step s o) as [s1 r1]. cbn [fst] in U1. specialize (IH _ _ _ _ U1 F2).
  rewrite orb_assoc. destruct (run s1 os). exact IH.
Qed.

Definition restarts (os : list op) : bool :=
  existsb (fun o => match o with Restart => true | _ => false end) os.

(** The results of two consecutive uses. *)
Lemma two_uses : forall h t1 a1 b1 mid t2 a2 b2 x y o1 o2,
  Forall passive_or_restart mid ->
  snd (run act_new (h ++ Use t1 a1 b1 :: mid ++ [Use t2 a2 b2])) = o1 ++ OId x :: o2 ++ [OId y] ->
  List.length o1 = List.length h ->
  (restarts mid = false -> y = if (t1 <=? t2) && (t2 - t1 <=? thr) then x else b2) /\
  (restarts mid = true ->
     (t1 <= t2 <= t1 + thr - wi -> y = x) /\ (t1 + thr < t2 -> y = b2) /\
     (t2 < t1 - wi -> y = b2) /\ (y = x \/ y = b2)).
Proof.
  intros h t1 a1 b1 mid t2 a2 b2 x y o1 o2 F E L.
  assert (I0 : inv act_new) by (intros m H; discriminate).
  rewrite run_app in E. pose proof (inv_run h act_new I0) as I1.
  assert (Lh : forall os s, List.length (snd (run s os)) = List.length os).
  { induction os as [|o os IH]; intros s; [reflexivity|]. cbn [act_run].
    destruct (step s o) as [s1 r1]. specialize (IH s1). destruct (run s1 os). cbn in *. lia. }
  pose proof (Lh h act_new) as Lh1.
  destruct (run act_new h) as [s1 r1]. cbn [fst snd] in *.
  cbn [act_run] in E.
  destruct (use_used s1 t1 a1 b1 _ I1 eq_refl) as [x' [Ex U] ].
  destruct (step s1 (Use t1 a1 b1)) as [s2 r2]. cbn [fst snd] in *. subst r2.
  rewrite run_app in E.
  assert (Lf : left s2 t1 x' false).
  { destruct U as [ [m [Em [Ei Et] ] ] S]. split; [rewrite Em; auto|exact S]. }
  pose proof (left_run mid s2 t1 x' false Lf F) as Lm. cbn [orb] in Lm. fold (restarts mid) in Lm.
  destruct (run s2 mid) as [s3 r3]. cbn [fst] in Lm. cbn [act_run] in E.
  destruct (step s3 (Use t2 a2 b2)) as [s4 r4] eqn:E4. cbn [snd] in E.
  assert (r1 = o1 /\ OId x' :: r3 ++ [r4] = OId x :: o2 ++ [OId y]) as [-> E'].
  { assert (G : forall (p q r s : list out), p ++ r = q ++ s -> List.length p = List.length q -> p = q /\ r = s).
    { induction p as [|z p IH]; intros [|z' q] r s0 H Hl; cbn in *; try discriminate; [auto|].
      injection H as -> H. destruct (IH q r s0 H ltac:(lia)) as [-> ->]. auto. }
    apply G; [exact E|lia]. }
  injection E' as -> E'. apply app_inj_tail in E'. destruct E' as [-> ->].
  cbn in E4. unfold session_id in E4. destruct Lm as [Lm [st [Es [Ei Ls] ] ] ].
  destruct (a_mem s3) as [m|] eqn:Em.
  - destruct Lm as [M1 [M2 M3] ]. split; [|intros R; congruence]. intros _.
    rewrite M2 in E4.
    destruct (t2 <? t1) eqn:B1; cbn [orb] in E4.
    + cbn in E4. injection E4 as _ <-. rewrite (proj2 (Z.leb_gt _ _)) by lia. reflexivity.
    + rewrite (proj2 (Z.leb_le t1 t2)) by lia. cbn [andb].
      destruct (thr <? t2 - t1) eqn:B2.
      * injection E4 as _ <-. rewrite (proj2 (Z.leb_gt _ _)) by lia. reflexivity.
      * rewrite (proj2 (Z.leb_le _ _)) by lia.
        destruct (match m_write m with None => true | Some w => wi <? t2 - w end);
          injection E4 as _ <-; exact M1.
  - split; [intros R; congruence|]. intros _. rewrite Es in E4. cbn in E4.
    destruct ((t2 <? s_activity st) || (thr <? t2 - s_activity st)) eqn:B; injection E4 as _ <-.
    + splits; auto. intros H. exfalso. apply orb_true_iff in B. lia.
    + rewrite Ei. splits; auto; intros H; exfalso; apply orb_false_iff in B; lia.
Qed.
End Activity.

(** ** C34 *)

(** The last identifier handed out, and the last one before the last restart. *)
Fixpoint ghost (l : list out) (cur prev : option string) : option string * option string :=
  match l with
  | [] => (cur, prev)
  | OId i :: l => ghost l (Some i) prev
  | ORestart :: l => ghost l cur cur
  | _ :: l => ghost l cur prev
  end.

Lemma ghost_app : forall a b c p,
  ghost (a ++ b) c p = ghost b (fst (ghost a c p)) (snd (ghost a c p)).
Proof. induction a as [|x a IH]; intros b c p; [reflexivity|]. destruct x; cbn; apply IH. Qed.

Lemma ghost_last : forall l c p, fst (ghost l c p) = last_id l c.
Proof. induction l as [|x l IH]; intros c p; [reflexivity|]. destruct x; cbn; apply IH. Qed.

Lemma ghost_no_restart : forall l c p, ~ In ORestart l -> snd (ghost l c p) = p.
Proof.
  induction l as [|x l IH]; intros c p N; [reflexivity|].
  destruct x; cbn; try (apply IH; intros H; apply N; right; exact H).
  exfalso. apply N. left. reflexivity.
Qed.

Section Prev.
Variables (thr wi : Z).

Definition pinv (s : act) (cp : option string * option string) : Prop :=
  option_map s_id (a_store s) = fst cp /\
  match a_mem s with
  | Some m => Some (m_id m) = fst cp /\ m_prev m = snd cp
  | None => fst cp = snd cp
  end.

Lemma pinv_step : forall s o c p,
  pinv s (c, p) -> (forall m, a_mem s = Some m -> m_write m <> None) ->
  let r := act_step thr wi s o in
  pinv (fst r) (ghost [snd r] c p) /\ (forall m, a_mem (fst r) = Some m -> m_write m <> None) /\
  (o = Prev -> snd r = OPrev p).
Proof.
  intros s o c p [I1 I2] W r. subst r. cbn in I1, I2.
  destruct o as [now g1 g2|now g| | |]; cbn.
  - unfold session_id.
    destruct (a_mem s) as [m|] eqn:Em.
    + destruct I2 as [I2 I3].
      destruct ((now <? m_activity m) || (thr <? now - m_activity m)); cbn.
      * splits; try discriminate. split; cbn; auto. intros m' E. injection E as <-. discriminate.
      * destruct (m_write m) as [w|] eqn:Ew; [|exfalso; apply (W m eq_refl); exact Ew].
        destruct (wi <? now - w); cbn.
        -- splits; try discriminate. split; cbn; auto. intros m' E. injection E as <-. discriminate.
        -- splits; try discriminate. split; cbn; auto. rewrite I1, I2. reflexivity.
           intros m' E. injection E as <-. cbn. congruence.
    + destruct (a_store s) as [st|] eqn:Es; cbn in I1.
      * cbn [m_write m_activity m_id m_prev].
        destruct ((now <? s_activity st) || (thr <? now - s_activity st)); cbn;
          (splits; try discriminate; [split; cbn; [congruence|split; congruence]|intros m' E; injection E as <-; discriminate]).
      * cbn [m_write m_activity m_id m_prev].
        destruct ((now <? now) || (thr <? now - now)); cbn;
          (splits; try discriminate; [split; cbn; [congruence|split; congruence]|intros m' E; injection E as <-; discriminate]).
  - splits; try discriminate.
    + split; cbn; auto. split; [reflexivity|]. destruct (a_mem s); [tauto|congruence].
    + intros m E. injection E as <-. discriminate.
  - splits; auto.
    + split; assumption.
    + intros _. unfold previous_process_session_id. destruct (a_mem s); [|congruence].
      f_equal. tauto.
  - splits; try discriminate.
    + unfold flush. destruct (a_mem s) as [m|] eqn:Em; split; cbn; rewrite ?Em; auto.
      destruct I2 as [I2 _]. exact I2.
    + unfold flush. destruct (a_mem s) as [m|] eqn:Em; cbn; rewrite ?Em; exact W.
  - splits; try discriminate. split; cbn; auto.
Qed.

Lemma pinv_run : forall os s c p,
  pinv s (c, p) -> (forall m, a_mem s = Some m -> m_write m <> None) ->
  let r := act_run thr wi s os in
  forall a x b, snd r = a ++ OPrev x :: b -> x = snd (ghost a c p).
Proof.
  induction os as [|o os IH]; intros s c p I W r a x b E; subst r; cbn [act_run] in E.
  - destruct a; discriminate.
  - pose proof (pinv_step s o c p I W) as P. cbv zeta in P.
    destruct (act_step thr wi s o) as [s1 r1] eqn:E1. cbn [fst snd] in P. destruct P as [P1 [P2 P3] ].
    destruct (act_run thr wi s1 os) as [s2 r2] eqn:E2. cbn [snd] in E.
    destruct a as [|y a]; cbn in E.
    + injection E as -> _. cbn.
      assert (o = Prev).
      { destruct o as [n g1 g2|n g| | |]; cbn in E1; try discriminate; try reflexivity.
        - destruct (session_id thr wi s n g1 g2); discriminate. }
      specialize (P3 H). injection P3 as ->. reflexivity.
    + injection E as -> E.
      assert (G : ghost (y :: a) c p = ghost a (fst (ghost [y] c p)) (snd (ghost [y] c p)))
        by (apply (ghost_app [y])).
      rewrite G. specialize (IH s1 (fst (ghost [y] c p)) (snd (ghost [y] c p))). rewrite E2 in IH.
      eapply IH; [destruct (ghost [y] c p); exact P1|exact P2|exact E].
Qed.

Lemma act_previous : forall os a x b,
  snd (act_run thr wi act_new os) = a ++ OPrev x :: b ->
  (forall p l, a = p ++ ORestart :: l -> ~ In ORestart l -> x = last_id p None) /\
  (~ In ORestart a -> x = None).
Proof.
  intros os a x b E.
  assert (X : x = snd (ghost a None None)).
  { eapply pinv_run; [| |exact E]; [split; reflexivity|intros m H; discriminate]. }
  split.
  - intros p l -> N. rewrite ghost_app in X. cbn in X. rewrite ghost_no_restart in X by exact N.
    rewrite ghost_last in X. exact X.
  - intros N. rewrite ghost_no_restart in X by exact N. exact X.
Qed.
End Prev.

Definition finv (s : fixed) (cp : option string * option string) : Prop :=
  f_store s = fst cp /\
  match f_mem s with
  | Some (i, p) => Some i = fst cp /\ p = snd cp
  | None => fst cp = snd cp
  end.

Lemma finv_step : forall s o c p,
  finv s (c, p) ->
  let r := fixed_step s o in
  finv (fst r) (ghost [snd r] c p) /\ (o = Prev -> snd r = OPrev p).
Proof.
  intros [m st] o c p [I1 I2] r. subst r. cbn in I1, I2. subst st.
  destruct o as [now g1 g2|now g| | |]; cbn; unfold fixed_session_id, fixed_previous, finv; cbn;
    destruct m as [ [i q]|]; cbn; split; try discriminate; auto;
    try (destruct I2 as [I2 I3]; subst); subst; auto.
Qed.

Lemma finv_run : forall os s c p,
  finv s (c, p) -> forall a x b, snd (fixed_run s os) = a ++ OPrev x :: b -> x = snd (ghost a c p).
Proof.
  induction os as [|o os IH]; intros s c p I a x b E; cbn [fixed_run] in E.
  - destruct a; discriminate.
  - pose proof (finv_step s o c p I) as P. cbv zeta in P.
    destruct (fixed_step s o) as [s1 r1] eqn:E1. cbn [fst snd] in P. destruct P as [P1 P3].
    destruct (fixed_run s1 os) as [s2 r2] eqn:E2. cbn [snd] in E.
    destruct a as [|y a]; cbn in E.
    + injection E as -> _. cbn.
      assert (o = Prev).
      { destruct o as [n g1 g2|n g| | |]; cbn in E1; try discriminate; try reflexivity.
        destruct (fixed_session_id s g1); discriminate. }
      specialize (P3 H). injection P3 as ->. reflexivity.
    + injection E as -> E.
      assert (G : ghost (y :: a) c p = ghost a (fst (ghost [y] c p)) (snd (ghost [y] c p)))
        by (apply (ghost_app [y])).
      rewrite G. specialize (IH s1 (fst (ghost [y] c p)) (snd (ghost [y] c p))). rewrite E2 in IH.
      eapply IH; [destruct (ghost [y] c p); exact P1|exact E].
Qed.

Lemma fixed_previous_id : forall os a x b,
  snd (fixed_run fixed_new os) = a ++ OPrev x :: b ->
  (forall p l, a = p ++ ORestart :: l -> ~ In ORestart l -> x = last_id p None) /\
  (~ In ORestart a -> x = None).
Proof.
  intros os a x b E.
  assert (X : x = snd (ghost a None None)).
  { eapply finv_run; [|exact E]; split; reflexivity. }
  split.
  - intros p l -> N. rewrite ghost_app in X. cbn in X. rewrite ghost_no_restart in X by exact N.
    rewrite ghost_last in X. exact X.
  - intros N. rewrite ghost_no_restart in X by exact N. exact X.
Qed.

(** ** C66: the fixed strategy *)

Lemma fixed_app : forall a s b,
  fixed_run s (a ++ b) =
  let (s1, o1) := fixed_run s a in let (s2, o2) := fixed_run s1 b in (s2, o1 ++ o2).
Proof.
  induction a as [|x a IH]; intros s b; cbn [app fixed_run].
  - destruct (fixed_run s b); reflexivity.
  - destruct (fixed_step s x) as [s1 r1]. rewrite IH.
    destruct (fixed_run s1 a) as [s2 r2]. destruct (fixed_run s2 b) as [s3 r3]. reflexivity.
Qed.

(** The identifier a use returns. *)
Fixpoint expected (os : list op) (cur : option string) : option string :=
  match os with
  | [] => cur
  | Use _ g _ :: os => expected os (match cur with Some i => Some i | None => Some g end)
  | New _ g :: os => expected os (Some g)
  | Restart :: os => expected os None
  | _ :: os => expected os cur
  end.

Lemma fixed_mem : forall os s,
  option_map fst (f_mem (fst (fixed_run s os))) = expected os (option_map fst (f_mem s)).
Proof.
  induction os as [|o os IH]; intros s; [reflexivity|]. cbn [fixed_run].
  destruct (fixed_step s o) as [s1 r1] eqn:E1. specialize (IH s1).
  destruct (fixed_run s1 os) as [s2 r2]. cbn [fst] in *. rewrite IH. clear IH.
  destruct o as [n g1 g2|n g| | |]; cbn in *.
  - unfold fixed_session_id in E1. destruct (f_mem s) as [ [i q]|] eqn:Em; injection E1 as <- <-; cbn; rewrite ?Em; reflexivity.
  - injection E1 as <- <-. reflexivity.
  - injection E1 as <- <-. reflexivity.
  - injection E1 as <- <-. reflexivity.
  - injection E1 as <- <-. reflexivity.
Qed.

Lemma expected_uses : forall mid x,
  (forall o, In o mid -> match o with New _ _ | Restart => False | _ => True end) ->
  expected mid (Some x) = Some x.
Proof.
  induction mid as [|o mid IH]; intros x N; [reflexivity|].
  assert (N' : forall o, In o mid -> match o with New _ _ | Restart => False | _ => True end)
    by (intros o' H; apply N; right; exact H).
  specialize (N o (or_introl eq_refl)). destruct o; try contradiction; cbn; auto.
Qed.

Lemma fixed_constant : forall h o mid t a b x y,
  (match o with Use _ _ _ | New _ _ => True | _ => False end) ->
  (forall o, In o mid -> match o with New _ _ | Restart => False | _ => True end) ->
  let r := fixed_run fixed_new (h ++ [o]) in
  (exists o1, snd r = o1 ++ [OId x]) ->
  (exists o2, snd (fixed_run (fst r) (mid ++ [Use t a b])) = o2 ++ [OId y]) -> x = y.
Proof.
  intros h o mid t a b x y Ho N r [o1 E1] [o2 E2]. subst r.
  assert (M : option_map fst (f_mem (fst (fixed_run fixed_new (h ++ [o])))) = Some x).
  { rewrite fixed_app in *. destruct (fixed_run fixed_new h) as [s1 r1]. cbn [fixed_run] in *.
    destruct (fixed_step s1 o) as [s2 r2] eqn:Es. cbn [fst snd] in *.
    apply app_inj_tail in E1. destruct E1 as [_ ->].
    destruct o as [n g1 g2|n g| | |]; try contradiction; cbn in Es.
    - unfold fixed_session_id in Es. destruct (f_mem s1) as [ [i q]|] eqn:Em; inv Es; cbn; rewrite ?Em; reflexivity.
    - inv Es. reflexivity. }
  set (s := fst (fixed_run fixed_new (h ++ [o]))) in *.
  rewrite fixed_app in E2. pose proof (fixed_mem mid s) as Fm. rewrite M in Fm.
  rewrite expected_uses in Fm by exact N.
  destruct (fixed_run s mid) as [s3 r3]. cbn [fst snd fixed_run fixed_step] in *.
  unfold fixed_session_id in E2. destruct (f_mem s3) as [ [i q]|]; [|discriminate].
  cbn in *. inv Fm. apply app_inj_tail in E2. destruct E2 as [_ E2]. inv E2. reflexivity.
Qed.

Lemma fixed_new_process : forall h mid t a b,
  (forall o, In o mid -> match o with New _ _ | Use _ _ _ => False | _ => True end) ->
  exists o, snd (fixed_run fixed_new (h ++ Restart :: mid ++ [Use t a b])) = o ++ [OId a].
Proof.
  intros h mid t a b N. rewrite fixed_app. destruct (fixed_run fixed_new h) as [s1 r1].
  cbn [fixed_run fixed_step]. rewrite fixed_app.
  set (s := {| f_mem := None; f_store := f_store s1 |}).
  assert (Fm : option_map fst (f_mem (fst (fixed_run s mid))) = None).
  { rewrite fixed_mem. cbn. clear -N. induction mid as [|o mid IH]; [reflexivity|].
    pose proof (N o (or_introl eq_refl)). destruct o; try contradiction; cbn; apply IH; intros; apply N; right; assumption. }
  destruct (fixed_run s mid) as [s3 r3]. cbn [fst] in Fm.
  cbn [fixed_run fixed_step]. unfold fixed_session_id. destruct (f_mem s3); [discriminate|].
  cbn. exists (r1 ++ ORestart :: r3). rewrite <- app_assoc. reflexivity.
Qed.

Lemma same_process : forall thr wi h t1 a1 b1 mid t2 a2 b2 x y o1 o2,
  0 <= wi -> Forall passive mid ->
  snd (act_run thr wi act_new (h ++ Use t1 a1 b1 :: mid ++ [Use t2 a2 b2]))
    = o1 ++ OId x :: o2 ++ [OId y] ->
  List.length o1 = List.length h ->
  (t1 <= t2 <= t1 + thr -> y = x) /\ (t2 < t1 \/ t1 + thr < t2 -> y = b2).
Proof.
  intros thr wi h t1 a1 b1 mid t2 a2 b2 x y o1 o2 Hw F E L.
  assert (R : restarts mid = false).
  { clear -F. induction F as [|o os Ho F IH]; [reflexivity|]. destruct o; try contradiction; exact IH. }
  assert (F' : Forall passive_or_restart mid).
  { eapply Forall_impl; [|exact F]. intros []; cbn; auto. }
  destruct (two_uses thr wi Hw _ _ _ _ _ _ _ _ _ _ _ _ F' E L) as [K _].
  rewrite (K R). clear. split; intros H.
  - rewrite (proj2 (Z.leb_le t1 t2)), (proj2 (Z.leb_le _ _)) by lia. reflexivity.
  - destruct (t1 <=? t2) eqn:A; [|reflexivity].
    rewrite (proj2 (Z.leb_gt _ _)) by lia. reflexivity.
Qed.

Lemma after_restart : forall thr wi h t1 a1 b1 mid t2 a2 b2 x y o1 o2,
  0 <= wi -> Forall passive_or_restart mid -> In Restart mid ->
  snd (act_run thr wi act_new (h ++ Use t1 a1 b1 :: mid ++ [Use t2 a2 b2]))
    = o1 ++ OId x :: o2 ++ [OId y] ->
  List.length o1 = List.length h ->
  (t1 <= t2 <= t1 + thr - wi -> y = x) /\ (t1 + thr < t2 -> y = b2) /\ (y = x \/ y = b2).
Proof.
  intros thr wi h t1 a1 b1 mid t2 a2 b2 x y o1 o2 Hw F I E L.
  assert (R : restarts mid = true).
  { apply existsb_exists. exists Restart. auto. }
  destruct (two_uses thr wi Hw _ _ _ _ _ _ _ _ _ _ _ _ F E L) as [_ K].
  destruct (K R) as [K1 [K2 [K3 K4] ] ]. auto.
Qed.
