From Verif Require Import Base Str_Base Validate_Model Validate_Spec.
Local Open Scope Z_scope.

(** * Size, for induction *)
Definition vsize (ms : msg -> nat) (v : value msg) : nat := match v with VMsg m => ms m | _ => 0%nat end.
Fixpoint msize (m : msg) : nat :=
  match m with
  | Msg _ fs =>
      let vsz (v : value msg) := match v with VMsg m' => msize m' | _ => 0%nat end in
      let vssz := fix go (vs : list (value msg)) := match vs with [] => 0%nat | v :: vs' => (vsz v + go vs')%nat end in
      let csz (c : content msg) := match c with CSing _ (Some v) => vsz v | CSing _ None => 0%nat | CRep vs | CMap vs => vssz vs end in
      S ((fix go (l : list (field msg)) := match l with [] => 0%nat | f :: l' => (csz (fl_content f) + go l')%nat end) fs)
  end.
Fixpoint vssize (vs : list (value msg)) : nat := match vs with [] => 0%nat | v :: vs' => (vsize msize v + vssize vs')%nat end.
Definition csize (c : content msg) : nat := match c with CSing _ (Some v) => vsize msize v | CSing _ None => 0%nat | CRep vs | CMap vs => vssize vs end.
Fixpoint fsize (l : list (field msg)) : nat := match l with [] => 0%nat | f :: l' => (csize (fl_content f) + fsize l')%nat end.
Lemma msize_eq : forall os fs, msize (Msg os fs) = S (fsize fs).
Proof.
  intros. cbn [msize].
  assert (Hvs : forall vs, (fix go (vs : list (value msg)) : nat := match vs with [] => 0%nat | v :: vs' => (match v with VMsg m' => msize m' | _ => 0%nat end + go vs')%nat end) vs = vssize vs)
    by (induction vs as [|v vs IHv]; [reflexivity|]; simpl; rewrite IHv; destruct v; reflexivity).
  apply f_equal. induction fs as [|f fs IH]; [reflexivity|]. simpl fsize. rewrite <- IH. apply (f_equal2 Nat.add); [|reflexivity].
  destruct (fl_content f) as [k [v|]|vs|vs]; cbn [csize]; [destruct v; reflexivity|reflexivity|apply Hvs|apply Hvs].
Qed.
Lemma vssize_in : forall vs v, In v vs -> (vsize msize v <= vssize vs)%nat.
Proof. induction vs; intros v []; subst; simpl; [lia|]. apply IHvs in H. lia. Qed.
Lemma child_size : forall m m', child m m' -> (msize m' < msize m)%nat.
Proof.
  intros [os fs] m' (f & Hf & Hc). rewrite msize_eq. simpl in Hf.
  assert (H1 : (msize m' <= csize (fl_content f))%nat).
  { inversion Hc as [k v m0 Hv | vs v m0 Hin Hv | vs v m0 Hin Hv]; subst; inversion Hv; subst; simpl; auto; apply vssize_in in Hin; simpl in Hin; lia. }
  clear Hc. induction fs; destruct Hf; subst; simpl; [lia|]. apply IHfs in H. lia.
Qed.

(** * What acceptance is *)
Lemma orelse_none : forall a b, orelse a b = None <-> a = None /\ b = None.
Proof. intros [e|] b; simpl; split; try tauto; try (intros [? ?]); try discriminate; auto. Qed.
Lemma validate_none : forall os fs, validate (Msg os fs) = None <->
  forallb (oneof_ok fs) os = true
  /\ (forall f, In f fs -> exists b, validate_field f = inr b /\ (b = true -> forall m', in_content (fl_content f) m' -> validate m' = None)).
Proof.
  intros. cbn [validate].
  set (iv := fun v : value msg => match v with VMsg m' => validate m' | _ => None end).
  set (ivs := fix go (vs : list (value msg)) : option verr := match vs with [] => None | v :: vs' => orelse (iv v) (go vs') end).
  assert (Hiv : forall v, iv v = None <-> forall m', in_value v m' -> validate m' = None).
  { intros v. destruct v; simpl; (split; [intros Hx m' Hm; inversion Hm; subst; exact Hx|intros Hx]); auto. apply Hx. constructor. }
  assert (Hivs : forall vs, ivs vs = None <-> forall v m', In v vs -> in_value v m' -> validate m' = None).
  { induction vs as [|v vs IH]; simpl; [split; intros; [tauto|auto]|]. rewrite orelse_none, IH, Hiv. split.
    - intros [H1 H2] v' m' [<-|Hi] Hm; eauto.
    - intros H. split; intros; eauto. }
  destruct (forallb (oneof_ok fs) os); [|split; [discriminate|intros [? _]; discriminate]].
  split.
  - intros H. split; auto. clear os. induction fs as [|f fs IH]; intros g []; subst.
    + destruct (validate_field g) as [e|b]; [discriminate|]. exists b. split; auto. intros ->. apply orelse_none in H as [H _].
      intros m' Hc. destruct Hc; [eapply Hiv; eauto|eapply Hivs; eauto|eapply Hivs; eauto].
    + destruct (validate_field f) as [e|b]; [discriminate|]. apply orelse_none in H as [_ H]. auto.
  - intros [_ H]. clear os. induction fs as [|f fs IH]; auto.
    destruct (H f (or_introl eq_refl)) as (b & -> & Hb). apply orelse_none. split.
    + destruct b; auto. specialize (Hb eq_refl). destruct (fl_content f) as [k [v|]|vs|vs]; auto.
      * apply Hiv. intros. apply Hb. constructor; auto.
      * apply Hivs. intros. apply Hb. econstructor; eauto.
      * apply Hivs. intros. apply Hb. eapply ic_map; eauto.
    + apply IH. intros. apply H. right; auto.
Qed.

Lemma no_recursion : forall f, validate_field f = inr false -> forall m, ~ in_content (fl_content f) m.
Proof.
  intros f H m Hc. unfold validate_field in H. destruct (fl_rules f) as [r|]; [|discriminate].
  destruct (f_type r); try discriminate; try (destruct n; try discriminate);
  destruct (fl_content f) as [[] v|vs|vs]; cbn in H; try discriminate; repeat (match type of H with context [match ?x with _ => _ end] => destruct x eqn:? end; try discriminate);
  subst; inversion Hc as [k1 v1 m1 Hv1| |]; subst; inversion Hv1.
Qed.
Lemma within_accepted : forall m m', within m m' -> validate m = None -> validate m' = None.
Proof.
  induction 1 as [|m m' m'' Hc Hw IH]; auto. intros H. apply IH. destruct m as [os fs]. apply validate_none in H as [_ H].
  destruct Hc as (f & Hf & Hc). destruct (H f Hf) as (b & Hb & Hr). destruct b; auto. exfalso. eapply no_recursion; eauto.
Qed.

(** * The fields *)
Lemma ascii_chars : forall s, ascii_only s -> chars s = Z.of_nat (String.length s).
Proof.
  induction s as [|c s IH]; auto. intros [Hc Hs]. cbn [chars String.length]. rewrite (IH Hs).
  destruct (128 <=? Ascii.N_of_ascii c)%N eqn:E; [apply N.leb_le in E; lia|]. cbn [andb]. lia.
Qed.

Lemma ni : forall b, not_implemented b = None -> b = false.
Proof. intros []; simpl; congruence. Qed.
Lemma some_false : forall A (o : option A), some o = false -> o = None.
Proof. intros A [a|]; simpl; congruence. Qed.

Lemma int_sound : forall i n, validate_int i (Some (VInt n)) = None -> int_holds i n.
Proof.
  intros i n H. cbn in H. destruct i as [c lt lte gt gte l1 l2 ie]. cbn in H.
  destruct (match gt with Some g => n <=? g | None => false end) eqn:E; [discriminate|]. apply ni in H.
  repeat (apply orb_false_iff in H as [H ?]).
  repeat match goal with Hx : some _ = false |- _ => apply some_false in Hx end. subst.
  destruct l1; [|discriminate]. destruct l2; [|discriminate].
  right. cbn. unfold range. cbn. splits; auto. destruct gt; auto. apply Z.leb_gt in E. lia.
Qed.
Lemma int_complete : forall i n, i_const i = None /\ i_lt i = None /\ i_lte i = None /\ i_gte i = None /\ i_in i = [] /\ i_not_in i = [] /\ i_ignore_empty i = None ->
  int_holds i n -> validate_int i (Some (VInt n)) = None.
Proof.
  intros [c lt lte gt gte l1 l2 ie] n. cbn. intros (-> & -> & -> & -> & -> & -> & ->) [[? _]|(_ & H & _)]; [discriminate|].
  unfold range in H. cbn in *. destruct gt as [g|]; cbn; auto. destruct (n <=? g) eqn:E; auto. apply Z.leb_le in E. lia.
Qed.
Lemma string_sound : forall P r s, ascii_only s -> validate_string r (Some (VStr s)) = None -> string_holds P r s.
Proof.
  intros P r s Ha H. cbn in H. right. rewrite (ascii_chars _ Ha).
  destruct (match s_min r with Some n => _ | None => _ end) eqn:E1; [discriminate|].
  destruct (match s_max r with Some n => _ | None => _ end) eqn:E2; [discriminate|]. apply ni in H.
  splits; [destruct (s_min r); cbn; auto; apply Z.ltb_ge in E1; lia|destruct (s_max r); cbn; auto; apply Z.ltb_ge in E2; lia|congruence].
Qed.
Lemma string_complete : forall P r s, ascii_only s -> s_other r = false -> s_ignore_empty r <> Some true -> string_holds P r s -> validate_string r (Some (VStr s)) = None.
Proof.
  intros P r s Ha Ho Hi [[? _]|(H1 & H2 & _)]; [tauto|]. rewrite (ascii_chars _ Ha) in *. cbn. rewrite Ho.
  destruct (match s_min r with Some n => _ | None => _ end) eqn:E1.
  { destruct (s_min r); [|discriminate]. apply Z.ltb_lt in E1. cbn in H1. lia. }
  destruct (match s_max r with Some n => _ | None => _ end) eqn:E2; auto.
  destruct (s_max r); [|discriminate]. apply Z.ltb_lt in E2. cbn in H2. lia.
Qed.
Lemma enum_sound : forall P r d n, validate_enum r d (Some (VEnum n)) = None -> enum_holds P r d n.
Proof.
  intros P r d n H. cbn in H. destruct (e_defined_only r && _) eqn:E; [discriminate|]. apply ni in H. split; [|congruence].
  intros Hd. rewrite Hd in E. cbn in E. apply negb_false_iff in E. apply existsb_exists in E as (x & Hx & He). apply Z.eqb_eq in He. congruence.
Qed.
Lemma enum_complete : forall P r d n, e_other r = false -> enum_holds P r d n -> validate_enum r d (Some (VEnum n)) = None.
Proof.
  intros P r d n Ho [H _]. cbn. rewrite Ho. destruct (e_defined_only r); cbn; auto. destruct (existsb (Z.eqb n) d) eqn:E; auto.
  exfalso. specialize (H eq_refl). assert (existsb (Z.eqb n) d = true) by (apply existsb_exists; exists n; split; auto; apply Z.eqb_refl). congruence.
Qed.
Lemma repeated_sound : forall P r vs, validate_repeated r (length vs) = None -> repeated_holds P r vs.
Proof.
  intros P r vs H. unfold validate_repeated in H. destruct (match r_min r with Some n => _ | None => _ end) eqn:E; [discriminate|]. apply ni in H.
  split; [|congruence]. destruct (r_min r); cbn; auto. apply Z.ltb_ge in E. lia.
Qed.
Lemma repeated_complete : forall P r vs, r_other r = false -> repeated_holds P r vs -> validate_repeated r (length vs) = None.
Proof.
  intros P r vs Ho [H _]. unfold validate_repeated. rewrite Ho. destruct (r_min r); cbn; auto. cbn in H.
  destruct (Z.of_nat (length vs) <? z) eqn:E; auto. apply Z.ltb_lt in E. lia.
Qed.
Lemma duration_sound : forall P r s n, validate_duration r s n = None -> duration_holds P r (Some (s, n)).
Proof.
  intros P r s n H. unfold validate_duration in H. apply orelse_none in H as [H1 H2]. apply ni in H1. apply orb_false_iff in H1 as [H0 H1].
  unfold to_duration in H2. destruct ((s <? 0) || (n <? 0)); [discriminate|].
  unfold duration_holds. split; [|split; congruence]. intros s' n' Heq. injection Heq as <- <-. destruct (d_gt r) as [[gs gn]|]; cbn; auto.
  destruct ((gs <? 0) || (gn <? 0)); [discriminate|]. destruct (s * 1000000000 + n <=? gs * 1000000000 + gn) eqn:E; [discriminate|]. apply Z.leb_gt in E. lia.
Qed.
Lemma duration_complete : forall P r s n, d_other r = false -> d_required r = None -> opt_holds (d_gt r) (fun g => 0 <= fst g /\ 0 <= snd g) -> 0 <= s -> 0 <= n ->
  duration_holds P r (Some (s, n)) -> validate_duration r s n = None.
Proof.
  intros P r s n Ho Hr Hg Hs Hn (H & _). unfold validate_duration. rewrite Ho, Hr. cbn. unfold to_duration.
  assert (N : forall a b, 0 <= a -> 0 <= b -> (a <? 0) || (b <? 0) = false) by (intros; apply orb_false_iff; split; apply Z.ltb_ge; auto).
  rewrite (N s n) by auto. specialize (H _ _ eq_refl). destruct (d_gt r) as [[gs gn]|]; auto. cbn in *. rewrite (N gs gn) by tauto.
  destruct (_ <=? _) eqn:E; auto. apply Z.leb_le in E. lia.
Qed.

Ltac field_cases f H :=
  destruct f as [opt [[req skip t]|] c]; unfold validate_field in H; cbn in H.

Lemma field_sound : forall P1 P2 P3 P4 P5 f b, declared false f -> ascii_field f -> duration_not_required f -> validate_field f = inr b -> field_holds P1 P2 P3 P4 P5 f.
Proof.
  intros P1 P2 P3 P4 P5 [opt [[req skip t]|] c] b [Ht Hd] Ha Hn H; unfold field_holds; cbn in *; auto.
  destruct Hd as [Hreq Hd]. unfold ascii_field, string_of in Ha. cbn in Ha. unfold duration_not_required in Hn. cbn in Hn.
  destruct t; cbn in *.
  - split; auto. intros -> k v ->. specialize (Hreq eq_refl). unfold validate_field in H. cbn in H. destruct k; try tauto. destruct v; cbn in *; congruence.
  - destruct c as [k v| |]; cbn in Hd; try tauto. split; [intros Hq; specialize (Hreq Hq); destruct k; cbn in Hd; destruct n; try tauto; try discriminate|].
    destruct n; try discriminate H; destruct k; cbn in Hd; try tauto; try discriminate Hd; unfold validate_field in H; cbn in H;
      (destruct v as [v|]; [destruct v; cbn in Ht; try tauto; cbn; unfold current in H; destruct opt; cbn;
        (destruct (validate_int r _) eqn:E; [discriminate|]); apply int_sound; exact E
      | cbn; destruct opt; cbn; auto; unfold current in H; (destruct (validate_int r _) eqn:E; [discriminate|]); apply int_sound; exact E]).
  - destruct c as [[] v| |]; cbn in Hd; try tauto; discriminate.
  - destruct c as [[] v| |]; cbn in Hd; try tauto; discriminate.
  - destruct c as [[] v| |]; cbn in Hd; try tauto. split; [intros Hq; specialize (Hreq Hq); tauto|].
    unfold validate_field in H; cbn in H.
    assert (B : forall x, validate_bool const (Some (VBool x)) = None -> opt_holds const (fun c => x = c))
      by (intros x Hx; cbn in Hx; destruct const as [cc|]; cbn; auto; destruct (Bool.eqb cc x) eqn:E; [apply Bool.eqb_prop in E; congruence|discriminate]).
    destruct v as [v|]; [destruct v; cbn in Ht; try tauto; cbn; unfold current in H; destruct opt|cbn; destruct opt; cbn; auto; unfold current in H];
      (destruct (validate_bool const _) eqn:E; [discriminate|]); apply B; exact E.
  - destruct c as [[] v| |]; cbn in Hd; try tauto. split; [intros Hq; specialize (Hreq Hq); tauto|].
    unfold validate_field in H; cbn in H.
    destruct v as [v|]; [destruct v; cbn in Ht, Ha; try tauto; cbn; unfold current in H; destruct opt|cbn; destruct opt; cbn; auto; unfold current in H];
      (destruct (validate_string r _) eqn:E; [discriminate|]); apply string_sound; auto; exact I.
  - destruct c as [[] v| |]; cbn in Hd; try tauto; discriminate.
  - destruct c as [[] v| |]; cbn in Hd; try tauto. split; [intros Hq; specialize (Hreq Hq); tauto|].
    unfold validate_field in H; cbn in H.
    destruct v as [v|]; [destruct v; cbn in Ht; try tauto; cbn; unfold current in H; destruct opt|cbn; destruct opt; cbn; auto; unfold current in H];
      (destruct (validate_enum r defined _) eqn:E; [discriminate|]); apply enum_sound; exact E.
  - destruct c as [[] v| |]; cbn in Hd; try tauto. split; [intros Hq; specialize (Hreq Hq); tauto|].
    unfold validate_field in H; cbn in H. destruct (validate_repeated r _) eqn:E; [discriminate|]. apply repeated_sound; auto.
  - destruct c as [[] v| |]; cbn in Hd; try tauto; discriminate.
  - discriminate.
  - destruct c as [[] v| |]; cbn in Hd; try tauto. unfold validate_field in H; cbn in H. split.
    + intros -> k v' [= <- <-]. destruct v; cbn in *; congruence.
    + destruct v as [v|]; cbn in *; [|unfold duration_holds; split; [discriminate|split; [discriminate|intros Hx; exfalso; apply Hn; exact Hx]]].
      destruct v; cbn in Hd; try congruence; cbn. rewrite andb_false_r in H.
      destruct (validate_duration r secs nanos) eqn:E; [discriminate|]. apply duration_sound; auto.
  - discriminate.
Qed.

Lemma bool_complete : forall x const, opt_holds const (fun c => x = c) -> validate_bool const (Some (VBool x)) = None.
Proof. intros x [cc|]; cbn; auto. intros ->. rewrite Bool.eqb_reflx; auto. Qed.

Lemma field_complete : forall P1 P2 P3 P4 P5 f, declared false f -> ascii_field f -> supported f -> field_holds P1 P2 P3 P4 P5 f -> exists b, validate_field f = inr b.
Proof.
  intros P1 P2 P3 P4 P5 [opt [[req skip t]|] c] [Ht Hd] Ha Hs H; unfold field_holds in H; cbn in *; [|exists true; reflexivity].
  destruct Hd as [Hreq Hd], H as [Hq H]. unfold ascii_field, string_of in Ha. unfold supported in Hs. cbn in Ha, Hs.
  unfold validate_field; cbn.
  destruct t; cbn in *; try tauto.
  - destruct c as [[] v| |]; eauto. destruct req; cbn; eauto. destruct v; cbn; eauto. exfalso. eapply Hq; eauto.
  - destruct c as [k v| |]; cbn in Hd; try tauto.
    destruct n; try tauto; destruct k; cbn in Hd; try tauto; try discriminate Hd; exists true;
      (destruct v as [v|]; [destruct v; cbn in Ht, H; try tauto; replace (current opt _ _) with (Some (VInt n) : option (value msg)) by (destruct opt; reflexivity); rewrite int_complete; auto
        | destruct opt; cbn in H; [reflexivity|]; unfold current; cbn [default]; rewrite int_complete; auto]).
  - destruct c as [[] v| |]; cbn in Hd; try tauto. exists true.
    destruct v as [v|]; [destruct v; cbn in Ht, H; try tauto; destruct opt|destruct opt; cbn in H; [reflexivity|]]; unfold current; cbn [default]; rewrite bool_complete; auto.
  - destruct c as [[] v| |]; cbn in Hd; try tauto. exists true. destruct Hs as [Hs1 Hs2].
    destruct v as [v|]; [destruct v; cbn in Ht, H, Ha; try tauto; destruct opt|destruct opt; cbn in H; [reflexivity|]]; unfold current; cbn [default];
      (erewrite string_complete; eauto; exact I).
  - destruct c as [[] v| |]; cbn in Hd; try tauto. exists true.
    destruct v as [v|]; [destruct v; cbn in Ht, H; try tauto; destruct opt|destruct opt; cbn in H; [reflexivity|]]; unfold current; cbn [default];
      erewrite enum_complete; eauto.
  - destruct c as [[] v| |]; cbn in Hd; try tauto. exists true. erewrite repeated_complete; eauto.
  - destruct c as [[] v| |]; cbn in Hd; try tauto. destruct Hs as (Hs1 & Hs2 & Hs3 & Hs4).
    destruct v as [v|]; cbn in *.
    + destruct v; cbn in Hd; try congruence. rewrite andb_false_r. erewrite duration_complete; try tauto; eauto; tauto.
    + destruct req; cbn; eauto. exfalso. eapply Hq; eauto.
Qed.

Lemma oneof_iff : forall os fs o, oneof_ok fs o = true <-> oneof_holds (Msg os fs) o.
Proof.
  intros os fs [req l]. unfold oneof_ok, oneof_holds. cbn [fst snd fields_of]. destruct req; cbn [negb orb]; [|split; auto; discriminate].
  rewrite existsb_exists. split.
  - intros (i & Hi & Hf) _. destruct (nth_error fs i) as [f|] eqn:E; [|discriminate]. exists i, f. splits; auto. unfold has_field in Hf.
    destruct (fl_content f) as [k v|vs|vs]; [destruct v|destruct vs|destruct vs]; cbn in Hf; congruence.
  - intros H. destruct (H eq_refl) as (i & f & Hi & E & Hf). exists i. split; auto. rewrite E. unfold has_field.
    destruct (fl_content f) as [k v|vs|vs]; [destruct v|destruct vs|destruct vs]; cbn; congruence.
Qed.


Theorem sound : forall P1 P2 P3 P4 P5 m, validate m = None ->
  everywhere (declared false) m -> everywhere ascii_field m -> everywhere duration_not_required m ->
  forall m', within m m' -> meets P1 P2 P3 P4 P5 m'.
Proof.
  intros P1 P2 P3 P4 P5 m H He Ha Hn m' Hw. pose proof (within_accepted _ _ Hw H) as H'. destruct m' as [os fs]. apply validate_none in H' as [Ho Hf]. split.
  - intros o Hin. apply oneof_iff. rewrite forallb_forall in Ho. auto.
  - intros f Hin. destruct (Hf f Hin) as (b & Hb & _). eapply field_sound; eauto.
Qed.

Lemma complete_size : forall P1 P2 P3 P4 P5 n m, (msize m < n)%nat ->
  everywhere (declared false) m -> everywhere ascii_field m -> everywhere supported m ->
  (forall m', within m m' -> meets P1 P2 P3 P4 P5 m') -> validate m = None.
Proof.
  induction n; intros m Hn He Ha Hs Hm; [lia|]. destruct m as [os fs]. apply validate_none. destruct (Hm _ (w_self _)) as [Ho Hf]. split.
  - apply forallb_forall. intros o Hin. eapply oneof_iff. apply Ho. exact Hin.
  - intros f Hin. destruct (field_complete P1 P2 P3 P4 P5 f) as [b Hb].
    + eapply He; [apply w_self|exact Hin]. + eapply Ha; [apply w_self|exact Hin]. + eapply Hs; [apply w_self|exact Hin]. + apply Hf; exact Hin.
    + exists b. split; auto. intros _ m' Hc. assert (Hch : child (Msg os fs) m') by (exists f; split; auto).
      apply IHn; [apply child_size in Hch; lia| | | |]; intros m''; intros.
      * eapply He; [eapply w_child; eauto|auto]. * eapply Ha; [eapply w_child; eauto|auto]. * eapply Hs; [eapply w_child; eauto|auto].
      * apply Hm. eapply w_child; eauto.
Qed.
Theorem complete : forall P1 P2 P3 P4 P5 m,
  everywhere (declared false) m -> everywhere ascii_field m -> everywhere supported m ->
  (forall m', within m m' -> meets P1 P2 P3 P4 P5 m') -> validate m = None.
Proof. intros. eapply complete_size; eauto. Qed.
