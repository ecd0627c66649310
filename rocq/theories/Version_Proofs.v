From Verif Require Import Base Str_Base Version_Model Version_Spec.
Local Open Scope string_scope.

(** ** Segments *)
(** Segments as the parser produces them. *)
Definition seg_ok (s : segment) : Prop := exists x, s = segment_of x.
Lemma parse_bound : forall x n, parse_u32 x = Some n -> (n < 4294967296)%N.
Proof.
  intros x n E. unfold parse_u32 in E. set (dg := match x with String "+"%char s' => s' | _ => x end) in *. destruct dg; [discriminate|].
  destruct (DecimalString.NilEmpty.uint_of_string (String a dg)) as [d|]; [|discriminate].
  destruct (N.of_uint d <? 4294967296)%N eqn:Eb; [|discriminate]. inv E. apply N.ltb_lt. exact Eb.
Qed.
Lemma seg_ok_str : forall s, seg_ok (SStr s) -> parse_u32 s = None.
Proof. intros s [x E]. unfold segment_of in E. destruct (parse_u32 x) eqn:Ep; [discriminate|]. congruence. Qed.
Lemma seg_ok_int : forall n, seg_ok (SInt n) -> (n < 4294967296)%N.
Proof. intros n [x E]. unfold segment_of in E. destruct (parse_u32 x) eqn:Ep; [|discriminate]. inv E. eapply parse_bound. exact Ep. Qed.
Lemma seg_ok_zero : seg_ok (SInt 0).
Proof. exists "0". reflexivity. Qed.

Lemma seg_string_inj : forall a b, seg_ok a -> seg_ok b -> segment_string a = segment_string b -> a = b.
Proof.
  intros [x|x] [y|y] Ha Hb E; cbn in E.
  - f_equal. apply dec_inj. exact E.
  - apply seg_ok_str in Hb. apply seg_ok_int in Ha. rewrite <- E, parse_dec in Hb by assumption. discriminate.
  - apply seg_ok_str in Ha. apply seg_ok_int in Hb. rewrite E, parse_dec in Ha by assumption. discriminate.
  - congruence.
Qed.
Lemma seg_cmp_eq : forall a b, seg_ok a -> seg_ok b -> (segment_cmp a b = Eq <-> a = b).
Proof.
  intros a b Ha Hb. split.
  - intros E. destruct a as [x|x], b as [y|y]; cbn in E.
    + apply N.compare_eq in E. congruence.
    + apply str_cmp_eq in E. apply seg_string_inj; assumption.
    + apply str_cmp_eq in E. apply seg_string_inj; assumption.
    + apply str_cmp_eq in E. congruence.
  - intros ->. destruct b; cbn; [apply N.compare_refl|apply str_cmp_refl].
Qed.
Lemma seg_cmp_antisym : forall a b, segment_cmp a b = CompOpp (segment_cmp b a).
Proof. intros [x|x] [y|y]; cbn; try apply str_cmp_antisym. apply N.compare_antisym. Qed.
Definition same_kind (a b : segment) : Prop := match a, b with SInt _, SInt _ | SStr _, SStr _ => True | _, _ => False end.
Lemma seg_cmp_trans : forall a b c, same_kind a b -> same_kind b c -> segment_cmp a b = Lt -> segment_cmp b c = Lt -> segment_cmp a c = Lt.
Proof.
  intros [x|x] [y|y] [z|z] H1 H2; cbn in *; try contradiction; [rewrite !N.compare_lt_iff; lia|apply str_cmp_trans].
Qed.

(** ** Padding *)
Fixpoint pad (n : nat) (l : list segment) : list segment :=
  match n with O => [] | S n => match l with [] => SInt 0 :: pad n [] | x :: l' => x :: pad n l' end end.
Fixpoint lex (a b : list segment) : comparison :=
  match a, b with x :: a', y :: b' => match segment_cmp x y with Eq => lex a' b' | o => o end | _, _ => Eq end.

Lemma lex_zero : forall n, lex (pad n []) (pad n []) = Eq.
Proof. induction n as [|n IH]; [reflexivity|exact IH]. Qed.

Lemma cmp_pad : forall n a b, (length a <= n)%nat -> (length b <= n)%nat -> cmp_pairs (zip_longest a b) = lex (pad n a) (pad n b).
Proof.
  induction n as [|n IH]; intros a b Ha Hb.
  - destruct a, b; cbn in *; try lia. reflexivity.
  - destruct a as [|x a], b as [|y b]; cbn [length] in *.
    + cbn. symmetry. apply lex_zero.
    + cbn [zip_longest cmp_pairs pad lex or_zero].
      specialize (IH [] b). cbn [zip_longest length] in IH. destruct b as [|z b].
      * destruct (segment_cmp (SInt 0) y); try reflexivity. apply IH; cbn; lia.
      * cbn [cmp_pairs]. destruct (segment_cmp (SInt 0) y); try reflexivity. apply IH; cbn in *; lia.
    + cbn [zip_longest cmp_pairs pad lex or_zero]. destruct (segment_cmp x (SInt 0)); try reflexivity. apply IH; cbn; lia.
    + cbn [zip_longest cmp_pairs pad lex or_zero]. destruct (segment_cmp x y); try reflexivity. apply IH; lia.
Qed.

Lemma lex_antisym : forall a b, lex a b = CompOpp (lex b a).
Proof.
  induction a as [|x a IH]; intros [|y b]; cbn; try reflexivity. rewrite seg_cmp_antisym. destruct (segment_cmp y x); cbn; auto.
Qed.
Lemma lex_eq : forall a b, length a = length b -> Forall seg_ok a -> Forall seg_ok b -> (lex a b = Eq <-> a = b).
Proof.
  induction a as [|x a IH]; intros [|y b] L Ha Hb; cbn in *; try lia; [tauto|].
  inversion Ha; subst. inversion Hb; subst. pose proof (seg_cmp_eq x y ltac:(assumption) ltac:(assumption)) as E.
  destruct (segment_cmp x y).
  - destruct E as [E _]. rewrite (E eq_refl). rewrite IH by (auto; lia). split; [intros ->; reflexivity|congruence].
  - split; [discriminate|]. intros H. inv H. destruct E as [_ E]. discriminate (E eq_refl).
  - split; [discriminate|]. intros H. inv H. destruct E as [_ E]. discriminate (E eq_refl).
Qed.
Lemma lex_trans : forall a b c, length a = length b -> length b = length c -> Forall seg_ok a -> Forall seg_ok b -> Forall seg_ok c ->
  (forall i, same_kind (nth i a (SInt 0)) (nth i b (SInt 0)) /\ same_kind (nth i b (SInt 0)) (nth i c (SInt 0))) ->
  lex a b = Lt -> lex b c = Lt -> lex a c = Lt.
Proof.
  induction a as [|x a IH]; intros [|y b] [|z c] L1 L2 Ha Hb Hc HK E1 E2; cbn [length lex] in *; try lia; try discriminate.
  inversion Ha; inversion Hb; inversion Hc; subst.
  destruct (HK O) as [K1 K2]. cbn in K1, K2.
  pose proof (seg_cmp_eq x y ltac:(assumption) ltac:(assumption)) as Exy. pose proof (seg_cmp_eq y z ltac:(assumption) ltac:(assumption)) as Eyz.
  destruct (segment_cmp x y) eqn:C1; try discriminate; destruct (segment_cmp y z) eqn:C2; try discriminate.
  - destruct Exy as [Exy _]. rewrite (Exy eq_refl) in *. rewrite C2. apply (IH b c); auto; try lia. intros i. exact (HK (S i)).
  - destruct Exy as [Exy _]. rewrite (Exy eq_refl) in *. rewrite C2. reflexivity.
  - destruct Eyz as [Eyz _]. rewrite <- (Eyz eq_refl) in *. rewrite C1. reflexivity.
  - rewrite (seg_cmp_trans x y z); auto.
Qed.

Lemma pad_length : forall n l, length (pad n l) = n.
Proof. induction n as [|n IH]; intros [|x l]; cbn; auto. Qed.
Lemma pad_ok : forall n l, Forall seg_ok l -> Forall seg_ok (pad n l).
Proof.
  induction n as [|n IH]; intros l H; [constructor|]. destruct l as [|x l]; cbn.
  - constructor; [exact seg_ok_zero|apply IH; constructor].
  - inversion H; subst. constructor; auto.
Qed.
Lemma nth_pad : forall n l i, (length l <= n)%nat -> nth i (pad n l) (SInt 0) = nth i l (SInt 0).
Proof.
  induction n as [|n IH]; intros l i H.
  - destruct l; cbn in *; [|lia]. destruct i; reflexivity.
  - destruct l as [|x l], i as [|i]; cbn in *; try reflexivity.
    + rewrite IH by (cbn; lia). destruct i; reflexivity.
    + apply IH. lia.
Qed.
Lemma pad_zero : forall n l, (length l < n)%nat -> pad n (l ++ [SInt 0]) = pad n l.
Proof.
  induction n as [|n IH]; intros l H; [lia|]. destruct l as [|x l]; cbn in *; [reflexivity|]. f_equal. apply IH. lia.
Qed.

(** ** Parsing *)
Lemma segs_core : forall s, v_segments (version_new s) = map segment_of (split "." (core s)).
Proof.
  intros s. unfold version_new.
  assert (H: (let (s0, _) := match split_once "-" s with Some (s1, suffix) => (s1, Some suffix) | None => (s, None) end in
              let (s2, _) := match split_once "+" s0 with Some (s1, suffix) => (s1, Some suffix) | None => (s0, None) end in s2) = core s).
  { destruct (split_once "-" s) as [ [s1 r]|] eqn:E1.
    - apply split_once_has in E1 as [H1 ->]. destruct (split_once "+" s1) as [ [s2 b]|] eqn:E2.
      + apply split_once_has in E2 as [H2 ->]. rewrite str_app_assoc. clear - H1 H2. induction s2 as [|a s IH]; [reflexivity|].
        cbn in *. apply orb_false_iff in H2 as [H2 H3]. apply orb_false_iff in H1 as [H1 H4]. rewrite H1, H2. cbn. f_equal. apply IH; assumption.
      + apply split_once_none in E2. clear - H1 E2. induction s1 as [|a s IH]; [reflexivity|].
        cbn in *. apply orb_false_iff in E2 as [E2 E3]. apply orb_false_iff in H1 as [H1 H4]. rewrite H1, E2. cbn. f_equal. apply IH; assumption.
    - apply split_once_none in E1. destruct (split_once "+" s) as [ [s2 b]|] eqn:E2.
      + apply split_once_has in E2 as [H2 ->]. clear - E1 H2. induction s2 as [|a s IH]; [reflexivity|].
        cbn in *. apply orb_false_iff in H2 as [H2 H3]. apply orb_false_iff in E1 as [H1 H4]. rewrite H1, H2. cbn. f_equal. apply IH; assumption.
      + apply split_once_none in E2. clear - E1 E2. induction s as [|a s IH]; [reflexivity|].
        cbn in *. apply orb_false_iff in E2 as [H2 H3]. apply orb_false_iff in E1 as [H1 H4]. rewrite H1, H2. cbn. f_equal. apply IH; assumption. }
  destruct (split_once "-" s) as [ [s1 r]|]; destruct (split_once "+" _) as [ [s2 b]|]; cbn in *; rewrite <- H; reflexivity.
Qed.
Lemma segs_ok : forall s, Forall seg_ok (v_segments (version_new s)).
Proof. intros. rewrite segs_core. apply Forall_forall. intros x Hx. apply in_map_iff in Hx as (y & <- & _). exists y. reflexivity. Qed.
Lemma core_has : forall s, has "-" (core s) = false /\ has "+" (core s) = false.
Proof.
  induction s as [|a s [I1 I2]]; [auto|]. cbn [core]. destruct (Ascii.eqb a "-") eqn:E1; [auto|]. destruct (Ascii.eqb a "+") eqn:E2; [auto|].
  cbn [orb has]. rewrite E1, E2. auto.
Qed.
Lemma core_none : forall s, has "-" s = false -> has "+" s = false -> core s = s.
Proof.
  induction s as [|a s IH]; intros H1 H2; [reflexivity|]. cbn in *. apply orb_false_iff in H1 as [E1 H1]. apply orb_false_iff in H2 as [E2 H2].
  rewrite E1, E2. cbn. rewrite IH by assumption. reflexivity.
Qed.

Definition vcmp (a b : string) : comparison := version_cmp (version_new a) (version_new b).

Lemma vcmp_lex : forall a b n, (length (v_segments (version_new a)) <= n)%nat -> (length (v_segments (version_new b)) <= n)%nat ->
  vcmp a b = lex (pad n (v_segments (version_new a))) (pad n (v_segments (version_new b))).
Proof. intros. unfold vcmp, version_cmp. apply cmp_pad; assumption. Qed.
Definition big (a b c : string) : nat := S (length (v_segments (version_new a)) + length (v_segments (version_new b)) + length (v_segments (version_new c))).
Ltac lexify a b c := rewrite ?(vcmp_lex a b (big a b c)), ?(vcmp_lex b c (big a b c)), ?(vcmp_lex a c (big a b c)) by (unfold big; lia).

Lemma vcmp_antisym : forall a b, vcmp a b = CompOpp (vcmp b a).
Proof. intros a b. rewrite !(vcmp_lex _ _ (big a b a)) by (unfold big; lia). apply lex_antisym. Qed.
Lemma vcmp_refl : forall a, vcmp a a = Eq.
Proof. intros a. rewrite (vcmp_lex _ _ (big a a a)) by (unfold big; lia). apply lex_eq; auto; apply pad_ok, segs_ok. Qed.
Lemma vcmp_congr : forall a b c, vcmp a b = Eq -> vcmp a c = vcmp b c.
Proof.
  intros a b c. lexify a b c. intros E. apply lex_eq in E; [congruence|rewrite !pad_length; reflexivity|apply pad_ok, segs_ok..].
Qed.
Lemma vcmp_trans : forall a b c, same_kinds a b c -> vcmp a b = Lt -> vcmp b c = Lt -> vcmp a c = Lt.
Proof.
  intros a b c HK. lexify a b c. apply lex_trans; rewrite ?pad_length; auto; try (apply pad_ok, segs_ok).
  intros i. rewrite !nth_pad by (unfold big; lia). specialize (HK i). unfold piece in HK. rewrite !segs_core.
  change (SInt 0) with (segment_of "0"). rewrite !map_nth. set (x := nth i (split "." (core a)) "0") in *.
  set (y := nth i (split "." (core b)) "0") in *. set (z := nth i (split "." (core c)) "0") in *. clearbody x y z. unfold segment_of, number in *.
  destruct (parse_u32 x), (parse_u32 y), (parse_u32 z); cbn; auto; exfalso; destruct HK as [(H1 & H2 & H3)|(H1 & H2 & H3)]; try congruence;
    try (apply H1; discriminate); try (apply H2; discriminate); try (apply H3; discriminate).
Qed.

Lemma split_zero : forall s, split "." (s ++ ".0") = (split "." s ++ ["0"])%list.
Proof.
  induction s as [|a s IH]; [reflexivity|]. cbn. rewrite IH. destruct (Ascii.eqb a "."); [reflexivity|].
  destruct (split "." s) eqn:E; [exfalso; exact (split_nonempty _ _ E)|]. reflexivity.
Qed.
Lemma vcmp_zero : forall s c, has "-" s = false -> has "+" s = false -> vcmp c (s ++ ".0") = vcmp c s /\ vcmp (s ++ ".0") c = vcmp s c.
Proof.
  intros s c H1 H2. assert (E: vcmp (s ++ ".0") s = Eq).
  { rewrite (vcmp_lex _ _ (S (length (v_segments (version_new s)) + length (v_segments (version_new (s ++ ".0")))))) by lia.
    apply lex_eq; [rewrite !pad_length; reflexivity|apply pad_ok, segs_ok..|]. rewrite !segs_core, !core_none by (rewrite ?has_app, ?H1, ?H2; reflexivity).
    rewrite split_zero, map_app. cbn [map]. apply pad_zero. rewrite app_length, !map_length. lia. }
  assert (E2: vcmp (s ++ ".0") c = vcmp s c) by (apply vcmp_congr; exact E).
  split; [|exact E2]. rewrite vcmp_antisym, E2, <- vcmp_antisym. reflexivity.
Qed.

(** ** Equality of matchers *)
Lemma comparator_eqb_eq : forall a b, comparator_eqb a b = true -> a = b.
Proof. intros [] []; cbn; congruence. Qed.

Lemma version_string_core : forall s, core (version_string (version_new s)) = join "." (map segment_string (v_segments (version_new s))).
Proof.
  intros s. unfold version_string. rewrite segs_core.
  assert (H: forall b, b = "-"%char \/ b = "+"%char -> has b (join "." (map segment_string (map segment_of (split "." (core s))))) = false).
  { intros b Hb. apply join_has; [destruct Hb as [->| ->]; reflexivity|]. intros x Hx. rewrite map_map in Hx. apply in_map_iff in Hx as (y & <- & Hy).
    unfold segment_of. destruct (parse_u32 y).
    - cbn. apply dec_has. intros k Hk. destruct Hb as [->| ->]; cbn; lia.
    - cbn. apply (split_other "." b (core s)); [|exact Hy]. destruct (core_has s). destruct Hb as [->| ->]; assumption. }
  set (j := join "." _) in *. clearbody j. pose proof (H _ (or_introl eq_refl)) as H1. pose proof (H _ (or_intror eq_refl)) as H2. clear H.
  induction j as [|a j IH].
  - destruct (v_revision (version_new s)); [reflexivity|]. destruct (v_build (version_new s)); reflexivity.
  - cbn in *. apply orb_false_iff in H1 as [E1 H1]. apply orb_false_iff in H2 as [E2 H2]. rewrite E1, E2. cbn. rewrite IH by assumption. reflexivity.
Qed.
Lemma version_string_inj : forall a b, version_string (version_new a) = version_string (version_new b) -> v_segments (version_new a) = v_segments (version_new b).
Proof.
  intros a b E. apply (f_equal core) in E. rewrite !version_string_core in E.
  assert (S: forall s, split "." (join "." (map segment_string (v_segments (version_new s)))) = map segment_string (v_segments (version_new s))).
  { intros s. apply split_join.
    - rewrite segs_core. intros H. apply map_eq_nil, map_eq_nil in H. exact (split_nonempty _ _ H).
    - intros x Hx. rewrite segs_core, map_map in Hx. apply in_map_iff in Hx as (y & <- & Hy). unfold segment_of. destruct (parse_u32 y).
      + cbn. apply dec_has. intros k Hk. cbn. lia.
      + cbn. eapply split_has. exact Hy. }
  apply (f_equal (split ".")) in E. rewrite !S in E. clear S. pose proof (segs_ok a) as Ha. pose proof (segs_ok b) as Hb.
  revert E Ha Hb. generalize (v_segments (version_new a)) (v_segments (version_new b)). clear.
  induction l as [|x l IH]; intros [|y m] E Ha Hb; cbn in E; try discriminate; [reflexivity|]. inversion Ha; inversion Hb; subst. injection E as E1 E2.
  f_equal; [apply seg_string_inj; assumption|apply IH; assumption].
Qed.

Section Regex.
Context (re_ok : string -> bool) (re_match : string -> string -> bool).
Local Notation satisfies := (satisfies re_ok re_match).

Lemma sat_cmp : forall v c,
  satisfies OpLt v c = Some (match vcmp c v with Lt => true | _ => false end) /\
  satisfies OpLe v c = Some (match vcmp c v with Gt => false | _ => true end) /\
  satisfies OpEq v c = Some (match vcmp c v with Eq => true | _ => false end) /\
  satisfies OpGt v c = Some (match vcmp c v with Gt => true | _ => false end) /\
  satisfies OpGe v c = Some (match vcmp c v with Lt => false | _ => true end) /\
  satisfies OpNe v c = Some (match vcmp c v with Eq => false | _ => true end).
Proof. intros. unfold satisfies, vcmp. cbn. unfold compare_with. splits; destruct (version_cmp _ _); reflexivity. Qed.
Ltac sat v c := destruct (sat_cmp v c) as (?S1 & ?S2 & ?S3 & ?S4 & ?S5 & ?S6).

Lemma trichotomy : forall v c, exists lt eq gt,
  satisfies OpLt v c = Some lt /\ satisfies OpEq v c = Some eq /\ satisfies OpGt v c = Some gt /\
  ((lt = true /\ eq = false /\ gt = false) \/ (lt = false /\ eq = true /\ gt = false) \/ (lt = false /\ eq = false /\ gt = true)) /\
  satisfies OpLe v c = Some (lt || eq) /\ satisfies OpGe v c = Some (gt || eq) /\ satisfies OpNe v c = Some (negb eq).
Proof.
  intros v c. sat v c. rewrite S1, S2, S3, S4, S5, S6. eexists _, _, _. splits; try reflexivity; destruct (vcmp c v); auto.
Qed.
Lemma antisymmetry : forall a b, satisfies OpLt a b = satisfies OpGt b a /\ satisfies OpEq a b = satisfies OpEq b a /\ satisfies OpEq a a = Some true.
Proof.
  intros a b. sat a b. destruct (sat_cmp b a) as (T1 & T2 & T3 & T4 & T5 & T6). destruct (sat_cmp a a) as (_ & _ & R & _).
  rewrite S1, T4, S3, T3, R, vcmp_refl, (vcmp_antisym a b). destruct (vcmp b a); auto.
Qed.
Lemma equal_interchangeable : forall op a b c, satisfies OpEq a b = Some true -> satisfies op a c = satisfies op b c \/ op = OpRegex.
Proof.
  intros op a b c E. destruct (sat_cmp a b) as (_ & _ & S & _). rewrite S in E.
  assert (Ev: vcmp c a = vcmp c b).
  { rewrite (vcmp_antisym c a), (vcmp_antisym c b). f_equal. symmetry. apply vcmp_congr. destruct (vcmp b a); congruence. }
  sat a c. destruct (sat_cmp b c) as (T1 & T2 & T3 & T4 & T5 & T6). rewrite Ev in *.
  destruct op; auto; left; congruence || reflexivity.
Qed.
Lemma trailing_zero : forall op s c, has "-" s = false -> has "+" s = false -> op <> OpRegex ->
  satisfies op (s ++ ".0") c = satisfies op s c /\ satisfies op c (s ++ ".0") = satisfies op c s.
Proof.
  intros op s c H1 H2 Ho. destruct (vcmp_zero s c H1 H2) as [E1 E2].
  destruct (sat_cmp (s ++ ".0") c) as (A1 & A2 & A3 & A4 & A5 & A6). destruct (sat_cmp s c) as (B1 & B2 & B3 & B4 & B5 & B6).
  destruct (sat_cmp c (s ++ ".0")) as (C1 & C2 & C3 & C4 & C5 & C6). destruct (sat_cmp c s) as (D1 & D2 & D3 & D4 & D5 & D6).
  rewrite E1 in *. rewrite E2 in *. destruct op; try congruence; split; congruence || reflexivity.
Qed.
Lemma transitivity : forall a b c, same_kinds a b c -> satisfies OpGt a b = Some true -> satisfies OpGt b c = Some true -> satisfies OpGt a c = Some true.
Proof.
  intros a b c HK. destruct (sat_cmp a b) as (_ & _ & _ & -> & _). destruct (sat_cmp b c) as (_ & _ & _ & -> & _). destruct (sat_cmp a c) as (_ & _ & _ & -> & _).
  rewrite (vcmp_antisym b a), (vcmp_antisym c b), (vcmp_antisym c a). intros H1 H2.
  rewrite (vcmp_trans a b c HK); [reflexivity| |]; [destruct (vcmp a b)|destruct (vcmp b c)]; cbn in *; congruence.
Qed.

Lemma equal_matchers : forall o1 v1 o2 v2 m1 m2, version_match_new re_ok o1 v1 = Some m1 -> version_match_new re_ok o2 v2 = Some m2 ->
  version_match_eqb m1 m2 = true -> forall c, version_evaluate re_match m1 c = version_evaluate re_match m2 c.
Proof.
  assert (HN: forall o v m, version_match_new re_ok o v = Some m -> m = VRegex v \/ exists c, m = VComparator c (version_new v)).
  { intros o v m E. destruct o; cbn in E; try discriminate; try (inv E; eauto). destruct (re_ok v); [|discriminate]. inv H0. auto. }
  intros o1 v1 o2 v2 m1 m2 E1 E2 Eq c. apply HN in E1, E2. destruct E1 as [->|(c1 & ->)], E2 as [->|(c2 & ->)]; cbn in Eq; try discriminate.
  - apply String.eqb_eq in Eq. subst. reflexivity.
  - apply andb_true_iff in Eq as [Ec Ev]. apply comparator_eqb_eq in Ec. apply String.eqb_eq in Ev. subst c2. cbn. unfold compare_with, version_cmp.
    rewrite (version_string_inj _ _ Ev). reflexivity.
Qed.
End Regex.
