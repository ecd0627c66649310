From Verif Require Import Base Str_Base Record_Model Record_Spec.
Local Open Scope Z_scope.

Lemma nth_ext : forall (h e : list object) o x, nth_error h o = Some x -> nth_error (h ++ e) o = Some x.
Proof. intros h e o x E. rewrite nth_error_app1; [exact E|]. apply nth_error_Some. congruence. Qed.
Lemma nth_new : forall (h : list object) x, nth_error (h ++ [x]) (length h) = Some x.
Proof. intros. rewrite nth_error_app2 by lia. rewrite Nat.sub_diag. reflexivity. Qed.
Lemma string_ext : forall h e o s, sees_string h o s -> sees_string (h ++ e) o s.
Proof. intros h e o s [o' s' E]. constructor. apply nth_ext, E. Qed.
Lemma payload_ext : forall h e o t v, sees_payload h o t v -> sees_payload (h ++ e) o t v.
Proof. intros h e o t v P. destruct P; econstructor; eauto using nth_ext, string_ext. Qed.
Lemma field_ext : forall h e o f, sees_field h o f -> sees_field (h ++ e) o f.
Proof. intros h e o f P. destruct P. econstructor; eauto using nth_ext, string_ext, payload_ext. Qed.
Lemma F2_ext : forall (A : Type) (P Q : nat -> A -> Prop) os l, (forall o x, P o x -> Q o x) -> Forall2 P os l -> Forall2 Q os l.
Proof. intros A P Q os l H F. induction F; constructor; auto. Qed.
Lemma strings_ext : forall h e o l, sees_strings h o l -> sees_strings (h ++ e) o l.
Proof. intros h e o l P. destruct P; econstructor; eauto using nth_ext. eapply F2_ext; [|eassumption]. intros; apply string_ext; assumption. Qed.

(** A later builder has all of an earlier one. *)
Definition grows (b b' : builder) : Prop := root b' = root b /\ exists e, made b' = made b ++ e.
Lemma grows_refl : forall b, grows b b.
Proof. intros b. split; [reflexivity|]. exists []. symmetry. apply app_nil_r. Qed.
Lemma grows_trans : forall a b c, grows a b -> grows b c -> grows a c.
Proof. intros a b c [R [e E]] [R' [e' E']]. split; [congruence|]. exists (e ++ e'). rewrite E', E, app_assoc. reflexivity. Qed.
Lemma create_ok : forall b o b' n, create b o = (b', n) -> grows b b' /\ nth_error (made b') n = Some o.
Proof. intros b o b' n E. inv E. split; [split; [reflexivity|]; cbn; eauto|]. cbn. apply nth_new. Qed.
Lemma g_nth : forall b b' n o, grows b b' -> nth_error (made b) n = Some o -> nth_error (made b') n = Some o.
Proof. intros b b' n o [_ [e ->]]. apply nth_ext. Qed.
Lemma g_string : forall b b' n s, grows b b' -> sees_string (made b) n s -> sees_string (made b') n s.
Proof. intros b b' n o [_ [e ->]]. apply string_ext. Qed.
Lemma g_payload : forall b b' n t s, grows b b' -> sees_payload (made b) n t s -> sees_payload (made b') n t s.
Proof. intros b b' n t o [_ [e ->]]. apply payload_ext. Qed.
Lemma g_field : forall b b' n s, grows b b' -> sees_field (made b) n s -> sees_field (made b') n s.
Proof. intros b b' n o [_ [e ->]]. apply field_ext. Qed.
Lemma g_strings : forall b b' n s, grows b b' -> sees_strings (made b) n s -> sees_strings (made b') n s.
Proof. intros b b' n o [_ [e ->]]. apply strings_ext. Qed.

Lemma union_ok : forall v b b' n t, string_or_bytes_union v b = (b', (n, t)) -> grows b b' /\ sees_payload (made b') n t v.
Proof.
  intros v b b' n t E. destruct v; cbn [string_or_bytes_union] in E.
  - destruct (create b (OString s)) as [b1 x] eqn:E1. destruct (create b1 (OStringData x)) as [b2 y] eqn:E2. inv E.
    apply create_ok in E1. apply create_ok in E2. destruct E1 as [G1 N1], E2 as [G2 N2]. split; [eapply grows_trans; eassumption|].
    econstructor; [eassumption|]. constructor. eapply g_nth; eassumption.
  - destruct (create b (OBytes b0)) as [b1 x] eqn:E1. destruct (create b1 (OBinaryData x)) as [b2 y] eqn:E2. inv E.
    apply create_ok in E1. apply create_ok in E2. destruct E1 as [G1 N1], E2 as [G2 N2]. split; [eapply grows_trans; eassumption|].
    econstructor; [eassumption|]. eapply g_nth; eassumption.
Qed.
Lemma strings_ok : forall l b b' os, create_strings b l = (b', os) -> grows b b' /\ Forall2 (sees_string (made b')) os l.
Proof.
  induction l as [|s l IH]; intros b b' os E; cbn [create_strings] in E; [inv E; split; [apply grows_refl|constructor]|].
  destruct (create b (OString s)) as [b1 x] eqn:E1. destruct (create_strings b1 l) as [b2 y] eqn:E2. inv E.
  apply create_ok in E1. apply IH in E2. destruct E1 as [G1 N1], E2 as [G2 N2]. split; [eapply grows_trans; eassumption|].
  constructor; [|assumption]. constructor. eapply g_nth; eassumption.
Qed.
Lemma vector_ok : forall l b b' o, create_string_vector b l = (b', o) -> grows b b' /\ sees_strings (made b') o l.
Proof.
  intros l b b' o E. unfold create_string_vector in E. destruct (create_strings b l) as [b1 os] eqn:E1. apply strings_ok in E1. destruct E1 as [G1 F1].
  destruct os as [|x os]; [inv E; inv F1; split; [assumption|constructor]|].
  destruct (create b1 (OVector (x :: os))) as [b2 y] eqn:E2. inv E. apply create_ok in E2. destruct E2 as [G2 N2]. split; [eapply grows_trans; eassumption|].
  econstructor; [eassumption|]. eapply F2_ext; [|eassumption]. intros. eapply g_string; eassumption.
Qed.
Lemma fields_ok : forall l b b' os, create_fields b l = (b', os) -> grows b b' /\ Forall2 (sees_field (made b')) os l.
Proof.
  induction l as [|[k v] l IH]; intros b b' os E; cbn [create_fields] in E; [inv E; split; [apply grows_refl|constructor]|].
  destruct (create b (OString k)) as [b1 x1] eqn:E1. destruct (string_or_bytes_union v b1) as [b2 [x2 t2]] eqn:E2.
  destruct (create b2 (OField x1 t2 x2)) as [b3 x3] eqn:E3. destruct (create_fields b3 l) as [b4 x4] eqn:E4. inv E.
  apply create_ok in E1. apply union_ok in E2. apply create_ok in E3. apply IH in E4.
  destruct E1 as [G1 N1], E2 as [G2 N2], E3 as [G3 N3], E4 as [G4 N4].
  pose proof (grows_trans _ _ _ G3 G4) as H2. pose proof (grows_trans _ _ _ G2 H2) as H1.
  split; [exact (grows_trans _ _ _ G1 H1)|]. constructor; [|assumption].
  econstructor; [exact (g_nth _ _ _ _ G4 N3)|constructor; exact (g_nth _ _ _ _ H1 N1)|exact (g_payload _ _ _ _ _ H2 N2)].
Qed.

Lemma small_i32 : forall t, as_i32 (t - unix_timestamp t * 1000000000) = t mod 1000000000.
Proof.
  intros t. unfold as_i32, unix_timestamp. pose proof (Z.div_mod t 1000000000 ltac:(lia)) as D. pose proof (Z.mod_pos_bound t 1000000000 ltac:(lia)) as B.
  replace (t - t / 1000000000 * 1000000000) with (t mod 1000000000) by lia. rewrite Z.mod_small; lia.
Qed.

Lemma make_ok : forall (R : Type) b a (f : list object * nat -> R), root b = None ->
  exists h r, make_log b a f = Done builder_new (h, r) (f (h, r)) /\ exists s, sees h r s /\ tells s a.
Proof.
  intros R b a f N. unfold make_log.
  destruct (string_or_bytes_union (a_message a) b) as [b1 [m mt]] eqn:E1. destruct (create_fields b1 (a_fields a)) as [b2 fs] eqn:E2.
  destruct (create_string_vector b2 (a_streams a)) as [b3 si] eqn:E3. destruct (create b3 (OVector fs)) as [b4 fo] eqn:E4.
  destruct (create b4 (OString (a_session a))) as [b5 so] eqn:E5.
  destruct (create b5 _) as [b6 t] eqn:E6. destruct (create_string_vector b6 (a_actions a)) as [b7 ai] eqn:E7. destruct (create b7 _) as [b8 l] eqn:E8.
  apply union_ok in E1. apply fields_ok in E2. apply vector_ok in E3. apply create_ok in E4. apply create_ok in E5. apply create_ok in E6. apply vector_ok in E7. apply create_ok in E8.
  destruct E1 as [G1 P1], E2 as [G2 P2], E3 as [G3 P3], E4 as [G4 P4], E5 as [G5 P5], E6 as [G6 P6], E7 as [G7 P7], E8 as [G8 P8].
  pose proof G8 as H7. pose proof (grows_trans _ _ _ G7 H7) as H6. pose proof (grows_trans _ _ _ G6 H6) as H5. pose proof (grows_trans _ _ _ G5 H5) as H4. pose proof (grows_trans _ _ _ G4 H4) as H3. pose proof (grows_trans _ _ _ G3 H3) as H2. pose proof (grows_trans _ _ _ G2 H2) as H1. pose proof (grows_trans _ _ _ G1 H1) as H0.
  unfold finish_minimal. rewrite (proj1 H0), N. cbn. exists (made b8), l. split; [reflexivity|].
  eexists. split.
  - econstructor; [exact P8|eapply g_payload; [exact H1|exact P1]|eapply g_nth; [exact H4|exact P4]| |constructor; eapply g_nth; [exact H5|exact P5]|eapply g_nth; [exact H6|exact P6]|exact (g_strings _ _ _ _ H7 P7)|exact (g_strings _ _ _ _ H3 P3)].
    eapply F2_ext; [|exact P2]. intros o x X. exact (g_field _ _ _ _ H2 X).
  - unfold tells. cbn. rewrite small_i32. splits; try reflexivity.
    + unfold unix_timestamp. pose proof (Z.div_mod (a_time a) 1000000000 ltac:(lia)). lia.
    + apply Z.mod_pos_bound. lia.
    + apply Z.mod_pos_bound. lia.
Qed.

(** A reader sees one thing. *)
Lemma string_fun : forall h o s s', sees_string h o s -> sees_string h o s' -> s = s'.
Proof. intros h o s s' A B. inv A. inv B. congruence. Qed.
Lemma payload_fun : forall h o t s s', sees_payload h o t s -> sees_payload h o t s' -> s = s'.
Proof. intros h o t s s' A B. inv A; inv B; try congruence. assert (d = d0) by congruence. subst. f_equal. eapply string_fun; eassumption. Qed.
Lemma field_fun : forall h o s s', sees_field h o s -> sees_field h o s' -> s = s'.
Proof. intros h o s s' A B. inv A. inv B. assert (k = k0 /\ t = t0 /\ v = v0) as (-> & -> & ->) by (splits; congruence). f_equal; [eapply string_fun|eapply payload_fun]; eassumption. Qed.
Lemma F2_fun : forall (A : Type) (P : nat -> A -> Prop) os l l', (forall o x y, P o x -> P o y -> x = y) -> Forall2 P os l -> Forall2 P os l' -> l = l'.
Proof. intros A P os l l' H F. revert l'. induction F as [|o x os l X F IH]; intros l2 G; inv G; [reflexivity|]. f_equal; eauto. Qed.
Lemma strings_fun : forall h o s s', sees_strings h o s -> sees_strings h o s' -> s = s'.
Proof. intros h o s s' A B. inv A; inv B; [reflexivity|]. assert (os = os0) by congruence. subst. eapply F2_fun; [|eassumption|eassumption]. apply string_fun. Qed.
Lemma sees_fun : forall h o s s', sees h o s -> sees h o s' -> s = s'.
Proof.
  intros h o s s' A B. destruct A as [o level type mt m f s t ai si message fields fs session seconds nanos actions streams A1 A2 A3 A4 A5 A6 A7 A8]. inv B.
  match goal with H : nth_error h o = Some (OLog _ _ _ _ _ _ _ _ _) |- _ => rewrite A1 in H; inv H end.
  match goal with H : nth_error h _ = Some (OVector _) |- _ => rewrite A3 in H; inv H end.
  match goal with H : nth_error h _ = Some (OTimestamp _ _) |- _ => rewrite A6 in H; inv H end.
  f_equal; [eapply payload_fun|eapply F2_fun; [apply field_fun| |]|eapply string_fun|eapply strings_fun|eapply strings_fun]; eassumption.
Qed.

Lemma logs_ok : forall (R : Type) (l : list (args * (list object * nat -> R))) b, root b = None ->
  exists ds, make_logs b l = Some ds /\ Forall2 (fun x d => snd d = snd x (fst d) /\ exists s, sees (fst (fst d)) (snd (fst d)) s /\ tells s (fst x)) l ds.
Proof.
  intros R l. induction l as [|[a f] l IH]; intros b N; cbn [make_logs]; [exists []; split; [reflexivity|constructor]|].
  destruct (make_ok R b a f N) as (h & r & E & s & S & T). rewrite E. destruct (IH builder_new eq_refl) as (ds & E' & F). rewrite E'. cbn.
  eexists. split; [reflexivity|]. constructor; [|assumption]. cbn. split; [reflexivity|]. exists s. split; assumption.
Qed.
