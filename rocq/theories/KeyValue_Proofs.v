(** Proofs about the key-value store and the app version. *)
From Verif Require Import Base KeyValue_Model KeyValue_Spec.
From Coq Require Import String.
Open Scope Z_scope.
Local Open Scope list_scope.

Lemma b64_val_char : forall n, 0 <= n < 64 -> b64_val (b64_char n) = Some n.
Proof.
  intros n H. unfold b64_char, b64_val.
  destruct (Z.ltb_spec n 26); [|destruct (Z.ltb_spec n 52); [|destruct (Z.ltb_spec n 62); [|destruct (Z.eqb_spec n 62)]]];
  repeat match goal with |- context [if ?x then _ else _] => destruct x eqn:? end; try lia; f_equal; lia.
Qed.
Lemma b64_char_eq : forall n, 0 <= n < 64 -> b64_char n =? 61 = false.
Proof. intros n H. unfold b64_char. repeat match goal with |- context [if ?x then _ else _] => destruct x eqn:? end; lia. Qed.

Lemma b64_encode_cons : forall a b c r, b64_encode (a :: b :: c :: r) = b64_char (a / 4) :: b64_char (a mod 4 * 16 + b / 16) :: b64_char (b mod 16 * 4 + c / 64) :: b64_char (c mod 64) :: b64_encode r.
Proof. reflexivity. Qed.
Lemma list_ind3 : forall (P : list Z -> Prop), P [] -> (forall a, P [a]) -> (forall a b, P [a; b]) -> (forall a b c r, P r -> P (a :: b :: c :: r)) -> forall l, P l.
Proof.
  intros P H0 H1 H2 H3. assert (H : forall n l, (List.length l <= n)%nat -> P l); [|intros l; eapply H; apply le_n].
  induction n as [|n IH]; intros l Hl.
  - destruct l; [assumption|cbn in Hl; lia].
  - destruct l as [|a [|b [|c r] ] ]; auto. apply H3. apply IH. cbn in Hl. lia.
Qed.
Lemma b64_encode_nil : forall l, b64_encode l = [] -> l = [].
Proof. intros l. destruct l as [|a [|b [|c r] ] ]; cbn; congruence. Qed.

Lemma b64_roundtrip : forall l, Forall byte l -> b64_decode (b64_encode l) = Some l.
Proof.
  intros l. induction l as [|a|a b|a b c r IH] using list_ind3; intros H.
  - reflexivity.
  - inv H. unfold byte in *. cbn [b64_encode b64_decode b64_last]. unfold b64_last. rewrite !b64_val_char by lia. cbn.
    replace ((a mod 4 * 16) mod 16 =? 0) with true by lia. f_equal. f_equal. lia.
  - inversion H as [|? ? Ha H']; inversion H' as [|? ? Hb H'']; subst. unfold byte in *. cbn [b64_encode b64_decode b64_last]. unfold b64_last. rewrite !b64_val_char by lia. rewrite b64_char_eq by lia. cbn.
    replace ((b mod 16 * 4) mod 4 =? 0) with true by lia. f_equal. f_equal; [lia|]. f_equal. lia.
  - inversion H as [|? ? Ha H']; inversion H' as [|? ? Hb H'']; inversion H'' as [|? ? Hc Hr]; subst. specialize (IH Hr). unfold byte in *. rewrite b64_encode_cons. cbn [b64_decode].
    destruct (b64_encode r) as [|x y] eqn:E.
    + apply b64_encode_nil in E. subst. unfold b64_last. rewrite !b64_val_char by lia. rewrite !b64_char_eq by lia. cbn. repeat f_equal; lia.
    + rewrite !b64_val_char by lia. rewrite IH. repeat f_equal; lia.
Qed.

Lemma le_length : forall n z, List.length (le_bytes n z) = n.
Proof. induction n; intros; cbn; auto. Qed.
Lemma le_byte : forall n z, Forall byte (le_bytes n z).
Proof. induction n as [|n IH]; intros z; cbn; constructor; auto. unfold byte. lia. Qed.
Lemma le_roundtrip : forall n z r, 0 <= z < 256 ^ Z.of_nat n -> le_value n (le_bytes n z ++ r) = Some (z, r).
Proof.
  induction n as [|n IH]; intros z r H.
  - cbn in *. f_equal. f_equal. lia.
  - cbn [le_bytes app le_value]. rewrite Nat2Z.inj_succ, Z.pow_succ_r in H by lia. rewrite IH.
    + f_equal. f_equal. lia.
    + remember (256 ^ Z.of_nat n) as m. nia.
Qed.
Lemma string_roundtrip : forall utf8 s r, text_ok utf8 s -> get_string utf8 (put_string s ++ r) = Some (s, r).
Proof.
  intros utf8 s r (Hb & Hu & Hl). unfold get_string, put_string. rewrite <- app_assoc, le_roundtrip by (cbn; lia).
  rewrite Nat2Z.id, app_length. rewrite firstn_app, Nat.sub_diag, firstn_all. cbn [firstn]. rewrite app_nil_r, Hu.
  replace (Z.of_nat (List.length s + List.length r) <? Z.of_nat (List.length s)) with false by lia. cbn. rewrite skipn_app, Nat.sub_diag, skipn_all. reflexivity.
Qed.
Lemma string_bytes : forall utf8 s, text_ok utf8 s -> Forall byte (put_string s).
Proof. intros utf8 s (Hb & _). unfold put_string. apply Forall_app. split; [apply le_byte|exact Hb]. Qed.

Lemma version_roundtrip : forall utf8 v, version_ok utf8 v -> get_version utf8 (put_version v) = Some v.
Proof.
  intros utf8 [s e] (Hs & He). unfold get_version, put_version. cbn [av_version av_extra] in *. rewrite string_roundtrip by assumption. destruct e as [z|b].
  - rewrite le_roundtrip by (cbn; lia). rewrite <- (app_nil_r (le_bytes 8 _)). rewrite le_roundtrip by (change (256 ^ Z.of_nat 8) with 18446744073709551616; apply Z.mod_pos_bound; lia).
    f_equal. f_equal. f_equal. destruct (Z.ltb_spec (z mod 18446744073709551616) 9223372036854775808); lia.
  - rewrite le_roundtrip by (cbn; lia). rewrite <- (app_nil_r (put_string b)). rewrite string_roundtrip by assumption. reflexivity.
Qed.
Lemma version_bytes : forall utf8 v, version_ok utf8 v -> Forall byte (put_version v).
Proof.
  intros utf8 [s e] (Hs & He). unfold put_version. cbn [av_version av_extra] in *. apply Forall_app. split; [eapply string_bytes; eassumption|].
  destruct e; apply Forall_app; split; try apply le_byte. eapply string_bytes; eassumption.
Qed.

Section Store.
Variable V : Type.
Variable ser : string -> V -> list Z.
Variable de : string -> list Z -> option V.
Local Notation kv_step := (kv_step V ser de).
Local Notation kv_run := (kv_run V ser de).
Local Notation kv_get := (kv_get V de).

Lemma run_app : forall l1 l2 s, kv_run s (l1 ++ l2) = kv_run (kv_run s l1) l2.
Proof. intros. unfold KeyValue_Model.kv_run. apply fold_left_app. Qed.

(** What is stored for [k] stays, or (after a failing or undecodable read) goes. *)
Lemma step_cell : forall k s o, ~ writes V k o -> fst (kv_step s o) k = s k \/ fst (kv_step s o) k = None.
Proof.
  intros k s o H. destruct o as [k' v f|k' rf df|k' x]; cbn in *.
  - unfold kv_set, set_string. destruct f as [ [|]|]; auto; destruct (String.eqb_spec k k'); auto; subst; contradiction.
  - unfold KeyValue_Model.kv_get. destruct (kv_get_internal V de s k' rf); cbn; auto. unfold delete. destruct df as [ [|]|]; auto; destruct (String.eqb_spec k k'); auto.
  - destruct (String.eqb_spec k k'); auto. subst. contradiction.
Qed.
Lemma run_cell : forall k l s, Forall (fun o => ~ writes V k o) l -> kv_run s l k = s k \/ kv_run s l k = None.
Proof.
  intros k l. induction l as [|o l IH]; intros s H; [left; reflexivity|]. inv H. cbn. destruct (IH (fst (kv_step s o)) H3) as [E|E]; [|right; exact E].
  destruct (step_cell k s o H2) as [E'|E']; cbn in *; [left|right]; etransitivity; eassumption.
Qed.
Lemma step_stable : forall k s o v x, s k = Some x -> b64_decode x <> None -> (forall b, b64_decode x = Some b -> de k b = Some v) ->
  ~ writes V k o -> ~ unreadable V k o -> fst (kv_step s o) k = Some x.
Proof.
  intros k s o v x Hx D1 D2 H U. destruct o as [k' v' f|k' rf df|k' y]; cbn in *.
  - unfold kv_set, set_string. destruct f as [ [|]|]; auto; destruct (String.eqb_spec k k'); auto; subst; contradiction.
  - unfold KeyValue_Model.kv_get. destruct (kv_get_internal V de s k' rf) eqn:E; cbn; auto. unfold delete.
    destruct (string_dec k k') as [<-|N]; [|apply String.eqb_neq in N; destruct df as [ [|]|]; rewrite ?N; auto]. exfalso. unfold kv_get_internal in E. destruct rf; [auto|]. rewrite Hx in E.
    destruct (b64_decode x) as [b|]; [|congruence]. rewrite (D2 b eq_refl) in E. discriminate.
  - destruct (String.eqb_spec k k'); auto. subst. contradiction.
Qed.

(** A stored value is read back. *)
Lemma read_back : forall s h k v f h2 df, de k (ser k v) = Some v -> Forall byte (ser k v) -> f <> Some false ->
  Forall (fun o => ~ writes V k o /\ ~ unreadable V k o) h2 ->
  snd (kv_get (kv_run s (h ++ KSet V k v f :: h2)) k false df) = Some v.
Proof.
  intros s h k v f h2 df D B F H2. rewrite run_app. cbn [KeyValue_Model.kv_run fold_left]. remember (fst (kv_step (kv_run s h) (KSet V k v f))) as s1 eqn:E1.
  assert (C : s1 k = Some (b64_encode (ser k v))).
  { subst. cbn. unfold kv_set, set_string. destruct f as [ [|]|]; try congruence; rewrite String.eqb_refl; reflexivity. }
  assert (C2 : forall l s1, s1 k = Some (b64_encode (ser k v)) -> Forall (fun o => ~ writes V k o /\ ~ unreadable V k o) l -> kv_run s1 l k = Some (b64_encode (ser k v))).
  { clear - D B. induction l as [|o l IH]; intros s1 C H; [exact C|]. inv H. destruct H2. cbn. apply IH; [|assumption]. eapply step_stable; eauto; rewrite b64_roundtrip by assumption; [discriminate|]. intros b E. inv E. exact D. }
  specialize (C2 h2 s1 C H2). unfold KeyValue_Model.kv_run in C2. unfold KeyValue_Model.kv_get, kv_get_internal. rewrite C2, b64_roundtrip, D by assumption. reflexivity.
Qed.

(** What a read returns was the last thing stored. *)
Lemma read_was_stored : forall h k rf df v, snd (kv_get (kv_run (fun _ => None) h) k rf df) = Some v ->
  exists h1 o h2, h = h1 ++ o :: h2 /\ Forall (fun o => ~ writes V k o) h2 /\
    ((exists v' f, o = KSet V k v' f /\ f <> Some false /\ (de k (ser k v') = Some v' -> Forall byte (ser k v') -> v' = v)) \/
     (exists x b, o = KForeign V k (Some x) /\ b64_decode x = Some b /\ de k b = Some v)).
Proof.
  intros h k rf df v H. assert (C : exists x b, kv_run (fun _ => None) h k = Some x /\ b64_decode x = Some b /\ de k b = Some v).
  { unfold KeyValue_Model.kv_get, kv_get_internal in H. destruct rf; [discriminate|]. destruct (kv_run (fun _ => None) h k) as [x|] eqn:E; [|discriminate]. destruct (b64_decode x) as [b|] eqn:Eb; [|discriminate]. destruct (de k b) eqn:Ed; [|discriminate]. cbn in H. inv H. exists x, b. auto. }
  clear H. destruct C as (x & b & C & Eb & Ed). revert C. induction h as [|o h IH] using rev_ind; intros C; [discriminate|].
  rewrite run_app in C. cbn in C.
  assert (W : writes V k o \/ ~ writes V k o).
  { destruct o as [k' v' f|k' r d|k' y]; cbn; try tauto; [destruct f as [ [|]|]; try tauto|]; destruct (string_dec k' k); tauto. }
  destruct W as [W|W].
  - exists h, o, []. split; [reflexivity|]. split; [constructor|]. destruct o as [k' v' f|k' r d|k' y]; cbn in W; [|contradiction|].
    + left. exists v', f. assert (f <> Some false /\ k' = k) as [F ->] by (destruct f as [ [|]|]; try contradiction; split; congruence).
      splits; auto. intros D B. cbn in C. unfold kv_set, set_string in C. destruct f as [ [|]|]; try congruence; rewrite String.eqb_refl in C; inv C; rewrite b64_roundtrip in Eb by assumption; congruence.
    + right. subst k'. cbn in C. rewrite String.eqb_refl in C. subst. exists x, b. auto.
  - destruct (step_cell k (kv_run (fun _ => None) h) o W) as [E|E]; cbn in E; rewrite E in C; [|discriminate].
    destruct (IH C) as (h1 & o' & h2 & -> & F & K). exists h1, o', (h2 ++ [o]). rewrite <- app_assoc. splits; auto. apply Forall_app. auto.
Qed.

(** Once a value was found to be absent it stays absent. *)
Lemma stays_absent : forall s k rf df h rf' df', snd (kv_get s k rf df) = None -> df <> Some false ->
  Forall (fun o => ~ writes V k o) h -> snd (kv_get (kv_run (fst (kv_get s k rf df)) h) k rf' df') = None.
Proof.
  intros s k rf df h rf' df' H F W. assert (C : fst (kv_get s k rf df) k = None).
  { unfold KeyValue_Model.kv_get in *. destruct (kv_get_internal V de s k rf) as [r|] eqn:E.
    - cbn in *. subst. unfold kv_get_internal in E. destruct rf; [discriminate|]. destruct (s k); [|reflexivity]. destruct (b64_decode l); [|discriminate]. destruct (de k l0); discriminate.
    - cbn. unfold delete. destruct df as [ [|]|]; try congruence; rewrite String.eqb_refl; reflexivity. }
  remember (fst (kv_get s k rf df)) as s1 eqn:E1. clear E1. assert (E : kv_run s1 h k = None) by (destruct (run_cell k h s1 W); congruence).
  unfold KeyValue_Model.kv_get, kv_get_internal. destruct rf'; [reflexivity|]. rewrite E. reflexivity.
Qed.
End Store.

(** * App versions *)
Section Version.
Variable utf8 : list Z -> bool.
Local Notation a_run := (a_run utf8).
Local Notation a_step := (a_step utf8).

Lemma bytes_eqb_spec : forall a b, bytes_eqb a b = true <-> a = b.
Proof. induction a as [|x a IH]; intros [|y b]; cbn; split; intros H; try congruence; try discriminate. - apply andb_prop in H. destruct H as [H1 H2]. apply IH in H2. f_equal; [lia|assumption]. - inv H. rewrite Z.eqb_refl. apply IH. reflexivity. Qed.
Lemma version_eqb_spec : forall a b, version_eqb a b = true <-> a = b.
Proof.
  intros [s e] [s' e']. unfold version_eqb. cbn. rewrite andb_true_iff, bytes_eqb_spec. destruct e as [z|x], e' as [z'|x']; split; try (intros [? ?]; discriminate); try discriminate; try congruence.
  - intros [-> H]. f_equal. f_equal. lia. - intros H. inv H. rewrite Z.eqb_refl. auto.
  - intros [-> H]. apply bytes_eqb_spec in H. congruence. - intros H. inv H. split; [reflexivity|]. apply bytes_eqb_spec. reflexivity.
Qed.

Definition holds (s : storage) (r : option version) : Prop := s version_key = option_map (fun v => b64_encode (put_version v)) r.
Lemma stored_holds : forall s r df, holds s r -> (forall v, r = Some v -> version_ok utf8 v) -> stored_version utf8 s false df = (s, r).
Proof.
  intros s r df H O. unfold stored_version, kv_get, kv_get_internal. rewrite H. destruct r as [v|]; [|reflexivity]. cbn [option_map].
  rewrite b64_roundtrip by (eapply version_bytes; eauto). unfold value_de. rewrite String.eqb_refl. rewrite version_roundtrip by auto. reflexivity.
Qed.
Lemma set_holds : forall s v, holds (kv_set value value_ser s version_key (VVersion v) None) (Some v).
Proof. intros. unfold holds, kv_set, set_string. rewrite String.eqb_refl. reflexivity. Qed.

Definition expected (r : option version) (o : aop) : aout :=
  match o with
  | HasChanged v _ _ _ => Changed match r with Some p => negb (version_eqb v p) | None => false end
  | Record_ v _ _ _ => Updated match r with Some p => if version_eqb v p then None else Some p | None => None end
  end.
Definition next (r : option version) (o : aop) : option version :=
  match o, r with Record_ v _ _ _, _ => Some v | HasChanged v _ _ _, None => Some v | _, _ => r end.
Lemma a_step_ok : forall s r o, holds s r -> (forall v, r = Some v -> version_ok utf8 v) -> faultless o ->
  snd (a_step s o) = expected r o /\ holds (fst (a_step s o)) (next r o).
Proof.
  intros s r o H O F. destruct o as [v rf df sf|v rf df sf]; destruct F as [-> ->]; cbn; unfold has_changed, record; rewrite (stored_holds s r df H O); destruct r as [p|]; cbn.
  - auto. - split; [reflexivity|apply set_holds].
  - destruct (version_eqb v p) eqn:E; cbn; split; auto; [|apply set_holds]. apply version_eqb_spec in E. subst. exact H.
  - split; [reflexivity|apply set_holds].
Qed.
Lemma a_run_app : forall l1 l2 s, a_run s (l1 ++ l2) = (fst (a_run (fst (a_run s l1)) l2), snd (a_run s l1) ++ snd (a_run (fst (a_run s l1)) l2)).
Proof.
  induction l1 as [|o l1 IH]; intros l2 s; [cbn; destruct (a_run s l2); reflexivity|]. cbn. destruct (a_step s o) as [s1 x]. rewrite IH. destruct (a_run s1 l1). reflexivity.
Qed.
Lemma a_run_ok : forall l s r, holds s r -> (forall v, r = Some v -> version_ok utf8 v) -> Forall faultless l -> Forall (fun o => version_ok utf8 (version_of o)) l ->
  holds (fst (a_run s l)) (fold_left next l r) /\ (forall v, fold_left next l r = Some v -> version_ok utf8 v).
Proof.
  induction l as [|o l IH]; intros s r H O F Vs; [auto|]. inv F. inv Vs. cbn. destruct (a_step_ok s r o H O H2) as [_ Hn]. destruct (a_step s o) as [s1 x]. cbn [fst] in Hn.
  specialize (IH s1 (next r o) Hn). destruct (a_run s1 l) as [s2 xs]. cbn in *. apply IH; auto. intros v E. destruct o; destruct r; cbn in E; inv E; auto.
Qed.
Lemma on_record_next : forall l, on_record l = fold_left next l None.
Proof. reflexivity. Qed.

Lemma new_answers : forall l o, Forall faultless (l ++ [o]) -> Forall (fun o => version_ok utf8 (version_of o)) (l ++ [o]) ->
  snd (a_run (fun _ => None) (l ++ [o])) = snd (a_run (fun _ => None) l) ++ [expected (on_record l) o].
Proof.
  intros l o F Vs. apply Forall_app in F, Vs. destruct F as [F1 F2], Vs as [V1 V2]. rewrite a_run_app. cbn [snd]. f_equal.
  destruct (a_run_ok l (fun _ => None) None eq_refl) as [H O]; auto; [discriminate|]. inv F2. destruct (a_step_ok _ _ o H O H2) as [E _]. cbn.
  destruct (a_step (fst (a_run (fun _ => None) l)) o). cbn in *. rewrite on_record_next. congruence.
Qed.
Lemma new_record : forall l v df, Forall faultless l -> Forall (fun o => version_ok utf8 (version_of o)) l -> version_ok utf8 v ->
  exists out, snd (a_run (fun _ => None) (l ++ [Record_ v false df None])) = snd (a_run (fun _ => None) l) ++ [Updated out] /\
  forall p, out = Some p <-> on_record l = Some p /\ p <> v.
Proof.
  intros l v df F Vs Hv. eexists. split.
  - rewrite new_answers; [reflexivity| |]; apply Forall_app; split; auto; repeat constructor; auto.
  - intros p. destruct (on_record l) as [q|]; [|split; [discriminate|intros [H _]; discriminate]]. destruct (version_eqb v q) eqn:E.
    + apply version_eqb_spec in E. subst. split; [discriminate|]. intros [H N]. inv H. congruence.
    + assert (q <> v). { intros ->. assert (version_eqb v v = true) by (apply version_eqb_spec; reflexivity). congruence. }
      split; [intros H0; inv H0; auto|intros [H0 _]; inv H0; reflexivity].
Qed.
Lemma new_changed : forall l v df, Forall faultless l -> Forall (fun o => version_ok utf8 (version_of o)) l -> version_ok utf8 v ->
  exists b, snd (a_run (fun _ => None) (l ++ [HasChanged v false df None])) = snd (a_run (fun _ => None) l) ++ [Changed b] /\
  (b = true <-> exists p, on_record l = Some p /\ p <> v).
Proof.
  intros l v df F Vs Hv. eexists. split.
  - rewrite new_answers; [reflexivity| |]; apply Forall_app; split; auto; repeat constructor; auto.
  - destruct (on_record l) as [q|]; [|split; [discriminate|intros (p & H & _); discriminate]]. destruct (version_eqb v q) eqn:E; cbn.
    + apply version_eqb_spec in E. subst. split; [discriminate|]. intros (p & H & N). inv H. congruence.
    + split; auto. intros _. exists q. split; [reflexivity|]. intros ->. assert (version_eqb v v = true) by (apply version_eqb_spec; reflexivity). congruence.
Qed.

Lemma same_version : forall v l s, (holds s (Some v) \/ holds s None) -> version_ok utf8 v -> Forall faultless l -> Forall (fun o => version_of o = v) l ->
  Forall (fun x => x = Changed false \/ x = Updated None) (snd (a_run s l)).
Proof.
  intros v. induction l as [|o l IH]; intros s H O F Vs; [constructor|]. inv F. inv Vs. cbn. destruct (a_step s o) as [s1 x] eqn:E.
  assert (K : (x = Changed false \/ x = Updated None) /\ holds s1 (Some (version_of o))).
  { destruct H as [H|H].
    - destruct (a_step_ok s _ o H ltac:(intros w Ew; inv Ew; exact O) H2) as [X Y]. rewrite E in X, Y. cbn in X, Y. subst x. assert (version_eqb (version_of o) (version_of o) = true) by (apply version_eqb_spec; reflexivity).
      destruct o; cbn in *; rewrite H0; auto.
    - destruct (a_step_ok s None o H ltac:(discriminate) H2) as [X Y]. rewrite E in X, Y. cbn in X, Y. subst x. destruct o; cbn in *; auto. }
  destruct K as [K1 K2]. specialize (IH s1 (or_introl K2) O H3 H5). destruct (a_run s1 l). constructor; auto.
Qed.
Lemma new_once : forall l v df l', Forall faultless (l ++ l') -> Forall (fun o => version_ok utf8 (version_of o)) l -> version_ok utf8 v -> Forall (fun o => version_of o = v) l' ->
  exists a b, snd (a_run (fun _ => None) (l ++ Record_ v false df None :: l')) = a ++ b /\ List.length b = List.length l' /\ Forall (fun x => x = Changed false \/ x = Updated None) b.
Proof.
  intros l v df l' F Vs Hv Hl. apply Forall_app in F. destruct F as [F1 F2]. change (l ++ Record_ v false df None :: l') with (l ++ [Record_ v false df None] ++ l'). rewrite app_assoc, a_run_app. cbn [snd].
  eexists. eexists. split; [reflexivity|]. split.
  - clear. generalize (fst (a_run (fun _ => None) (l ++ [Record_ v false df None]))). induction l' as [|o l' IH]; intros s; [reflexivity|]. cbn. destruct (a_step s o) as [s1 x]. specialize (IH s1). destruct (a_run s1 l'). cbn in *. congruence.
  - apply same_version with v; auto. left. destruct (a_run_ok (l ++ [Record_ v false df None]) (fun _ => None) None eq_refl) as [H _]; try discriminate.
    + apply Forall_app. repeat constructor; auto. + apply Forall_app. split; auto. + rewrite fold_left_app in H. exact H.
Qed.
Lemma new_install : forall v l, version_ok utf8 v -> Forall faultless l -> Forall (fun o => version_of o = v) l ->
  Forall (fun x => x = Changed false \/ x = Updated None) (snd (a_run (fun _ => None) l)).
Proof. intros v l O F Vs. apply same_version with v; auto. right. reflexivity. Qed.
End Version.

Lemma string_value : forall utf8 k s, text_ok utf8 s -> k <> version_key ->
  value_de utf8 k (value_ser k (VText s)) = Some (VText s) /\ Forall byte (value_ser k (VText s)).
Proof.
  intros utf8 k s H N. split; [|eapply string_bytes; eassumption]. unfold value_de, value_ser. apply String.eqb_neq in N. rewrite N.
  rewrite <- (app_nil_r (put_string s)), string_roundtrip by assumption. reflexivity.
Qed.
Lemma version_value : forall utf8 v, version_ok utf8 v ->
  value_de utf8 version_key (value_ser version_key (VVersion v)) = Some (VVersion v) /\ Forall byte (value_ser version_key (VVersion v)).
Proof.
  intros utf8 v H. split; [|eapply version_bytes; eassumption]. unfold value_de, value_ser. rewrite String.eqb_refl, version_roundtrip by assumption. reflexivity.
Qed.

Lemma get_string_text utf8 l s r : get_string utf8 l = Some (s, r) -> utf8 s = true.
Proof.
  unfold get_string. destruct (le_value 8 l) as [[n r']|]; [|discriminate]. destruct (utf8 (firstn (Z.to_nat n) r')) eqn:U; [|rewrite orb_true_r; discriminate].
  destruct (Z.of_nat (List.length r') <? n); [discriminate|]. cbn. intros E. inversion E; subst. exact U.
Qed.
Lemma text_read utf8 k b v : value_de utf8 k b = Some v ->
  match v with
  | VText s => utf8 s = true
  | VVersion w => utf8 (av_version w) = true /\ match av_extra w with BuildNumber n => utf8 n = true | VersionCode _ => True end
  end.
Proof.
  unfold value_de. destruct (String.eqb k version_key).
  - destruct (get_version utf8 b) as [w|] eqn:E; [|discriminate]. intros X. inversion X; subst. clear X. unfold get_version in E.
    destruct (get_string utf8 b) as [[s l]|] eqn:S; [|discriminate]. apply get_string_text in S.
    destruct (le_value 4 l) as [[[|[p|p|]|p] l']|]; try discriminate.
    + destruct (le_value 8 l') as [[z r]|]; [|discriminate]. inversion E; subst. cbn. auto.
    + destruct (get_string utf8 l') as [[n r]|] eqn:S2; [|discriminate]. apply get_string_text in S2. inversion E; subst. cbn. auto.
  - destruct (get_string utf8 b) as [[s l]|] eqn:S; [|discriminate]. intros X. inversion X; subst. exact (get_string_text _ _ _ _ S).
Qed.
