(** Strings: Rust [str] as the list of its bytes (Coq [string]); the standard library functions the code uses. *)
From Coq Require Export String Ascii List.
From Coq Require Import DecimalString DecimalN DecimalFacts.
From Verif Require Import Base.
Local Open Scope string_scope.

(** [str::cmp]: lexicographic on bytes. *)
Definition str_cmp (a b : string) : comparison := String.compare a b.
Definition str_lt (a b : string) : bool := match str_cmp a b with Lt => true | _ => false end.
Definition str_le (a b : string) : bool := match str_cmp a b with Gt => false | _ => true end.

(** [u32::to_string]. *)
Definition dec_string (n : N) : string := NilZero.string_of_uint (N.to_uint n).
(** [str::parse::<u32>]: an optional plus sign, at least one digit, digits only, no overflow. *)
Definition parse_u32 (s : string) : option N :=
  let digits := match s with String "+"%char s' => s' | _ => s end in
  match digits with
  | EmptyString => None
  | _ => match NilEmpty.uint_of_string digits with
         | Some d => if (N.of_uint d <? 4294967296)%N then Some (N.of_uint d) else None
         | None => None
         end
  end.

(** [str::split(c)]. *)
Fixpoint split (c : ascii) (s : string) : list string :=
  match s with
  | EmptyString => [EmptyString]
  | String a s' => if Ascii.eqb a c then EmptyString :: split c s'
                   else match split c s' with h :: t => String a h :: t | [] => [String a EmptyString] end
  end.
(** [str::split_once(c)]. *)
Fixpoint split_once (c : ascii) (s : string) : option (string * string) :=
  match s with
  | EmptyString => None
  | String a s' => if Ascii.eqb a c then Some (EmptyString, s') else match split_once c s' with Some (x, y) => Some (String a x, y) | None => None end
  end.
(** [join]. *)
Fixpoint join (sep : string) (l : list string) : string :=
  match l with [] => EmptyString | [x] => x | x :: l' => x ++ sep ++ join sep l' end.

(** [c] does not occur in [s]. *)
Fixpoint has (c : ascii) (s : string) : bool := match s with EmptyString => false | String a s' => Ascii.eqb a c || has c s' end.

(** [str::starts_with]. *)
Definition starts_with (s pre : string) : bool := String.prefix pre s.

Lemma ascii_cmp_refl : forall a, Ascii.compare a a = Eq.
Proof. intros. apply N.compare_refl. Qed.
Lemma ascii_cmp_eq : forall a b, Ascii.compare a b = Eq <-> a = b.
Proof. split; [apply Ascii.compare_eq_iff|intros ->; apply ascii_cmp_refl]. Qed.
Lemma ascii_cmp_lt : forall a b, Ascii.compare a b = Lt <-> (N_of_ascii a < N_of_ascii b)%N.
Proof. intros. unfold Ascii.compare. apply N.compare_lt_iff. Qed.

Lemma str_cmp_refl : forall s, str_cmp s s = Eq.
Proof. unfold str_cmp. induction s as [|a s IH]; [reflexivity|]. cbn. rewrite ascii_cmp_refl. exact IH. Qed.
Lemma str_cmp_eq : forall a b, str_cmp a b = Eq <-> a = b.
Proof. split; [apply String.compare_eq_iff|intros ->; apply str_cmp_refl]. Qed.
Lemma str_cmp_antisym : forall a b, str_cmp a b = CompOpp (str_cmp b a).
Proof. exact String.compare_antisym. Qed.
Lemma str_cmp_trans : forall a b c, str_cmp a b = Lt -> str_cmp b c = Lt -> str_cmp a c = Lt.
Proof.
  unfold str_cmp. induction a as [|x a IH]; intros b c H1 H2; destruct b as [|y b]; try discriminate; destruct c as [|z c]; try discriminate; [reflexivity|].
  cbn in *. destruct (Ascii.compare x y) eqn:E1; try discriminate; destruct (Ascii.compare y z) eqn:E2; try discriminate.
  - apply ascii_cmp_eq in E1, E2. subst. rewrite ascii_cmp_refl. eauto.
  - apply ascii_cmp_eq in E1. subst. rewrite E2. reflexivity.
  - apply ascii_cmp_eq in E2. subst. rewrite E1. reflexivity.
  - apply ascii_cmp_lt in E1, E2. replace (Ascii.compare x z) with Lt; [reflexivity|]. symmetry. apply ascii_cmp_lt. eapply N.lt_trans; eassumption.
Qed.

Lemma dec_digits : forall n, exists d, dec_string n = NilEmpty.string_of_uint d /\ N.of_uint d = n /\ d <> Decimal.Nil.
Proof.
  intros n. unfold dec_string, NilZero.string_of_uint. pose proof (DecimalN.Unsigned.of_to n) as H. destruct (N.to_uint n) eqn:E; try (eexists; splits; [reflexivity|exact H|discriminate]).
  exists (Decimal.D0 Decimal.Nil). splits; [reflexivity| |discriminate]. rewrite <- H. reflexivity.
Qed.

Lemma string_of_uint_first : forall d, match NilEmpty.string_of_uint d with String "+"%char _ => False | _ => True end.
Proof. destruct d; exact I. Qed.

Lemma parse_dec : forall n, (n < 4294967296)%N -> parse_u32 (dec_string n) = Some n.
Proof.
  intros n H. destruct (dec_digits n) as (d & -> & Ed & Hd). unfold parse_u32.
  assert (E: (match NilEmpty.string_of_uint d with String "+"%char s' => s' | _ => NilEmpty.string_of_uint d end) = NilEmpty.string_of_uint d).
  { destruct d; reflexivity. }
  rewrite E, NilEmpty.usu, Ed. replace (n <? 4294967296)%N with true by (symmetry; apply N.ltb_lt; exact H). destruct d; try reflexivity. congruence.
Qed.

Lemma dec_inj : forall a b, dec_string a = dec_string b -> a = b.
Proof.
  intros a b E. destruct (dec_digits a) as (d1 & E1 & <- & _). destruct (dec_digits b) as (d2 & E2 & <- & _). rewrite E1, E2 in E.
  pose proof (NilEmpty.usu d1) as U1. rewrite E, NilEmpty.usu in U1. congruence.
Qed.

(** Only digits. *)
Lemma dec_has : forall c n, (forall k : nat, (48 <= k < 58)%nat -> nat_of_ascii c <> k) -> has c (dec_string n) = false.
Proof.
  intros c n Hc. destruct (dec_digits n) as (d & -> & _).
  assert (Hd: forall a, (48 <= nat_of_ascii a < 58)%nat -> Ascii.eqb a c = false).
  { intros a Ha. apply Ascii.eqb_neq. intros ->. exact (Hc _ Ha eq_refl). }
  induction d; cbn [NilEmpty.string_of_uint has]; try reflexivity; rewrite Hd by (cbn; lia); exact IHd.
Qed.

Lemma has_app : forall c a b, has c (a ++ b) = has c a || has c b.
Proof. induction a as [|x a IH]; intros b; [reflexivity|]. cbn. rewrite IH, orb_assoc. reflexivity. Qed.
Lemma str_app_assoc : forall a b c : string, (a ++ b) ++ c = a ++ (b ++ c).
Proof. induction a as [|x a IH]; intros; [reflexivity|]. cbn. rewrite IH. reflexivity. Qed.
Lemma str_app_nil : forall a : string, a ++ "" = a.
Proof. induction a as [|x a IH]; [reflexivity|]. cbn. rewrite IH. reflexivity. Qed.

Lemma split_has : forall c s x, In x (split c s) -> has c x = false.
Proof.
  induction s as [|a s IH]; intros x H; cbn in H; [destruct H as [<-|[] ]; reflexivity|].
  destruct (Ascii.eqb a c) eqn:E; [destruct H as [<-|H]; [reflexivity|auto]|].
  destruct (split c s) as [|h t]; destruct H as [<-|H].
  - cbn. rewrite E. reflexivity.
  - destruct H.
  - cbn. rewrite E. cbn. apply IH. left. reflexivity.
  - apply IH. right. exact H.
Qed.
Lemma split_other : forall c b s x, has b s = false -> In x (split c s) -> has b x = false.
Proof.
  induction s as [|a s IH]; intros x Hb H; cbn in H; [destruct H as [<-|[] ]; reflexivity|].
  cbn in Hb. apply orb_false_iff in Hb as [Hb1 Hb2]. destruct (Ascii.eqb a c) eqn:E; [destruct H as [<-|H]; [reflexivity|auto]|].
  destruct (split c s) as [|h t]; destruct H as [<-|H].
  - cbn. rewrite Hb1. reflexivity.
  - destruct H.
  - cbn. rewrite Hb1. cbn. apply IH; [exact Hb2|left; reflexivity].
  - apply IH; [exact Hb2|right; exact H].
Qed.
Lemma split_nonempty : forall c s, split c s <> [].
Proof. intros c [|a s]; cbn; [discriminate|]. destruct (Ascii.eqb a c); [discriminate|]. destruct (split c s); discriminate. Qed.
Lemma split_app : forall c a b, has c a = false -> split c (a ++ String c b) = a :: split c b.
Proof.
  induction a as [|x a IH]; intros b H; cbn in *; [rewrite Ascii.eqb_refl; reflexivity|].
  apply orb_false_iff in H as [H1 H2]. rewrite H1, (IH b H2). reflexivity.
Qed.
Lemma split_none : forall c a, has c a = false -> split c a = [a].
Proof. induction a as [|x a IH]; intros H; cbn in *; [reflexivity|]. apply orb_false_iff in H as [H1 H2]. rewrite H1, (IH H2). reflexivity. Qed.
Lemma split_join : forall c l, l <> [] -> (forall x, In x l -> has c x = false) -> split c (join (String c "") l) = l.
Proof.
  induction l as [|x l IH]; intros Hn H; [congruence|]. destruct l as [|y l].
  - cbn. apply split_none. apply H. left. reflexivity.
  - change (join (String c "") (x :: y :: l)) with (x ++ String c (join (String c "") (y :: l))).
    rewrite split_app by (apply H; left; reflexivity). rewrite IH; [reflexivity|discriminate|]. intros z Hz. apply H. right. exact Hz.
Qed.
Lemma join_has : forall c b l, has b (String c "") = false -> (forall x, In x l -> has b x = false) -> has b (join (String c "") l) = false.
Proof.
  intros c b l Hc. induction l as [|x l IH]; intros H; [reflexivity|]. destruct l as [|y l]; [apply H; left; reflexivity|].
  change (join (String c "") (x :: y :: l)) with (x ++ String c "" ++ join (String c "") (y :: l)).
  rewrite !has_app, Hc, IH; [rewrite (H x); [reflexivity|left; reflexivity]|]. intros z Hz. apply H. right. exact Hz.
Qed.
Lemma split_once_has : forall c s x y, split_once c s = Some (x, y) -> has c x = false /\ s = x ++ String c y.
Proof.
  induction s as [|a s IH]; intros x y E; cbn in E; [discriminate|]. destruct (Ascii.eqb a c) eqn:Ea.
  - inv E. apply Ascii.eqb_eq in Ea. subst. auto.
  - destruct (split_once c s) as [ [u v]|]; [|discriminate]. inv E. destruct (IH u y eq_refl) as [H ->]. cbn. rewrite Ea, H. auto.
Qed.
Lemma split_once_none : forall c s, split_once c s = None <-> has c s = false.
Proof.
  induction s as [|a s IH]; cbn; [tauto|]. destruct (Ascii.eqb a c); cbn; [split; discriminate|].
  destruct (split_once c s) as [ [u v]|]; split; intros H; try discriminate; try tauto. rewrite H in IH. destruct IH as [_ IH]. specialize (IH eq_refl). discriminate.
Qed.
Lemma split_once_app : forall c a b, has c a = false -> split_once c (a ++ String c b) = Some (a, b).
Proof.
  induction a as [|x a IH]; intros b H; cbn in *; [rewrite Ascii.eqb_refl; reflexivity|]. apply orb_false_iff in H as [H1 H2]. rewrite H1, (IH b H2). reflexivity.
Qed.
