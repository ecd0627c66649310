From Verif Require Import Base Str_Base Validate_Model Validate_Spec Validate_Proofs.
Local Open Scope Z_scope.

(** * C104: an accepted message meets its rules, at any depth *)
Section C104.
Variables (P1 : string_rules -> string -> Prop) (P2 : enum_rules -> Z -> Prop) (P3 : repeated_rules -> list (value msg) -> Prop)
  (P4 : duration_rules -> Z * Z -> Prop) (P5 : rule_type -> content msg -> Prop).
Theorem C104_sound_partial : forall m, validate m = None ->
  everywhere (declared false) m -> everywhere ascii_field m -> everywhere duration_not_required m ->
  forall m', within m m' -> meets P1 P2 P3 P4 P5 m'.
Proof. intros m. eapply sound. Qed.
End C104.
Print Assumptions C104_sound_partial.

(** A message with a oneof that must be set, a string of 2 to 5 characters, a duration above 1.5 s and a list of at least one message, whose
    number must be above 3. *)
Definition inner (n : Z) : msg := Msg [] [mkField false (Some (mkRules false false (RNum NUInt32 (mkInt None None None (Some 3) None [] [] None)))) (CSing KU32 (Some (VInt n)))].
Definition outer (n : Z) : msg :=
  Msg [(true, [0%nat])]
    [mkField true (Some (mkRules false false (RString (mkStr (Some 2) (Some 5) false None)))) (CSing KString (Some (VStr "abc")));
     mkField false (Some (mkRules true false (RDuration (mkDur (Some (1, 500000000)) None false)))) (CSing KMessage (Some (VDur 2 0)));
     mkField false (Some (mkRules false false (RRepeated (mkRep (Some 1) false)))) (CRep [VMsg (inner 5); VMsg (inner n)])].
Lemma within_outer : forall n m, within (outer n) m -> m = outer n \/ m = inner 5 \/ m = inner n.
Proof.
  intros n m H. inversion H as [|m0 m1 m2 Hc Hw]; subst; auto. right.
  assert (Hm : m1 = inner 5 \/ m1 = inner n).
  { destruct Hc as (f & Hf & Hc). simpl in Hf. destruct Hf as [<-|[<-|[<-|[]]]]; simpl in Hc;
      inversion Hc as [k v mm Hv|vs v mm Hin Hv|vs v mm Hin Hv]; subst; try (inversion Hv; fail).
    destruct Hin as [<-|[<-|[]]]; inversion Hv; subst; auto. }
  assert (L : forall k, within (inner k) m -> m = inner k).
  { intros k Hk. inversion Hk as [|a b c Hc' Hw']; subst; auto. destruct Hc' as (f & Hf & Hc'). simpl in Hf. destruct Hf as [<-|[]].
    inversion Hc' as [kk v mm Hv|vs v mm Hin Hv|vs v mm Hin Hv]; subst; inversion Hv. }
  destruct Hm as [->| ->]; apply L in Hw; auto.
Qed.
Lemma everywhere_outer : forall n (P : field msg -> Prop), (forall f, In f (fields_of (outer n) ++ fields_of (inner 5) ++ fields_of (inner n)) -> P f) -> everywhere P (outer n).
Proof. intros n P H m f Hw Hf. apply H. rewrite !in_app_iff. apply within_outer in Hw as [->|[->| ->]]; auto. Qed.
Lemma outer_fields : forall n, everywhere (declared false) (outer n) /\ everywhere ascii_field (outer n) /\ everywhere duration_not_required (outer n) /\ everywhere supported (outer n).
Proof.
  intros n. splits; apply everywhere_outer; intros f Hf; simpl in Hf; repeat (destruct Hf as [<-|Hf]; [|]); try tauto; cbn;
    repeat split; cbn; try tauto; try congruence; try lia.
Qed.
Example C104_ex : validate (outer 4) = None /\ validate (outer 3) = Some EGt
  /\ everywhere (declared false) (outer 4) /\ everywhere ascii_field (outer 4) /\ everywhere duration_not_required (outer 4) /\ within (outer 4) (inner 4).
Proof.
  pose proof (outer_fields 4) as (H1 & H2 & H3 & _). splits; auto. eapply w_child; [|apply w_self].
  eexists. split; [right; right; left; reflexivity|]. simpl. eapply ic_rep; [right; left; reflexivity|constructor].
Qed.

(** In general not: the rules of a sint32 field are not looked at; the least length is that of the bytes; a duration that must be there may
    be missing. *)
Definition sint : msg := Msg [] [mkField false (Some (mkRules false false (RNum NSInt32 (mkInt None None None (Some 3) None [] [] None)))) (CSing KI32 (Some (VInt (-1))))].
Theorem C104_sint_refuted : exists m, validate m = None /\ everywhere (declared true) m /\ (forall P1 P2 P3 P4 P5, ~ meets P1 P2 P3 P4 P5 m).
Proof.
  exists sint. splits; [reflexivity| |].
  - intros m f Hw Hf. inversion Hw as [|a b c (g & Hg & Hc) Hw']; subst.
    + destruct Hf as [<-|[]]. cbn. repeat split; try congruence; try discriminate.
    + destruct Hg as [<-|[]]. inversion Hc as [kk v mm Hv| |]; subst; inversion Hv.
  - intros P1 P2 P3 P4 P5 [_ H]. specialize (H _ (or_introl eq_refl)). cbn in H. destruct H as [_ [[? _]|(_ & H & _)]]; [discriminate|]. cbn in H. lia.
Qed.
Print Assumptions C104_sint_refuted.
Definition accent : string := String (Ascii.ascii_of_N 195) (String (Ascii.ascii_of_N 169) EmptyString).
Definition short : msg := Msg [] [mkField false (Some (mkRules false false (RString (mkStr (Some 2) None false None)))) (CSing KString (Some (VStr accent)))].
Theorem C104_min_len_refuted : exists m, validate m = None /\ everywhere (declared false) m /\ (forall P1 P2 P3 P4 P5, ~ meets P1 P2 P3 P4 P5 m).
Proof.
  exists short. splits; [reflexivity| |].
  - intros m f Hw Hf. inversion Hw as [|a b c (g & Hg & Hc) Hw']; subst.
    + destruct Hf as [<-|[]]. cbn. repeat split; try congruence; try discriminate.
    + destruct Hg as [<-|[]]. inversion Hc as [kk v mm Hv| |]; subst; inversion Hv.
  - intros P1 P2 P3 P4 P5 [_ H]. specialize (H _ (or_introl eq_refl)). cbn in H. destruct H as [_ [[? _]|(H & _)]]; [discriminate|]. cbn in H. lia.
Qed.
Print Assumptions C104_min_len_refuted.
Definition missing : msg := Msg [] [mkField false (Some (mkRules false false (RDuration (mkDur None (Some true) false)))) (CSing KMessage None)].
Theorem C104_duration_required_refuted : exists m, validate m = None /\ everywhere (declared false) m /\ (forall P1 P2 P3 P4 P5, ~ meets P1 P2 P3 P4 P5 m).
Proof.
  exists missing. splits; [reflexivity| |].
  - intros m f Hw Hf. inversion Hw as [|a b c (g & Hg & Hc) Hw']; subst.
    + destruct Hf as [<-|[]]. cbn. repeat split; try congruence; try discriminate.
    + destruct Hg as [<-|[]]. inversion Hc.
  - intros P1 P2 P3 P4 P5 [_ H]. specialize (H _ (or_introl eq_refl)). cbn in H. destruct H as [_ (_ & _ & H)]. apply H; reflexivity.
Qed.
Print Assumptions C104_duration_required_refuted.

(** * C105: a message that meets its rules is accepted, as long as the rules are of the supported ones *)
Section C105.
Variables (P1 : string_rules -> string -> Prop) (P2 : enum_rules -> Z -> Prop) (P3 : repeated_rules -> list (value msg) -> Prop)
  (P4 : duration_rules -> Z * Z -> Prop) (P5 : rule_type -> content msg -> Prop).
Theorem C105_complete_partial : forall m,
  everywhere (declared false) m -> everywhere ascii_field m -> everywhere supported m ->
  (forall m', within m m' -> meets P1 P2 P3 P4 P5 m') -> validate m = None.
Proof. intros m. eapply complete. Qed.
End C105.
Print Assumptions C105_complete_partial.
Example C105_ex : everywhere (declared false) (outer 4) /\ everywhere ascii_field (outer 4) /\ everywhere supported (outer 4)
  /\ (forall P1 P2 P3 P4 P5 m', within (outer 4) m' -> meets P1 P2 P3 P4 P5 m').
Proof.
  pose proof (outer_fields 4) as (H1 & H2 & H3 & H4). split; [exact H1|]. split; [exact H2|]. split; [exact H4|].
  intros P1 P2 P3 P4 P5 m' Hw. apply (C104_sound_partial P1 P2 P3 P4 P5 (outer 4)); auto.
Qed.

(** In general not: the greatest length is that of the bytes; that an empty string is to be let through and that a message is not to be looked
    into go unseen. *)
Definition long : msg := Msg [] [mkField false (Some (mkRules false false (RString (mkStr None (Some 1) false None)))) (CSing KString (Some (VStr accent)))].
Definition empty_allowed : msg := Msg [] [mkField false (Some (mkRules false false (RString (mkStr (Some 1) None false (Some true))))) (CSing KString None)].
Definition skipped : msg := Msg [] [mkField false (Some (mkRules false true RNone)) (CSing KMessage (Some (VMsg (inner 1))))].
Theorem C105_max_len_refuted : exists m0, validate m0 = Some EMaxLen /\ everywhere (declared false) m0
  /\ (forall P1 P2 P3 P4 P5 m, within m0 m -> meets P1 P2 P3 P4 P5 m).
Proof.
  assert (L : forall m, within long m -> m = long).
  { intros m Hw. inversion Hw as [|a b c (g & Hg & Hc) Hw']; subst; auto. destruct Hg as [<-|[]]. inversion Hc as [kk v mm Hv| |]; subst; inversion Hv. }
  exists long. splits; [reflexivity| |].
  - intros m f Hw Hf. apply L in Hw. subst. destruct Hf as [<-|[]]. cbn. repeat split; try congruence; try discriminate.
  - intros P1 P2 P3 P4 P5 m Hw. apply L in Hw. subst. split; [intros o []|]. intros f [<-|[]]. cbn. split; [discriminate|]. right. cbn. splits; [exact I|lia|discriminate].
Qed.
Print Assumptions C105_max_len_refuted.
Theorem C105_ignore_empty_refuted : exists m0, validate m0 = Some EMinLen /\ everywhere (declared false) m0 /\ everywhere ascii_field m0
  /\ (forall P1 P2 P3 P4 P5 m, within m0 m -> meets P1 P2 P3 P4 P5 m).
Proof.
  assert (L : forall m, within empty_allowed m -> m = empty_allowed).
  { intros m Hw. inversion Hw as [|a b c (g & Hg & Hc) Hw']; subst; auto. destruct Hg as [<-|[]]. inversion Hc. }
  exists empty_allowed. splits; [reflexivity| | |].
  - intros m f Hw Hf. apply L in Hw. subst. destruct Hf as [<-|[]]. cbn. repeat split; try congruence; try discriminate.
  - intros m f Hw Hf. apply L in Hw. subst. destruct Hf as [<-|[]]. exact I.
  - intros P1 P2 P3 P4 P5 m Hw. apply L in Hw. subst. split; [intros o []|]. intros f [<-|[]]. cbn. split; [discriminate|]. left. split; reflexivity.
Qed.
Print Assumptions C105_ignore_empty_refuted.
Theorem C105_skip_refuted : exists m0, validate m0 = Some EGt /\ (forall P1 P2 P3 P4 P5, meets P1 P2 P3 P4 P5 m0)
  /\ (forall f r, In f (fields_of m0) -> fl_rules f = Some r -> f_skip r = true).
Proof.
  exists skipped. split; [reflexivity|split].
  - intros. split; [intros o []|]. intros f [<-|[]]. cbn. split; auto. discriminate.
  - intros f r [<-|[]]. cbn. intros [= <-]. reflexivity.
Qed.
Print Assumptions C105_skip_refuted.
