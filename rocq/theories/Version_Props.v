(** C23, C24: version matchers. *)
From Verif Require Import Base Str_Base Version_Model Version_Spec Version_Proofs.
Local Open Scope string_scope.

(** C23. Exactly one of <, =, > holds and the other operators are built from them. *)
Theorem C23_trichotomy : forall re_ok re_match v c, exists lt eq gt,
  satisfies re_ok re_match OpLt v c = Some lt /\ satisfies re_ok re_match OpEq v c = Some eq /\ satisfies re_ok re_match OpGt v c = Some gt /\
  ((lt = true /\ eq = false /\ gt = false) \/ (lt = false /\ eq = true /\ gt = false) \/ (lt = false /\ eq = false /\ gt = true)) /\
  satisfies re_ok re_match OpLe v c = Some (lt || eq) /\ satisfies re_ok re_match OpGe v c = Some (gt || eq) /\
  satisfies re_ok re_match OpNe v c = Some (negb eq).
Proof. exact trichotomy. Qed.
Print Assumptions C23_trichotomy.

Theorem C23_antisymmetry : forall re_ok re_match a b,
  satisfies re_ok re_match OpLt a b = satisfies re_ok re_match OpGt b a /\
  satisfies re_ok re_match OpEq a b = satisfies re_ok re_match OpEq b a /\ satisfies re_ok re_match OpEq a a = Some true.
Proof. exact antisymmetry. Qed.
Print Assumptions C23_antisymmetry.

(** Equal versions are interchangeable in every comparison; in particular equality is transitive. *)
Theorem C23_equality : forall re_ok re_match op a b c,
  satisfies re_ok re_match OpEq a b = Some true -> satisfies re_ok re_match op a c = satisfies re_ok re_match op b c \/ op = OpRegex.
Proof. exact equal_interchangeable. Qed.
Print Assumptions C23_equality.

Theorem C23_trailing_zero : forall re_ok re_match op s c, has "-" s = false -> has "+" s = false -> op <> OpRegex ->
  satisfies re_ok re_match op (s ++ ".0") c = satisfies re_ok re_match op s c /\
  satisfies re_ok re_match op c (s ++ ".0") = satisfies re_ok re_match op c s.
Proof. exact trailing_zero. Qed.
Print Assumptions C23_trailing_zero.

(** Transitivity fails when numbers and words meet at one position: 2 < 10 < 1a < 2. *)
Theorem C23_transitivity_refuted : forall re_ok re_match, exists a b c,
  satisfies re_ok re_match OpGt a b = Some true /\ satisfies re_ok re_match OpGt b c = Some true /\ satisfies re_ok re_match OpGt a c = Some false.
Proof. intros. exists "2", "10", "1a". splits; reflexivity. Qed.
Print Assumptions C23_transitivity_refuted.

(** It holds when they do not. *)
Theorem C23_transitivity_partial : forall re_ok re_match a b c, same_kinds a b c ->
  satisfies re_ok re_match OpGt a b = Some true -> satisfies re_ok re_match OpGt b c = Some true -> satisfies re_ok re_match OpGt a c = Some true.
Proof. exact transitivity. Qed.
Print Assumptions C23_transitivity_partial.

Example C23_case : same_kinds "1.2-beta" "1.9.0.1" "1.10" /\
  satisfies (fun _ => true) (fun _ _ => true) OpGt "1.2-beta" "1.9.0.1" = Some true /\ satisfies (fun _ => true) (fun _ _ => true) OpGt "1.9.0.1" "1.10" = Some true /\
  satisfies (fun _ => true) (fun _ _ => true) OpEq "1.2-beta" "1.2.0+5" = Some true.
Proof.
  splits; try reflexivity. intros i. left. unfold number, piece.
  do 4 (destruct i as [|i]; [splits; discriminate|]). destruct i; splits; discriminate.
Qed.

(** C24. *)
Theorem C24_equal_matchers : forall re_ok re_match o1 v1 o2 v2 m1 m2,
  version_match_new re_ok o1 v1 = Some m1 -> version_match_new re_ok o2 v2 = Some m2 ->
  version_match_eqb m1 m2 = true -> forall c, version_evaluate re_match m1 c = version_evaluate re_match m2 c.
Proof. exact equal_matchers. Qed.
Print Assumptions C24_equal_matchers.

(** Equal although the strings and the parsed parts differ. *)
Example C24_case :
  let m1 := VComparator CLe (version_new "01.2-a+b") in let m2 := VComparator CLe (version_new "1.2+b-a") in
  m1 <> m2 /\ version_match_eqb m1 m2 = true /\ version_match_new (fun _ => true) OpLe "1.2+b-a" = Some m2.
Proof. cbv zeta. splits; [intros E; vm_compute in E; discriminate|reflexivity..]. Qed.
