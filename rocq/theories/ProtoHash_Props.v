From Verif Require Import Base Str_Base ProtoHash_Model ProtoHash_Spec ProtoHash_Proofs.
Local Open Scope string_scope.
Local Open Scope list_scope.
Local Open Scope Z_scope.

(** C57: equal messages feed the same bytes to the hasher, whatever the order in which their maps, at any depth, are iterated. *)
Theorem C57_equal : forall m m', well (VMsg m) -> same_fields m m' -> hash_message m = hash_message m'.
Proof. exact same_hash. Qed.
Print Assumptions C57_equal.

(** A map with numbers as keys, whose values are messages with a map; both iterated in another order. *)
Example equal_case :
  let inner1 := VMsg [FMap [(VStr "a", VU32 1); (VStr "b", VU32 2)] ] in
  let inner2 := VMsg [FMap [(VStr "b", VU32 2); (VStr "a", VU32 1)] ] in
  let m := [FOptional 1 (Some (VStr "x")); FMap [(VI32 (-3), inner1); (VI32 20, VMsg []); (VI32 3, VMsg [FRepeated [VBool true] ])] ] in
  let m' := [FOptional 1 (Some (VStr "x")); FMap [(VI32 20, VMsg []); (VI32 3, VMsg [FRepeated [VBool true] ]); (VI32 (-3), inner2)] ] in
  well (VMsg m) /\ same_fields m m' /\ hash_message m = hash_message m' /\ m <> m'.
Proof.
  cbn zeta. splits.
  - cbn. splits; try trivial.
    exists KInt. splits; [intros k v [E|[E|[E|[] ] ] ]; inv E; exact Logic.I|intros _; repeat constructor; cbn; intuition lia|].
    repeat constructor; cbn; intuition congruence.
    exists KStr. splits; [intros k v [E|[E|[] ] ]; inv E; exact Logic.I|discriminate|].
    repeat constructor; cbn; intuition congruence.
  - constructor; [constructor|]. eapply sf_map; [| |constructor].
    + apply se_cons; [apply same_msg; eapply sf_map with (l'' := [(VStr "a", VU32 1); (VStr "b", VU32 2)]); [|apply perm_swap|constructor] |].
      * repeat constructor.
      * repeat (apply se_cons; [constructor|]). constructor.
    + apply Permutation_trans with [(VI32 20, VMsg []); (VI32 (-3), VMsg [FMap [(VStr "b", VU32 2); (VStr "a", VU32 1)] ]); (VI32 3, VMsg [FRepeated [VBool true] ])];
        [apply perm_swap|apply perm_skip, perm_swap].
  - vm_compute. reflexivity.
  - discriminate.
Qed.

(** C57, the other direction, holds for messages that consist of optional numbers only. *)
Theorem C57_distinct_partial : forall ds m m', NoDup (map fst ds) -> (forall d, In d ds -> 0 <= fst d < 2 ^ 31) -> flat ds m -> flat ds m' ->
  hash_message m = hash_message m' -> m = m'.
Proof. exact flat_injective. Qed.
Print Assumptions C57_distinct_partial.

(** It holds for a list of numbers, and for a list of empty messages. *)
Theorem C57_lists_partial : forall k l l', Z.of_nat (List.length l) < 2 ^ 64 -> Z.of_nat (List.length l') < 2 ^ 64 ->
  match k with Some k => Forall (of_kind k) l /\ Forall (of_kind k) l' | None => Forall (eq (VMsg [])) l /\ Forall (eq (VMsg [])) l' end ->
  hash_message [FRepeated l] = hash_message [FRepeated l'] -> l = l'.
Proof. exact list_injective. Qed.
Print Assumptions C57_lists_partial.
Example lists_case : Forall (of_kind S32) [VI32 (-1); VI32 7] /\ Z.of_nat (String.length (hash_message [FRepeated [VI32 (-1); VI32 7] ])) = 16 /\ hash_message [FRepeated [VMsg [] ] ] <> hash_message [FRepeated [VMsg []; VMsg [] ] ].
Proof. splits; [repeat constructor; cbn; lia|reflexivity|vm_compute; discriminate]. Qed.

Example distinct_case : let ds := [(1, K32); (2, S64); (3, B1)] in
  let m := [FOptional 1 None; FOptional 2 (Some (VI64 (-1))); FOptional 3 (Some (VBool true))] in NoDup (map fst ds) /\ flat ds m /\
  String.length (hash_message m) = 17%nat.
Proof.
  cbn zeta. splits; [repeat constructor; cbn; intuition lia| |reflexivity].
  constructor; [exists None; split; [reflexivity|exact Logic.I] |]. constructor; [exists (Some (VI64 (-1))); split; [reflexivity|cbn; lia] |].
  constructor; [exists (Some (VBool true)); split; [reflexivity|exact Logic.I] |]. constructor.
Qed.

(** Otherwise it does not hold: neither with lists of texts, nor with maps of texts, nor with a message inside a message, nor with two
    lists. *)
Theorem C57_distinct_refuted :
  (exists l l', l <> l' /\ List.length l = List.length l' /\ hash_message [FRepeated (map VStr l)] = hash_message [FRepeated (map VStr l')]) /\
  (exists k v k' v', (k, v) <> (k', v') /\ hash_message [FMap [(VStr k, VStr v)] ] = hash_message [FMap [(VStr k', VStr v')] ]) /\
  (exists x, let inner o := FOptional 1 (Some (VMsg [FOptional 7 o])) in
     hash_message [inner (Some (VU32 x)); FOptional 7 None] = hash_message [inner None; FOptional 7 (Some (VU32 x))]) /\
  (exists x, hash_message [FRepeated [x]; FRepeated [] ] = hash_message [FRepeated []; FRepeated [x] ]).
Proof.
  splits.
  - exists ["ab"; "c"], ["a"; "bc"]. splits; [discriminate|reflexivity|vm_compute; reflexivity].
  - exists "ab", "c", "a", "bc". split; [discriminate|vm_compute; reflexivity].
  - exists 5. vm_compute. reflexivity.
  - exists (VStr "a"). vm_compute. reflexivity.
Qed.
Print Assumptions C57_distinct_refuted.
