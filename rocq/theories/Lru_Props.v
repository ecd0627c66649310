(** C55. The processed-intents cache is an LRU of at most 100. *)
From Verif Require Import Base Lru_Model Lru_Spec Lru_Proofs.

(** After any history, the cache holds exactly the (at most 100) most recently used distinct keys, in order of use,
    without duplicates. *)
Theorem C55_lru : forall key key_eqb, (forall x y : key, key_eqb x y = true <-> x = y) ->
  forall l c rs, lru_run key key_eqb [] l = (c, rs) ->
  rev c = firstn 100 (recent key key_eqb (uses key [] l rs)) /\ NoDup c /\ length c <= 100.
Proof. exact lru_is_lru. Qed.
Print Assumptions C55_lru.

(** A lookup succeeds exactly for those keys. *)
Theorem C55_lookup : forall key key_eqb, (forall x y : key, key_eqb x y = true <-> x = y) ->
  forall l c rs x, lru_run key key_eqb [] l = (c, rs) ->
  (snd (lru_contains key key_eqb c x) = true <-> In x (firstn 100 (recent key key_eqb (uses key [] l rs)))).
Proof. exact lru_lookup_spec. Qed.
Print Assumptions C55_lookup.

(** 101 insertions with a lookup of key 0 in between: key 1 is the one evicted. *)
Example C55_witness :
  let ops := map Insert (seq 0 100) ++ [Lookup 0; Insert 100; Lookup 1; Lookup 0] in
  (forall x y, Nat.eqb x y = true <-> x = y) /\
  skipn 100 (snd (lru_run nat Nat.eqb [] ops)) = [Some true; None; Some false; Some true] /\
  length (fst (lru_run nat Nat.eqb [] ops)) = 100.
Proof. cbv zeta. split; [apply Nat.eqb_eq|]. split; vm_compute; reflexivity. Qed.
