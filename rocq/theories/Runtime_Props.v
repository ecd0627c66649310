(** C35 and C36: the runtime configuration. *)
From Verif Require Import Base Str_Base Runtime_Model Runtime_Spec Runtime_Proofs.
Local Open Scope string_scope.
Local Open Scope list_scope.
Local Open Scope Z_scope.

(** Any number of starts none of which reaches the server, each crashing at any
    point, with any I/O errors, from any content of the cache: the cached
    configuration is applied at most six times, as long as there are fewer than
    2^32 starts; beyond that the count wraps, if removing the cache failed every
    time. *)
Theorem C35_applied_bound : forall c l, valid c ->
  Z.of_nat (List.length (List.concat (snd (starts c l)))) <= 6 * (Z.of_nat (List.length l) / 2 ^ 32 + 1).
Proof. exact applied_bound. Qed.
Print Assumptions C35_applied_bound.

(** After seven starts that get through loading the cache (and may crash
    afterwards) the configuration is gone. *)
Theorem C35_discarded : forall c l, valid c -> all_complete c l -> (7 <= List.length l)%nat ->
  c_pb (fst (starts c l)) = PNone.
Proof. exact discarded. Qed.
Print Assumptions C35_discarded.

(** A configuration with which every start reaches the server is applied at every
    start, any number of times. *)
Theorem C35_good_kept : forall l m,
  Forall (fun i => io_read i = true /\ io_read_pb i = true /\ io_retry i = true /\ io_pb i = true) l ->
  good_starts (update_snapshot m) l = (update_snapshot m, repeat [m] (List.length l)).
Proof. exact good_kept. Qed.
Print Assumptions C35_good_kept.

Definition ok : io := {| io_read := true; io_read_pb := true; io_retry := true; io_trunc := false;
  io_pb := true; io_torn := PGood []; io_reset := true; io_order := true |}.
Definition crashing : values := [("a", VUint 1)].

(** Eight starts crashing right after the configuration was applied: six of them
    apply it, the seventh removes it. *)
Example C35_crash_loop :
  starts (update_snapshot crashing) (repeat (ok, 3%nat) 6 ++ repeat (ok, 9%nat) 2)
  = ({| c_retry := RNone; c_pb := PNone |}, repeat [crashing] 6 ++ repeat [] 2) /\
  all_complete (update_snapshot crashing) (repeat (ok, 9%nat) 8).
Proof. vm_compute. splits; auto; repeat constructor. Qed.

(** A crash while the file is written back leaves an empty file, which reads as an
    empty configuration. *)
Example C35_torn :
  starts (update_snapshot crashing) [(ok, 4%nat); (ok, 9%nat)]
  = ({| c_retry := RCount 2; c_pb := PGood [] |}, [ [crashing]; [ [] ] ]).
Proof. vm_compute. reflexivity. Qed.

Example C35_kept : good_starts (update_snapshot crashing) (repeat ok 20)
  = (update_snapshot crashing, repeat [crashing] 20).
Proof. vm_compute. reflexivity. Qed.

(** A flag whose key is in the values applied last, with the type of the flag, has
    that value, whenever it was registered, provided all flags of that path have
    the same type. *)
Theorem C36_present : forall os p d v x,
  In (Register p d) os -> path_kind os p d -> has (current os []) p v -> typed d v x ->
  read (l_run os) p = Some x.
Proof. exact watch_present. Qed.
Print Assumptions C36_present.

(** A flag whose key is not there has its default, provided all flags of that path
    have the same default. Missing for the full property: keys of the wrong type
    (C36_wrong_type_refuted) and two flags with the same path
    (C36_shared_path_refuted). *)
Theorem C36_absent_partial : forall os p d,
  In (Register p d) os -> path_default os p d -> ~ In p (map fst (current os [])) ->
  read (l_run os) p = Some d.
Proof. exact watch_absent. Qed.
Print Assumptions C36_absent_partial.

(** A flag with the path of a flag of another type is refused, without effect. *)
Theorem C36_incompatible : forall os p d d',
  In (Register p d) os -> path_kind os p d -> kind d' <> kind d ->
  register_watch (l_run os) p d' = (l_run os, false).
Proof. exact incompatible. Qed.
Print Assumptions C36_incompatible.

(** Any other flag is registered. *)
Theorem C36_registered : forall os p d,
  (forall d', In (Register p d') os -> kind d' = kind d) -> snd (register_watch (l_run os) p d) = true.
Proof. exact compatible. Qed.
Print Assumptions C36_registered.
Example C36_registered_case : forall d', In (Register "a" d') [Register "a" (DInt 5); Update []; Register "b" (DBool true)] -> kind d' = kind (DInt 7).
Proof. intros d' [H|[H|[H|[]]]]; inversion H; reflexivity. Qed.

(** A key of the wrong type does not give the default but zero. *)
Theorem C36_wrong_type_refuted : exists os p d v,
  In (Register p d) os /\ path_default os p d /\ has (current os []) p v /\
  (forall x, ~ typed d v x) /\ read (l_run os) p <> Some d.
Proof.
  exists [Register "x" (DInt 5); Update [("x", VBool true)] ], "x", (DInt 5), (VBool true). splits.
  - left. reflexivity.
  - intros d' [H|[H|[] ] ]; congruence.
  - exists [], []. cbn. auto.
  - intros x [].
  - vm_compute. discriminate.
Qed.
Print Assumptions C36_wrong_type_refuted.

(** The second of two flags with the same path reads the default of the first. *)
Theorem C36_shared_path_refuted : exists os p d,
  snd (register_watch (l_run os) p d) = true /\ ~ In p (map fst (current os [])) /\
  read (fst (register_watch (l_run os) p d)) p <> Some d.
Proof.
  exists [Register "x" (DInt 5)], "x", (DInt 6). splits; [reflexivity|intros []|vm_compute; discriminate].
Qed.
Print Assumptions C36_shared_path_refuted.

(** Registered before and after updates; the key comes, changes, and goes. *)
Definition flags : list op :=
  [Register "a" (DInt 5); Update [("b", VBool true); ("a", VUint 7)]; Register "b" (DBool false);
   Register "c" (DDuration 100); Update [("a", VUint 8); ("c", VUint 20)] ].
Example C36_history :
  map (read (l_run flags)) ["a"; "b"; "c"] = [Some (DInt 8); Some (DBool false); Some (DDuration 20)] /\
  map (read (l_run (firstn 4 flags))) ["a"; "b"; "c"]
    = [Some (DInt 7); Some (DBool true); Some (DDuration 100)] /\
  path_kind flags "a" (DInt 5) /\ path_default flags "b" (DBool false) /\
  has (current flags []) "a" (VUint 8) /\ ~ In "b" (map fst (current flags [])).
Proof.
  splits; try (vm_compute; reflexivity).
  - intros d' H. cbn in H. intuition congruence.
  - intros d' H. cbn in H. intuition congruence.
  - exists [], [("c", VUint 20)]. cbn. auto.
  - cbn. intuition discriminate.
Qed.
