(** C59: app updates. C62: the key-value store. C73: temporary failures of the storage. *)
From Verif Require Import Base KeyValue_Model KeyValue_Spec KeyValue_Proofs.
From Coq Require Import String.
Open Scope Z_scope.
Local Open Scope list_scope.

(** C62. A value that was set is read back, whatever happened before and whatever is done to other keys, until the key is set again, or
    changed behind the store's back, or the storage fails to read it. The serialization must be faithful on that value; for strings and
    versions it is, see below. *)
Theorem C62_read_back : forall V ser de s h k (v : V) f h2 df, de k (ser k v) = Some v -> Forall byte (ser k v) -> f <> Some false ->
  Forall (fun o => ~ writes V k o /\ ~ unreadable V k o) h2 ->
  snd (kv_get V de (kv_run V ser de s (h ++ KSet V k v f :: h2)) k false df) = Some v.
Proof. exact read_back. Qed.
Print Assumptions C62_read_back.

(** What is read was the last thing stored for the key. *)
Theorem C62_read_was_stored : forall V ser de h k rf df (v : V), snd (kv_get V de (kv_run V ser de (fun _ => None) h) k rf df) = Some v ->
  exists h1 o h2, h = h1 ++ o :: h2 /\ Forall (fun o => ~ writes V k o) h2 /\
    ((exists v' f, o = KSet V k v' f /\ f <> Some false /\ (de k (ser k v') = Some v' -> Forall byte (ser k v') -> v' = v)) \/
     (exists x b, o = KForeign V k (Some x) /\ b64_decode x = Some b /\ de k b = Some v)).
Proof. exact read_was_stored. Qed.
Print Assumptions C62_read_was_stored.

(** A value that could not be read, or decoded, does not come back (if it could be deleted). *)
Theorem C62_stays_absent : forall V ser de s k rf df h rf' df', snd (kv_get V de s k rf df) = None -> df <> Some false ->
  Forall (fun o => ~ writes V k o) h -> snd (kv_get V de (kv_run V ser de (fst (kv_get V de s k rf df)) h) k rf' df') = None.
Proof. exact stays_absent. Qed.
Print Assumptions C62_stays_absent.

(** The serializations are faithful. *)
Theorem C62_strings : forall utf8 k s, text_ok utf8 s -> k <> version_key ->
  value_de utf8 k (value_ser k (VText s)) = Some (VText s) /\ Forall byte (value_ser k (VText s)).
Proof. exact string_value. Qed.
Print Assumptions C62_strings.
Theorem C62_versions : forall utf8 v, version_ok utf8 v ->
  value_de utf8 version_key (value_ser version_key (VVersion v)) = Some (VVersion v) /\ Forall byte (value_ser version_key (VVersion v)).
Proof. exact version_value. Qed.
Print Assumptions C62_versions.

Definition ascii_only (l : list Z) : bool := forallb (fun b => b <? 128) l.
Definition v1 : version := mkVersion [49; 46; 48] (VersionCode (-7)).
Definition v2 : version := mkVersion [49; 46; 49] (BuildNumber [56]).
Example version_oks : version_ok ascii_only v1 /\ version_ok ascii_only v2.
Proof. unfold version_ok, text_ok, byte. cbn. splits; try lia; repeat constructor; lia. Qed.
Example store_case :
  let run := kv_run value value_ser (value_de ascii_only) (fun _ => None) in
  let get s k := snd (kv_get value (value_de ascii_only) s k false None) in
  let h := [KSet value "a" (VText [104; 105]) None; KSet value version_key (VVersion v1) None; KSet value "a" (VText [1]) (Some false); KForeign value "b" (Some [65; 61])] in
  get (run h) "a"%string = Some (VText [104; 105]) /\ get (run h) version_key = Some (VVersion v1) /\ get (run h) "b"%string = None /\
  run (h ++ [KGet value "b" false None]) "b"%string = None /\ run h "a"%string = Some [65; 103; 65; 65; 65; 65; 65; 65; 65; 65; 66; 111; 97; 81; 61; 61].
Proof. vm_compute. auto. Qed.

(** Whatever is in the storage, text that is read is valid UTF-8. *)
Theorem C62_text : forall utf8 k b v, value_de utf8 k b = Some v ->
  match v with
  | VText s => utf8 s = true
  | VVersion w => utf8 (av_version w) = true /\ match av_extra w with BuildNumber n => utf8 n = true | VersionCode _ => True end
  end.
Proof. exact text_read. Qed.
Print Assumptions C62_text.

(** C73 is false: if the storage once fails to answer, the value is deleted. *)
Theorem C73_temporary_failure_refuted : exists s, snd (kv_get value (value_de ascii_only) s "a" false None) = Some (VText [104; 105]) /\
  snd (kv_get value (value_de ascii_only) (fst (kv_get value (value_de ascii_only) s "a" true None)) "a" false None) = None.
Proof. exists (kv_set value value_ser (fun _ => None) "a" (VText [104; 105]) None). vm_compute. auto. Qed.
Print Assumptions C73_temporary_failure_refuted.

(** C59. Recording version [v] reports an update exactly if another version is on record, and reports that one; asking reports the same. *)
Theorem C59_update_reported utf8 : forall l v df, Forall faultless l -> Forall (fun o => version_ok utf8 (version_of o)) l -> version_ok utf8 v ->
  exists out, snd (a_run utf8 (fun _ => None) (l ++ [Record_ v false df None])) = snd (a_run utf8 (fun _ => None) l) ++ [Updated out] /\
  forall p, out = Some p <-> on_record l = Some p /\ p <> v.
Proof. exact (new_record utf8). Qed.
Print Assumptions C59_update_reported.
Theorem C59_change_seen utf8 : forall l v df, Forall faultless l -> Forall (fun o => version_ok utf8 (version_of o)) l -> version_ok utf8 v ->
  exists b, snd (a_run utf8 (fun _ => None) (l ++ [HasChanged v false df None])) = snd (a_run utf8 (fun _ => None) l) ++ [Changed b] /\
  (b = true <-> exists p, on_record l = Some p /\ p <> v).
Proof. exact (new_changed utf8). Qed.
Print Assumptions C59_change_seen.
(** Not again while the version stays; never if there was only one version. *)
Theorem C59_once utf8 : forall l v df l', Forall faultless (l ++ l') -> Forall (fun o => version_ok utf8 (version_of o)) l -> version_ok utf8 v -> Forall (fun o => version_of o = v) l' ->
  exists a b, snd (a_run utf8 (fun _ => None) (l ++ Record_ v false df None :: l')) = a ++ b /\ List.length b = List.length l' /\ Forall (fun x => x = Changed false \/ x = Updated None) b.
Proof. exact (new_once utf8). Qed.
Print Assumptions C59_once.
Theorem C59_first_install utf8 : forall v l, version_ok utf8 v -> Forall faultless l -> Forall (fun o => version_of o = v) l ->
  Forall (fun x => x = Changed false \/ x = Updated None) (snd (a_run utf8 (fun _ => None) l)).
Proof. exact (new_install utf8). Qed.
Print Assumptions C59_first_install.
Example version_case : let has v := HasChanged v false None None in let rec_ v := Record_ v false None None in
  snd (a_run ascii_only (fun _ => None) [has v1; rec_ v1; has v1; has v2; has v2; rec_ v2; has v2; rec_ v2; rec_ v1]) =
  [Changed false; Updated None; Changed false; Changed true; Changed true; Updated (Some v1); Changed false; Updated None; Updated (Some v2)].
Proof. vm_compute. reflexivity. Qed.

(** If the storage fails to store the new version, the update is reported again. *)
Theorem C59_failing_storage_refuted : snd (a_run ascii_only (fun _ => None) [Record_ v1 false None None; Record_ v2 false None (Some false); Record_ v2 false None None]) =
  [Updated None; Updated (Some v1); Updated (Some v1)].
Proof. vm_compute. reflexivity. Qed.
Print Assumptions C59_failing_storage_refuted.
