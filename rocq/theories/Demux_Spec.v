(** Whom a response is for. *)
From Verif Require Import Base Demux_Model.

Section Spec.
Variables C R CU RU A : Type.
Variable apply_client : C -> CU -> C * A.
Variable apply_runtime : R -> RU -> R * A.
Implicit Types rs : list (response CU RU).

(** The updates of the two kinds, and the rest, in the order of the responses. *)
Definition client_updates rs : list CU := flat_map (fun r => match r with RConfigurationUpdate u => [u] | _ => [] end) rs.
Definition runtime_updates rs : list RU := flat_map (fun r => match r with RRuntimeUpdate u => [u] | _ => [] end) rs.
Definition uploads rs : list N := flat_map (fun r => match r with RLogUpload x | RStatsUpload x | ROpaqueUpload x | RSankeyDiagramUpload x => [x] | _ => [] end) rs.
Definition intents rs : list N := flat_map (fun r => match r with RLogUploadIntent x | RSankeyIntentResponse x => [x] | _ => [] end) rs.
Definition flushes rs : list (list N) := flat_map (fun r => match r with RFlushBuffers x => [x] | _ => [] end) rs.

(** One acknowledgement for each update, of its kind, in their order. *)
Fixpoint acks (c : C) (r : R) rs : list (request A) :=
  match rs with
  | [] => []
  | RConfigurationUpdate u :: rs => ConfigurationUpdateAck (snd (apply_client c u)) :: acks (fst (apply_client c u)) r rs
  | RRuntimeUpdate u :: rs => RuntimeUpdateAck (snd (apply_runtime r u)) :: acks c (fst (apply_runtime r u)) rs
  | _ :: rs => acks c r rs
  end.

(** What is seen of each. *)
Definition seen_client (t : list (event CU RU A)) : list CU := flat_map (fun e => match e with EConfig u => [u] | _ => [] end) t.
Definition seen_runtime (t : list (event CU RU A)) : list RU := flat_map (fun e => match e with ERuntime u => [u] | _ => [] end) t.
Definition seen_sent (t : list (event CU RU A)) : list (request A) := flat_map (fun e => match e with ESent q => [q] | _ => [] end) t.
Definition seen_uploads (t : list (event CU RU A)) : list N := flat_map (fun e => match e with EUpload x => [x] | _ => [] end) t.
Definition seen_intents (t : list (event CU RU A)) : list N := flat_map (fun e => match e with EIntent x => [x] | _ => [] end) t.
Definition seen_flushes (t : list (event CU RU A)) : list (list N) := flat_map (fun e => match e with EFlush x => [x] | _ => [] end) t.

(** The two pipelines of the client, in either order. *)
Definition both (c : C) (r : R) (ps : list (pipeline C R)) : Prop := ps = [PClient c; PRuntime r] \/ ps = [PRuntime r; PClient c].
End Spec.
