(** Who gets a response of the server: bd-api/src/payload_conversion.rs and api.rs 769-892. What a pipeline does with an update, and whether the stream can be written
    and a tracked upload resolved, are parameters; texts are numbers. *)
From Verif Require Import Base.

(** [Response_type] (bd-proto/src/protos/client/api.rs:7643-7669); [None] is a response without a type, which is also what a type unknown to the client is read as. *)
Inductive response (CU RU : Type) :=
| RHandshake | RLogUpload (id : N) | RLogUploadIntent (id : N) | RStatsUpload (id : N) | RPong
| RConfigurationUpdate (u : CU) | RRuntimeUpdate (u : RU) | RErrorShutdown | RFlushBuffers (ids : list N)
| ROpaqueConfigurationUpdate (id : N) | ROpaqueUpload (id : N) | RSankeyDiagramUpload (id : N) | RSankeyIntentResponse (id : N) | RNone.
Arguments RHandshake {CU RU}. Arguments RLogUpload {CU RU} _. Arguments RLogUploadIntent {CU RU} _. Arguments RStatsUpload {CU RU} _. Arguments RPong {CU RU}.
Arguments RConfigurationUpdate {CU RU} _. Arguments RRuntimeUpdate {CU RU} _. Arguments RErrorShutdown {CU RU}. Arguments RFlushBuffers {CU RU} _.
Arguments ROpaqueConfigurationUpdate {CU RU} _. Arguments ROpaqueUpload {CU RU} _. Arguments RSankeyDiagramUpload {CU RU} _. Arguments RSankeyIntentResponse {CU RU} _. Arguments RNone {CU RU}.

(** bd-api/src/lib.rs:86-98, [ResponseKind]. *)
Inductive kind := KHandshake | KErrorShutdown | KPong | KLogUpload (id : N) | KLogUploadIntent (id : N) | KStatsUpload (id : N) | KFlushBuffers (ids : list N)
| KSankeyPathUpload (id : N) | KSankeyPathUploadIntent (id : N) | KOpaque (id : N) | KUntyped.

(** What is sent for a pipeline: payload_conversion.rs:93-109; [A] is a [ConfigurationUpdateAck]. *)
Inductive request (A : Type) := RuntimeUpdateAck (a : A) | ConfigurationUpdateAck (a : A).
Arguments RuntimeUpdateAck {A} _. Arguments ConfigurationUpdateAck {A} _.

(** What can be observed of handle_responses (api.rs 769-892): an update applied by a pipeline, a request sent, an upload or intent resolved, a flush of buffers asked for, a ping scheduled, an error counted. *)
Inductive event (CU RU A : Type) :=
| EConfig (u : CU) | ERuntime (u : RU) | ESent (q : request A) | EUpload (id : N) | EIntent (id : N) | EFlush (ids : list N) | EPing | EShutdown.
Arguments EConfig {CU RU A} _. Arguments ERuntime {CU RU A} _. Arguments ESent {CU RU A} _. Arguments EUpload {CU RU A} _. Arguments EIntent {CU RU A} _. Arguments EFlush {CU RU A} _. Arguments EPing {CU RU A}. Arguments EShutdown {CU RU A}.

(** The pipelines of api.rs:379: those that implement ConfigurationUpdate (api.rs:86, bd-logger/src/client_config.rs:174). *)
Inductive pipeline (C R : Type) := PClient (c : C) | PRuntime (r : R).
Arguments PClient {C R} _. Arguments PRuntime {C R} _.

(** payload_conversion.rs:112-128, [demux]. *)
Definition demux {CU RU} (r : response CU RU) : option kind :=
  match r with
  | RNone => None
  | RHandshake => Some KHandshake
  | RLogUpload x => Some (KLogUpload x)
  | RLogUploadIntent x => Some (KLogUploadIntent x)
  | RStatsUpload x => Some (KStatsUpload x)
  | RPong => Some KPong
  | RErrorShutdown => Some KErrorShutdown
  | RFlushBuffers x => Some (KFlushBuffers x)
  | RSankeyDiagramUpload x => Some (KSankeyPathUpload x)
  | RSankeyIntentResponse x => Some (KSankeyPathUploadIntent x)
  | ROpaqueUpload x => Some (KOpaque x)
  | _ => Some KUntyped
  end.

(** payload_conversion.rs:24-35, 71-75, [from_response] of a client configuration. *)
Definition configuration_update {CU RU} (r : response CU RU) : option CU := match r with RConfigurationUpdate u => Some u | _ => None end.
(** payload_conversion.rs:24-35, 76, [from_response] of a runtime update. *)
Definition runtime_update {CU RU} (r : response CU RU) : option RU := match r with RRuntimeUpdate u => Some u | _ => None end.

Section Handle.
Variables C R CU RU A : Type.
(** bd-logger/src/client_config.rs:177-198: what an update makes of the client configuration, and the acknowledgement. *)
Variable apply_client : C -> CU -> C * A.
(** api.rs:89-97: the same of the runtime. *)
Variable apply_runtime : R -> RU -> R * A.
(** Whether the next call that may fail does not: [send_request] (api.rs:245-253), the tracker (upload.rs), the channel of flushes (api.rs:836-843); it may depend on all before. *)
Variable ok : list (event CU RU A) -> event CU RU A -> bool.

(** try_apply_config: client_config.rs:175-200, api.rs:87-100. *)
Definition try_apply_config (p : pipeline C R) (r : response CU RU) : pipeline C R * option (event CU RU A * request A) :=
  match p with
  | PClient c => match configuration_update r with None => (p, None) | Some u => let '(c, a) := apply_client c u in (PClient c, Some (EConfig u, ConfigurationUpdateAck a)) end
  | PRuntime s => match runtime_update r with None => (p, None) | Some u => let '(s, a) := apply_runtime s u in (PRuntime s, Some (ERuntime u, RuntimeUpdateAck a)) end
  end.

(** api.rs:879-883: the loop over the pipelines. *)
Fixpoint offer (ps : list (pipeline C R)) (t : list (event CU RU A)) (r : response CU RU) : list (pipeline C R) * list (event CU RU A) * bool :=
  match ps with
  | [] => ([], t, true)
  | p :: ps =>
      match try_apply_config p r with
      | (p, None) => let '(ps, t, b) := offer ps t r in (p :: ps, t, b)
      | (p, Some (e, q)) =>
          let t := t ++ [e] in
          if ok t (ESent q) then let '(ps, t, b) := offer ps (t ++ [ESent q]) r in (p :: ps, t, b) else (p :: ps, t, false)
      end
  end.

(** A call that may fail (api.rs:798, 810, 823, 834, 843, 854, 875): [?]. *)
Definition fallible (ps : list (pipeline C R)) (t : list (event CU RU A)) (e : event CU RU A) : list (pipeline C R) * list (event CU RU A) * bool :=
  if ok t e then (ps, t ++ [e], true) else (ps, t, false).

(** api.rs:775-888: one response. *)
Definition handle_response (ps : list (pipeline C R)) (t : list (event CU RU A)) (r : response CU RU) : list (pipeline C R) * list (event CU RU A) * bool :=
  match demux r with
  | Some KHandshake => (ps, t, false)
  | Some KPong => (ps, t ++ [EPing], true)
  | Some KErrorShutdown => (ps, t ++ [EShutdown], true)
  | Some (KOpaque x) | Some (KLogUpload x) | Some (KStatsUpload x) | Some (KSankeyPathUpload x) => fallible ps t (EUpload x)
  | Some (KLogUploadIntent x) | Some (KSankeyPathUploadIntent x) => fallible ps t (EIntent x)
  | Some (KFlushBuffers x) => fallible ps t (EFlush x)
  | Some KUntyped => offer ps t r
  | None => (ps, t, true) (* a debug build panics: 886 *)
  end.

(** api.rs:769-892, [handle_responses]; false if it ends with an error. *)
Fixpoint handle_responses (ps : list (pipeline C R)) (t : list (event CU RU A)) (rs : list (response CU RU)) : list (pipeline C R) * list (event CU RU A) * bool :=
  match rs with
  | [] => (ps, t, true)
  | r :: rs => let '(ps, t, b) := handle_response ps t r in if b then handle_responses ps t rs else (ps, t, false)
  end.
End Handle.
