(** Model of what a stream is opened with: bd-metadata/src/lib.rs, bd-api/src/api.rs lines 575-665, 680-701, 745-760 and 893-913, the partial
    handshakes of api.rs lines 106-111 and bd-logger/src/client_config.rs lines 206-211.

    [HashMap]s are lists of pairs with distinct keys. The gRPC framing and the network are not part of this model (Api_Model, Grpc_Model). *)
From Verif Require Import Base Str_Base.
Local Open Scope string_scope. Local Open Scope list_scope.

(** [HashMap<String, String>]. *)
Definition map := list (string * string).
(** [HashMap::get], api.rs line 580. *)
Fixpoint get (k : string) (m : map) : option string :=
  match m with [] => None | (k', v) :: m => if String.eqb k k' then Some v else get k m end.
(** [HashMap::insert], bd-metadata/src/lib.rs lines 58-67. *)
Fixpoint insert (k v : string) (m : map) : map :=
  match m with [] => [(k, v)] | (k', v') :: m => if String.eqb k k' then (k, v) :: m else (k', v') :: insert k v m end.

(** bd-metadata/src/lib.rs lines 16-27. *)
Inductive platform := Android | Ios | Pulse | Other (os kind : string).
(** Lines 30-36. *)
Definition p_kind (p : platform) : string := match p with Android | Ios => "mobile" | Pulse => "pulse" | Other _ k => k end.
(** Lines 38-45. *)
Definition p_os (p : platform) : string := match p with Android => "android" | Ios => "ios" | Pulse => "pulse" | Other o _ => o end.
(** Line 14. *)
Definition CONFIGURATION_VERSION := "26".
(** Lines 55-70: [inner] is what the platform gives. *)
Definition collect (p : platform) (sdk : string) (inner : map) : map :=
  insert "sdk_version" sdk (insert "kind" (p_kind p) (insert "os" (p_os p) (insert "config_version" CONFIGURATION_VERSION inner))).

(** The pipelines of api.rs line 379: the runtime (api.rs lines 106-111) and the configuration (client_config.rs lines 206-211), each with
    the version in force. *)
Inductive role := Runtime | Config.
(** A pipeline: its role and its version, api.rs lines 106-111. *)
Record pipe := mkPipe { p_role : role; p_version : option string }.

(** The parts of [HandshakeRequest] that are set, api.rs lines 901-905. *)
Record handshake := mkHandshake { h_meta : map; h_reason : string; h_runtime : string; h_config : string }.
(** [unwrap_or_default], api.rs line 903. *)
Definition or_empty (o : option string) : string := match o with Some s => s | None => "" end.
(** api.rs lines 106-111, client_config.rs lines 206-211. *)
Definition partial (p : pipe) : handshake :=
  match p_role p with Runtime => mkHandshake [] "" (or_empty (p_version p)) "" | Config => mkHandshake [] "" "" (or_empty (p_version p)) end.
(** [merge_from_bytes] of protobuf for a string: an empty string is not written, a written one replaces (api.rs lines 907-909). *)
Definition merge_text (a b : string) : string := if String.eqb b "" then a else b.
(** [merge_from_bytes], api.rs lines 907-909; the entries of the map are inserted. *)
Definition merge (a b : handshake) : handshake :=
  mkHandshake (fold_left (fun m e => insert (fst e) (snd e) m) (h_meta b) (h_meta a)) (merge_text (h_reason a) (h_reason b)) (merge_text (h_runtime a) (h_runtime b)) (merge_text (h_config a) (h_config b)).
(** Lines 894-913. *)
Definition handshake_request (ps : list pipe) (meta : map) (reason : option string) : handshake :=
  fold_left (fun h p => merge h (partial p)) ps (mkHandshake meta (or_empty reason) "" "").

(** Lines 632-645: the headers of the stream. *)
Definition headers (key app : string) (compression : bool) : map :=
  let h := [("x-bitdrift-api-key", key); ("x-bitdrift-app-id", app); ("content-type", "application/grpc")] in
  if compression then insert "grpc-accept-encoding" "deflate" (insert "grpc-encoding" "deflate" h) else h.

(** Where the loop of lines 599-763 is: before a stream is opened, waiting for the handshake, in the stream, or at its end for good. *)
Inductive phase := Top | Waiting | Open | Dead.
(** The state of the loop: the metadata is collected once (line 579), [s_reason]: line 597. *)
Record state := mkState { s_phase : phase; s_meta : map; s_reason : option string; s_pipes : list pipe }.
(** What happens. *)
Inductive op :=
| Connect (compression : bool)  (** lines 632-663; [compression]: the flag of line 638 *)
| Accept                        (** the handshake is answered, lines 668-675 *)
| Close (reason : string)       (** the stream is closed, lines 680-689 or 747-757 *)
| Refuse (message : string)     (** an error instead of the answer, lines 969-983 *)
| Unauthorized                  (** lines 692-701 *)
| Apply (r : role) (version : string). (** a pipeline has taken a version that the server sent, lines 876-884 *)

(** What the server sees. *)
Record opened := mkOpened { o_headers : map; o_handshake : handshake }.

(** A pipeline takes a version (line 880). *)
Definition take (r : role) (v : string) (p : pipe) : pipe :=
  match r, p_role p with Runtime, Runtime | Config, Config => mkPipe (p_role p) (Some v) | _, _ => p end.

Section Loop.
Variable key : string.
(** One step of the loop of lines 599-763. *)
Definition step (s : state) (o : op) : state * list opened :=
  match o, s_phase s with
  | Connect c, Top =>
      (mkState Waiting (s_meta s) None (s_pipes s), [mkOpened (headers key (or_empty (get "app_id" (s_meta s))) c) (handshake_request (s_pipes s) (s_meta s) (s_reason s))])
  | Accept, Waiting => (mkState Open (s_meta s) (s_reason s) (s_pipes s), [])
  | Close r, Waiting | Close r, Open => (mkState Top (s_meta s) (Some r) (s_pipes s), [])
  | Refuse m, Waiting => (mkState Top (s_meta s) (Some ("error shutdown: " ++ m)%string) (s_pipes s), [])
  | Unauthorized, Waiting => (mkState Dead (s_meta s) (s_reason s) (s_pipes s), [])
  | Apply r v, Open => (mkState Open (s_meta s) (s_reason s) (List.map (take r v) (s_pipes s)), [])
  | _, _ => (s, [])
  end.
(** A history. *)
Fixpoint run (s : state) (ops : list op) : state * list opened :=
  match ops with [] => (s, []) | o :: ops => let (s1, e1) := step s o in let (s2, e2) := run s1 ops in (s2, e1 ++ e2) end.
End Loop.
(** Lines 575-597. *)
Definition start (p : platform) (sdk : string) (inner : map) (ps : list pipe) : state := mkState Top (collect p sdk inner) None ps.
