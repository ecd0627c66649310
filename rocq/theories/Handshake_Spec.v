(** What the server is to be told when a stream is opened (C152). *)
From Verif Require Import Base Str_Base Handshake_Model.
Local Open Scope string_scope. Local Open Scope list_scope.

(** What happened since the loop began, told by events that count: those of a stream that is there. *)
Inductive seen := SOpen | SAccept | SClose (reason : string) | SApply (r : role) (version : string).
(** The reason of the last closure, if no stream was opened since; events in reverse order. *)
Definition last_reason (h : list seen) : string := match h with SClose r :: _ => r | _ => "" end.
(** The last version of a pipeline, or the one it started with; events in reverse order. *)
Fixpoint last_version (r : role) (start : string) (h : list seen) : string :=
  match h with
  | [] => start
  | SApply r' v :: h => match r, r' with Runtime, Runtime | Config, Config => v | _, _ => last_version r start h end
  | _ :: h => last_version r start h
  end.
Definition initial (r : role) (ps : list pipe) : string :=
  match find (fun p => match r, p_role p with Runtime, Runtime | Config, Config => true | _, _ => false end) ps with Some p => match p_version p with Some v => v | None => "" end | None => "" end.
(** Histories of a stream: it is opened, then answered, and closed; versions are taken while it is open. *)
Inductive story : list op -> phase -> list seen -> Prop :=
| story_nil : story [] Top []
| story_connect ops c h : story ops Top h -> story (ops ++ [Connect c]) Waiting (SOpen :: h)
| story_accept ops h : story ops Waiting h -> story (ops ++ [Accept]) Open (SAccept :: h)
| story_close ops r h ph : ph = Waiting \/ ph = Open -> story ops ph h -> story (ops ++ [Close r]) Top (SClose r :: h)
| story_refuse ops m h : story ops Waiting h -> story (ops ++ [Refuse m]) Top (SClose ("error shutdown: " ++ m)%string :: h)
| story_apply ops r v h : story ops Open h -> story (ops ++ [Apply r v]) Open (SApply r v :: h).
(** The runtime and the configuration, in either order. *)
Definition two_pipes (ps : list pipe) : Prop := List.map p_role ps = [Runtime; Config] \/ List.map p_role ps = [Config; Runtime].
(** Phones are mobile; the name of the system is in lower case. *)
Definition kind_of (p : platform) : string := match p with Android => "mobile" | Ios => "mobile" | Pulse => "pulse" | Other _ k => k end.
Definition os_of (p : platform) : string := match p with Android => "android" | Ios => "ios" | Pulse => "pulse" | Other o _ => o end.
(** What the metadata says. *)
Definition told (p : platform) (sdk : string) (inner : map) (k : string) : option string :=
  if String.eqb k "sdk_version" then Some sdk else if String.eqb k "kind" then Some (kind_of p) else if String.eqb k "os" then Some (os_of p) else if String.eqb k "config_version" then Some "26" else get k inner.
