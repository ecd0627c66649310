(** Model of bd-logger/src/client_config.rs 68-214 (Config): applying, persisting
    and reloading the client configuration.

    Simplifications.
    - The configuration itself is an uninterpreted name; applying it (LoggerUpdate,
      244-301) accepts, rejects or brings the process down, as the environment
      decides.
    - Unknown protobuf fields are not modelled.
    - debug_assert!(maybe_nack.is_ok()) (164) is not part of a release build.
    - write_to_bytes (122) does not fail. *)
From Verif Require Import Base Str_Base.
Local Open Scope string_scope.
Local Open Scope list_scope.

(** ConfigurationUpdate: the version nonce and the oneof, which may be missing. *)
Record update := { u_nonce : string; u_config : option string }.

(** The content of config.pb. *)
Inductive file := FNone | FGarbage | FUpd (u : update).

(** What is left when writing an update is interrupted: the fields are written in
    order (bd-proto client/api.rs 5341-5354), so a proper prefix is unparsable, or
    empty, or holds the nonce only. *)
Inductive torn := TornMid | TornEmpty | TornNonce.
(** What is read (client_config.rs 143-160) after an interrupted write (101-141). *)
Definition torn_file (t : torn) (u : update) : file :=
  match t with
  | TornMid => FGarbage
  | TornEmpty => FUpd {| u_nonce := ""; u_config := None |}
  | TornNonce => FUpd {| u_nonce := u_nonce u; u_config := None |}
  end.

(** The result of std::fs::write (130): written; failed before touching the file;
    failed in the middle; the process ended before it; or in the middle of it. *)
Inductive wr := WOk | WFailOpen | WFail (t : torn) | WCrashBefore | WCrash (t : torn).

(** The result of apply_configuration (112-115). *)
Inductive outcome := Applied | Rejected | Crashed.

(** Where a configuration comes from: client_config.rs 112-115 and 143-170. *)
Inductive source := Disk | Server.

(** What can be observed. *)
Inductive item :=
| TStart
| TTry (s : source) (u : update) (o : outcome)   (* apply_configuration was called *)
| TAck (last_applied : string) (nack : bool)     (* 192-199 *)
| THandshake (nonce : string).                   (* 206-211 *)

(** client_config.rs 69-83; the process may be dead. *)
Record state := { s_alive : bool; s_version : option string; s_file : file }.
(** client_config.rs 86-97: before the first start. *)
Definition state_new : state := {| s_alive := false; s_version := None; s_file := FNone |}.

(** The file after 130-132, and whether the process is still there. *)
Definition write_file (f : file) (u : update) (w : wr) : file * bool :=
  match w with
  | WOk => (FUpd u, true)
  | WFailOpen => (f, true)
  | WFail t => (torn_file t u, true)
  | WCrashBefore => (f, false)
  | WCrash t => (torn_file t u, false)
  end.

(** client_config.rs 101-140 (process_configuration_update); the boolean is Ok. *)
Definition process_update (s : state) (src : source) (u : update) (o : outcome) (w : wr)
  : state * list item * bool :=
  match u_config u with
  | None => (s, [], false)
  | Some _ =>
      let t := [TTry src u o] in
      match o with
      | Rejected => (s, t, false)
      | Crashed => ({| s_alive := false; s_version := None; s_file := s_file s |}, t, false)
      | Applied =>
          let (f, alive) := write_file (s_file s) u w in
          ({| s_alive := alive; s_version := if alive then Some (u_nonce u) else None; s_file := f |},
           t, true)
      end
  end.

(** client_config.rs 143-170 (try_load_persisted_config_helper); [rd] and [rm] are
    the results of reading and of removing the file. *)
Definition load (s : state) (rd rm : bool) (o : outcome) (w : wr) : state * list item :=
  match s_file s with
  | FNone => (s, [])
  | f => if negb rd then (s, [])
         else if negb rm then (s, [])
         else
           let s' := {| s_alive := s_alive s; s_version := s_version s; s_file := FNone |} in
           match f with
           | FUpd u => fst (process_update s' Disk u o w)
           | _ => (s', [])
           end
  end.

(** client_config.rs 175-200 (try_apply_config) *)
Definition try_apply (s : state) (u : update) (o : outcome) (w : wr) : state * list item :=
  let '(s', t, ok) := process_update s Server u o w in
  if s_alive s' then (s', t ++ [TAck (u_nonce u) (negb ok)]) else (s', t).

(** client_config.rs 206-211 (partial_handshake) *)
Definition partial_handshake (s : state) : string :=
  match s_version s with Some v => v | None => "" end.

(** The calls of client_config.rs 86-97 and 174-211. *)
Inductive op :=
| Start (rd rm : bool) (o : outcome) (w : wr)    (* a new process: 86-97, then api.rs 447-449 *)
| Update (u : update) (o : outcome) (w : wr)     (* api.rs 879-883 *)
| Handshake                                      (* api.rs 900-909 *)
| Crash.

(** One call: client_config.rs 86-211. *)
Definition step (s : state) (x : op) : state * list item :=
  match x with
  | Start rd rm o w =>
      let (s', t) := load {| s_alive := true; s_version := None; s_file := s_file s |} rd rm o w in
      (s', TStart :: t)
  | Update u o w => if s_alive s then try_apply s u o w else (s, [])
  | Handshake => if s_alive s then (s, [THandshake (partial_handshake s)]) else (s, [])
  | Crash => ({| s_alive := false; s_version := None; s_file := s_file s |}, [])
  end.

(** A history of calls: client_config.rs 86-211. *)
Fixpoint run (s : state) (xs : list op) : state * list item :=
  match xs with
  | [] => (s, [])
  | x :: xs => let (s1, t1) := step s x in let (s2, t2) := run s1 xs in (s2, t1 ++ t2)
  end.
