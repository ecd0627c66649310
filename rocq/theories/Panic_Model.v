(** The panic handler of a process: bd-panic/src/lib.rs, not for wasm. A panic while a handler runs is not modelled. *)
From Verif Require Import Base Str_Base.
Local Open Scope string_scope. Local Open Scope list_scope.

(** What a panic carries (lib.rs:31-39): a [&str], a [String] or something else. *)
Inductive payload := Static (s : string) | Owned (s : string) | Other.
(** A panic (lib.rs:30-44): what it carries, and its file and line if known. *)
Record info := { i_payload : payload; i_location : option (string * N) }.

(** What a handler does: prints a backtrace (lib.rs:51-53), logs a line (lib.rs:48 and 78), ends the process with a code (lib.rs:80); or the handler of the standard library prints. *)
Inductive effect := Standard (i : info) | Backtrace (i : info) | Error (line : string) | Exit (code : N).
(** A handler: lib.rs:30, 76. *)
Definition hook := info -> list effect.
(** The handler of a process before any call ([std::panic]; replaced in lib.rs:30, 53, 76). *)
Definition standard : hook := fun i => [Standard i].

(** lib.rs:31-39, the text of the line. *)
Definition message (i : info) : string := match i_payload i with Static s => s | Owned s => s | Other => "<none>" end.
(** lib.rs:41-44, the place of the line. *)
Definition location (i : info) : string := match i_location i with None => "<none>" | Some (f, l) => (f ++ ":" ++ dec_string l)%string end.
(** lib.rs:30-49: the handler for a log. *)
Definition log_hook : hook := fun i => [Error ("panic: message=""" ++ message i ++ """ location=" ++ location i)%string].
(** lib.rs:51-53: the handler that color_backtrace installs in place of the one before. *)
Definition color_hook : hook := fun i => [Backtrace i].

(** lib.rs:26-55, [platform_default]; [log_panic] is whether LOG_PANIC is set. The handler before is replaced. *)
Definition platform_default (log_panic : bool) (h : hook) : hook := if log_panic then log_hook else color_hook.

(** lib.rs:59-68, [PanicType]. *)
Inductive panic_type := BacktraceOnly | ForceAbort.

(** [process::exit] does not return: what comes after it is not run (lib.rs:76-81). *)
Fixpoint then_ (es fs : list effect) : list effect :=
  match es with [] => fs | Exit c :: _ => [Exit c] | e :: es => e :: then_ es fs end.

(** lib.rs:71-85, [default]: the handler after a call. *)
Definition default (log_panic : bool) (t : panic_type) (h : hook) : hook :=
  let h := platform_default log_panic h in
  match t with
  | BacktraceOnly => h
  | ForceAbort => fun i => then_ (h i) [Error "Forcing process exit after panic"; Exit 1]
  end.

(** A process that calls [default] any number of times (lib.rs:71-85). *)
Fixpoint calls (h : hook) (l : list (bool * panic_type)) : hook :=
  match l with [] => h | (e, t) :: l => calls (default e t h) l end.
