(** Model of the paths of service methods: bd-grpc/src/lib.rs lines 1099-1238.

    A file of definitions has a package and services; a service has methods with the full names of their messages. A router is the list of what was registered;
    [route] of axum panics if the path is taken. Identifiers of protobuf hold no characters with a meaning in routes. *)
From Verif Require Import Base Str_Base.
Local Open Scope string_scope. Local Open Scope list_scope.

(** [MethodDescriptor]: name, input, output (lines 1202, 1216, 1222). *)
Record method := mkMethod { m_name : string; m_input : string; m_output : string }.
(** [ServiceDescriptor], lines 1194-1201. *)
Record service := mkService { s_name : string; s_methods : list method }.
(** [FileDescriptor], lines 1190, 1194 and 1232. *)
Record file := mkFile { f_package : string; f_services : list service }.

(** Lines 1201-1206: the first method of that name. *)
Fixpoint find_method (name : string) (l : list method) : option method :=
  match l with [] => None | m :: l => if String.eqb (m_name m) name then Some m else find_method name l end.
(** Lines 1192-1211: the loop over the services. *)
Fixpoint find (svc name : string) (l : list service) (found : option service) : option service * option method :=
  match l with
  | [] => (found, None)
  | s :: l =>
      if String.eqb (s_name s) svc then match find_method name (s_methods s) with Some m => (Some s, Some m) | None => find svc name l (Some s) end
      else find svc name l found
  end.
(** How [new] ends, lines 1213-1228. *)
Inductive made := Path (p : string) | NoService | NoMethod | WrongInput | WrongOutput.
(** Lines 1187-1238; [out] and [inc] are the full names of the types of the caller. *)
Definition new_with_fd (f : file) (svc name out inc : string) : made :=
  match find svc name (f_services f) None with
  | (None, _) => NoService
  | (Some s, None) => NoMethod
  | (Some s, Some m) =>
      if negb (String.eqb (m_input m) out) then WrongInput
      else if negb (String.eqb (m_output m) inc) then WrongOutput
      else Path ("/" ++ f_package f ++ "." ++ s_name s ++ "/" ++ m_name m)%string
  end.

(** Lines 1099-1124 and 1126-1158: a router for each method; [merge]d routers. [None]: a panic of axum. *)
Fixpoint register {H} (routes : list (string * H)) (new : list (string * H)) : option (list (string * H)) :=
  match new with
  | [] => Some routes
  | (p, h) :: new => if existsb (fun r => String.eqb p (fst r)) routes then None else register (routes ++ [(p, h)]) new
  end.
(** A request for a path (line 361) comes to the handler of that path. *)
Fixpoint dispatch {H} (routes : list (string * H)) (p : string) : option H :=
  match routes with [] => None | (q, h) :: routes => if String.eqb p q then Some h else dispatch routes p end.
