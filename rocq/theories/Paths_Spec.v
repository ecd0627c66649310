(** What paths are to be (C157). *)
From Verif Require Import Base Str_Base Paths_Model.
Local Open Scope string_scope. Local Open Scope list_scope.
(** A character does not occur. *)
Fixpoint free (c : ascii) (s : string) : Prop := match s with EmptyString => True | String d s => c <> d /\ free c s end.
(** The names that protobuf allows: packages may have dots, the others not; none has a slash. *)
Definition named (pkg svc name : string) : Prop := free "/" pkg /\ free "/" svc /\ free "." svc /\ free "/" name.
(** Names are given once. *)
Definition well_formed (f : file) : Prop := NoDup (map s_name (f_services f)) /\ forall s, In s (f_services f) -> NoDup (map m_name (s_methods s)).
(** The file defines the method with these types. *)
Definition defines (f : file) (svc name out inc : string) : Prop := exists s, In s (f_services f) /\ s_name s = svc /\ In (mkMethod name out inc) (s_methods s).
(** The path that gRPC asks for: the full name of the service (with its package, if it has one) and the method. *)
Definition grpc_path (pkg svc name : string) : string := if String.eqb pkg "" then ("/" ++ svc ++ "/" ++ name)%string else ("/" ++ pkg ++ "." ++ svc ++ "/" ++ name)%string.
