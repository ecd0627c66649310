(** What a caller can expect of a gRPC call, in terms of the two ends only. *)
From Verif Require Import Base Str_Base Grpc_Model GrpcService_Model.
Local Open Scope Z_scope.

(** What HTTP does to a body: the data arrives in order, cut in any way; then the trailers, if any. *)
Definition carries (b b' : list bframe) : Prop :=
  exists ds chunks t, b = map BData ds ++ t /\ b' = map BData chunks ++ t /\ concat ds = concat chunks /\ (t = [] \/ exists h, t = [BTrailers h]).

(** Names of headers the library itself uses on requests. *)
Definition reserved (n : string) : Prop := In n ["grpc-encoding"; "grpc-accept-encoding"; "content-encoding"; "content-type"; "te"]%string.
(** Names of headers that change how a body is read. *)
Definition plain_headers (h : headers) : Prop :=
  hget "grpc-encoding" h = None /\ hget "grpc-accept-encoding" h = None /\ hget "content-encoding" h = None.

(** What the client of a unary call sees of an error of the server. *)
Definition seen (e : gerror) : gerror :=
  match e with
  | GGrpc s => GGrpc (mkStatus (st_code s) (match st_message s with Some m => Some (urlencode m) | None => None end))
  | GConnectionTimeout | GRequestTimeout => GGrpc (mkStatus CInternal (Some "upstream%20timeout"%string))
  | GCodec _ | GProtoValidation | GSnap => GGrpc (mkStatus CInternal (Some "Non-200 response code: 400 Bad Request"%string))
  | GBodyStream | GClosed | GHyperClient => GGrpc (mkStatus CInternal (Some "Non-200 response code: 500 Internal Server Error"%string))
  end.

(** A text that a trailer carries unchanged: visible ASCII, spaces and tabs. *)
Definition plain_text (s : string) : Prop := str_all visible s = true.

Section Paced.
Context {Res : Type}.
(** What a run shows: the frames taken, the results returned, the times the watch was cleared. *)
Fixpoint taken (tr : list (pitem Res)) : list (option bframe) :=
  match tr with [] => [] | ITake _ f :: tr' => f :: taken tr' | _ :: tr' => taken tr' end.
Fixpoint returned (tr : list (pitem Res)) : list (gres (option (list Res))) :=
  match tr with [] => [] | IReturn _ r :: tr' => r :: returned tr' | _ :: tr' => returned tr' end.
Definition never_cleared (tr : list (pitem Res)) : Prop := ~ In (IStop Res false) tr.
End Paced.

(** The result of reading frames one after the other. *)
Section Reads.
Context {Res D : Type} (read : D -> option bframe -> D * option (gres (option (list Res)))).
Fixpoint reads (d : D) (fs : list (option bframe)) : list (gres (option (list Res))) :=
  match fs with
  | [] => []
  | f :: fs' => let '(d', r) := read d f in match r with Some x => x :: reads d' fs' | None => reads d' fs' end
  end.
End Reads.
