(** C152: the handshake tells the server what is in force and why the last stream ended. *)
From Verif Require Import Base Str_Base Handshake_Model Handshake_Spec Handshake_Proofs.
Local Open Scope string_scope. Local Open Scope list_scope.

(** What the application supplies cannot hide the platform, the version of the SDK or that of the configuration; everything else that it supplies is told. *)
Theorem C152_metadata : forall p sdk inner,
  (forall k, get k (collect p sdk inner) = told p sdk inner k) /\ (NoDup (List.map fst inner) -> NoDup (List.map fst (collect p sdk inner))).
Proof. intros p sdk inner. split; [apply collect_told|apply collect_keys]. Qed.

(** After any history of streams, a stream is opened by one handshake with the metadata, the reason of the last closure if there was one, and the last
    versions taken; its headers name the key, the application and the compression. *)
Theorem C152_handshake : forall key p sdk inner ps ops h c,
  two_pipes ps -> story ops Top h ->
  exists o, snd (run key (start p sdk inner ps) (ops ++ [Connect c])) = snd (run key (start p sdk inner ps) ops) ++ [o] /\
    (forall k, get k (h_meta (o_handshake o)) = told p sdk inner k) /\
    h_reason (o_handshake o) = last_reason h /\
    h_runtime (o_handshake o) = last_version Runtime (initial Runtime ps) h /\
    h_config (o_handshake o) = last_version Config (initial Config ps) h /\
    forall k, get k (o_headers o) =
      if String.eqb k "grpc-accept-encoding" || String.eqb k "grpc-encoding" then (if c then Some "deflate" else None)
      else if String.eqb k "x-bitdrift-api-key" then Some key
      else if String.eqb k "x-bitdrift-app-id" then Some (match get "app_id" inner with Some a => a | None => "" end)
      else if String.eqb k "content-type" then Some "application/grpc" else None.
Proof.
  intros key p sdk inner ps ops h c T S. destruct (opens key sdk p inner ps T ops h c S) as (o & A & B & C). exists o. split; [exact A|]. split; [rewrite B; apply collect_told|exact C].
Qed.

(** A client that the server does not recognise opens no more streams, whatever happens. *)
Theorem C152_refused : forall key p sdk inner ps ops h more,
  two_pipes ps -> story ops Waiting h ->
  snd (run key (start p sdk inner ps) (ops ++ Unauthorized :: more)) = snd (run key (start p sdk inner ps) ops).
Proof. exact no_more. Qed.

(** What happens while a stream is there is the whole of what counts: every sequence of events has the effect of a story. *)
Theorem C152_stories : forall key p sdk inner ps ops,
  two_pipes ps -> ~ In Unauthorized ops ->
  exists ops' ph h, story ops' ph h /\ run key (start p sdk inner ps) ops' = run key (start p sdk inner ps) ops.
Proof. exact stories. Qed.
Print Assumptions C152_metadata.
Print Assumptions C152_handshake.
Print Assumptions C152_refused.
Print Assumptions C152_stories.

(** An application that claims another system; a stream that is closed, one that is refused, and a third. *)
Definition toy_inner : map := [("app_id", "io.shop"); ("os", "beos"); ("model", "X")].
Definition toy_pipes := [mkPipe Runtime (Some "r1"); mkPipe Config None].
Definition toy_ops := [Connect false; Accept; Apply Config "c7"; Close "reset"; Connect true; Refuse "busy"].
Example C152_story : exists h, story toy_ops Top h /\ last_reason h = "error shutdown: busy" /\ last_version Config "" h = "c7" /\ last_version Runtime "r1" h = "r1".
Proof.
  eexists. split.
  - change toy_ops with (((((([] ++ [Connect false]) ++ [Accept]) ++ [Apply Config "c7"]) ++ [Close "reset"]) ++ [Connect true]) ++ [Refuse "busy"]).
    apply story_refuse, story_connect. apply story_close with (ph := Open); [auto|]. apply story_apply, story_accept, story_connect, story_nil.
  - auto.
Qed.
Example C152_pipes : two_pipes toy_pipes. Proof. left. reflexivity. Qed.
Example C152_case : List.map (fun o => (h_reason (o_handshake o), h_runtime (o_handshake o), h_config (o_handshake o), List.length (o_headers o), get "os" (h_meta (o_handshake o)))) (snd (run "k" (start Android "1.2" toy_inner toy_pipes) (toy_ops ++ [Connect false])))
  = [("", "r1", "", 3%nat, Some "android"); ("reset", "r1", "c7", 5%nat, Some "android"); ("error shutdown: busy", "r1", "c7", 3%nat, Some "android")].
Proof. vm_compute. reflexivity. Qed.
Example C152_waiting : exists h, story [Connect true] Waiting h. Proof. eexists. apply (story_connect [] true), story_nil. Qed.
