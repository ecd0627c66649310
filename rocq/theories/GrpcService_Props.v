(** C99-C103: gRPC calls. *)
From Verif Require Import Base Str_Base Grpc_Model Grpc_Spec Grpc_Props GrpcService_Model GrpcService_Spec GrpcService_Proofs.
Local Open Scope Z_scope.

Section Calls.
(** Messages, their encodings, zlib, snappy, validation and the texts of errors: any that lose nothing. *)
Context {Req Res CS DS : Type}.
Context (ser_req : Req -> list Z) (parse_req : list Z -> option Req) (ser_res : Res -> list Z) (parse_res : list Z -> option Res).
Context (deflate deflate_all : CS -> list Z -> CS * option (list Z)) (inflate inflate_all : DS -> list Z -> DS * option (list Z)) (cs_new : CS) (ds_new : DS).
Context (snap_encode : list Z -> list Z) (snap_decode : list Z -> option (list Z)) (valid_req : Req -> bool) (valid_res : Res -> bool).
Context (display : gerror -> string).
Context (parse_ser_req : forall m, parse_req (ser_req m) = Some m) (bytes_req : forall m, Forall is_byte (ser_req m)).
Context (parse_ser_res : forall m, parse_res (ser_res m) = Some m) (bytes_res : forall m, Forall is_byte (ser_res m)).
Context (zlib : lossless deflate deflate_all inflate inflate_all cs_new ds_new).
Context (snappy : forall b, snap_decode (snap_encode b) = Some b).

Notation encode_req c m := (snd (encode ser_req deflate deflate_all cs_new (encoder_new c) cs_new m)).
Notation encode_res c m := (snd (encode ser_res deflate deflate_all cs_new (encoder_new c) cs_new m)).
Notation unary_request := (unary_request Req CS ser_req deflate deflate_all cs_new snap_encode).
Notation unary_handler := (unary_handler Req Res CS DS parse_req ser_res deflate deflate_all inflate inflate_all cs_new ds_new snap_decode valid_req).
Notation unary_result := (unary_result Res DS parse_res inflate inflate_all ds_new).
Notation decode_request := (decode_request Req DS parse_req inflate inflate_all ds_new snap_decode valid_req).
Notation stream_request := (stream_request Req CS ser_req deflate deflate_all cs_new).
Notation stream_handler := (stream_handler Req Res CS DS parse_req ser_res deflate deflate_all inflate inflate_all cs_new ds_new snap_decode valid_req display).
Notation stream_result := (stream_result Res DS parse_res inflate inflate_all ds_new valid_res).
Notation drain := (drain Res DS parse_res inflate inflate_all ds_new valid_res).
Notation read_frame := (read_frame Res DS parse_res inflate inflate_all ds_new valid_res).
Notation prun := (prun Res DS parse_res inflate inflate_all ds_new valid_res).

(** C99. With every compression, and however HTTP cuts the bodies, a unary call returns what the handler of the server returned for that message; an error of the
    handler is an error of the call, with the code. *)
Theorem C99_unary : forall k extra m body validate handle body', plain_headers extra -> carries (rq_body (unary_request k extra m)) body ->
  blen (encode_req None m) < 2 ^ 32 -> blen (encode_req (Some CStateless) m) < 2 ^ 32 -> (validate = true -> valid_req m = true) ->
  let h := rq_headers (unary_request k extra m) in
  (forall r c, handle h m = GOk r -> blen (encode_res c r) < 2 ^ 32) ->
  let answer := unary_handler validate handle (mkReq h body) in carries (rs_body answer) body' ->
  unary_result (mkRes (rs_code answer) (rs_headers answer) body') = match handle h m with GOk r => GOk r | GErr e => GErr (seen e) end.
Proof. intros. eapply unary_call; eassumption. Qed.

(** C99. A body with no message, several, or one that is not valid, is refused; the handler is not asked. *)
Theorem C99_one_message : forall h ms body validate handle body',
  hget "grpc-encoding" h = None -> hget "content-encoding" h = None ->
  carries (map BData (snd (encode_all ser_req deflate deflate_all cs_new (encoder_new None) cs_new ms))) body ->
  Forall (fun b => blen b < 2 ^ 32) (snd (encode_all ser_req deflate deflate_all cs_new (encoder_new None) cs_new ms)) ->
  (forall m, ms = [m] -> validate = true /\ valid_req m = false) ->
  let answer := unary_handler validate handle (mkReq h body) in
  exists text, unary_result (mkRes (rs_code answer) (rs_headers answer) body') = GErr (GGrpc (mkStatus CInvalidArgument text)).
Proof. intros. eapply one_valid_message; eassumption. Qed.

(** C99. The handler is told the headers of the caller. *)
Theorem C99_headers : forall k extra m n, ~ reserved n -> hget n (rq_headers (unary_request k extra m)) = hget n extra.
Proof. intros. eapply handler_headers; eassumption. Qed.

(** C100. A caller that reads a stream to its end gets the messages the handler sent, in order, and the outcome of the handler, if the text of its error is plain. *)
Theorem C100_stream : forall extra m body validate compress handle x ms res vres body', plain_headers extra \/ (hget ENCODING extra = None /\ hget CONTENT_ENCODING extra = None) ->
  carries (rq_body (stream_request extra m)) body -> blen (encode_req None m) < 2 ^ 32 -> (validate = true -> valid_req m = true) ->
  let h := rq_headers (stream_request extra m) in handle h m = (ms, res) -> (vres = true -> forallb valid_res ms = true) ->
  (forall c, Forall (fun b => blen b < 2 ^ 32) (snd (encode_all ser_res deflate deflate_all cs_new (encoder_new c) cs_new ms))) ->
  let answer := snd (stream_handler validate compress handle x (mkReq h body)) in carries (rs_body answer) body' ->
  forall outcome, match res with
    | GOk _ => outcome = GOk tt
    | GErr e => let s := match e with GGrpc s => s | e => mkStatus CInternal (Some (display e)) end in
                st_code s <> COk /\ (forall t, st_message s = Some t -> plain_text t) /\ outcome = GErr (GGrpc s)
    end ->
  stream_result vres (mkRes (rs_code answer) (rs_headers answer) body') = (ms, outcome).
Proof. intros. eapply stream_call with (res := res) (handle := handle); eassumption. Qed.

(** C100. A request the server cannot read makes the call fail. *)
Theorem C100_rejected : forall validate compress handle x rq e vres body', decode_request validate rq = GErr e ->
  let answer := snd (stream_handler validate compress handle x rq) in
  stream_result vres (mkRes (rs_code answer) (rs_headers answer) body') = ([], GErr (seen e)).
Proof. intros. eapply stream_rejected; eassumption. Qed.

(** C101. A reader returns the messages the decoder finds in the frames, in order, and then its error, or else what follows the data. *)
Theorem C101_reader : forall chunks fuel v d tl rest final d' tl' ms e,
  (length chunks < fuel)%nat -> (forall fuel d, (0 < fuel)%nat -> drain fuel v d rest = ([], final)) ->
  feed parse_res inflate inflate_all ds_new d tl chunks = (d', tl', ms, e) -> (v = true -> forallb valid_res ms = true) ->
  drain fuel v (d, tl) (map BData chunks ++ rest) = (ms, match e with Some e => GErr (GCodec e) | None => final end).
Proof. intros. eapply drain_feed; eassumption. Qed.

(** C101. A read stop, set and cleared at any times, changes nothing of what is returned: the frames are taken one after the other, none twice, none left out. *)
Theorem C101_same : forall v ls s s' tr, prun v s ls = Some (s', tr) ->
  returned tr = reads (read_frame v) (p_reader DS s) (taken tr) /\
  exists n, taken tr = map Some (firstn n (p_body DS s)) ++ repeat None (n - length (p_body DS s)) /\ p_body DS s' = skipn n (p_body DS s).
Proof. intros. eapply paced_same; eassumption. Qed.

(** C101. After the read stop was set at most one more frame is taken until it is cleared. *)
Theorem C101_stop : forall v ls1 ls2 s s' tr1 tr2 s1, prun v s (ls1 ++ [PSet true]) = Some (s1, tr1) -> prun v s1 ls2 = Some (s', tr2) -> never_cleared tr2 ->
  (length (taken tr2) <= 1)%nat.
Proof. intros. eapply stop_bounds; eassumption. Qed.

(** C102. Every streaming request is counted as one initiation and as one success or one failure, by the result of the handler, and every message sent
    is counted. *)
Theorem C102_stats : forall validate compress handle rqs x,
  let y := fold_left (fun x rq => fst (stream_handler validate compress handle x rq)) rqs x in
  let good rq := match decode_request validate rq with GOk m => match snd (handle (rq_headers rq) m) with GOk _ => true | GErr _ => false end | GErr _ => false end in
  initiations y = initiations x + Z.of_nat (length rqs) /\
  successes y = successes x + Z.of_nat (length (filter good rqs)) /\ failures y = failures x + Z.of_nat (length (filter (fun rq => negb (good rq)) rqs)) /\
  tx_messages y = tx_messages x + fold_right Z.add 0 (map (fun rq => match decode_request validate rq with GOk m => Z.of_nat (length (fst (handle (rq_headers rq) m))) | GErr _ => 0 end) rqs).
Proof. intros validate compress handle rqs x. eapply stream_stats; eassumption. Qed.
End Calls.
Print Assumptions C99_unary.
Print Assumptions C99_one_message.
Print Assumptions C99_headers.
Print Assumptions C100_stream.
Print Assumptions C100_rejected.
Print Assumptions C101_reader.
Print Assumptions C101_same.
Print Assumptions C101_stop.
Print Assumptions C102_stats.

(** The toy messages and compressor of Grpc_Props, and a snappy that prepends a byte. *)
Definition bits := list bool.
Definition toy_snap (b : list Z) := 9 :: b.
Definition toy_unsnap (b : list Z) := match b with 9 :: b' => Some b' | _ => None end.
Definition toy_display (e : gerror) : string := "failed".
Definition toy_request := unary_request bits Z bits_out toy_deflate toy_deflate 0 toy_snap.
Definition toy_serve := unary_handler bits bits Z Z bits_in bits_out toy_deflate toy_deflate toy_inflate toy_inflate 0 0 toy_unsnap (fun _ => true).
Definition toy_result := unary_result bits Z bits_in toy_inflate toy_inflate 0.
Definition toy_stream := stream_handler bits bits Z Z bits_in bits_out toy_deflate toy_deflate toy_inflate toy_inflate 0 0 toy_unsnap (fun _ => true) toy_display.
Definition toy_ask := stream_request bits Z bits_out toy_deflate toy_deflate 0.
Definition toy_read := stream_result bits Z bits_in toy_inflate toy_inflate 0 (fun _ => true).
(** A call in which HTTP leaves the bodies as they are. *)
Definition toy_call k extra m handle := toy_result (toy_serve true handle (toy_request k extra m)).
(** A handler that negates the message, and fails on the empty one. *)
Definition negate (h : headers) (m : bits) : gres bits :=
  match m with [] => GErr (GGrpc (mkStatus CNotFound (Some "none"%string))) | _ => GOk (map negb m) end.

Example C99_ex : (* 120 bits: compressed; the bodies are cut into bytes *)
  let m := repeat true 120 in let h := [("x-id", "7")]%string in
  let rq := toy_request KGrpc h m in let body := map (fun b => BData [b]) (match rq_body rq with [BData d] => d | _ => [] end) in
  let answer := toy_serve true negate (mkReq (rq_headers rq) body) in
  let body' := match rs_body answer with [BData d; t] => map (fun b => BData [b]) d ++ [t] | _ => [] end in
  plain_headers h /\ hget "x-id" (rq_headers rq) = Some "7"%string /\ length body = 126%nat /\ length body' = 127%nat /\ hget "grpc-encoding" (rs_headers answer) = Some "deflate"%string /\
  toy_result (mkRes (rs_code answer) (rs_headers answer) body') = GOk (repeat false 120).
Proof. vm_compute. repeat split; reflexivity. Qed.
Example C99_kinds_ex : toy_call KNone [] [true; false] negate = GOk [false; true] /\ toy_call KSnappy [] [true; false] negate = GOk [false; true]
  /\ toy_call KGrpc [] [] negate = GErr (GGrpc (mkStatus CNotFound (Some "none"%string))).
Proof. vm_compute. auto. Qed.
Example C99_one_message_ex : let two := snd (encode_all bits_out toy_deflate toy_deflate 0 (encoder_new None) 0 [ [true]; [false] ]) in
  length two = 2%nat /\ toy_result (toy_serve true negate (mkReq [] (map BData two))) = GErr (GGrpc (mkStatus CInvalidArgument (Some "Invalid%20request%20body"%string))).
Proof. vm_compute. auto. Qed.
Example carries_ex : carries [BData [1; 2; 3]; BTrailers ok_trailers] [BData [1]; BData []; BData [2; 3]; BTrailers ok_trailers].
Proof. exists [[1; 2; 3]], [[1]; []; [2; 3]], [BTrailers ok_trailers]. repeat split; eauto. Qed.

(** C99. The text of an error does not come back: it is encoded by the server and not decoded by the client. *)
Theorem C99_message_refuted : exists (handle : headers -> bits -> gres bits) m s, handle (rq_headers (toy_request KNone [] m)) m = GErr (GGrpc s) /\
  toy_call KNone [] m handle <> GErr (GGrpc s) /\ toy_call KNone [] m handle = GErr (GGrpc (mkStatus (st_code s) (Some "not%20found"%string))).
Proof. exists (fun _ _ => GErr (GGrpc (mkStatus CNotFound (Some "not found"%string)))), [true], (mkStatus CNotFound (Some "not found"%string)). vm_compute. repeat split; congruence. Qed.

(** C99. A server that reports a failure in the trailers after the message: the call succeeds. *)
Theorem C99_trailers_refuted : exists body, In (BTrailers [("grpc-status", "13")]%string) body /\
  toy_result (mkRes 200 [content_type] body) = GOk [true].
Proof. exists [BData [0; 0; 0; 0; 1; 1]; BTrailers [("grpc-status", "13")]%string]. vm_compute. auto. Qed.

(** A stream of [n] copies of the message. *)
Definition copies (n : nat) (r : gres unit) (h : headers) (m : bits) : list bits * gres unit := (repeat m n, r).
Definition fail (s : string) : gres unit := GErr (GGrpc (mkStatus CUnavailable (Some s))).
Definition toy_stream_call handle m := toy_read false (snd (toy_stream true true handle (mkStats 0 0 0 0) (toy_ask [("grpc-accept-encoding", "deflate")]%string m))).

Example C100_ex : toy_stream_call (copies 3 (GOk tt)) (repeat true 110) = (repeat (repeat true 110) 3, GOk tt)
  /\ toy_stream_call (copies 2 (fail "try later")) [true] = ([[true]; [true] ], fail "try later")
  /\ toy_stream_call (copies 1 (GErr GHyperClient)) [true] = ([[true] ], GErr (GGrpc (mkStatus CInternal (Some "failed"%string)))).
Proof. vm_compute. auto. Qed.
Example C100_rejected_ex : exists rq, decode_request bits Z bits_in toy_inflate toy_inflate 0 toy_unsnap (fun _ => true) true rq = GErr (GCodec EProtobuf).
Proof. exists (mkReq [] [BData [0; 0; 0; 0; 1; 7] ]). vm_compute. reflexivity. Qed.

(** C100. A handler that fails with a text of two lines: the server does not manage to send the failure, and the client sees a stream that ended well. *)
Theorem C100_lines_refuted : exists text, toy_stream_call (copies 2 (fail text)) [true] = ([[true]; [true] ], GOk tt).
Proof. exists (String "a" (String (ascii_of_nat 10) "b"%string)). vm_compute. reflexivity. Qed.
(** C100. A text that is not ASCII is lost. *)
Theorem C100_text_refuted : exists text, text <> ""%string /\ toy_stream_call (copies 2 (fail text)) [true] = ([[true]; [true] ], fail "").
Proof. exists (String (ascii_of_nat 195) (String (ascii_of_nat 169) ""%string)). vm_compute. split; [discriminate|reflexivity]. Qed.
(** C100. A stream cut off in the middle of a message is taken to be complete. *)
Theorem C100_truncated_refuted : toy_read false (mkRes 200 [content_type] [BData [0; 0; 0; 0; 2; 1] ]) = ([], GOk tt).
Proof. vm_compute. reflexivity. Qed.

Definition toy_reader : reader Z := reader_new Z 0 [].
Definition toy_prun := prun bits Z bits_in toy_inflate toy_inflate 0 (fun _ => true) false.
Definition one (b : Z) : bframe := BData [0; 0; 0; 0; 1; b].
(** Stopped while it waits for a frame: one more is taken, then none until the stop is cleared. *)
Example C101_ex : exists s1 tr1 s2 tr2, toy_prun (mkPaced Z toy_reader [one 1; one 0; one 1] PIdle false false) ([PCall; PLook; PFrame; PCall; PLook] ++ [PSet true]) = Some (s1, tr1) /\
  toy_prun s1 [PFrame; PCall; PLook; PSet true; PWake; PLook] = Some (s2, tr2) /\ taken tr2 = [Some (one 0)] /\ returned tr2 = [GOk (Some [[false] ])] /\ p_place Z s2 = PPaused.
Proof. do 4 eexists. split; [vm_compute; reflexivity|]. split; [vm_compute; reflexivity|]. vm_compute. auto. Qed.
Example C101_reader_ex : exists d tl, feed bits_in toy_inflate toy_inflate 0 (fst toy_reader) (snd toy_reader) [[0; 0; 0]; [0; 1; 1; 0]; [0; 0; 0; 1; 7] ] = (d, tl, [[true] ], Some EProtobuf).
Proof. do 2 eexists. vm_compute. reflexivity. Qed.

Example C102_ex : let y := fold_left (fun x rq => fst (toy_stream true true (copies 2 (fail "x")) x rq)) [toy_ask [] [true]; mkReq [] []; toy_ask [] [] ] (mkStats 0 0 0 0) in
  (initiations y, successes y, failures y, tx_messages y) = (3, 0, 3, 4).
Proof. vm_compute. reflexivity. Qed.

(** C103. A unary call reports a timeout only when the time is over. *)
Theorem C103_not_before_partial : forall timeout ls p t, trun timeout (HPermit, 0) ls = Some (p, t) -> p = HReturned true -> timeout <= t.
Proof. exact timeout_covers. Qed.
Print Assumptions C103_not_before_partial.
Example C103_ex : trun 2 (HPermit, 0) [TTick; TPermit; TTick; TExpire] = Some (HReturned true, 2).
Proof. reflexivity. Qed.

(** C103. A server that sends its headers and then nothing more keeps the call waiting for as long as it likes. *)
Theorem C103_body_refuted : forall timeout n, 0 < timeout -> exists ls, trun timeout (HPermit, 0) ls = Some (HBody, Z.of_nat n) /\
  forall t, tstep timeout (HBody, t) TExpire = None.
Proof.
  intros timeout n _. exists ([TPermit; TResponse] ++ repeat TTick n). split; [|reflexivity]. cbn [app trun tstep].
  assert (G: forall n t, trun timeout (HBody, t) (repeat TTick n) = Some (HBody, t + Z.of_nat n)).
  { induction n0 as [|n0 IH]; intros t; cbn [repeat trun tstep]; [f_equal; f_equal; lia|]. rewrite IH. f_equal. f_equal. lia. }
  rewrite G. reflexivity.
Qed.
Print Assumptions C103_body_refuted.
Print Assumptions C99_message_refuted.
Print Assumptions C99_trailers_refuted.
Print Assumptions C100_lines_refuted.
Print Assumptions C100_text_refuted.
Print Assumptions C100_truncated_refuted.
