(** Model of bd-grpc/src/lib.rs: unary calls, server streaming calls, status codes, and the reader of a stream with its read stop.

    The codec is Grpc_Model (its thread local compressors are taken to be in their reset state when a call or a stream begins, see C64).
    Protobuf, zlib, snappy and the validation of messages are parameters. HTTP carries headers and trailers unchanged, and data in order,
    cut into frames in any way (Spec: [carries]). A [HeaderMap] is the list of its entries; names are lower case. Extensions, paths, warnings
    and the error handlers are left out; so is a client that goes away in the middle of a call. *)
From Verif Require Import Base Str_Base Grpc_Model.
Local Open Scope Z_scope.

(** Headers: names with values (bytes). *)
Definition headers : Type := list (string * string).
(** [HeaderMap::get]: the first value. *)
Fixpoint hget (n : string) (h : headers) : option string :=
  match h with [] => None | (m, v) :: h' => if String.eqb n m then Some v else hget n h' end.
(** [HeaderMap::insert]: in place of all values of that name. *)
Definition hinsert (n v : string) (h : headers) : headers := filter (fun p => negb (String.eqb n (fst p))) h ++ [(n, v)].
(** [HeaderMap::append]. *)
Definition happend (n v : string) (h : headers) : headers := h ++ [(n, v)].
(** [HeaderMap::extend] with another map: its names are replaced. *)
Definition hextend (h h' : headers) : headers :=
  filter (fun p => match hget (fst p) h' with Some _ => false | None => true end) h ++ h'.

(** [HeaderValue::to_str] succeeds: visible ASCII, space and tab. *)
Definition visible (a : ascii) : bool := let n := N_of_ascii a in ((32 <=? n) && (n <? 127) || (n =? 9))%N.
(** [HeaderValue::from_str] succeeds: no control characters but tab. *)
Definition header_char (a : ascii) : bool := let n := N_of_ascii a in ((32 <=? n) && negb (n =? 127) || (n =? 9))%N.
(** A test on all bytes of a string. *)
Fixpoint str_all (p : ascii -> bool) (s : string) : bool := match s with EmptyString => true | String a s' => p a && str_all p s' end.
(** [HeaderValue::from_str(..)]; [None]: an error, on which lines 256, 846 and 849 panic. *)
Definition from_str (s : string) : option string := if str_all header_char s then Some s else None.
(** [HeaderValue::to_str(..)]. *)
Definition to_str (s : string) : option string := if str_all visible s then Some s else None.

(** A hexadecimal digit in upper case, of [urlencoding::encode]. *)
Definition hex (n : N) : ascii := ascii_of_N (if (n <? 10)%N then 48 + n else 55 + n)%N.
(** The bytes [urlencoding::encode] leaves alone: letters, digits and - _ . ~ *)
Definition unreserved (a : ascii) : bool :=
  let n := N_of_ascii a in
  ((48 <=? n) && (n <=? 57) || (65 <=? n) && (n <=? 90) || (97 <=? n) && (n <=? 122) || (n =? 45) || (n =? 46) || (n =? 95) || (n =? 126))%N.
(** [urlencoding::encode], line 255. *)
Fixpoint urlencode (s : string) : string :=
  match s with
  | EmptyString => EmptyString
  | String a s' =>
      if unreserved a then String a (urlencode s')
      else String "%"%char (String (hex (N_of_ascii a / 16)) (String (hex (N_of_ascii a mod 16)) (urlencode s')))
  end.

(** Lines 141-151. *)
Inductive code := COk | CUnknown | CInvalidArgument | CFailedPrecondition | CInternal | CUnavailable | CUnauthenticated | CNotFound.
(** Lines 155-167. *)
Definition to_int (c : code) : N :=
  match c with
  | COk => 0 | CUnknown => 2 | CInvalidArgument => 3 | CFailedPrecondition => 9 | CNotFound => 5 | CInternal => 13 | CUnavailable => 14 | CUnauthenticated => 16
  end%N.
(** Lines 171-182. *)
Definition from_string (s : string) : code :=
  if String.eqb s "0" then COk else if String.eqb s "3" then CInvalidArgument else if String.eqb s "5" then CNotFound
  else if String.eqb s "9" then CFailedPrecondition else if String.eqb s "13" then CInternal else if String.eqb s "14" then CUnavailable
  else if String.eqb s "16" then CUnauthenticated else CUnknown.

(** Lines 206-210. *)
Record status := mkStatus { st_code : code; st_message : option string }.
(** Lines 74-94. *)
Inductive gerror := GBodyStream | GClosed | GCodec (e : error) | GConnectionTimeout | GGrpc (s : status) | GHyperClient | GProtoValidation | GRequestTimeout | GSnap.
(** Line 96 [Result]. *)
Inductive gres (A : Type) := GOk (a : A) | GErr (e : gerror).
Arguments GOk {A}. Arguments GErr {A}.

(** A frame of a body as hyper gives it. *)
Inductive bframe := BData (d : list Z) | BTrailers (t : headers) | BFail.
(** An HTTP request. *)
Record request := mkReq { rq_headers : headers; rq_body : list bframe }.
(** An HTTP response. *)
Record response := mkRes { rs_code : Z; rs_headers : headers; rs_body : list bframe }.

(** Lines 58-66 and bd-grpc-codec/src/lib.rs lines 63-66. *)
Definition GRPC_STATUS : string := "grpc-status".
(** Line 60. *)
Definition GRPC_MESSAGE : string := "grpc-message".
(** Line 61. *)
Definition CONTENT_ENCODING : string := "content-encoding".
(** Line 62. *)
Definition SNAPPY : string := "snappy".
(** bd-grpc-codec/src/lib.rs line 64. *)
Definition ENCODING : string := "grpc-encoding".
(** bd-grpc-codec/src/lib.rs line 63. *)
Definition LEGACY_ENCODING : string := "x-grpc-encoding".
(** bd-grpc-codec/src/lib.rs line 65. *)
Definition ACCEPT_ENCODING : string := "grpc-accept-encoding".
(** bd-grpc-codec/src/lib.rs line 66. *)
Definition DEFLATE : string := "deflate".
(** Lines 63-64, 367. *)
Definition content_type : string * string := ("content-type", "application/grpc")%string.

(** Lines 225-238; the header exists. *)
Definition from_headers (h : headers) : status :=
  mkStatus (from_string (match hget GRPC_STATUS h with Some v => match to_str v with Some s => s | None => "" end | None => "" end))%string
           (match hget GRPC_MESSAGE h with Some v => to_str v | None => None end).

(** Lines 242-262. The encoded message is always a legal header value. *)
Definition status_response (s : status) : response :=
  mkRes 200 ([content_type; (GRPC_STATUS, dec_string (to_int (st_code s)))] ++ match st_message s with Some m => [(GRPC_MESSAGE, urlencode m)] | None => [] end) [].

(** Lines 98-113. *)
Definition error_response (e : gerror) : response :=
  match e with
  | GConnectionTimeout | GRequestTimeout => status_response (mkStatus CInternal (Some "upstream timeout"%string))
  | GGrpc s => status_response s
  | GCodec _ | GProtoValidation | GSnap => mkRes 400 [] []
  | GBodyStream | GClosed | GHyperClient => mkRes 500 [] []
  end.

(** [StatusCode]'s text, for the codes above. *)
Definition reason (c : Z) : string :=
  if c =? 400 then "400 Bad Request" else if c =? 500 then "500 Internal Server Error" else "other"%string.

(** [BodyExt::collect] and [to_bytes], lines 477-482 and 936-938: all the data of a body. *)
Fixpoint collect (b : list bframe) : option (list Z) :=
  match b with
  | [] => Some []
  | BData d :: b' => match collect b' with Some r => Some (d ++ r) | None => None end
  | BTrailers _ :: b' => collect b'
  | BFail :: _ => None
  end.

(** Lines 390-409: what [common_request] makes of a response. *)
Definition check_response (r : response) : gres response :=
  if (200 <=? rs_code r) && (rs_code r <? 300) then
    match hget GRPC_STATUS (rs_headers r) with
    | Some _ => GErr (GGrpc (from_headers (rs_headers r)))
    | None => GOk r
    end
  else GErr (GGrpc (mkStatus CInternal (Some ("Non-200 response code: " ++ reason (rs_code r))%string))).

(** The headers of a request, lines 365-374. *)
Definition request_headers (extra : headers) : headers := hextend [content_type; ("te", "trailers")%string] extra.

Section Service.
Variables (Req Res CS DS : Type).
Variables (ser_req : Req -> list Z) (parse_req : list Z -> option Req) (ser_res : Res -> list Z) (parse_res : list Z -> option Res).
Variables (deflate deflate_all : CS -> list Z -> CS * option (list Z)) (inflate inflate_all : DS -> list Z -> DS * option (list Z)) (cs_new : CS) (ds_new : DS).
Variables (snap_encode : list Z -> list Z) (snap_decode : list Z -> option (list Z)).
Variables (valid_req : Req -> bool) (valid_res : Res -> bool).

(** Lines 190-199; the gRPC compression is the stateless one, lines 427-430. *)
Inductive compression := KNone | KGrpc | KSnappy.

(** Lines 421-464: extra headers and body of a unary request. *)
Definition unary_request (k : compression) (extra : headers) (m : Req) : request :=
  let enc c := snd (encode ser_req deflate deflate_all cs_new (encoder_new c) cs_new m) in
  match k with
  | KNone => mkReq (request_headers extra) [BData (enc None)]
  | KGrpc => mkReq (request_headers (hinsert ACCEPT_ENCODING DEFLATE (hinsert ENCODING DEFLATE extra))) [BData (enc (Some CStateless))]
  | KSnappy => mkReq (request_headers (happend CONTENT_ENCODING SNAPPY extra)) [BData (snap_encode (enc None))]
  end.

(** Lines 1021-1026. *)
Definition finalize_decompression (h : headers) : option (decompressor DS) :=
  match hget ENCODING h with Some v => if String.eqb v DEFLATE then Some DStateless else None | None => None end.
(** Lines 1000-1019 for a server that would like to compress. *)
Definition finalize_response_compression (h : headers) : option (compressor CS) :=
  match hget ACCEPT_ENCODING h with Some v => if String.eqb v DEFLATE then Some CStateless else None | None => None end.

(** Lines 930-965. *)
Definition decode_request (validate : bool) (r : request) : gres Req :=
  match collect (rq_body r) with
  | None => GErr GBodyStream
  | Some bytes =>
      let plain := match hget CONTENT_ENCODING (rq_headers r) with Some v => if String.eqb v SNAPPY then snap_decode bytes else Some bytes | None => Some bytes end in
      match plain with
      | None => GErr GSnap
      | Some bytes =>
          match decode_data parse_req inflate inflate_all ds_new (decoder_new (finalize_decompression (rq_headers r))) ds_new bytes with
          | (_, _, RErr e) => GErr (GCodec e)
          | (_, _, ROk [m]) => if validate && negb (valid_req m) then GErr (GGrpc (mkStatus CInvalidArgument (Some "Invalid request"%string))) else GOk m
          | (_, _, ROk _) => GErr (GGrpc (mkStatus CInvalidArgument (Some "Invalid request body"%string)))
          end
      end
  end.

(** Lines 885-902. *)
Definition new_grpc_response (b : list bframe) (c : option (compressor CS)) : response :=
  mkRes 200 ([content_type] ++ match c with Some _ => [(ENCODING, DEFLATE)] | None => [] end) b.

(** The trailers of a success, lines 855-861 and 989-991. *)
Definition ok_trailers : headers := [(GRPC_STATUS, "0"%string)].

(** Lines 968-997 with lines 98-113 (axum turns the error into a response). *)
Definition unary_handler (validate : bool) (handle : headers -> Req -> gres Res) (r : request) : response :=
  match decode_request validate r with
  | GErr e => error_response e
  | GOk m =>
      let c := finalize_response_compression (rq_headers r) in
      match handle (rq_headers r) m with
      | GErr e => error_response e
      | GOk res => new_grpc_response [BData (snd (encode ser_res deflate deflate_all cs_new (encoder_new c) cs_new res)); BTrailers ok_trailers] c
      end
  end.

(** Lines 466-489: what a unary call makes of the response. *)
Definition unary_result (r : response) : gres Res :=
  match check_response r with
  | GErr e => GErr e
  | GOk r =>
      match collect (rs_body r) with
      | None => GErr GBodyStream
      | Some bytes =>
          match decode_data parse_res inflate inflate_all ds_new (decoder_new (finalize_decompression (rs_headers r))) ds_new bytes with
          | (_, _, RErr e) => GErr (GCodec e)
          | (_, _, ROk [m]) => GOk m
          | (_, _, ROk _) => GErr (GGrpc (mkStatus CInternal (Some "Invalid response body"%string)))
          end
      end
  end.

(** Lines 840-853: the trailers of a failure; [None]: line 849 panics. *)
Definition error_trailers (s : status) : option headers :=
  match st_message s with
  | None => Some [(GRPC_STATUS, dec_string (to_int (st_code s)))]
  | Some m => match from_str m with Some v => Some [(GRPC_STATUS, dec_string (to_int (st_code s))); (GRPC_MESSAGE, v)] | None => None end
  end.

(** Lines 1268-1285. *)
Record stats := mkStats { initiations : Z; successes : Z; failures : Z; tx_messages : Z }.

(** The texts of the errors, lines 74-94. *)
Variable display : gerror -> string.

(** Lines 1028-1096 with lines 98-113. The handler: what it sends, and what it returns. *)
Definition stream_handler (validate compress : bool) (handle : headers -> Req -> list Res * gres unit) (x : stats) (r : request) : stats * response :=
  match decode_request validate r with
  | GErr e => (mkStats (initiations x + 1) (successes x) (failures x + 1) (tx_messages x), error_response e)
  | GOk m =>
      let c := if compress then finalize_response_compression (rq_headers r) else None in
      let '(ms, res) := handle (rq_headers r) m in
      let '(_, _, frames) := encode_all ser_res deflate deflate_all cs_new (encoder_new c) cs_new ms in
      let n := tx_messages x + Z.of_nat (length ms) in
      match res with
      | GOk _ => (mkStats (initiations x + 1) (successes x + 1) (failures x) n, new_grpc_response (map BData frames ++ [BTrailers ok_trailers]) c)
      | GErr e =>
          let s := match e with GGrpc s => s | e => mkStatus CInternal (Some (display e)) end in
          (mkStats (initiations x + 1) (successes x) (failures x + 1) n,
           new_grpc_response (map BData frames ++ match error_trailers s with Some t => [BTrailers t] | None => [] end) c)
      end
  end.

(** Lines 678-711. *)
Definition stream_decompression (h : headers) : option (decompressor DS) :=
  match hget ENCODING h with
  | Some v => if String.eqb v DEFLATE then Some DStateless
              else match hget LEGACY_ENCODING h with Some v => if String.eqb v DEFLATE then Some (DStateful ds_new) else None | None => None end
  | None => match hget LEGACY_ENCODING h with Some v => if String.eqb v DEFLATE then Some (DStateful ds_new) else None | None => None end
  end.

(** The reader of a stream: its decoder and the thread's decompressor. *)
Definition reader : Type := decoder DS * DS.
(** [ServerStreamingApi::new], lines 678-711. *)
Definition reader_new (h : headers) : reader := (decoder_new (stream_decompression h), ds_new).

(** Lines 754-762: the last value of each of the two. *)
Definition trailer (n : string) (t : headers) : option string := fold_left (fun acc p => if String.eqb (fst p) n then Some (snd p) else acc) t None.
(** Lines 753-777. *)
Definition read_trailers (t : headers) : gres (option (list Res)) :=
  match trailer GRPC_STATUS t with
  | Some v =>
      match from_string (match to_str v with Some s => s | None => ""%string end) with
      | COk => GOk None
      | c => GErr (GGrpc (mkStatus c (match trailer GRPC_MESSAGE t with Some m => Some (match to_str m with Some s => s | None => ""%string end) | None => None end)))
      end
  | None => GOk None
  end.

(** Lines 738-781, one turn of the loop; [None]: the loop goes on. *)
Definition read_frame (validate : bool) (d : reader) (f : option bframe) : reader * option (gres (option (list Res))) :=
  match f with
  | None => (d, Some (GOk None))
  | Some BFail => (d, Some (GErr GBodyStream))
  | Some (BTrailers t) => (d, Some (read_trailers t))
  | Some (BData bytes) =>
      match decode_data parse_res inflate inflate_all ds_new (fst d) (snd d) bytes with
      | (d', tl', RErr e) => ((d', tl'), Some (GErr (GCodec e)))
      | (d', tl', ROk ms) =>
          ((d', tl'), if validate && negb (forallb valid_res ms) then Some (GErr GProtoValidation) else match ms with [] => None | _ => Some (GOk (Some ms)) end)
      end
  end.

(** Lines 714-783 without a read stop. *)
Fixpoint next (validate : bool) (d : reader) (body : list bframe) : reader * list bframe * gres (option (list Res)) :=
  match body with
  | [] => (d, [], GOk None)
  | f :: body' =>
      match read_frame validate d (Some f) with
      | (d', Some r) => (d', body', r)
      | (d', None) => next validate d' body'
      end
  end.

(** A caller that calls [next] until it says [None] or fails: the messages, and the failure. [fuel] bounds the calls; each takes a frame. *)
Fixpoint drain (fuel : nat) (validate : bool) (d : reader) (body : list bframe) : list Res * gres unit :=
  match fuel with
  | O => ([], GOk tt)
  | S fuel =>
      match next validate d body with
      | (d', body', GOk (Some ms)) => let '(ms', r) := drain fuel validate d' body' in (ms ++ ms', r)
      | (_, _, GOk None) => ([], GOk tt)
      | (_, _, GErr e) => ([], GErr e)
      end
  end.

(** Lines 541-566 and a caller that reads the stream to its end. *)
Definition stream_result (validate : bool) (r : response) : list Res * gres unit :=
  match check_response r with
  | GErr e => ([], GErr e)
  | GOk r => drain (S (length (rs_body r))) validate (reader_new (rs_headers r)) (rs_body r)
  end.

(** The request of a server streaming call, lines 549-557. *)
Definition stream_request (extra : headers) (m : Req) : request :=
  mkReq (request_headers extra) [BData (snd (encode ser_req deflate deflate_all cs_new (encoder_new None) cs_new m))].

(** [next] with a read stop, lines 714-737, as a task beside the one that sets the watch. *)
Inductive place := PIdle (* not in a call *) | PTop (* line 716 *) | PPaused (* line 719 *) | PSelect (* line 730 *).
(** What it consists of: the reader with what is left of the body, where it is, the watch's value and whether it changed since it was last seen. *)
Record paced := mkPaced { p_reader : reader; p_body : list bframe; p_place : place; p_stop : bool; p_changed : bool }.
(** Its steps. *)
Inductive plabel :=
| PCall (* [next] is called *)
| PLook (* lines 717-718 *)
| PSet (b : bool) (* the owner of the watch sets it *)
| PWake (* [changed] returns, lines 719 and 732-736 *)
| PFrame. (* the body yields a frame, or its end, line 731 *)
(** What can be seen: the watch being set, a frame being taken (with its content), [next] returning. *)
Inductive pitem := IStop (b : bool) | ITake (f : option bframe) | IReturn (r : gres (option (list Res))).
(** Lines 714-783. *)
Definition pstep (validate : bool) (s : paced) (l : plabel) : option (paced * list pitem) :=
  match l, p_place s with
  | PCall, PIdle => Some (mkPaced (p_reader s) (p_body s) PTop (p_stop s) (p_changed s), [])
  | PLook, PTop => Some (mkPaced (p_reader s) (p_body s) (if p_stop s then PPaused else PSelect) (p_stop s) false, [])
  | PSet b, _ => Some (mkPaced (p_reader s) (p_body s) (p_place s) b true, [IStop b])
  | PWake, PPaused | PWake, PSelect => if p_changed s then Some (mkPaced (p_reader s) (p_body s) PTop (p_stop s) false, []) else None
  | PFrame, PSelect =>
      let f := hd_error (p_body s) in
      match read_frame validate (p_reader s) f with
      | (d', Some r) => Some (mkPaced d' (tl (p_body s)) PIdle (p_stop s) (p_changed s), [ITake f; IReturn r])
      | (d', None) => Some (mkPaced d' (tl (p_body s)) PTop (p_stop s) (p_changed s), [ITake f])
      end
  | _, _ => None
  end.
(** A run of it. *)
Fixpoint prun (validate : bool) (s : paced) (ls : list plabel) : option (paced * list pitem) :=
  match ls with
  | [] => Some (s, [])
  | l :: ls' =>
      match pstep validate s l with
      | None => None
      | Some (s1, o1) => match prun validate s1 ls' with None => None | Some (s2, o2) => Some (s2, o1 ++ o2) end
      end
  end.
End Service.

(** The time of a unary call, lines 466-482: the timeout of lines 466-472 covers the wait for a permit (line 356) and for the response, not the
    wait for the body. *)
Inductive phase := HPermit | HResponse | HBody | HReturned (timed_out : bool).
(** What happens: time passes, the permit is given, the response or the end of its body arrives, or the timer is found to have expired. *)
Inductive tlabel := TTick | TPermit | TResponse | TBody | TExpire.
(** Lines 466-482. *)
Definition tstep (timeout : Z) (s : phase * Z) (l : tlabel) : option (phase * Z) :=
  match l, s with
  | TTick, (HReturned b, t) => Some (HReturned b, t)
  | TTick, (p, t) => Some (p, t + 1)
  | TPermit, (HPermit, t) => Some (HResponse, t)
  | TResponse, (HResponse, t) => Some (HBody, t)
  | TBody, (HBody, t) => Some (HReturned false, t)
  | TExpire, (HPermit, t) | TExpire, (HResponse, t) => if timeout <=? t then Some (HReturned true, t) else None
  | _, _ => None
  end.
(** A run of it. *)
Fixpoint trun (timeout : Z) (s : phase * Z) (ls : list tlabel) : option (phase * Z) :=
  match ls with [] => Some s | l :: ls' => match tstep timeout s l with Some s' => trun timeout s' ls' | None => None end end.
