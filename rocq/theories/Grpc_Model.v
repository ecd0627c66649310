(** Model of bd-grpc-codec/src/lib.rs: framing of protobuf messages.

    Protobuf serialisation and the zlib library are parameters. The thread local compressor (lines 171-173) and decompressor (lines 387-390)
    are shared by all encoders and decoders of a thread: their state is passed in and out explicitly. Bytes are [Z] in 0..255. Logging and
    the reallocation of the empty buffer (lines 366-371) have no observable effect and are left out. *)
From Verif Require Import Base.
Local Open Scope Z_scope.

Section Grpc.
Variables (Msg CS DS : Type).
Variable serialize : Msg -> list Z.
Variable parse : list Z -> option Msg.
(** [deflate s data]: write [data] and flush; [deflate_all s data]: write [data] and finish the stream. [None]: an io error. *)
Variables (deflate deflate_all : CS -> list Z -> CS * option (list Z)).
(** The same for the decompressor. *)
Variables (inflate inflate_all : DS -> list Z -> DS * option (list Z)).
(** A compressor / decompressor just created or reset. *)
Variables (cs_new : CS) (ds_new : DS).

(** Line 57. *)
Definition PREFIX : nat := 5.
(** Line 61. *)
Definition THRESHOLD : Z := 100.

(** [put_u32] / [to_be_bytes] of [n as u32] (lines 200-203, 228-229). *)
Definition be32 (n : Z) : list Z := [n / 16777216 mod 256; n / 65536 mod 256; n / 256 mod 256; n mod 256].
(** [get_u32], line 339. *)
Definition of_be32 (l : list Z) : Z := fold_left (fun a b => a * 256 + b) l 0.

(** The length of a buffer, lines 106-145 and 312-373. *)
Definition blen (l : list Z) : Z := Z.of_nat (length l).

(** Lines 72-86. *)
Inductive compressor := CStateless | CStateful (s : CS).
(** Lines 80-86 [Encoder]. *)
Record encoder := mkEnc { e_comp : option compressor; e_tx : Z; e_txu : Z }.
(** Lines 90-103. *)
Definition encoder_new (c : option compressor) : encoder := mkEnc c 0 0.

(** Lines 161-218 [encode_compressed]: new compressor, new thread local compressor, frame. *)
Definition encode_compressed (c : compressor) (tl : CS) (m : Msg) : compressor * CS * option (list Z) :=
  match c with
  | CStateless =>
      match deflate_all tl (serialize m) with
      | (_, Some out) => (CStateless, cs_new, Some (1 :: be32 (blen out) ++ out))
      | (tl', None) => (CStateless, tl', None)
      end
  | CStateful s =>
      match deflate s (serialize m) with
      | (s', Some out) => (CStateful s', tl, Some (1 :: be32 (blen out) ++ out))
      | (s', None) => (CStateful s', tl, None)
      end
  end.

(** Lines 220-244. *)
Definition encode_uncompressed (m : Msg) : list Z := 0 :: be32 (blen (serialize m)) ++ serialize m.

(** Lines 106-144. *)
Definition encode (e : encoder) (tl : CS) (m : Msg) : encoder * CS * list Z :=
  let size := blen (serialize m) in
  let '(comp, tl', bytes) :=
    match e_comp e with
    | Some c =>
        if THRESHOLD <=? size then
          match encode_compressed c tl m with
          | (c', tl', Some bytes) => (Some c', tl', bytes)
          | (_, tl', None) => (None, tl', encode_uncompressed m)
          end
        else (e_comp e, tl, encode_uncompressed m)
    | None => (None, tl, encode_uncompressed m)
    end in
  (mkEnc comp (e_tx e + blen bytes) (e_txu e + size + Z.of_nat PREFIX), tl', bytes).

(** Lines 251-254, 276-285. *)
Inductive decompressor := DStateless | DStateful (s : DS).
(** Lines 276-285 [Decoder]. *)
Record decoder := mkDec { d_buf : list Z; d_decomp : option decompressor; d_comp : bool; d_size : option Z; d_rx : Z; d_rxd : Z }.
(** Lines 289-303. *)
Definition decoder_new (d : option decompressor) : decoder := mkDec [] d false None 0 0.

(** Lines 45-60 [Error]. *)
Inductive error := EProtobuf | EProtocol | EIo.
(** [Result] of lines 45-60. *)
Inductive result (A : Type) := ROk (a : A) | RErr (e : error).
Arguments ROk {A}. Arguments RErr {A}.

(** Lines 376-414 [decompress] on the bytes already split off: new decompressor, new thread local decompressor, output. *)
Definition decompress (d : option decompressor) (tl : DS) (data : list Z) : option decompressor * DS * result (list Z) :=
  match d with
  | None => (None, tl, RErr EProtocol)
  | Some (DStateful s) =>
      match inflate s data with
      | (s', Some out) => (Some (DStateful s'), tl, ROk out)
      | (s', None) => (Some (DStateful s'), tl, RErr EIo)
      end
  | Some DStateless =>
      match inflate_all tl data with
      | (_, Some out) => (Some DStateless, ds_new, ROk out)
      | (tl', None) => (Some DStateless, tl', RErr EIo)
      end
  end.

(** Lines 332-364, the loop of [decode_data]; [msgs]: messages pushed so far. [fuel] bounds the iterations, see [loop_fuel]. *)
Fixpoint decode_loop (fuel : nat) (d : decoder) (tl : DS) (msgs : list Msg) : decoder * DS * result (list Msg) :=
  match fuel with
  | O => (d, tl, ROk msgs)
  | S fuel =>
      match d_size d with
      | None =>
          if Nat.leb PREFIX (length (d_buf d)) then
            decode_loop fuel
              (mkDec (skipn PREFIX (d_buf d)) (d_decomp d) (nth 0 (d_buf d) 0 =? 1) (Some (of_be32 (firstn 4 (skipn 1 (d_buf d))))) (d_rx d) (d_rxd d))
              tl msgs
          else (d, tl, ROk msgs)
      | Some n =>
          if n <=? blen (d_buf d) then
            let data := firstn (Z.to_nat n) (d_buf d) in
            let rest := skipn (Z.to_nat n) (d_buf d) in
            let '(dc, tl', r) := if d_comp d then decompress (d_decomp d) tl data else (d_decomp d, tl, ROk data) in
            match r with
            | RErr e => (mkDec rest dc (d_comp d) (d_size d) (d_rx d) (d_rxd d), tl', RErr e)
            | ROk out =>
                let d' := mkDec rest dc (d_comp d) None (d_rx d) (d_rxd d + blen out) in
                match parse out with
                | None => (d', tl', RErr EProtobuf)
                | Some m => decode_loop fuel d' tl' (msgs ++ [m])
                end
            end
          else (d, tl, ROk msgs)
      end
  end.

(** Every iteration consumes the prefix or completes a message. *)
Definition loop_fuel (d : decoder) : nat := 2 * length (d_buf d) + 2.

(** Lines 312-374. *)
Definition decode_data (d : decoder) (tl : DS) (data : list Z) : decoder * DS * result (list Msg) :=
  let d := mkDec (d_buf d ++ data) (d_decomp d) (d_comp d) (d_size d) (d_rx d + blen data) (d_rxd d) in
  decode_loop (loop_fuel d) d tl [].

(** A reader that feeds chunks until the first error (as the API client does, bd-api/src/api.rs lines 262-270): the messages of every
    successful call, and the error if there is one. *)
Fixpoint feed (d : decoder) (tl : DS) (chunks : list (list Z)) : decoder * DS * list Msg * option error :=
  match chunks with
  | [] => (d, tl, [], None)
  | c :: chunks' =>
      match decode_data d tl c with
      | (d', tl', ROk ms) => let '(d2, tl2, ms', e) := feed d' tl' chunks' in (d2, tl2, ms ++ ms', e)
      | (d', tl', RErr e) => (d', tl', [], Some e)
      end
  end.

(** Encoding a list of messages with one encoder. *)
Fixpoint encode_all (e : encoder) (tl : CS) (ms : list Msg) : encoder * CS * list (list Z) :=
  match ms with
  | [] => (e, tl, [])
  | m :: ms' => let '(e1, tl1, b) := encode e tl m in let '(e2, tl2, bs) := encode_all e1 tl1 ms' in (e2, tl2, b :: bs)
  end.
End Grpc.
Arguments ROk {A}. Arguments RErr {A}.
Arguments CStateless {CS}. Arguments CStateful {CS}. Arguments mkEnc {CS}. Arguments e_comp {CS}. Arguments e_tx {CS}. Arguments e_txu {CS}. Arguments encoder_new {CS}.
Arguments DStateless {DS}. Arguments DStateful {DS}. Arguments mkDec {DS}. Arguments d_buf {DS}. Arguments d_decomp {DS}. Arguments d_comp {DS}.
Arguments d_size {DS}. Arguments d_rx {DS}. Arguments d_rxd {DS}. Arguments decoder_new {DS}.
Arguments encode_compressed {Msg CS}. Arguments encode_uncompressed {Msg}. Arguments encode {Msg CS}. Arguments encode_all {Msg CS}.
Arguments decompress {DS}. Arguments decode_loop {Msg DS}. Arguments loop_fuel {DS}. Arguments decode_data {Msg DS}. Arguments feed {Msg DS}.
