(** The gRPC wire format and what a stream of frames means. *)
From Verif Require Import Base Grpc_Model.
Local Open Scope Z_scope.

Definition is_byte (b : Z) : Prop := 0 <= b < 256.

(** A frame: its first byte and its payload. *)
Definition frame : Type := Z * list Z.
Definition frame_ok (f : frame) : Prop := is_byte (fst f) /\ Forall is_byte (snd f) /\ blen (snd f) < 2 ^ 32.
Definition frame_bytes (f : frame) : list Z := fst f :: be32 (blen (snd f)) ++ snd f.
Definition stream_bytes (fs : list frame) : list Z := concat (map frame_bytes fs).

(** No complete frame at the start. *)
Definition incomplete (l : list Z) : Prop := forall f tail, frame_ok f -> l <> frame_bytes f ++ tail.

Section Spec.
Context {Msg DS : Type} (parse : list Z -> option Msg) (inflate inflate_all : DS -> list Z -> DS * option (list Z)) (ds_new : DS).

(** The content of one frame: the payload, decompressed when its first byte is 1. *)
Definition frame_msg (dc : option (decompressor DS)) (tl : DS) (f : frame) : option (decompressor DS) * DS * result Msg :=
  let '(dc', tl', r) :=
    if fst f =? 1 then decompress inflate inflate_all ds_new dc tl (snd f) else (dc, tl, ROk (snd f)) in
  (dc', tl', match r with ROk out => match parse out with Some m => ROk m | None => RErr EProtobuf end | RErr e => RErr e end).

(** The messages of the frames up to the first that cannot be decoded. *)
Fixpoint frames_msgs (dc : option (decompressor DS)) (tl : DS) (fs : list frame) : option (decompressor DS) * DS * list Msg * option error :=
  match fs with
  | [] => (dc, tl, [], None)
  | f :: fs' =>
      match frame_msg dc tl f with
      | (dc', tl', ROk m) => let '(dc2, tl2, ms, e) := frames_msgs dc' tl' fs' in (dc2, tl2, m :: ms, e)
      | (dc', tl', RErr e) => (dc', tl', [], Some e)
      end
  end.
End Spec.

(** A lossless compressor / decompressor pair, used either as one stream over all messages or message by message. *)
Record lossless {CS DS : Type} (deflate deflate_all : CS -> list Z -> CS * option (list Z)) (inflate inflate_all : DS -> list Z -> DS * option (list Z))
    (cs_new : CS) (ds_new : DS) : Prop := {
  ll_bytes : forall s data s' out, deflate s data = (s', Some out) -> Forall is_byte out;
  ll_bytes_all : forall s data s' out, deflate_all s data = (s', Some out) -> Forall is_byte out;
  ll_all : forall data s' out, deflate_all cs_new data = (s', Some out) -> exists d', inflate_all ds_new out = (d', Some data);
  ll_stream : exists R : CS -> DS -> Prop, R cs_new ds_new /\
    forall c d data c' out, R c d -> deflate c data = (c', Some out) -> exists d', inflate d out = (d', Some data) /\ R c' d' }.

(** Sender and receiver agreed on the encoding (an uncompressing sender works with any receiver). *)
Definition agree {CS DS : Type} (cs_new : CS) (ds_new : DS) (c : option (compressor CS)) (d : option (decompressor DS)) : Prop :=
  c = None \/ (c = Some CStateless /\ d = Some DStateless) \/ (c = Some (CStateful cs_new) /\ d = Some (DStateful ds_new)).
