(** C14, C15, C64: the gRPC codec. *)
From Verif Require Import Base Grpc_Model Grpc_Spec Grpc_Proofs.
Local Open Scope Z_scope.

(** C14: for every stream of frames followed by an incomplete rest, cut into chunks in any way, the reader sees the error of the first
    undecodable frame if there is one, and messages that are a prefix of those of the frames before it; without such a frame it sees them all. *)
Theorem C14_frames_partial : forall (Msg DS : Type) (parse : list Z -> option Msg) (inflate inflate_all : DS -> list Z -> DS * option (list Z)) (ds_new : DS)
    chunks fs rest dc tl dc' tl' ms e,
  Forall is_byte (concat chunks) -> Forall frame_ok fs -> incomplete rest -> concat chunks = stream_bytes fs ++ rest ->
  frames_msgs parse inflate inflate_all ds_new dc tl fs = (dc', tl', ms, e) ->
  exists d got lost, feed parse inflate inflate_all ds_new (decoder_new dc) tl chunks = (d, tl', got, e) /\ ms = got ++ lost /\
    (e = None -> lost = [] /\ (rest = [] -> d_buf d = [] /\ d_size d = None)).
Proof. exact (@decode_chunks). Qed.
Print Assumptions C14_frames_partial.

(** Every stream of bytes has that form, so the theorem above covers every input. *)
Theorem C14_every_stream : forall l, Forall is_byte l -> exists fs rest, Forall frame_ok fs /\ incomplete rest /\ l = stream_bytes fs ++ rest.
Proof. exact split_frames. Qed.
Print Assumptions C14_every_stream.

(** If one way of cutting a stream decodes without error, every way gives the same messages without error. *)
Theorem C14_chunking : forall (Msg DS : Type) (parse : list Z -> option Msg) (inflate inflate_all : DS -> list Z -> DS * option (list Z)) (ds_new : DS)
    chunks1 chunks2 dc tl d1 tl1 ms1 d2 tl2 ms2 e2,
  Forall is_byte (concat chunks1) -> concat chunks1 = concat chunks2 ->
  feed parse inflate inflate_all ds_new (decoder_new dc) tl chunks1 = (d1, tl1, ms1, None) ->
  feed parse inflate inflate_all ds_new (decoder_new dc) tl chunks2 = (d2, tl2, ms2, e2) -> ms2 = ms1 /\ e2 = None.
Proof. exact (@chunks_same). Qed.
Print Assumptions C14_chunking.

(** A toy instance: messages are lists of bits, one byte each; the compressor prepends a byte that counts its messages. *)
Definition bits_out (m : list bool) : list Z := map (fun b : bool => if b then 1 else 0) m.
Fixpoint bits_in (l : list Z) : option (list bool) :=
  match l with
  | [] => Some []
  | x :: l' => match bits_in l' with Some m => if x =? 0 then Some (false :: m) else if x =? 1 then Some (true :: m) else None | None => None end
  end.
Definition isb (x : Z) : bool := (0 <=? x) && (x <? 256).
Definition toy_deflate (s : Z) (data : list Z) : Z * option (list Z) := if forallb isb data then (s + 1, Some (s mod 256 :: data)) else (s, None).
(** A wrong counter breaks the decompressor for good (state -1). *)
Definition toy_inflate (s : Z) (data : list Z) : Z * option (list Z) :=
  match data with x :: data' => if (s mod 256 =? x) && (0 <=? s) then (s + 1, Some data') else (-1, None) | [] => (-1, None) end.

(** C14 as stated is false: when the first undecodable message is in the same chunk, the messages before it are lost. *)
Theorem C14_error_chunk_refuted : exists chunks1 chunks2,
  concat chunks1 = concat chunks2 /\
  (exists d tl, feed bits_in toy_inflate toy_inflate 0 (decoder_new None) 0 chunks1 = (d, tl, [[true; false] ], Some EProtobuf)) /\
  (exists d tl, feed bits_in toy_inflate toy_inflate 0 (decoder_new None) 0 chunks2 = (d, tl, [], Some EProtobuf)).
Proof.
  exists [[0; 0; 0; 0; 2; 1; 0]; [0; 0; 0; 0; 1; 7] ], [[0; 0; 0; 0; 2; 1; 0; 0; 0; 0; 0; 1; 7] ]. splits; [reflexivity|eexists _, _; vm_compute; reflexivity..].
Qed.
Print Assumptions C14_error_chunk_refuted.

Example C14_case : (* three frames, one compressed, and an incomplete one; cut inside a prefix and inside payloads *)
  let fs := [(0, [1; 0]); (1, [0; 1; 1; 1]); (0, [])] in
  Forall frame_ok fs /\ incomplete [0; 0; 0; 0; 9; 1] /\
  frames_msgs bits_in toy_inflate toy_inflate 0 (Some DStateless) 0 fs = (Some DStateless, 0, [[true; false]; [true; true; true]; []], None) /\
  concat [[0; 0; 0]; [0; 2; 1; 0; 1; 0; 0; 0; 4; 0; 1]; []; [1; 1; 0; 0; 0; 0; 0; 0; 0; 0; 0]; [9; 1] ] = stream_bytes fs ++ [0; 0; 0; 0; 9; 1].
Proof.
  cbv zeta. splits; [| |vm_compute; reflexivity|vm_compute; reflexivity].
  - unfold frame_ok, is_byte, blen. change (2 ^ 32) with 4294967296. repeat (constructor; cbn [fst snd length]); try lia.
  - intros [a p] t (_ & _ & Lp) E. cbn [fst snd] in Lp. unfold frame_bytes in E. cbn [fst snd] in E.
    assert (E2: be32 9 = be32 (blen p) /\ [1] = p ++ t). { unfold be32 in *. cbn [app] in E. injection E as _ <- <- <- <- <-. auto. }
    destruct E2 as [E2 E3]. apply be32_inj in E2; [|lia|split; [apply blen_nonneg|exact Lp] ].
    apply (f_equal blen) in E3. rewrite blen_app in E3. pose proof (blen_nonneg t). unfold blen at 1 in E3. cbn in E3. lia.
Qed.

(** C15: whatever the encoder compresses, decoding its output, cut in any way, gives back the messages and leaves nothing pending. *)
Theorem C15_roundtrip : forall (Msg CS DS : Type) (serialize : Msg -> list Z) (parse : list Z -> option Msg)
    (deflate deflate_all : CS -> list Z -> CS * option (list Z)) (inflate inflate_all : DS -> list Z -> DS * option (list Z)) (cs_new : CS) (ds_new : DS),
  (forall m, parse (serialize m) = Some m) -> (forall m, Forall is_byte (serialize m)) ->
  lossless deflate deflate_all inflate inflate_all cs_new ds_new ->
  forall c d ms e' tlc' bs chunks, agree cs_new ds_new c d ->
  encode_all serialize deflate deflate_all cs_new (encoder_new c) cs_new ms = (e', tlc', bs) ->
  Forall (fun b => blen b < 2 ^ 32) bs -> concat chunks = concat bs ->
  exists dec tl, feed parse inflate inflate_all ds_new (decoder_new d) ds_new chunks = (dec, tl, ms, None) /\ d_buf dec = [] /\ d_size dec = None.
Proof. exact (@roundtrip). Qed.
Print Assumptions C15_roundtrip.

Lemma isb_bytes : forall l, forallb isb l = true -> Forall is_byte l.
Proof.
  intros l H. rewrite forallb_forall in H. apply Forall_forall. intros x Hx. specialize (H x Hx). unfold isb in H. unfold is_byte. lia.
Qed.
Example toy_lossless : lossless toy_deflate toy_deflate toy_inflate toy_inflate 0 0.
Proof.
  assert (B: forall s data s' out, toy_deflate s data = (s', Some out) -> Forall is_byte out /\ out = s mod 256 :: data /\ s' = s + 1).
  { intros s data s' out E. unfold toy_deflate in E. destruct (forallb isb data) eqn:F; [|discriminate]. injection E as <- <-. splits; auto.
    constructor; [unfold is_byte; lia|apply isb_bytes; exact F]. }
  constructor.
  - intros s data s' out E. apply B in E. tauto.
  - intros s data s' out E. apply B in E. tauto.
  - intros data s' out E. apply B in E as (_ & -> & _). eexists. vm_compute. reflexivity.
  - exists (fun c d => c = d /\ 0 <= d). split; [lia|]. intros c d data c' out [-> Hd] E. apply B in E as (_ & -> & ->).
    exists (d + 1). unfold toy_inflate. rewrite Z.eqb_refl. replace (0 <=? d) with true by lia. cbn. split; [reflexivity|lia].
Qed.
Example toy_parse : (forall m, bits_in (bits_out m) = Some m) /\ (forall m, Forall is_byte (bits_out m)).
Proof.
  split; induction m as [|b m IH]; cbn; try reflexivity; try constructor.
  - fold (bits_out m). rewrite IH. destruct b; reflexivity.
  - unfold is_byte. destruct b; lia.
  - exact IH.
Qed.
(** Two messages above the threshold and one below, with one stream compressor: the two are compressed, and come back. *)
Example C15_case :
  let ms := [repeat true 100; [false]; repeat false 120] in
  let '(e, tl, bs) := encode_all bits_out toy_deflate toy_deflate 0 (encoder_new (Some (CStateful 0))) 0 ms in
  map (firstn 6) bs = [[1; 0; 0; 0; 101; 0]; [0; 0; 0; 0; 1; 0]; [1; 0; 0; 0; 121; 1] ] /\
  let '(d, tl, got, err) := feed bits_in toy_inflate toy_inflate 0 (decoder_new (Some (DStateful 0))) 0 (map (fun x => [x]) (concat bs)) in
  got = ms /\ err = None.
Proof. vm_compute. auto. Qed.

(** The byte counters: what was sent, what would have been sent without compression, what was received, what came out of it. *)
Theorem C14_received_bytes : forall (Msg DS : Type) (parse : list Z -> option Msg) (inflate inflate_all : DS -> list Z -> DS * option (list Z)) (ds_new : DS)
    chunks d tl d' tl' ms,
  feed parse inflate inflate_all ds_new d tl chunks = (d', tl', ms, None) ->
  d_rx d' = d_rx d + blen (concat chunks) /\
  exists outs, Forall2 (fun o m => parse o = Some m) outs ms /\ d_rxd d' = d_rxd d + fold_right Z.add 0 (map blen outs).
Proof. exact (@feed_counts). Qed.
Print Assumptions C14_received_bytes.

Theorem C15_sent_bytes : forall (Msg CS : Type) (serialize : Msg -> list Z) (deflate deflate_all : CS -> list Z -> CS * option (list Z)) (cs_new : CS)
    ms e tl e' tl' bs,
  encode_all serialize deflate deflate_all cs_new e tl ms = (e', tl', bs) ->
  e_tx e' = e_tx e + blen (concat bs) /\ e_txu e' = e_txu e + fold_right Z.add 0 (map (fun m => blen (serialize m) + 5) ms).
Proof. exact (@encode_counts). Qed.
Print Assumptions C15_sent_bytes.

Example counters_case :
  let '(e, _, bs) := encode_all bits_out toy_deflate toy_deflate 0 (encoder_new (Some (CStateful 0))) 0 [repeat true 100; [false] ] in
  let '(d, _, _, err) := feed bits_in toy_inflate toy_inflate 0 (decoder_new (Some (DStateful 0))) 0 bs in
  (e_tx e, e_txu e, d_rx d, d_rxd d, err) = (112, 111, 112, 101, None).
Proof. vm_compute. reflexivity. Qed.

(** C64: decoders of one thread are not independent. The decompressor of the thread is reset only after a success; if zlib stays in its error
    state after a corrupt stream (as it does), one corrupt frame makes every later compressed frame of every decoder on the thread fail. *)
Theorem C64_thread_isolation_refuted : forall (Msg DS : Type) (parse : list Z -> option Msg) (inflate inflate_all : DS -> list Z -> DS * option (list Z)) (ds_new : DS)
    (bad : list Z) (broken : DS),
  Forall is_byte bad -> blen bad < 2 ^ 32 -> inflate_all ds_new bad = (broken, None) -> (forall data, inflate_all broken data = (broken, None)) ->
  exists d1, feed parse inflate inflate_all ds_new (decoder_new (Some DStateless)) ds_new [frame_bytes (1, bad)] = (d1, broken, [], Some EIo) /\
  forall data, Forall is_byte data -> blen data < 2 ^ 32 ->
  exists d2, feed parse inflate inflate_all ds_new (decoder_new (Some DStateless)) broken [frame_bytes (1, data)] = (d2, broken, [], Some EIo).
Proof.
  intros Msg DS parse inflate inflate_all ds_new bad broken Hb Lb E Hs.
  assert (H: forall tl data, Forall is_byte data -> blen data < 2 ^ 32 -> inflate_all tl data = (broken, None) ->
    exists d, feed parse inflate inflate_all ds_new (decoder_new (Some DStateless)) tl [frame_bytes (1, data)] = (d, broken, [], Some EIo)).
  { intros tl data Hd Ld Ei.
    assert (Hok: frame_ok (1, data)) by (unfold frame_ok, is_byte; cbn; splits; auto; lia).
    destruct (decode_chunks parse inflate inflate_all ds_new [frame_bytes (1, data)] [(1, data)] [] (Some DStateless) tl (Some DStateless) broken [] (Some EIo))
      as (d & got & lost & F & M & _).
    - cbn [concat]. rewrite app_nil_r. unfold frame_bytes. cbn [fst snd]. constructor; [unfold is_byte; lia|]. apply Forall_app. split; [apply be32_bytes|exact Hd].
    - constructor; [exact Hok|constructor].
    - apply incomplete_nil.
    - unfold stream_bytes. cbn [map concat]. rewrite !app_nil_r. reflexivity.
    - cbn. unfold frame_msg. cbn. rewrite Ei. reflexivity.
    - destruct got; [|discriminate]. exists d. exact F. }
  destruct (H ds_new bad Hb Lb E) as (d1 & F1). exists d1. split; [exact F1|]. intros data Hd Ld. apply H; auto.
Qed.
Print Assumptions C64_thread_isolation_refuted.

Example C64_case : toy_inflate 0 [9; 1] = (-1, None) /\ (forall data, toy_inflate (-1) data = (-1, None)) /\
  feed bits_in toy_inflate toy_inflate 0 (decoder_new (Some DStateless)) 0 [[1; 0; 0; 0; 2; 0; 1] ] = (mkDec [] (Some DStateless) true None 7 1, 0, [[true] ], None) /\
  snd (feed bits_in toy_inflate toy_inflate 0 (decoder_new (Some DStateless)) (-1) [[1; 0; 0; 0; 2; 0; 1] ]) = Some EIo.
Proof.
  splits; try reflexivity. intros [|x data]; [reflexivity|]. unfold toy_inflate. rewrite andb_false_r. reflexivity.
Qed.
