(** Proofs about gRPC calls. *)
From Verif Require Import Base Str_Base Grpc_Model Grpc_Spec Grpc_Proofs GrpcService_Model GrpcService_Spec.
Local Open Scope Z_scope.

(** Headers. *)
Lemma hget_app : forall n h h', hget n (h ++ h') = match hget n h with Some v => Some v | None => hget n h' end.
Proof. induction h as [|[m v] h IH]; intros h'; cbn; [reflexivity|]. destruct (String.eqb n m); auto. Qed.
Lemma hget_filter : forall n (p : string * string -> bool) h, (forall v, p (n, v) = true) -> hget n (filter p h) = hget n h.
Proof.
  induction h as [|[m v] h IH]; intros Hp; [reflexivity|]. cbn. destruct (String.eqb n m) eqn:E.
  - apply String.eqb_eq in E. subst m. rewrite Hp. cbn. rewrite String.eqb_refl. reflexivity.
  - destruct (p (m, v)); cbn; [rewrite E|]; auto.
Qed.
Lemma hget_filter_out : forall n (p : string * string -> bool) h, (forall v, p (n, v) = false) -> hget n (filter p h) = None.
Proof.
  induction h as [|[m v] h IH]; intros Hp; [reflexivity|]. cbn. destruct (p (m, v)) eqn:Ep; cbn; [|auto]. destruct (String.eqb n m) eqn:E; [|auto].
  apply String.eqb_eq in E. subst m. rewrite Hp in Ep. discriminate.
Qed.
Lemma hget_insert : forall n n' v h, hget n (hinsert n' v h) = if String.eqb n n' then Some v else hget n h.
Proof.
  intros n n' v h. unfold hinsert. rewrite hget_app. cbn. destruct (String.eqb n n') eqn:E.
  - apply String.eqb_eq in E. subst n'. rewrite hget_filter_out; [reflexivity|]. intros w. cbn. rewrite String.eqb_refl. reflexivity.
  - rewrite hget_filter; [destruct (hget n h); reflexivity|]. intros w. cbn. rewrite String.eqb_sym, E. reflexivity.
Qed.
Lemma hget_append : forall n n' v h, hget n (happend n' v h) = match hget n h with Some w => Some w | None => if String.eqb n n' then Some v else None end.
Proof. intros. unfold happend. rewrite hget_app. reflexivity. Qed.
Lemma hget_extend : forall n h h', hget n (hextend h h') = match hget n h' with Some v => Some v | None => hget n h end.
Proof.
  intros n h h'. unfold hextend. rewrite hget_app. destruct (hget n h') as [v|] eqn:E.
  - rewrite hget_filter_out; [reflexivity|]. intros w. cbn. rewrite E. reflexivity.
  - rewrite hget_filter; [destruct (hget n h); reflexivity|]. intros w. cbn. rewrite E. reflexivity.
Qed.

(** Texts. *)
Lemma unreserved_visible : forall a, unreserved a = true -> visible a = true.
Proof. intros [b0 b1 b2 b3 b4 b5 b6 b7]. destruct b0, b1, b2, b3, b4, b5, b6, b7; vm_compute; auto. Qed.
Lemma hex_visible : forall n, (n < 16)%N -> visible (hex n) = true.
Proof.
  intros n H. assert (In n [0; 1; 2; 3; 4; 5; 6; 7; 8; 9; 10; 11; 12; 13; 14; 15]%N) as Hi.
  { cbn. lia. }
  repeat (destruct Hi as [<-|Hi]; [reflexivity|]). destruct Hi.
Qed.
Lemma urlencode_visible : forall s, str_all visible (urlencode s) = true.
Proof.
  induction s as [|a s IH]; [reflexivity|]. cbn [urlencode]. destruct (unreserved a) eqn:E; cbn [str_all].
  - rewrite (unreserved_visible _ E), IH. reflexivity.
  - assert (N_of_ascii a < 256)%N by apply N_ascii_bounded. 
    rewrite IH, !hex_visible; [reflexivity| |].
    + apply N.mod_lt. discriminate.
    + apply N.div_lt_upper_bound; [discriminate|]. exact H.
Qed.
Lemma visible_header : forall s, str_all visible s = true -> str_all header_char s = true.
Proof.
  induction s as [|a s IH]; [reflexivity|]. cbn. rewrite !Bool.andb_true_iff. intros [H1 H2]. split; [|auto].
  revert H1. unfold visible, header_char. cbv zeta. generalize (N_of_ascii a). intros n H. lia.
Qed.
Lemma code_roundtrip : forall c, from_string (dec_string (to_int c)) = c.
Proof. destruct c; vm_compute; reflexivity. Qed.
Lemma code_to_str : forall c, to_str (dec_string (to_int c)) = Some (dec_string (to_int c)).
Proof. destruct c; vm_compute; reflexivity. Qed.

Lemma check_error : forall e, check_response (error_response e) = GErr (seen e).
Proof.
  assert (S: forall s, check_response (status_response s) = GErr (GGrpc (mkStatus (st_code s) (match st_message s with Some m => Some (urlencode m) | None => None end)))).
  { intros [c m]. destruct c, m as [m|]; cbn -[to_str]; try reflexivity; unfold from_headers; cbn -[to_str]; unfold to_str; rewrite urlencode_visible; reflexivity. }
  intros []; cbn [error_response seen]; rewrite ?S; try reflexivity.
Qed.

Lemma collect_data : forall chunks t, (t = [] \/ exists h, t = [BTrailers h]) -> collect (map BData chunks ++ t) = Some (concat chunks).
Proof.
  induction chunks as [|c chunks IH]; intros t Ht; cbn.
  - destruct Ht as [->|[h ->] ]; reflexivity.
  - rewrite IH by assumption. reflexivity.
Qed.
Lemma carries_collect : forall b b' x, carries b b' -> collect b = Some x -> collect b' = Some x.
Proof. intros b b' x (ds & chunks & t & -> & -> & E & Ht). rewrite !collect_data by assumption. rewrite E. auto. Qed.

Local Arguments encode : simpl never.
Local Arguments decode_data : simpl never.
Local Arguments blen : simpl never.

Section P.
Context {Req Res CS DS : Type}.
Context (ser_req : Req -> list Z) (parse_req : list Z -> option Req) (ser_res : Res -> list Z) (parse_res : list Z -> option Res).
Context (deflate deflate_all : CS -> list Z -> CS * option (list Z)) (inflate inflate_all : DS -> list Z -> DS * option (list Z)) (cs_new : CS) (ds_new : DS).
Context (snap_encode : list Z -> list Z) (snap_decode : list Z -> option (list Z)) (valid_req : Req -> bool) (valid_res : Res -> bool).
Context (display : gerror -> string).
Hypothesis parse_ser_req : forall m, parse_req (ser_req m) = Some m.
Hypothesis bytes_req : forall m, Forall is_byte (ser_req m).
Hypothesis parse_ser_res : forall m, parse_res (ser_res m) = Some m.
Hypothesis bytes_res : forall m, Forall is_byte (ser_res m).
Hypothesis zlib : lossless deflate deflate_all inflate inflate_all cs_new ds_new.
Hypothesis snappy : forall b, snap_decode (snap_encode b) = Some b.

Lemma decode_one : forall (Msg : Type) (ser : Msg -> list Z) parse, (forall m, parse (ser m) = Some m) -> (forall m, Forall is_byte (ser m)) ->
  forall c d m, agree cs_new ds_new c d -> 
  let b := snd (encode ser deflate deflate_all cs_new (encoder_new c) cs_new m) in blen b < 2 ^ 32 ->
  exists d' tl', decode_data parse inflate inflate_all ds_new (decoder_new d) ds_new b = (d', tl', ROk [m]).
Proof.
  intros Msg ser parse Hp Hb c d m A b Lb. destruct (encode ser deflate deflate_all cs_new (encoder_new c) cs_new m) as [ [e tl] bs] eqn:E. cbn in b. subst b.
  destruct (roundtrip ser parse deflate deflate_all inflate inflate_all cs_new ds_new Hp Hb zlib c d [m] e tl [bs] [bs] A) as (dec & tl' & F & _ & _).
  - cbn [encode_all]. rewrite E. reflexivity.
  - constructor; [exact Lb|constructor].
  - reflexivity.
  - cbn [feed] in F. destruct (decode_data parse inflate inflate_all ds_new (decoder_new d) ds_new bs) as [ [d1 tl1] [ms|e1] ].
    + injection F as <- <- F. rewrite app_nil_r in F. subst ms. eauto.
    + discriminate.
Qed.

Notation unary_request := (unary_request Req CS ser_req deflate deflate_all cs_new snap_encode).
Notation unary_handler := (unary_handler Req Res CS DS parse_req ser_res deflate deflate_all inflate inflate_all cs_new ds_new snap_decode valid_req).
Notation unary_result := (unary_result Res DS parse_res inflate inflate_all ds_new).
Notation decode_request := (decode_request Req DS parse_req inflate inflate_all ds_new snap_decode valid_req).

Definition plain_body m := encode ser_req deflate deflate_all cs_new (encoder_new None) cs_new m.
Definition comp_body m := encode ser_req deflate deflate_all cs_new (encoder_new (Some CStateless)) cs_new m.

(** The request arrives. *)
Lemma request_arrives : forall k extra m body validate, plain_headers extra -> carries (rq_body (unary_request k extra m)) body ->
  blen (snd (plain_body m)) < 2 ^ 32 -> blen (snd (comp_body m)) < 2 ^ 32 -> (validate = true -> valid_req m = true) ->
  decode_request validate (mkReq (rq_headers (unary_request k extra m)) body) = GOk m.
Proof.
  intros k extra m body validate (H1 & H2 & H3) Hc L1 L2 V. unfold decode_request. cbn [rq_headers rq_body].
  assert (F: validate && negb (valid_req m) = false) by (destruct validate; [rewrite V by reflexivity|]; reflexivity).
  destruct k; cbn [unary_request rq_body rq_headers] in *.
  - erewrite carries_collect; [|exact Hc|cbn; reflexivity]. rewrite app_nil_r. unfold request_headers, finalize_decompression. rewrite !hget_extend.
    unfold CONTENT_ENCODING, ENCODING. rewrite H3, H1. cbn [hget]. change (String.eqb "content-encoding" (fst content_type)) with false. cbn.
    destruct (decode_one Req ser_req parse_req parse_ser_req bytes_req None None m) as (d' & tl' & D); [left; reflexivity|exact L1|]. cbn zeta in D. rewrite D, F. reflexivity.
  - erewrite carries_collect; [|exact Hc|cbn; reflexivity]. rewrite app_nil_r. unfold request_headers, finalize_decompression. rewrite !hget_extend, !hget_insert.
    unfold CONTENT_ENCODING, ENCODING, ACCEPT_ENCODING. rewrite H3. cbn.
    destruct (decode_one Req ser_req parse_req parse_ser_req bytes_req (Some CStateless) (Some DStateless) m) as (d' & tl' & D); [right; left; auto|exact L2|]. cbn zeta in D. rewrite D, F. reflexivity.
  - erewrite carries_collect; [|exact Hc|cbn; reflexivity]. rewrite app_nil_r. unfold request_headers, finalize_decompression. rewrite !hget_extend, !hget_append.
    unfold CONTENT_ENCODING, ENCODING, ACCEPT_ENCODING. rewrite H3, H1. cbn. rewrite snappy.
    destruct (decode_one Req ser_req parse_req parse_ser_req bytes_req None None m) as (d' & tl' & D); [left; reflexivity|exact L1|]. cbn zeta in D. rewrite D, F. reflexivity.
Qed.

Lemma carries_nil : forall b, carries [] b -> collect b = Some [].
Proof. intros b H. eapply carries_collect; [exact H|reflexivity]. Qed.

(** A call. *)
Lemma unary_call : forall k extra m body validate handle body', plain_headers extra -> carries (rq_body (unary_request k extra m)) body ->
  blen (snd (plain_body m)) < 2 ^ 32 -> blen (snd (comp_body m)) < 2 ^ 32 -> (validate = true -> valid_req m = true) ->
  let h := rq_headers (unary_request k extra m) in
  (forall r c, handle h m = GOk r -> blen (snd (encode ser_res deflate deflate_all cs_new (encoder_new c) cs_new r)) < 2 ^ 32) ->
  let answer := unary_handler validate handle (mkReq h body) in carries (rs_body answer) body' ->
  unary_result (mkRes (rs_code answer) (rs_headers answer) body') = match handle h m with GOk r => GOk r | GErr e => GErr (seen e) end.
Proof.
  intros k extra m body validate handle body' Hp Hc L1 L2 V h Lr answer Ha.
  assert (D: decode_request validate (mkReq h body) = GOk m) by (apply request_arrives; auto).
  assert (EA: answer = unary_handler validate handle (mkReq h body)) by reflexivity. clearbody answer. revert EA.
  unfold unary_handler. rewrite D. cbn [rq_headers]. destruct (handle h m) as [r|e] eqn:Eh; intros ->.
  - cbn [rs_body rs_code rs_headers new_grpc_response] in *. unfold unary_result, check_response. cbn [rs_code rs_headers rs_body].
    set (c := finalize_response_compression CS h) in *.
    assert (Hg: hget GRPC_STATUS ([content_type] ++ match c with Some _ => [(ENCODING, DEFLATE)] | None => [] end) = None) by (destruct c; reflexivity).
    rewrite Hg. change ((200 <=? 200) && (200 <? 300)) with true. cbn match. cbn [rs_body rs_headers].
    erewrite carries_collect; [|exact Ha|cbn; reflexivity]. rewrite app_nil_r.
    assert (A: agree cs_new ds_new c (finalize_decompression DS ([content_type] ++ match c with Some _ => [(ENCODING, DEFLATE)] | None => [] end))).
    { subst c. unfold finalize_response_compression. destruct (hget ACCEPT_ENCODING h) as [v|]; [|left; reflexivity]. destruct (String.eqb v DEFLATE); [right; left; split; reflexivity|left; reflexivity]. }
    destruct (decode_one Res ser_res parse_res parse_ser_res bytes_res c _ r A) as (d' & tl' & E); [apply Lr; reflexivity|]. cbn zeta in E. rewrite E. reflexivity.
  - unfold unary_result. 
    assert (CE: check_response (mkRes (rs_code (error_response e)) (rs_headers (error_response e)) body') = GErr (seen e)).
    { pose proof (check_error e) as X. unfold check_response in *. cbn [rs_code rs_headers] in *. destruct ((200 <=? rs_code (error_response e)) && (rs_code (error_response e) <? 300)); [|exact X].
      destruct (hget GRPC_STATUS (rs_headers (error_response e))); [exact X|discriminate]. }
    rewrite CE. reflexivity.
Qed.

(** Bodies with any number of messages. *)
Lemma decode_many : forall c d ms bs, agree cs_new ds_new c d -> snd (encode_all ser_req deflate deflate_all cs_new (encoder_new c) cs_new ms) = bs ->
  Forall (fun b => blen b < 2 ^ 32) bs -> exists d' tl', decode_data parse_req inflate inflate_all ds_new (decoder_new d) ds_new (concat bs) = (d', tl', ROk ms).
Proof.
  intros c d ms bs A E L. destruct (encode_all ser_req deflate deflate_all cs_new (encoder_new c) cs_new ms) as [ [e tl] b] eqn:Ee. cbn in E. subst b.
  destruct (roundtrip ser_req parse_req deflate deflate_all inflate inflate_all cs_new ds_new parse_ser_req bytes_req zlib c d ms e tl bs [concat bs] A Ee L) as (dec & tl' & F & _ & _).
  - cbn. apply app_nil_r.
  - cbn [feed] in F. destruct (decode_data parse_req inflate inflate_all ds_new (decoder_new d) ds_new (concat bs)) as [ [d1 tl1] [ms'|e1] ].
    + injection F as <- <- F. rewrite app_nil_r in F. subst ms'. eauto.
    + discriminate.
Qed.
Lemma unary_error : forall e body', unary_result (mkRes (rs_code (error_response e)) (rs_headers (error_response e)) body') = GErr (seen e).
Proof.
  intros e body'. unfold unary_result.
  assert (CE: check_response (mkRes (rs_code (error_response e)) (rs_headers (error_response e)) body') = GErr (seen e)).
  { pose proof (check_error e) as X. unfold check_response in *. cbn [rs_code rs_headers] in *. destruct ((200 <=? rs_code (error_response e)) && (rs_code (error_response e) <? 300)); [|exact X].
    destruct (hget GRPC_STATUS (rs_headers (error_response e))); [exact X|discriminate]. }
  rewrite CE. reflexivity.
Qed.
Lemma one_valid_message : forall h ms body validate handle body',
  hget ENCODING h = None -> hget CONTENT_ENCODING h = None ->
  carries (map BData (snd (encode_all ser_req deflate deflate_all cs_new (encoder_new None) cs_new ms))) body ->
  Forall (fun b => blen b < 2 ^ 32) (snd (encode_all ser_req deflate deflate_all cs_new (encoder_new None) cs_new ms)) ->
  (forall m, ms = [m] -> validate = true /\ valid_req m = false) ->
  let answer := unary_handler validate handle (mkReq h body) in
  exists text, unary_result (mkRes (rs_code answer) (rs_headers answer) body') = GErr (GGrpc (mkStatus CInvalidArgument text)).
Proof.
  intros h ms body validate handle body' H1 H2 Hc L V answer.
  destruct (decode_many None None ms _ (or_introl eq_refl) eq_refl L) as (d' & tl' & D).
  assert (C: collect body = Some (concat (snd (encode_all ser_req deflate deflate_all cs_new (encoder_new None) cs_new ms)))).
  { eapply carries_collect; [exact Hc|]. rewrite <- (app_nil_r (map BData _)). apply collect_data. auto. }
  assert (E: exists text, decode_request validate (mkReq h body) = GErr (GGrpc (mkStatus CInvalidArgument text))).
  { unfold decode_request. cbn [rq_body rq_headers]. rewrite C, H2. unfold finalize_decompression. rewrite H1, D.
    destruct ms as [|m [|m' ms] ]; [eauto| |eauto]. destruct (V m eq_refl) as [-> ->]. cbn. eauto. }
  destruct E as [text E]. unfold answer, unary_handler. rewrite E, unary_error. cbn [seen st_code]. eauto.
Qed.

(** What the handler is told: the caller's headers. *)
Lemma handler_headers : forall k extra m n, ~ reserved n -> hget n (rq_headers (unary_request k extra m)) = hget n extra.
Proof.
  intros k extra m n Hn. assert (N: forall x, In x ["grpc-encoding"; "grpc-accept-encoding"; "content-encoding"; "content-type"; "te"]%string -> String.eqb n x = false).
  { intros x Hx. apply String.eqb_neq. intros ->. apply Hn. exact Hx. }
  destruct k; cbn [unary_request rq_headers]; unfold request_headers; rewrite hget_extend, ?hget_insert, ?hget_append; unfold ACCEPT_ENCODING, ENCODING, CONTENT_ENCODING;
    cbn [hget fst snd content_type]; rewrite !N by (cbn; tauto); destruct (hget n extra); reflexivity.
Qed.

Notation drain := (drain Res DS parse_res inflate inflate_all ds_new valid_res).
Notation next := (next Res DS parse_res inflate inflate_all ds_new valid_res).
Notation read_frame := (read_frame Res DS parse_res inflate inflate_all ds_new valid_res).
Notation stream_result := (stream_result Res DS parse_res inflate inflate_all ds_new valid_res).
Notation stream_handler := (stream_handler Req Res CS DS parse_req ser_res deflate deflate_all inflate inflate_all cs_new ds_new snap_decode valid_req display).
Notation stream_request := (stream_request Req CS ser_req deflate deflate_all cs_new).

(** A reader gets what the decoder finds. *)
Lemma drain_feed : forall chunks fuel v d tl rest final d' tl' ms e,
  (length chunks < fuel)%nat -> (forall fuel d, (0 < fuel)%nat -> drain fuel v d rest = ([], final)) ->
  feed parse_res inflate inflate_all ds_new d tl chunks = (d', tl', ms, e) -> (v = true -> forallb valid_res ms = true) ->
  drain fuel v (d, tl) (map BData chunks ++ rest) = (ms, match e with Some e => GErr (GCodec e) | None => final end).
Proof.
  induction chunks as [|c chunks IH]; intros fuel v d tl rest final d' tl' ms e Hf Hr F V.
  - cbn in F. injection F as <- <- <- <-. cbn. apply Hr. cbn in Hf. lia.
  - cbn [feed] in F. destruct (decode_data parse_res inflate inflate_all ds_new d tl c) as [ [d1 tl1] [ms1|e1] ] eqn:E.
    + destruct (feed parse_res inflate inflate_all ds_new d1 tl1 chunks) as [ [ [d2 tl2] ms2] e2] eqn:F2. injection F as <- <- <- <-.
      assert (V1: v && negb (forallb valid_res ms1) = false). { destruct v; [|reflexivity]. specialize (V eq_refl). rewrite forallb_app, Bool.andb_true_iff in V. destruct V as [-> _]. reflexivity. }
      assert (V2: v = true -> forallb valid_res ms2 = true). { intros Hv. specialize (V Hv). rewrite forallb_app, Bool.andb_true_iff in V. tauto. }
      destruct fuel as [|fuel]; [cbn in Hf; lia|]. cbn [length] in Hf. destruct ms1 as [|m1 ms1].
      * change ([] ++ ms2) with ms2. rewrite <- (IH (S fuel) v d1 tl1 rest final d2 tl2 ms2 e2); auto; [|lia]. cbn [map app drain next]. unfold read_frame. cbn [fst snd]. rewrite E, V1. reflexivity.
      * cbn [map app drain next]. unfold read_frame. cbn [fst snd]. rewrite E, V1. rewrite (IH fuel v d1 tl1 rest final d2 tl2 ms2 e2); auto; lia.
    + injection F as <- <- <- <-. destruct fuel as [|fuel]; [cbn in Hf; lia|]. cbn [map app drain next]. unfold read_frame. cbn [fst snd]. rewrite E. reflexivity.
Qed.

Lemma drain_nil : forall v fuel d, (0 < fuel)%nat -> drain fuel v d [] = ([], GOk tt).
Proof. intros v [|fuel] d H; [lia|reflexivity]. Qed.
Lemma drain_trailers : forall v t fuel d, (0 < fuel)%nat -> drain fuel v d [BTrailers t] = ([], match read_trailers Res t with GOk None => GOk tt | GOk (Some _) => GOk tt | GErr e => GErr e end).
Proof.
  intros v t [|fuel] d H; [lia|]. cbn. unfold read_trailers. destruct (trailer GRPC_STATUS t) as [x|]; [|reflexivity].
  destruct (from_string (match to_str x with Some s => s | None => "" end)); reflexivity.
Qed.

Lemma error_trailers_read : forall s, st_code s <> COk -> (forall m, st_message s = Some m -> plain_text m) ->
  exists t, error_trailers s = Some t /\ read_trailers Res t = GErr (GGrpc s).
Proof.
  intros [c m] Hc Hm. cbn in Hc, Hm. destruct m as [m|]; unfold error_trailers; cbn [st_code st_message].
  - specialize (Hm m eq_refl). unfold plain_text in Hm. unfold from_str. rewrite (visible_header _ Hm). eexists. split; [reflexivity|].
    unfold read_trailers. destruct c; try (exfalso; apply Hc; reflexivity); cbn -[to_str]; unfold to_str; rewrite Hm; reflexivity.
  - eexists. split; [reflexivity|]. destruct c; try (exfalso; apply Hc; reflexivity); reflexivity.
Qed.

Lemma request_of_stream : forall extra m, stream_request extra m = unary_request KNone extra m.
Proof. reflexivity. Qed.

Lemma stream_call : forall extra m body validate compress handle x ms res vres body', plain_headers extra \/ (hget ENCODING extra = None /\ hget CONTENT_ENCODING extra = None) ->
  carries (rq_body (stream_request extra m)) body -> blen (snd (plain_body m)) < 2 ^ 32 -> (validate = true -> valid_req m = true) ->
  let h := rq_headers (stream_request extra m) in handle h m = (ms, res) -> (vres = true -> forallb valid_res ms = true) ->
  (forall c, Forall (fun b => blen b < 2 ^ 32) (snd (encode_all ser_res deflate deflate_all cs_new (encoder_new c) cs_new ms))) ->
  let answer := snd (stream_handler validate compress handle x (mkReq h body)) in carries (rs_body answer) body' ->
  forall outcome, match res with
    | GOk _ => outcome = GOk tt
    | GErr e => let s := match e with GGrpc s => s | e => mkStatus CInternal (Some (display e)) end in
                st_code s <> COk /\ (forall t, st_message s = Some t -> plain_text t) /\ outcome = GErr (GGrpc s)
    end ->
  stream_result vres (mkRes (rs_code answer) (rs_headers answer) body') = (ms, outcome).
Proof.
  intros extra m body validate compress handle x ms res vres body' Hp Hc L1 V h Hh Vr Lr answer Ha outcome Ho.
  assert (D: decode_request validate (mkReq h body) = GOk m).
  { subst h. assert (H1: hget ENCODING extra = None /\ hget CONTENT_ENCODING extra = None) by (destruct Hp as [(X & _ & Y)|X]; [split; assumption|exact X]). destruct H1 as [H1 H3].
    unfold decode_request. cbn [rq_headers rq_body stream_request] in *. assert (F: validate && negb (valid_req m) = false) by (destruct validate; [rewrite V by reflexivity|]; reflexivity).
    erewrite carries_collect; [|exact Hc|cbn; reflexivity]. rewrite app_nil_r. unfold request_headers, finalize_decompression. rewrite !hget_extend, H1, H3. cbn.
    destruct (decode_one Req ser_req parse_req parse_ser_req bytes_req None None m) as (d' & tl' & D); [left; reflexivity|exact L1|]. cbn zeta in D. rewrite D, F. reflexivity. }
  assert (EA: answer = snd (stream_handler validate compress handle x (mkReq h body))) by reflexivity. clearbody answer. revert EA.
  unfold stream_handler. rewrite D. cbn [rq_headers]. rewrite Hh. set (c := if compress then finalize_response_compression CS h else None).
  destruct (encode_all ser_res deflate deflate_all cs_new (encoder_new c) cs_new ms) as [ [e1 tl1] bs] eqn:Eb. intros EA.
  assert (A: agree cs_new ds_new c (stream_decompression DS ds_new ([content_type] ++ match c with Some _ => [(ENCODING, DEFLATE)] | None => [] end))).
  { assert (Cc: c = None \/ c = Some CStateless).
    { subst c. destruct compress; [|left; reflexivity]. unfold finalize_response_compression. destruct (hget ACCEPT_ENCODING h) as [v|]; [|left; reflexivity]. destruct (String.eqb v DEFLATE); auto. }
    destruct Cc as [-> | ->]; [left; reflexivity|right; left; split; reflexivity]. }
  assert (exists t final, answer = new_grpc_response CS (map BData bs ++ t) c /\ (t = [] \/ exists g, t = [BTrailers g]) /\
     (forall fuel d, (0 < fuel)%nat -> drain fuel vres d t = ([], final)) /\ final = outcome) as (t & final & Et & Ht & Hd & Hf).
  { destruct res as [u|e].
    - exists [BTrailers ok_trailers], (GOk tt). split; [exact EA|split; [right; eexists; reflexivity|split; [|symmetry; exact Ho] ] ]. intros fuel d Hf. rewrite drain_trailers by assumption. reflexivity.
    - cbv zeta in Ho. cbn [snd] in EA. set (s := match e with GGrpc s => s | _ => _ end) in *. destruct Ho as (Ho1 & Ho2 & ->).
      destruct (error_trailers_read s Ho1 Ho2) as (t & Et & Rt). exists [BTrailers t], (GErr (GGrpc s)). split; [rewrite Et in EA; exact EA|split; [right; eexists; reflexivity|split; [|reflexivity] ] ].
      intros fuel d Hf. rewrite drain_trailers by assumption. rewrite Rt. reflexivity. }
  clear EA. subst answer final. cbn [rs_body rs_code rs_headers new_grpc_response] in *. unfold stream_result, check_response. cbn [rs_code rs_headers rs_body].
  assert (Hg: hget GRPC_STATUS ([content_type] ++ match c with Some _ => [(ENCODING, DEFLATE)] | None => [] end) = None) by (destruct c; reflexivity).
  rewrite Hg. change ((200 <=? 200) && (200 <? 300)) with true. cbn match. cbn [rs_body rs_headers].
  destruct Ha as (ds & chunks & t' & E1 & E2 & E3 & Ht').
  assert (ET: ds = bs /\ t' = t).
  { clear - E1 Ht Ht'. revert ds E1. induction bs as [|b bs IH]; intros [|d ds] E1; cbn in E1.
    - auto.
    - destruct Ht as [->|[g ->] ]; discriminate.
    - destruct Ht' as [->|[g ->] ]; discriminate.
    - injection E1 as -> E1. destruct (IH ds E1) as [-> ->]. auto. }
  destruct ET as [-> ->]. subst body'.
  destruct (roundtrip ser_res parse_res deflate deflate_all inflate inflate_all cs_new ds_new parse_ser_res bytes_res zlib c _ ms e1 tl1 bs chunks A Eb) as (dec & tl' & F & _ & _).
  - specialize (Lr c). rewrite Eb in Lr. exact Lr.
  - symmetry. exact E3.
  - unfold reader_new. erewrite drain_feed; [| |exact Hd|exact F|exact Vr]; [reflexivity|]. rewrite app_length, map_length. lia.
Qed.

(** A request that cannot be served. *)
Lemma stream_rejected : forall validate compress handle x rq e vres body', decode_request validate rq = GErr e ->
  let answer := snd (stream_handler validate compress handle x rq) in
  stream_result vres (mkRes (rs_code answer) (rs_headers answer) body') = ([], GErr (seen e)).
Proof.
  intros validate compress handle x rq e vres body' D. unfold stream_handler. rewrite D. cbv zeta. cbn [snd].
  pose proof (check_error e) as X. unfold stream_result, check_response in *. cbn [rs_code rs_headers] in *.
  destruct ((200 <=? rs_code (error_response e)) && (rs_code (error_response e) <? 300)).
  - destruct (hget GRPC_STATUS (rs_headers (error_response e))); [|discriminate]. injection X as ->. reflexivity.
  - injection X as <-. reflexivity.
Qed.

(** The statistics of a server. *)
Lemma stream_stats : forall validate compress handle rqs x,
  let y := fold_left (fun x rq => fst (stream_handler validate compress handle x rq)) rqs x in
  let good rq := match decode_request validate rq with GOk m => match snd (handle (rq_headers rq) m) with GOk _ => true | GErr _ => false end | GErr _ => false end in
  initiations y = initiations x + Z.of_nat (length rqs) /\
  successes y = successes x + Z.of_nat (length (filter good rqs)) /\ failures y = failures x + Z.of_nat (length (filter (fun rq => negb (good rq)) rqs)) /\
  tx_messages y = tx_messages x + fold_right Z.add 0 (map (fun rq => match decode_request validate rq with GOk m => Z.of_nat (length (fst (handle (rq_headers rq) m))) | GErr _ => 0 end) rqs).
Proof.
  clear parse_ser_req bytes_req parse_ser_res bytes_res zlib snappy ser_req. intros validate compress handle rqs. induction rqs as [|rq rqs IH]; intros x; cbn [fold_left length map fold_right filter]; [cbv zeta; lia|].
  cbv zeta in IH. specialize (IH (fst (stream_handler validate compress handle x rq))). cbv zeta. destruct IH as (I1 & I2 & I4 & I3). rewrite I1, I2, I3, I4.
  unfold stream_handler. destruct (decode_request validate rq) as [m|e]; [|cbn [fst initiations successes failures tx_messages negb length]; lia].
  destruct (handle (rq_headers rq) m) as [ms res]. destruct (encode_all _ _ _ _ _ _ ms) as [ [a b] frames].
  destruct res; cbn [fst snd initiations successes failures tx_messages negb length]; lia.
Qed.

(** The read stop. *)
Notation pstep := (pstep Res DS parse_res inflate inflate_all ds_new valid_res).
Notation prun := (prun Res DS parse_res inflate inflate_all ds_new valid_res).
Notation paced := (paced DS).

Lemma taken_app : forall (a b : list (pitem Res)), taken (a ++ b) = taken a ++ taken b.
Proof. induction a as [|[]]; intros; cbn; rewrite ?IHa; reflexivity. Qed.
Lemma returned_app : forall (a b : list (pitem Res)), returned (a ++ b) = returned a ++ returned b.
Proof. induction a as [|[]]; intros; cbn; rewrite ?IHa; reflexivity. Qed.

Lemma paced_same : forall v ls s s' tr, prun v s ls = Some (s', tr) ->
  returned tr = reads (read_frame v) (p_reader DS s) (taken tr) /\
  exists n, taken tr = map Some (firstn n (p_body DS s)) ++ repeat None (n - length (p_body DS s)) /\ p_body DS s' = skipn n (p_body DS s).
Proof.
  induction ls as [|l ls IH]; intros s s' tr H.
  - cbn in H. injection H as <- <-. split; [reflexivity|]. exists 0%nat. split; reflexivity.
  - cbn [prun] in H. destruct (pstep v s l) as [ [s1 o1]|] eqn:E; [|discriminate]. destruct (prun v s1 ls) as [ [s2 o2]|] eqn:E2; [|discriminate]. injection H as <- <-.
    destruct (IH _ _ _ E2) as (R & n & T & B). rewrite taken_app, returned_app.
    assert (C: (taken o1 = [] /\ returned o1 = [] /\ p_reader DS s1 = p_reader DS s /\ p_body DS s1 = p_body DS s) \/
      (exists d' r, read_frame v (p_reader DS s) (hd_error (p_body DS s)) = (d', r) /\ taken o1 = [hd_error (p_body DS s)] /\ returned o1 = match r with Some x => [x] | None => [] end
         /\ p_reader DS s1 = d' /\ p_body DS s1 = tl (p_body DS s))).
    { unfold pstep in E. destruct l, (p_place DS s); try discriminate; try (injection E as <- <-; left; repeat split; reflexivity).
      - destruct (p_changed DS s); [|discriminate]. injection E as <- <-. left; repeat split; reflexivity.
      - destruct (p_changed DS s); [|discriminate]. injection E as <- <-. left; repeat split; reflexivity.
      - destruct (read_frame v (p_reader DS s) (hd_error (p_body DS s))) as [d' [r|] ] eqn:Er; injection E as <- <-; right; do 2 eexists; (split; [reflexivity|repeat split; reflexivity]). }
    destruct C as [(C1 & C2 & C3 & C4)|(d' & r & C0 & C1 & C2 & C3 & C4)]; rewrite C1, C2; cbn [app].
    + rewrite C3, C4 in *. split; [exact R|]. exists n. auto.
    + rewrite C3, C4 in *. split.
      * cbn [reads]. rewrite C0. rewrite <- R. destruct r; reflexivity.
      * exists (S n). rewrite T, B. destruct (p_body DS s) as [|f body]; cbn [hd_error tl firstn skipn map app length].
        -- rewrite firstn_nil, skipn_nil. cbn [map app length]. rewrite !Nat.sub_0_r. split; reflexivity.
        -- split; reflexivity.
Qed.

(** After a stop: at most one frame. *)
Lemma paused_none : forall v ls s s' tr, prun v s ls = Some (s', tr) -> p_stop DS s = true -> p_place DS s <> PSelect -> never_cleared tr -> taken tr = [].
Proof.
  induction ls as [|l ls IH]; intros s s' tr H Hs Hp N.
  - cbn in H. injection H as <- <-. reflexivity.
  - cbn [prun] in H. destruct (pstep v s l) as [ [s1 o1]|] eqn:E; [|discriminate]. destruct (prun v s1 ls) as [ [s2 o2]|] eqn:E2; [|discriminate]. injection H as <- <-.
    assert (N2: never_cleared o2) by (intros Hi; apply N; apply in_or_app; right; exact Hi).
    rewrite taken_app. unfold pstep in E. destruct l, (p_place DS s) eqn:Ep; try discriminate; try (exfalso; apply Hp; reflexivity).
    all: try (injection E as <- <-; cbn [taken app]; eapply IH; [exact E2|cbn; auto|cbn; rewrite ?Hs, ?Ep; discriminate|exact N2]).
    all: try (destruct b; [reflexivity|exfalso; apply N; left; reflexivity]).
    destruct (p_changed DS s); [|discriminate]. injection E as <- <-. cbn [taken app]. eapply IH; [exact E2|cbn; auto|cbn; discriminate|exact N2].
Qed.

Lemma stopped_one : forall v ls s s' tr, prun v s ls = Some (s', tr) -> p_stop DS s = true -> never_cleared tr -> (length (taken tr) <= 1)%nat.
Proof.
  induction ls as [|l ls IH]; intros s s' tr H Hs N.
  - cbn in H. injection H as <- <-. cbn. lia.
  - destruct (p_place DS s) eqn:Ep; try (rewrite (paused_none v (l :: ls) s s' tr H Hs) by (assumption || (rewrite Ep; discriminate)); cbn; lia).
    cbn [prun] in H. destruct (pstep v s l) as [ [s1 o1]|] eqn:E; [|discriminate]. destruct (prun v s1 ls) as [ [s2 o2]|] eqn:E2; [|discriminate]. injection H as <- <-.
    assert (N2: never_cleared o2) by (intros Hi; apply N; apply in_or_app; right; exact Hi).
    rewrite taken_app. unfold pstep in E. rewrite Ep in E. destruct l; try discriminate.
    + injection E as <- <-. destruct b; [cbn [taken app]; eapply IH; [exact E2|reflexivity|exact N2]|exfalso; apply N; left; reflexivity].
    + destruct (p_changed DS s); [|discriminate]. injection E as <- <-. cbn [taken app]. eapply IH; [exact E2|exact Hs|exact N2].
    + destruct (read_frame v (p_reader DS s) (hd_error (p_body DS s))) as [d' [r|] ]; injection E as <- <-; cbn [taken app];
        rewrite (paused_none v ls _ _ _ E2); cbn; auto; discriminate.
Qed.

Lemma prun_app : forall v ls1 ls2 s s' tr, prun v s (ls1 ++ ls2) = Some (s', tr) -> exists s1 t1 t2, prun v s ls1 = Some (s1, t1) /\ prun v s1 ls2 = Some (s', t2) /\ tr = t1 ++ t2.
Proof.
  induction ls1 as [|l ls1 IH]; intros ls2 s s' tr H.
  - exists s, [], tr. auto.
  - cbn [app prun] in *. destruct (pstep v s l) as [ [s1 o1]|] eqn:E; [|discriminate]. destruct (prun v s1 (ls1 ++ ls2)) as [ [s2 o2]|] eqn:E2; [|discriminate]. injection H as <- <-.
    destruct (IH _ _ _ _ E2) as (s3 & t1 & t2 & A & B & ->). rewrite A. exists s3, (o1 ++ t1), t2. rewrite app_assoc. auto.
Qed.

Lemma stop_bounds : forall v ls1 ls2 s s' tr1 tr2 s1, prun v s (ls1 ++ [PSet true]) = Some (s1, tr1) -> prun v s1 ls2 = Some (s', tr2) -> never_cleared tr2 -> (length (taken tr2) <= 1)%nat.
Proof.
  intros v ls1 ls2 s s' tr1 tr2 s1 H1 H2 N. apply prun_app in H1 as (s0 & t1 & t2 & A & B & ->). cbn in B. injection B as <- <-. eapply stopped_one; [exact H2|reflexivity|exact N].
Qed.
End P.

(** The time of a call. *)
Lemma timeout_covers : forall timeout ls p t, trun timeout (HPermit, 0) ls = Some (p, t) -> p = HReturned true -> timeout <= t.
Proof.
  assert (G: forall timeout ls p0 t0 p t, trun timeout (p0, t0) ls = Some (p, t) -> (p0 = HReturned true -> timeout <= t0) -> p = HReturned true -> timeout <= t).
  { induction ls as [|l ls IH]; intros p0 t0 p t H H0 Hp; cbn in H.
    - injection H as <- <-. auto.
    - destruct (tstep timeout (p0, t0) l) as [ [p1 t1]|] eqn:E; [|discriminate]. eapply IH; [exact H| |exact Hp]. intros ->.
      destruct l, p0 as [| | |[|] ]; cbn in E; try discriminate; repeat dmatch_in E; inv E; auto; lia. }
  intros timeout ls p t H Hp. eapply G; [exact H|discriminate|exact Hp].
Qed.
