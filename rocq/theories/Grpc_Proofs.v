From Verif Require Import Base Grpc_Model Grpc_Spec.
Local Open Scope Z_scope.

Lemma blen_nonneg : forall l, 0 <= blen l.
Proof. intros. unfold blen. lia. Qed.
Lemma blen_app : forall a b, blen (a ++ b) = blen a + blen b.
Proof. intros. unfold blen. rewrite app_length. lia. Qed.

Lemma be32_length : forall n, length (be32 n) = 4%nat.
Proof. reflexivity. Qed.
Lemma be32_bytes : forall n, Forall is_byte (be32 n).
Proof. intros. unfold be32. repeat constructor; unfold is_byte; try apply Z.mod_pos_bound; lia. Qed.

Lemma of_be32_be32 : forall n, 0 <= n < 2 ^ 32 -> of_be32 (be32 n) = n.
Proof. intros n H. change (2 ^ 32) with 4294967296 in H. unfold of_be32, be32. cbn [fold_left]. lia. Qed.

Lemma be32_of_be32 : forall a b c d, is_byte a -> is_byte b -> is_byte c -> is_byte d -> be32 (of_be32 [a; b; c; d]) = [a; b; c; d].
Proof.
  unfold is_byte. intros a b c d Ha Hb Hc Hd. unfold of_be32, be32. cbn [fold_left].
  set (n := (((0 * 256 + a) * 256 + b) * 256 + c) * 256 + d).
  assert (En: n = a * 16777216 + b * 65536 + c * 256 + d) by (unfold n; lia). clearbody n.
  repeat f_equal; lia.
Qed.

Lemma be32_inj : forall a b, 0 <= a < 2 ^ 32 -> 0 <= b < 2 ^ 32 -> be32 a = be32 b -> a = b.
Proof. intros a b Ha Hb E. rewrite <- (of_be32_be32 a Ha), <- (of_be32_be32 b Hb), E. reflexivity. Qed.

Lemma frame_inj : forall f1 f2 t1 t2, frame_ok f1 -> frame_ok f2 -> frame_bytes f1 ++ t1 = frame_bytes f2 ++ t2 -> f1 = f2 /\ t1 = t2.
Proof.
  intros [a p] [b q] t1 t2 (Ha & Hp & Lp) (Hb & Hq & Lq) E. unfold frame_bytes in E. cbn [fst snd] in *.
  rewrite <- !app_comm_cons, <- !app_assoc in E.
  assert (E1: a = b) by congruence. assert (E2: be32 (blen p) ++ p ++ t1 = be32 (blen q) ++ q ++ t2) by congruence. clear E. subst b.
  assert (E3: be32 (blen p) = be32 (blen q) /\ p ++ t1 = q ++ t2).
  { unfold be32 in E2 |- *. cbn [app] in E2. injection E2 as -> -> -> -> E2. auto. }
  destruct E3 as [E3 E4]. apply be32_inj in E3; [|split; [apply blen_nonneg|assumption]..].
  assert (El: length p = length q) by (unfold blen in E3; lia).
  assert (p = q /\ t1 = t2) as [-> ->]; [|auto]. clear - E4 El. revert q El E4.
  induction p as [|x p IH]; intros [|y q] El E; cbn in *; try lia; [auto|].
  injection E as -> E. destruct (IH q) as [-> ->]; [lia|exact E|auto].
Qed.

(** Every byte list is a list of frames and an incomplete rest. *)
Lemma split_frame : forall l, Forall is_byte l -> incomplete l \/ exists f tail, frame_ok f /\ l = frame_bytes f ++ tail.
Proof.
  intros l Hl. destruct l as [|a [|b0 [|b1 [|b2 [|b3 l]]]]];
    try (left; intros f t _ E; apply (f_equal (@length Z)) in E; unfold frame_bytes in E; cbn in E; lia).
  rewrite !Forall_cons_iff in Hl. destruct Hl as (Ha & H0 & H1 & H2 & H3 & Hl5).
  set (n := of_be32 [b0; b1; b2; b3]).
  assert (Hn: 0 <= n < 2 ^ 32). { unfold n, of_be32, is_byte in *. cbn [fold_left]. change (2 ^ 32) with 4294967296. lia. }
  assert (Hb: be32 n = [b0; b1; b2; b3]) by (apply be32_of_be32; assumption).
  destruct (Z_le_gt_dec n (blen l)) as [Hle|Hgt].
  - right. exists (a, firstn (Z.to_nat n) l), (skipn (Z.to_nat n) l).
    assert (El: blen (firstn (Z.to_nat n) l) = n). { unfold blen in *. rewrite firstn_length. lia. }
    split.
    + unfold frame_ok; splits; cbn [fst snd]; [exact Ha| |lia]. apply Forall_forall. intros x Hx. rewrite Forall_forall in Hl5. apply Hl5.
      rewrite <- (firstn_skipn (Z.to_nat n) l). apply in_or_app. auto.
    + unfold frame_bytes. cbn [fst snd]. rewrite El, Hb. cbn [app]. rewrite firstn_skipn. reflexivity.
  - left. intros [f p] t (Hf & Hp & Lp) E. unfold frame_bytes in E. cbn [fst snd] in *.
    assert (E2: [b0; b1; b2; b3] = be32 (blen p) /\ l = p ++ t). { unfold be32 in *. cbn [app] in E. injection E as -> -> -> -> -> ->. auto. }
    destruct E2 as [E2 ->]. rewrite <- Hb in E2. apply be32_inj in E2; [|assumption|split; [apply blen_nonneg|assumption]].
    rewrite blen_app in Hgt. pose proof (blen_nonneg t). lia.
Qed.

Lemma split_frames : forall l, Forall is_byte l -> exists fs rest, Forall frame_ok fs /\ incomplete rest /\ l = stream_bytes fs ++ rest.
Proof.
  intros l. remember (length l) as n eqn:En. revert l En. induction n as [n IH] using lt_wf_ind. intros l En Hl.
  destruct (split_frame l Hl) as [H|(f & t & Hf & ->)].
  - exists [], l. splits; [constructor|exact H|reflexivity].
  - apply Forall_app in Hl as [_ Ht]. destruct (IH (length t)) with (l := t) as (fs & rest & H1 & H2 & H3); [|reflexivity|exact Ht|].
    + subst n. unfold frame_bytes. rewrite app_length. cbn. lia.
    + exists (f :: fs), rest. splits; [constructor; assumption|exact H2|]. unfold stream_bytes. cbn. rewrite <- app_assoc. rewrite H3 at 1. reflexivity.
Qed.

Lemma frames_prefix : forall fs1 fs rest1 others rest, Forall frame_ok fs1 -> Forall frame_ok fs -> incomplete rest ->
  stream_bytes fs1 ++ rest1 ++ others = stream_bytes fs ++ rest -> exists fs2, fs = fs1 ++ fs2 /\ rest1 ++ others = stream_bytes fs2 ++ rest.
Proof.
  induction fs1 as [|f1 fs1 IH]; intros fs rest1 others rest H1 H2 Hi E; [exists fs; auto|].
  inversion H1 as [|? ? Hf1 Hfs1]; subst. destruct fs as [|f fs].
  - exfalso. unfold stream_bytes in E. cbn in E. rewrite <- app_assoc in E. exact (Hi _ _ Hf1 (eq_sym E)).
  - inversion H2 as [|? ? Hf Hfs]; subst. unfold stream_bytes in E. cbn [map concat] in E. rewrite <- !app_assoc in E.
    apply frame_inj in E as [-> E]; [|assumption..]. destruct (IH fs rest1 others rest Hfs1 Hfs Hi E) as (fs2 & -> & E2). exists fs2. auto.
Qed.

Section Decode.
Context {Msg DS : Type} (parse : list Z -> option Msg) (inflate inflate_all : DS -> list Z -> DS * option (list Z)) (ds_new : DS).
Local Notation decode_loop := (decode_loop parse inflate inflate_all ds_new).
Local Notation decode_data := (decode_data parse inflate inflate_all ds_new).
Local Notation feed := (feed parse inflate inflate_all ds_new).
Local Notation frames_msgs := (frames_msgs parse inflate inflate_all ds_new).
Local Notation frame_msg := (frame_msg parse inflate inflate_all ds_new).

(** The bytes of the stream that a decoder holds, its prefix included when already consumed. *)
Definition holds (d : decoder DS) (l : list Z) : Prop :=
  match d_size d with
  | None => l = d_buf d
  | Some n => exists a, (a =? 1) = d_comp d /\ 0 <= n < 2 ^ 32 /\ l = a :: be32 n ++ d_buf d
  end.

Lemma holds_app : forall d l c, holds d l -> forall rx, holds (mkDec (d_buf d ++ c) (d_decomp d) (d_comp d) (d_size d) rx (d_rxd d)) (l ++ c).
Proof.
  intros d l c H rx. unfold holds in *. cbn. destruct (d_size d) as [n|].
  - destruct H as (a & Ha & Hn & ->). exists a. splits; auto; try lia.
  - subst l. reflexivity.
Qed.

Definition measure (d : decoder DS) : nat := 2 * length (d_buf d) + match d_size d with Some _ => 1 | None => 0 end.

Lemma skipn_app_exact : forall (a b : list Z), skipn (length a) (a ++ b) = b.
Proof. intros. rewrite skipn_app, skipn_all, Nat.sub_diag. reflexivity. Qed.
Lemma firstn_app_exact : forall (a b : list Z), firstn (length a) (a ++ b) = a.
Proof. intros. rewrite firstn_app, firstn_all, Nat.sub_diag. cbn. apply app_nil_r. Qed.

Lemma loop_frames : forall fuel fs d tl msgs rest, Forall is_byte (stream_bytes fs ++ rest) -> Forall frame_ok fs -> incomplete rest ->
  holds d (stream_bytes fs ++ rest) -> (measure d < fuel)%nat ->
  exists d' dc' tl' ms e, frames_msgs (d_decomp d) tl fs = (dc', tl', ms, e) /\
    match e with
    | None => decode_loop fuel d tl msgs = (d', tl', ROk (msgs ++ ms)) /\ d_decomp d' = dc' /\ holds d' rest
    | Some e => decode_loop fuel d tl msgs = (d', tl', RErr e)
    end.
Proof.
  induction fuel as [|fuel IH]; intros fs d tl msgs rest Hby Hfs Hi Hh Hm; [lia|].
  unfold holds in Hh. cbn [Grpc_Model.decode_loop]. destruct (d_size d) as [n|] eqn:En.
  - destruct Hh as (a & Ha & Hn & El). destruct (n <=? blen (d_buf d)) eqn:Ec.
    + apply Z.leb_le in Ec. set (data := firstn (Z.to_nat n) (d_buf d)). set (tail := skipn (Z.to_nat n) (d_buf d)).
      assert (Ld: blen data = n). { unfold data, blen in *. rewrite firstn_length. lia. }
      assert (Eb: d_buf d = data ++ tail) by (symmetry; apply firstn_skipn). clearbody data tail.
      assert (Efr: stream_bytes fs ++ rest = frame_bytes (a, data) ++ tail).
      { rewrite El. unfold frame_bytes. cbn [fst snd app]. rewrite Ld, Eb at 1. rewrite <- app_assoc. reflexivity. }
      assert (Hok: frame_ok (a, data)).
      { rewrite Efr in Hby. unfold frame_bytes in Hby. cbn [fst snd] in Hby. apply Forall_app in Hby as [Hby _].
        apply Forall_cons_iff in Hby as [Hx Hy]. apply Forall_app in Hy as [_ Hy]. unfold frame_ok; splits; cbn; [exact Hx|exact Hy|lia]. }
      destruct fs as [|f fs]; [exfalso; exact (Hi _ _ Hok Efr)|].
      inversion Hfs as [|? ? Hf Hfs']; subst. unfold stream_bytes in Efr. cbn [map concat] in Efr. rewrite <- app_assoc in Efr.
      apply frame_inj in Efr as [-> Et]; [|assumption..].
      cbn [Grpc_Spec.frames_msgs]. unfold Grpc_Spec.frame_msg. cbn [fst snd]. rewrite Ha.
      assert (Hby': Forall is_byte (stream_bytes fs ++ rest)).
      { unfold stream_bytes in Hby. cbn [map concat] in Hby. rewrite <- app_assoc in Hby. apply Forall_app in Hby. tauto. }
      assert (Lt: (2 * length tail < measure d)%nat).
      { unfold measure. rewrite En, Eb, app_length. lia. }
      destruct (if d_comp d then decompress inflate inflate_all ds_new (d_decomp d) tl data else (d_decomp d, tl, ROk data)) as [ [dc1 tl1] [out|e] ] eqn:Er.
      * destruct (parse out) as [m|] eqn:Ep.
        -- destruct (IH fs (mkDec tail dc1 (d_comp d) None (d_rx d) (d_rxd d + blen out)) tl1 (msgs ++ [m]) rest) as (d' & dc' & tl' & ms & e & HF & HD);
             [exact Hby'|exact Hfs'|exact Hi|unfold holds; cbn; exact Et|unfold measure; cbn; lia|].
           cbn [d_decomp] in HF. rewrite HF. exists d', dc', tl', (m :: ms), e. split; [reflexivity|].
           destruct e; [exact HD|]. rewrite <- app_assoc in HD. exact HD.
        -- eexists _, _, _, _, _. split; reflexivity.
      * eexists _, _, _, _, _. split; reflexivity.
    + apply Z.leb_gt in Ec. destruct fs as [|f fs].
      * exists d, (d_decomp d), tl, [], None. cbn. splits; try reflexivity; [rewrite app_nil_r; reflexivity|]. unfold holds. rewrite En. exists a. cbn in El. auto.
      * exfalso. inversion Hfs as [|? ? Hf ?]; subst. destruct f as [b p]. unfold stream_bytes in El. cbn [map concat] in El.
        destruct Hf as (_ & _ & Lp). cbn [snd] in Lp. unfold frame_bytes in El. cbn [fst snd] in El. rewrite <- !app_assoc in El.
        assert (E2: be32 (blen p) = be32 n /\ p ++ concat (map frame_bytes fs) ++ rest = d_buf d).
        { unfold be32 in *. cbn [app] in El. injection El as -> -> -> -> -> E5. auto. }
        destruct E2 as [E2 E3]. apply be32_inj in E2; [|split; [apply blen_nonneg|assumption]|assumption].
        rewrite <- E3, blen_app in Ec. pose proof (blen_nonneg (concat (map frame_bytes fs) ++ rest)). lia.
  - destruct (Nat.leb PREFIX (length (d_buf d))) eqn:Ec.
    + apply Nat.leb_le in Ec. unfold PREFIX in *. rewrite Hh in Hby. destruct (d_buf d) as [|a [|b0 [|b1 [|b2 [|b3 l]]]]] eqn:Eb; cbn in Ec; try lia.
      cbn [skipn firstn nth].
      assert (Hb: be32 (of_be32 [b0; b1; b2; b3]) = [b0; b1; b2; b3]).
      { rewrite !Forall_cons_iff in Hby. destruct Hby as (Ha & H0 & H1 & H2 & H3 & Hl5). apply be32_of_be32; assumption. }
      assert (Hn: 0 <= of_be32 [b0; b1; b2; b3] < 2 ^ 32).
      { rewrite !Forall_cons_iff in Hby. destruct Hby as (Ha & H0 & H1 & H2 & H3 & Hl5). unfold of_be32, is_byte in *. cbn [fold_left]. change (2 ^ 32) with 4294967296. lia. }
      apply (IH fs (mkDec l (d_decomp d) (a =? 1) (Some (of_be32 [b0; b1; b2; b3])) (d_rx d) (d_rxd d)) tl msgs rest).
      * rewrite Hh. exact Hby.
      * exact Hfs.
      * exact Hi.
      * unfold holds. cbn [d_size d_comp d_buf]. exists a. splits; [reflexivity|lia|lia|]. rewrite Hb. exact Hh.
      * unfold measure in *. rewrite En, Eb in Hm. cbn in *. lia.
    + apply Nat.leb_gt in Ec. destruct fs as [|f fs].
      * exists d, (d_decomp d), tl, [], None. cbn. splits; try reflexivity; [rewrite app_nil_r; reflexivity|]. unfold holds. rewrite En. exact Hh.
      * exfalso. apply (f_equal (@length Z)) in Hh. unfold stream_bytes, frame_bytes in Hh. cbn in Hh. unfold PREFIX in Ec. lia.
Qed.

Lemma frames_msgs_app : forall fs1 fs2 dc tl, frames_msgs dc tl (fs1 ++ fs2) =
  let '(dc1, tl1, ms1, e1) := frames_msgs dc tl fs1 in
  match e1 with
  | Some e => (dc1, tl1, ms1, Some e)
  | None => let '(dc2, tl2, ms2, e2) := frames_msgs dc1 tl1 fs2 in (dc2, tl2, ms1 ++ ms2, e2)
  end.
Proof.
  induction fs1 as [|f fs1 IH]; intros fs2 dc tl; cbn.
  - destruct (frames_msgs dc tl fs2) as [ [ [dc2 tl2] ms2] e2]. reflexivity.
  - destruct (frame_msg dc tl f) as [ [dc1 tl1] [m|e] ]; [|reflexivity]. rewrite IH.
    destruct (frames_msgs dc1 tl1 fs1) as [ [ [dc2 tl2] ms2] [e|] ]; [reflexivity|].
    destruct (frames_msgs dc2 tl2 fs2) as [ [ [dc3 tl3] ms3] e3]. reflexivity.
Qed.

Lemma feed_frames : forall chunks fs d tl l rest dc' tl' ms e,
  Forall is_byte (l ++ concat chunks) -> Forall frame_ok fs -> incomplete rest -> holds d l -> incomplete l ->
  l ++ concat chunks = stream_bytes fs ++ rest -> frames_msgs (d_decomp d) tl fs = (dc', tl', ms, e) ->
  exists d' got, feed d tl chunks = (d', tl', got, e) /\ (exists lost, ms = got ++ lost /\ (e = None -> lost = [])) /\ (e = None -> d_decomp d' = dc' /\ holds d' rest).
Proof.
  induction chunks as [|c chunks IH]; intros fs d tl l rest dc' tl' ms e Hby Hfs Hi Hh Hl El Hr.
  - cbn in *. rewrite app_nil_r in El. destruct fs as [|f fs].
    + cbn in *. inv Hr. exists d, []. splits; [reflexivity|exists []; auto|intros _]. subst. auto.
    + exfalso. apply Forall_cons_iff in Hfs as [Hf0 Hfs]. unfold stream_bytes in El. cbn [map concat] in El. rewrite <- app_assoc in El. exact (Hl _ _ Hf0 El).
  - cbn [concat] in *. rewrite app_assoc in Hby. pose proof Hby as Hby0. apply Forall_app in Hby as [Hb1 Hb2].
    destruct (split_frames _ Hb1) as (fs1 & rest1 & Hfs1 & Hi1 & E1).
    rewrite app_assoc, E1, <- app_assoc in El. destruct (frames_prefix _ _ _ _ _ Hfs1 Hfs Hi El) as (fs2 & -> & E2).
    apply Forall_app in Hfs as [_ Hfs2].
    cbn [Grpc_Model.feed]. unfold Grpc_Model.decode_data.
    set (d0 := mkDec (d_buf d ++ c) (d_decomp d) (d_comp d) (d_size d) (d_rx d + blen c) (d_rxd d)).
    destruct (loop_frames (loop_fuel d0) fs1 d0 tl [] rest1) as (d1 & dc1 & tl1 & ms1 & e1 & HF & HD).
    { rewrite <- E1. exact Hb1. } { exact Hfs1. } { exact Hi1. } { rewrite <- E1. apply holds_app. exact Hh. }
    { unfold measure, loop_fuel. destruct (d_size d0); lia. }
    rewrite frames_msgs_app in Hr. cbn [d_decomp d0] in HF. change (d_decomp d0) with (d_decomp d) in HF. rewrite HF in Hr. destruct e1 as [e1|].
    + inv Hr. rewrite HD. exists d1, []. splits; [reflexivity|exists ms; split; [reflexivity|discriminate]|discriminate].
    + destruct HD as (HD & Hdc & Hh1). rewrite HD. cbn [app].
      destruct (frames_msgs dc1 tl1 fs2) as [ [ [dc2 tl2] ms2] e2] eqn:E3. inv Hr.
      destruct (IH fs2 d1 tl1 rest1 rest dc' tl' ms2 e) as (d' & got & HF2 & (lost & Hlost & Hln) & Hend).
      { rewrite E1, <- app_assoc in Hby0. apply Forall_app in Hby0. tauto. }
      { exact Hfs2. } { exact Hi. } { exact Hh1. } { exact Hi1. } { exact E2. } { exact E3. }
      rewrite HF2. exists d', (ms1 ++ got). splits; [reflexivity| |exact Hend].
      exists lost. split; [rewrite Hlost, app_assoc; reflexivity|exact Hln].
Qed.

Lemma incomplete_nil : incomplete [].
Proof. intros f t _ E. discriminate. Qed.

Lemma decode_chunks : forall chunks fs rest dc tl dc' tl' ms e,
  Forall is_byte (concat chunks) -> Forall frame_ok fs -> incomplete rest -> concat chunks = stream_bytes fs ++ rest ->
  frames_msgs dc tl fs = (dc', tl', ms, e) ->
  exists d got lost, feed (decoder_new dc) tl chunks = (d, tl', got, e) /\ ms = got ++ lost /\
    (e = None -> lost = [] /\ (rest = [] -> d_buf d = [] /\ d_size d = None)).
Proof.
  intros chunks fs rest dc tl dc' tl' ms e Hby Hfs Hi El Hr.
  destruct (feed_frames chunks fs (decoder_new dc) tl [] rest dc' tl' ms e) as (d & got & H1 & (lost & H2 & H3) & H4); auto using incomplete_nil.
  { reflexivity. }
  exists d, got, lost. splits; auto. intros He. split; [auto|]. intros ->. destruct (H4 He) as [_ Hh]. unfold holds in Hh.
  destruct (d_size d) as [n|]; [|auto]. destruct Hh as (a & _ & _ & Hx). discriminate.
Qed.

Lemma chunks_same : forall chunks1 chunks2 dc tl d1 tl1 ms1 d2 tl2 ms2 e2, Forall is_byte (concat chunks1) -> concat chunks1 = concat chunks2 ->
  feed (decoder_new dc) tl chunks1 = (d1, tl1, ms1, None) -> feed (decoder_new dc) tl chunks2 = (d2, tl2, ms2, e2) -> ms2 = ms1 /\ e2 = None.
Proof.
  intros c1 c2 dc tl d1 tl1 ms1 d2 tl2 ms2 e2 Hby Ec H1 H2. destruct (split_frames _ Hby) as (fs & rest & Hfs & Hi & E).
  destruct (frames_msgs dc tl fs) as [ [ [dc' tl'] ms] e] eqn:Er.
  destruct (decode_chunks c1 fs rest dc tl _ _ _ _ Hby Hfs Hi E Er) as (x1 & g1 & l1 & F1 & M1 & N1).
  rewrite Ec in Hby, E. destruct (decode_chunks c2 fs rest dc tl _ _ _ _ Hby Hfs Hi E Er) as (x2 & g2 & l2 & F2 & M2 & N2).
  rewrite H1 in F1. inv F1. rewrite H2 in F2. inv F2. destruct N1 as [-> _]; [reflexivity|]. destruct N2 as [-> _]; [reflexivity|].
  rewrite !app_nil_r in M2. auto.
Qed.
End Decode.

Section RoundTrip.
Context {Msg CS DS : Type} (serialize : Msg -> list Z) (parse : list Z -> option Msg)
  (deflate deflate_all : CS -> list Z -> CS * option (list Z)) (inflate inflate_all : DS -> list Z -> DS * option (list Z)) (cs_new : CS) (ds_new : DS).
Hypothesis Hparse : forall m, parse (serialize m) = Some m.
Hypothesis Hser : forall m, Forall is_byte (serialize m).
Hypothesis HL : lossless deflate deflate_all inflate inflate_all cs_new ds_new.
Local Notation encode := (encode serialize deflate deflate_all cs_new).
Local Notation encode_all := (encode_all serialize deflate deflate_all cs_new).
Local Notation frames_msgs := (frames_msgs parse inflate inflate_all ds_new).

(** Sender and receiver in step. *)
Definition insync (R : CS -> DS -> Prop) (c : option (compressor CS)) (tlc : CS) (d : option (decompressor DS)) (tld : DS) : Prop :=
  c = None \/ (c = Some CStateless /\ d = Some DStateless /\ tlc = cs_new /\ tld = ds_new) \/
  exists s t, c = Some (CStateful s) /\ d = Some (DStateful t) /\ R s t.

Lemma encode_frames : forall R : CS -> DS -> Prop, (forall c d data c' out, R c d -> deflate c data = (c', Some out) -> exists d', inflate d out = (d', Some data) /\ R c' d') ->
  forall ms e tlc e' tlc' bs dc tld, insync R (e_comp e) tlc dc tld -> encode_all e tlc ms = (e', tlc', bs) -> Forall (fun b => blen b < 2 ^ 32) bs ->
  exists fs dc' tld', Forall frame_ok fs /\ concat bs = stream_bytes fs /\ frames_msgs dc tld fs = (dc', tld', ms, None).
Proof.
  intros R HR. induction ms as [|m ms IH]; intros e tlc e' tlc' bs dc tld Hs E Hlen; cbn [Grpc_Model.encode_all] in E.
  - inv E. exists [], dc, tld. splits; [constructor|reflexivity|reflexivity].
  - destruct (encode e tlc m) as [ [e1 tlc1] b] eqn:E1. destruct (encode_all e1 tlc1 ms) as [ [e2 tlc2] bs'] eqn:E2. inv E.
    inversion Hlen as [|? ? Hb Hbs]; subst.
    assert (F: exists f dc1 tld1, frame_ok f /\ b = frame_bytes f /\ frame_msg parse inflate inflate_all ds_new dc tld f = (dc1, tld1, ROk m) /\
               insync R (e_comp e1) tlc1 dc1 tld1).
    { unfold Grpc_Model.encode in E1.
      assert (Hun: b = encode_uncompressed serialize m -> frame_ok (0, serialize m) /\ b = frame_bytes (0, serialize m) /\
                 forall dc tld, frame_msg parse inflate inflate_all ds_new dc tld (0, serialize m) = (dc, tld, ROk m)).
      { intros ->. unfold frame_ok. splits.
        - unfold is_byte. cbn. lia.
        - cbn. apply Hser.
        - cbn. unfold encode_uncompressed in Hb. revert Hb. unfold blen. cbn [length be32 app]. lia.
        - reflexivity.
        - intros. unfold frame_msg. cbn. rewrite Hparse. reflexivity. }
      destruct (e_comp e) as [c|] eqn:Ee.
      - destruct (THRESHOLD <=? blen (serialize m)) eqn:Et.
        + destruct c as [|s]; cbn [encode_compressed] in E1.
          * destruct (deflate_all tlc (serialize m)) as [x [out|] ] eqn:Ed.
            -- inv E1. destruct Hs as [Hs|[(Hs & -> & -> & ->)|(s & t & Hs & _)] ]; try discriminate.
               pose proof (ll_bytes_all _ _ _ _ _ _ HL _ _ _ _ Ed) as Ho. destruct (ll_all _ _ _ _ _ _ HL _ _ _ Ed) as (d' & Hd').
               exists (1, out), (Some DStateless), ds_new. unfold frame_ok. splits.
               ++ unfold is_byte. cbn. lia.
               ++ exact Ho.
               ++ cbn. revert Hb. unfold blen. cbn [length be32 app]. lia.
               ++ reflexivity.
               ++ unfold frame_msg. cbn. rewrite Hd', Hparse. reflexivity.
               ++ right. left. cbn. auto.
            -- inv E1. destruct (Hun eq_refl) as (U1 & U2 & U3). exists (0, serialize m), dc, tld. splits; auto. left. reflexivity.
          * destruct (deflate s (serialize m)) as [s' [out|] ] eqn:Ed.
            -- inv E1. destruct Hs as [Hs|[(Hs & _)|(s0 & t & Hs & -> & Hst)] ]; try discriminate. injection Hs as ->.
               pose proof (ll_bytes _ _ _ _ _ _ HL _ _ _ _ Ed) as Ho. destruct (HR _ _ _ _ _ Hst Ed) as (t' & Ht' & Hst').
               exists (1, out), (Some (DStateful t')), tld. unfold frame_ok. splits.
               ++ unfold is_byte. cbn. lia.
               ++ exact Ho.
               ++ cbn. revert Hb. unfold blen. cbn [length be32 app]. lia.
               ++ reflexivity.
               ++ unfold frame_msg. cbn. rewrite Ht', Hparse. reflexivity.
               ++ right. right. exists s', t'. cbn. auto.
            -- inv E1. destruct (Hun eq_refl) as (U1 & U2 & U3). exists (0, serialize m), dc, tld. splits; auto. left. reflexivity.
        + inv E1. destruct (Hun eq_refl) as (U1 & U2 & U3). exists (0, serialize m), dc, tld. splits; auto.
      - inv E1. destruct (Hun eq_refl) as (U1 & U2 & U3). exists (0, serialize m), dc, tld. splits; auto. }
    destruct F as (f & dc1 & tld1 & Hf & -> & Hfm & Hs1).
    destruct (IH e1 tlc1 _ _ bs' dc1 tld1 Hs1 E2 Hbs) as (fs & dc2 & tld2 & Hfs & Ec & Hfr).
    exists (f :: fs), dc2, tld2. splits; [constructor; assumption|unfold stream_bytes; cbn; rewrite Ec; reflexivity|].
    cbn. rewrite Hfm, Hfr. reflexivity.
Qed.

Lemma stream_bytes_ok : forall fs, Forall frame_ok fs -> Forall is_byte (stream_bytes fs).
Proof.
  induction fs as [|[a p] fs IH]; intros H; [constructor|]. inversion H as [|? ? (Ha & Hp & _) Hfs]; subst. unfold stream_bytes. cbn [map concat].
  apply Forall_app. split; [|apply IH; exact Hfs]. unfold frame_bytes. cbn [fst snd] in *. constructor; [exact Ha|]. apply Forall_app. split; [apply be32_bytes|exact Hp].
Qed.

Lemma roundtrip : forall c d ms e' tlc' bs chunks, agree cs_new ds_new c d -> encode_all (encoder_new c) cs_new ms = (e', tlc', bs) ->
  Forall (fun b => blen b < 2 ^ 32) bs -> concat chunks = concat bs ->
  exists dec tl, feed parse inflate inflate_all ds_new (decoder_new d) ds_new chunks = (dec, tl, ms, None) /\ d_buf dec = [] /\ d_size dec = None.
Proof.
  intros c d ms e' tlc' bs chunks Ha E Hlen Hc. destruct (ll_stream _ _ _ _ _ _ HL) as (R & R0 & HR).
  assert (Hs: insync R (e_comp (encoder_new c)) cs_new d ds_new).
  { cbn. destruct Ha as [->|[ [-> ->] | [-> ->] ] ]; [left; reflexivity|right; left; auto|right; right; exists cs_new, ds_new; auto]. }
  destruct (encode_frames R HR ms _ _ _ _ _ _ _ Hs E Hlen) as (fs & dc' & tld' & Hfs & Eb & Hr).
  destruct (decode_chunks parse inflate inflate_all ds_new chunks fs [] d ds_new dc' tld' ms None) as (dec & got & lost & H1 & H2 & H3); auto using incomplete_nil.
  { rewrite Hc, Eb. apply stream_bytes_ok. exact Hfs. } { rewrite app_nil_r. congruence. }
  destruct (H3 eq_refl) as [-> Hz]. rewrite app_nil_r in H2. subst got. exists dec, tld'. destruct (Hz eq_refl). auto.
Qed.
End RoundTrip.

(** * Byte counters *)
Lemma encode_counts {Msg CS} (serialize : Msg -> list Z) (deflate deflate_all : CS -> list Z -> CS * option (list Z)) (cs_new : CS) :
  forall ms e tl e' tl' bs, encode_all serialize deflate deflate_all cs_new e tl ms = (e', tl', bs) ->
  e_tx e' = e_tx e + blen (concat bs) /\ e_txu e' = e_txu e + fold_right Z.add 0 (map (fun m => blen (serialize m) + 5) ms).
Proof.
  induction ms as [|m ms IH]; intros e tl e' tl' bs H; cbn in H.
  - inv H. cbn. lia.
  - destruct (encode serialize deflate deflate_all cs_new e tl m) as [[e1 tl1] b] eqn:E.
    destruct (encode_all serialize deflate deflate_all cs_new e1 tl1 ms) as [[e2 tl2] bs2] eqn:A. inv H.
    apply IH in A as [A1 A2]. cbn [concat map fold_right]. rewrite A1, A2, blen_app.
    assert (B: e_tx e1 = e_tx e + blen b /\ e_txu e1 = e_txu e + blen (serialize m) + 5).
    { unfold encode in E. match type of E with context[let '(_, _) := ?x in _] => destruct x as [[comp t] bytes] end. inv E. cbn. auto. }
    lia.
Qed.

Lemma decode_counts {Msg DS} (parse : list Z -> option Msg) (inflate inflate_all : DS -> list Z -> DS * option (list Z)) (ds_new : DS) :
  forall fuel d tl msgs d' tl' ms, decode_loop parse inflate inflate_all ds_new fuel d tl msgs = (d', tl', ROk ms) ->
  d_rx d' = d_rx d /\ exists outs new, ms = msgs ++ new /\ Forall2 (fun o m => parse o = Some m) outs new /\
    d_rxd d' = d_rxd d + fold_right Z.add 0 (map blen outs).
Proof.
  induction fuel as [|fuel IH]; intros d tl msgs d' tl' ms H; cbn [decode_loop] in H.
  - inv H. split; [reflexivity|]. exists [], []. rewrite app_nil_r. cbn. splits; auto; lia.
  - destruct (d_size d) as [n|].
    + destruct (n <=? blen (d_buf d)).
      2:{ inv H. split; [reflexivity|]. exists [], []. rewrite app_nil_r. cbn. splits; auto; lia. }
      destruct (if d_comp d then _ else _) as [[dc t] r]. destruct r as [out|er]; [|discriminate].
      destruct (parse out) as [m|] eqn:P; [|discriminate].
      apply IH in H as (H1 & outs & new & H2 & H3 & H4). cbn in *. split; [exact H1|].
      exists (out :: outs), (m :: new). rewrite H2, <- app_assoc. cbn. splits; auto. lia.
    + destruct (Nat.leb PREFIX (length (d_buf d))).
      * apply IH in H as (H1 & outs & new & H2 & H3 & H4). cbn in *. eauto 10.
      * inv H. split; [reflexivity|]. exists [], []. rewrite app_nil_r. cbn. splits; auto; lia.
Qed.

Lemma feed_counts {Msg DS} (parse : list Z -> option Msg) (inflate inflate_all : DS -> list Z -> DS * option (list Z)) (ds_new : DS) :
  forall chunks d tl d' tl' ms, feed parse inflate inflate_all ds_new d tl chunks = (d', tl', ms, None) ->
  d_rx d' = d_rx d + blen (concat chunks) /\ exists outs, Forall2 (fun o m => parse o = Some m) outs ms /\
    d_rxd d' = d_rxd d + fold_right Z.add 0 (map blen outs).
Proof.
  induction chunks as [|c chunks IH]; intros d tl d' tl' ms H; cbn [feed] in H.
  - inv H. cbn. split; [lia|]. exists []. cbn. split; [constructor|lia].
  - destruct (decode_data parse inflate inflate_all ds_new d tl c) as [[d1 tl1] r] eqn:E. destruct r as [ms1|er]; [|discriminate].
    destruct (feed parse inflate inflate_all ds_new d1 tl1 chunks) as [[[d2 tl2] ms2] e2] eqn:F. inv H.
    apply IH in F as (F1 & outs2 & F2 & F3). unfold decode_data in E.
    apply decode_counts in E as (E1 & outs1 & new & E2 & E3 & E4). cbn in E1, E2, E4. subst ms1.
    cbn [concat]. rewrite blen_app. split; [lia|]. exists (outs1 ++ outs2). split; [apply Forall2_app; assumption|].
    rewrite map_app, fold_right_app, F3, E4. clear. generalize (map blen outs2). intros l.
    replace (fold_right Z.add (fold_right Z.add 0 l) (map blen outs1)) with (fold_right Z.add 0 (map blen outs1) + fold_right Z.add 0 l); [lia|].
    induction (map blen outs1); cbn; lia.
Qed.
