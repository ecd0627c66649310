From Verif Require Import Base Str_Base Log_Model Network_Model Network_Spec Network_Proofs.
Local Open Scope string_scope.
Local Open Scope list_scope.
Local Open Scope N_scope.

(** C60: a report carries the traffic of the periods that began in the last minute, once there has been a minute of data; no other log
    is touched. *)
Theorem C60_summary : forall es vs b, Forall2 describes es vs -> ordered b vs -> answers b [] es vs (snd (run (new b) es)).
Proof. exact run_new. Qed.
Print Assumptions C60_summary.

(** Every log is described, so this speaks about every history. *)
Theorem C60_described : forall e, exists v, describes e v.
Proof. exact described. Qed.
Print Assumptions C60_described.

(** C60: with reports at intervals of at most [p] (not more than a minute), that is all the traffic of the last minute but for at most
    the first [p] of it, and no traffic from before. *)
Theorem C60_window : forall sel p t l b, (forall x, sel (Report x) = 0) -> ordered b l -> regular p b l ->
  (forall e, In e l -> at_time e <= t) -> t - last (starts b l) 0 <= p -> p <= minute ->
  total sel (fun x => t - minute + p <? x) l <= traffic sel b t l <= total sel (fun x => t - minute <=? x) l.
Proof. exact window. Qed.
Print Assumptions C60_window.

Definition resp (t body headers : N) : entry :=
  mkEntry t 8 (VStr "HTTPResponse") [mkField "_path" (VStr "/x"); mkField "_response_body_bytes_received_count" (VStr (dec_string body));
    mkField "_response_headers_bytes_count" (VStr (dec_string headers))].
Definition rep (t : N) : entry := mkEntry t 3 (VStr "") [mkField "_cpu" (VStr "7")].
Definition s (n : N) : N := n * 1000000000.

(** Reports every half a minute: traffic at 5, 31 and 62 seconds; the report at 90 seconds has the last two. *)
Definition case_events : list event :=
  [Response (s 5) 0 0 100 1; Report (s 30); Response (s 31) 0 0 20 2; Report (s 60); Response (s 62) 0 0 3 3; Report (s 90)].
Definition case_logs : list entry := [resp (s 5) 100 1; rep (s 30); resp (s 31) 20 2; rep (s 60); resp (s 62) 3 3; rep (s 90)].
Example summary_case : Forall2 describes case_logs case_events /\ ordered 0 case_events /\ due 0 (s 90) (firstn 5 case_events) /\
  ~ due 0 (s 60) (firstn 3 case_events) /\
  last (snd (run (new 0) case_logs)) [] =
    [mkField "_cpu" (VStr "7"); mkField "_request_bytes_per_min_count" (VStr "0"); mkField "_request_body_bytes_per_min_count" (VStr "0");
     mkField "_request_headers_bytes_per_min_count" (VStr "0"); mkField "_response_bytes_per_min_count" (VStr "28");
     mkField "_response_body_bytes_per_min_count" (VStr "23"); mkField "_response_headers_bytes_per_min_count" (VStr "5")].
Proof.
  assert (A: forall fs k, (forall f, In f fs -> f_key f <> k) -> carries fs k 0) by exact carries_absent.
  assert (B: forall b h, b < 2 ^ 64 -> h < 2 ^ 64 ->
    let fs := en_fields (resp 0 b h) in carries fs "_request_body_bytes_sent_count" 0 /\ carries fs "_request_headers_bytes_count" 0 /\
      carries fs "_response_body_bytes_received_count" b /\ carries fs "_response_headers_bytes_count" h).
  { intros b h Hb Hh. cbn zeta. splits; try (apply A; intros f [<-|[<-|[<-|[] ] ] ]; discriminate).
    - apply carries_other; [discriminate|]. apply carries_number, dec_numeral, Hb.
    - do 2 (apply carries_other; [discriminate|]). apply carries_number, dec_numeral, Hh. }
  splits.
  - repeat (constructor; [first [exact (conj eq_refl (conj eq_refl eq_refl)) | split; [reflexivity|split; [reflexivity|split; [reflexivity|apply B; reflexivity] ] ] ] |]).
    constructor.
  - cbn. unfold s. lia.
  - exists 0. cbn. unfold s. lia.
  - intros (x & [<-|[<-|[] ] ] & H); cbn in H; unfold s in H; lia.
  - vm_compute. reflexivity.
Qed.

(** The same case and the window: reports every 30 seconds. *)
Example window_case : let l := firstn 5 case_events in regular (s 30) 0 l /\ s 90 - last (starts 0 l) 0 <= s 30 /\
  total resp_body (fun x => s 90 - minute + s 30 <? x) l = 3 /\ traffic resp_body 0 (s 90) l = 23 /\
  total resp_body (fun x => s 90 - minute <=? x) l = 23.
Proof. cbn zeta. splits; try reflexivity; try discriminate; cbn; unfold s; lia. Qed.

(** C74 does not hold: the first report comes 61 seconds after the start, one second after a response of 100 bytes. The report says
    that there was no traffic, and the later ones do not count it either. *)
Theorem C74_dropped_refuted : exists (l : list event) (es : list entry) (t : N),
  Forall2 describes es l /\ ordered 0 l /\ l = [Response (t - s 1) 0 0 100 0; Report t; Report (t + s 30); Report (t + s 61)] /\
  forall fs, In fs (tl (snd (run (new 0) es))) -> fs = [] \/ In (mkField "_response_bytes_per_min_count" (VStr "0")) fs.
Proof.
  exists [Response (s 60) 0 0 100 0; Report (s 61); Report (s 91); Report (s 122)],
    [resp (s 60) 100 0; mkEntry (s 61) 3 (VStr "") []; mkEntry (s 91) 3 (VStr "") []; mkEntry (s 122) 3 (VStr "") []], (s 61).
  splits.
  - constructor; [|repeat (constructor; [exact (conj eq_refl (conj eq_refl eq_refl))|]); constructor].
    split; [reflexivity|]. split; [reflexivity|]. split; [reflexivity|]. splits.
    + apply carries_absent. intros f [<-|[<-|[<-|[] ] ] ]; discriminate.
    + apply carries_absent. intros f [<-|[<-|[<-|[] ] ] ]; discriminate.
    + apply carries_other; [discriminate|]. apply carries_number, dec_numeral. reflexivity.
    + do 2 (apply carries_other; [discriminate|]). apply carries_number, dec_numeral. reflexivity.
  - cbn. unfold s. lia.
  - reflexivity.
  - vm_compute. intros fs [<-|[<-|[<-|[] ] ] ]; [right; do 3 right; left; reflexivity|left; reflexivity|right; do 3 right; left; reflexivity].
Qed.
Print Assumptions C74_dropped_refuted.
