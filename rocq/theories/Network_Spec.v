(** What the per-minute traffic fields should hold, in terms of what happened and when. *)
From Verif Require Import Base Str_Base Log_Model Network_Model.
Local Open Scope string_scope.
Local Open Scope list_scope.
Local Open Scope N_scope.

(** A decimal number below 2^64, maybe with a plus sign. *)
Inductive reads : string -> N -> N -> Prop :=
| reads_end a : reads EmptyString a a
| reads_digit c s a d n : Ascii.N_of_ascii c = 48 + d -> d < 10 -> reads s (10 * a + d) n -> reads (String c s) a n.
Definition numeral (s : string) (n : N) : Prop := n < 2 ^ 64 /\ exists t, (s = t \/ s = String "+"%char t) /\ t <> EmptyString /\ reads t 0 n.
(** The number a log carries under a name: the first field of that name that is one; bytes end the search; zero if there is none. *)
Inductive carries : list field -> string -> N -> Prop :=
| carries_none k : carries [] k 0
| carries_other f fs k n : f_key f <> k -> carries fs k n -> carries (f :: fs) k n
| carries_bytes k x fs : carries (mkField k (VBytes x) :: fs) k 0
| carries_text k s fs n : (forall m, ~ numeral s m) -> carries fs k n -> carries (mkField k (VStr s) :: fs) k n
| carries_number k s fs n : numeral s n -> carries (mkField k (VStr s) :: fs) k n.

(** A response with its four byte counts, a resource report, or any other log. *)
Inductive event := Response (t req_body req_headers resp_body resp_headers : N) | Report (t : N) | Other (t : N).
Definition at_time (e : event) : N := match e with Response t _ _ _ _ | Report t | Other t => t end.

Definition describes (e : entry) (v : event) : Prop :=
  match v with
  | Response t a b c d =>
      en_time e = t /\ en_type e = 8 /\ en_msg e = VStr "HTTPResponse" /\
      carries (en_fields e) "_request_body_bytes_sent_count" a /\ carries (en_fields e) "_request_headers_bytes_count" b /\
      carries (en_fields e) "_response_body_bytes_received_count" c /\ carries (en_fields e) "_response_headers_bytes_count" d
  | Report t => en_time e = t /\ en_type e = 3 /\ en_msg e = VStr ""
  | Other t => en_time e = t /\ ~ (en_type e = 8 /\ en_msg e = VStr "HTTPResponse") /\ ~ (en_type e = 3 /\ en_msg e = VStr "")
  end.

(** The time goes forward. *)
Fixpoint ordered (t0 : N) (l : list event) : Prop := match l with [] => True | e :: l => t0 <= at_time e /\ ordered (at_time e) l end.

(** The moments at which a period begins: the creation and each report. *)
Fixpoint starts (b : N) (l : list event) : list N :=
  match l with [] => [b] | Report t :: l => b :: starts t l | _ :: l => starts b l end.

(** The traffic of the periods that began at most a minute before [t]. *)
Fixpoint traffic (sel : event -> N) (b t : N) (l : list event) : N :=
  match l with
  | [] => 0
  | Report t' :: l => traffic sel t' t l
  | e :: l => (if t - b <=? 60000000000 then sel e else 0) + traffic sel b t l
  end.

(** A report at [t] carries the traffic if a period which the previous report (or the creation) still considered has become older than
    a minute. *)
Definition due (b t : N) (l : list event) : Prop :=
  exists s, In s (starts b l) /\ last (starts b l) 0 - s <= 60000000000 < t - s.

Definition req_body (e : event) : N := match e with Response _ a _ _ _ => a | _ => 0 end.
Definition req_headers (e : event) : N := match e with Response _ _ a _ _ => a | _ => 0 end.
Definition resp_body (e : event) : N := match e with Response _ _ _ a _ => a | _ => 0 end.
Definition resp_headers (e : event) : N := match e with Response _ _ _ _ a => a | _ => 0 end.
Definition req_all (e : event) : N := req_body e + req_headers e.
Definition resp_all (e : event) : N := resp_body e + resp_headers e.

Definition six (b t : N) (l : list event) : list field :=
  let number sel := VStr (dec_string (traffic sel b t l mod 2 ^ 64)) in
  [mkField "_request_bytes_per_min_count" (number req_all);
   mkField "_request_body_bytes_per_min_count" (number req_body);
   mkField "_request_headers_bytes_per_min_count" (number req_headers);
   mkField "_response_bytes_per_min_count" (number resp_all);
   mkField "_response_body_bytes_per_min_count" (number resp_body);
   mkField "_response_headers_bytes_per_min_count" (number resp_headers)].

(** The total of what happened at a time that satisfies a condition. *)
Fixpoint total (sel : event -> N) (at_ok : N -> bool) (l : list event) : N :=
  match l with [] => 0 | e :: l => (if at_ok (at_time e) then sel e else 0) + total sel at_ok l end.

(** Reports come at intervals of at most [p]. *)
Fixpoint regular (p b : N) (l : list event) : Prop :=
  match l with [] => True | Report t :: l => t - b <= p /\ regular p t l | _ :: l => regular p b l end.

(** What becomes of the fields of each log: a due report gets the six fields, nothing else is changed. *)
Definition answer (b : N) (before : list event) (e : entry) (v : event) (fs : list field) : Prop :=
  match v with
  | Report t => (due b t before /\ fs = en_fields e ++ six b t before) \/ (~ due b t before /\ fs = en_fields e)
  | _ => fs = en_fields e
  end.
Fixpoint answers (b : N) (before : list event) (es : list entry) (vs : list event) (fss : list (list field)) : Prop :=
  match es, vs, fss with
  | [], [], [] => True
  | e :: es, v :: vs, fs :: fss => answer b before e v fs /\ answers b (before ++ [v]) es vs fss
  | _, _, _ => False
  end.

