(** Model of bd-logger/src/network.rs ("network" below). Times are nanoseconds of a monotonic clock; counters wrap at 2^64, as in a
    release build. The network quality (network:78-82) is left out. *)
From Verif Require Import Base Str_Base Log_Model.
From Coq Require Import DecimalString.
Local Open Scope string_scope.
Local Open Scope list_scope.
Local Open Scope N_scope.

(** Range of the counters, network:241-250. *)
Definition U64 : N := 18446744073709551616.
(** Addition of [u64] in a release build, network:85-116. *)
Definition add64 (a b : N) : N := (a + b) mod U64.

(** [str::parse::<u64>]: an optional plus sign, at least one digit, digits only, no overflow. *)
Definition parse_u64 (s : string) : option N :=
  let digits := match s with String "+"%char s' => s' | _ => s end in
  match digits with
  | EmptyString => None
  | _ => match NilEmpty.uint_of_string digits with
         | Some d => if N.of_uint d <? U64 then Some (N.of_uint d) else None
         | None => None
         end
  end.

(** network:288-309 [get_int_field_value]: the first field of that name that is a number; bytes end the search. *)
Fixpoint get_int_field_value (fields : list field) (key : string) : option N :=
  match fields with
  | [] => None
  | f :: fields =>
      if negb (String.eqb (f_key f) key) then get_int_field_value fields key
      else match f_val f with
           | VBytes _ => None
           | VStr s => match parse_u64 s with Some n => Some n | None => get_int_field_value fields key end
           end
  end.

(** network:241-250 [MetricsSample]. *)
Record sample := mkSample { sm_start : N; sm_req_body : N; sm_req_headers : N; sm_resp_body : N; sm_resp_headers : N }.
(** network:252-263 [MetricsSample::new]. *)
Definition sample_new (now : N) : sample := mkSample now 0 0 0 0.

(** network:28-34 [sample_add!]. *)
Definition plus (a : N) (o : option N) : N := match o with Some b => add64 a b | None => a end.

(** network:85-116: add the counts of a response to the newest sample. *)
Definition add_response (s : sample) (fields : list field) : sample :=
  mkSample (sm_start s)
    (plus (sm_req_body s) (get_int_field_value fields "_request_body_bytes_sent_count"))
    (plus (sm_req_headers s) (get_int_field_value fields "_request_headers_bytes_count"))
    (plus (sm_resp_body s) (get_int_field_value fields "_response_body_bytes_received_count"))
    (plus (sm_resp_headers s) (get_int_field_value fields "_response_headers_bytes_count")).
(** network:197-199 [last_mut] and a change through it. *)
Fixpoint update_last (f : sample -> sample) (l : list sample) : list sample :=
  match l with [] => [] | [s] => [f s] | s :: l => s :: update_last f l end.
(** network:70-116. *)
Definition process_http_response_log (c : list sample) (fields : list field) : list sample := update_last (fun s => add_response s fields) c.

(** One minute in nanoseconds, network:201-238. *)
Definition minute : N := 60000000000.

(** network:37-43 [accumulate_samples!] and network:213-219. *)
Definition accumulate (r s : sample) : sample :=
  mkSample (sm_start r) (add64 (sm_req_body r) (sm_req_body s)) (add64 (sm_req_headers r) (sm_req_headers s))
    (add64 (sm_resp_body r) (sm_resp_body s)) (add64 (sm_resp_headers r) (sm_resp_headers s)).

(** network:201-233 [get_summary_sample]. ([duration_since] of a later instant is zero.) *)
Definition get_summary_sample (now : N) (c : list sample) : list sample * option sample :=
  let kept := List.filter (fun s => now - sm_start s <=? minute) c in
  if Nat.ltb (List.length kept) (List.length c)
  then (kept ++ [sample_new now], Some (fold_left accumulate kept (sample_new now)))
  else (kept ++ [sample_new now], None).

(** network:312-320 [create_int_field]. *)
Definition create_int_field (key : string) (value : N) : field := mkField key (VStr (dec_string value)).

(** network:119-150 [process_resource_utilization_log]: the fields added (network:264-284 the sums). *)
Definition process_resource_utilization_log (now : N) (c : list sample) : list sample * list field :=
  match get_summary_sample now c with
  | (c, None) => (c, [])
  | (c, Some s) =>
      (c, [create_int_field "_request_bytes_per_min_count" (add64 (sm_req_body s) (sm_req_headers s));
           create_int_field "_request_body_bytes_per_min_count" (sm_req_body s);
           create_int_field "_request_headers_bytes_per_min_count" (sm_req_headers s);
           create_int_field "_response_bytes_per_min_count" (add64 (sm_resp_body s) (sm_resp_headers s));
           create_int_field "_response_body_bytes_per_min_count" (sm_resp_body s);
           create_int_field "_response_headers_bytes_per_min_count" (sm_resp_headers s)])
  end.

(** network:153-171 [process]: the fields of the log afterwards. [ty]: the log type, Span is 8 and Resource is 3. *)
Definition process (now : N) (c : list sample) (ty : N) (msg : value) (fields : list field) : list sample * list field :=
  match msg with
  | VBytes _ => (c, fields)
  | VStr m =>
      if (ty =? 8) && String.eqb m "HTTPResponse" then (process_http_response_log c fields, fields)
      else if (ty =? 3) && String.eqb m "" then let (c, added) := process_resource_utilization_log now c in (c, fields ++ added)
      else (c, fields)
  end.

(** network:193-198 [MetricsContainer::new]; a sequence of logs with the times at which they are processed; the fields added to each. *)
Definition new (now : N) : list sample := [sample_new now].
(** A log as given to network:157-175, with the time. *)
Record entry := mkEntry { en_time : N; en_type : N; en_msg : value; en_fields : list field }.
(** A history of logs, network:157-175. *)
Fixpoint run (c : list sample) (l : list entry) : list sample * list (list field) :=
  match l with
  | [] => (c, [])
  | e :: l => let (c, f) := process (en_time e) c (en_type e) (en_msg e) (en_fields e) in let (c, fs) := run c l in (c, f :: fs)
  end.
