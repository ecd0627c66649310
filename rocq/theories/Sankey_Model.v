(** Model of the task that negotiates and uploads Sankey paths, bd-workflows/src/sankey_diagram.rs:85-258, with the channel through which the
    engine hands it paths (bd-workflows/src/engine.rs:127, 731-735).

    The engine, the processor and the API task run at once; a label is one step of one of them. The channel of the API task is full or not as it
    likes: a send waits until the API task takes it ([LSend]); once the API task is gone sends fail. What the API task answers is part of the
    schedule: the answer of the server, or that the response channel was dropped. UUIDs are left out: a response belongs to the request the
    processor waits for (Api_Model, C21). The abort of the task in the engine's destructor is left out: nothing happens afterwards. *)
From Verif Require Import Base Str_Base Lru_Model Workflow_Model.

(** sankey_diagram.rs:29-33 [SeenSankeyPath]. *)
Definition key : Type := string * string.
(** sankey_diagram.rs:44-47, 59-62. *)
Definition key_of (p : path) : key := (p_sankey p, p_id p).
(** The derived equality of sankey_diagram.rs:29. *)
Definition key_eqb (a b : key) : bool := String.eqb (fst a) (fst b) && String.eqb (snd a) (snd b).

(** The seven counters, sankey_diagram.rs:264-276. *)
Record stats := mkStats { initiations : nat; uploads : nat; already : nat; drops : nat; request_failures : nat; successes : nat; failures : nat }.
(** Where the processor is, sankey_diagram.rs:109-256. *)
Inductive place :=
| Idle (* line 112 *)
| Asking (p : path) (* lines 248-253 *)
| Asked (p : path) (* line 255 *)
| Uploading (p : path) (* lines 209-213 *)
| Uploaded (p : path). (* line 220 *)
(** sankey_diagram.rs:85-92, with the channel of engine.rs:127 and whether the API task still receives. *)
Record st := mkSt { queue : list path; proc : place; cache : list key; api : bool; cnt : stats }.
(** engine.rs:127-130, sankey_diagram.rs:95-106. *)
Definition init : st := mkSt [] Idle [] true (mkStats 0 0 0 0 0 0 0).
(** engine.rs:127. *)
Definition INPUT_CAP := 10.

(** What can be seen: paths handed over (engine.rs:731-735) or lost there, paths taken by the processor, the requests it makes (SankeyIntentRequest,
    lines 238-243; SankeyPathUploadRequest, lines 184-197) and their answers. *)
Inductive item :=
| IQueued (p : path) | ILost (p : path) | ITaken (p : path)
| IIntent (id path_id : string) | IDecision (upload : option bool)
| IUpload (id path_id : string) (nodes : list string) | IResult (success : option bool).

(** Steps: the engine emits, the processor takes, its pending send gets its turn, an answer comes (or its channel is dropped), the API task ends. *)
Inductive label := LEmit (p : path) | LTake | LSend | LDecide (upload : option bool) | LResult (success : option bool) | LApiGone.

(** Counter increments, sankey_diagram.rs:121, 134. *)
Definition inc_initiations c := mkStats (S (initiations c)) (uploads c) (already c) (drops c) (request_failures c) (successes c) (failures c).
(** Line 134. *)
Definition inc_already c := mkStats (initiations c) (uploads c) (S (already c)) (drops c) (request_failures c) (successes c) (failures c).
(** Line 145. *)
Definition inc_request_failures c := mkStats (initiations c) (uploads c) (already c) (drops c) (S (request_failures c)) (successes c) (failures c).
(** Line 162. *)
Definition inc_uploads c := mkStats (initiations c) (S (uploads c)) (already c) (drops c) (request_failures c) (successes c) (failures c).
(** Line 170. *)
Definition inc_drops c := mkStats (initiations c) (uploads c) (already c) (S (drops c)) (request_failures c) (successes c) (failures c).
(** Lines 215, 222. *)
Definition inc_failures c := mkStats (initiations c) (uploads c) (already c) (drops c) (request_failures c) (successes c) (S (failures c)).
(** Line 229. *)
Definition inc_successes c := mkStats (initiations c) (uploads c) (already c) (drops c) (request_failures c) (S (successes c)) (failures c).

(** One step; [None]: it cannot happen now. *)
Definition step (s : st) (l : label) : option (st * list item) :=
  match l with
  | LEmit p =>
      if Nat.ltb (length (queue s)) INPUT_CAP then Some (mkSt (queue s ++ [p]) (proc s) (cache s) (api s) (cnt s), [IQueued p])
      else Some (s, [ILost p])
  | LTake =>
      match proc s, queue s with
      | Idle, p :: q =>
          let c := inc_initiations (cnt s) in
          let (cache', hit) := lru_contains key key_eqb (cache s) (key_of p) in
          Some (if hit then mkSt q Idle cache' (api s) (inc_already c) else mkSt q (Asking p) cache' (api s) c, [ITaken p])
      | _, _ => None
      end
  | LSend =>
      match proc s with
      | Asking p => Some (if api s then (mkSt (queue s) (Asked p) (cache s) (api s) (cnt s), [IIntent (p_sankey p) (p_id p)])
                          else (mkSt (queue s) Idle (cache s) (api s) (inc_request_failures (cnt s)), []))
      | Uploading p => Some (if api s then (mkSt (queue s) (Uploaded p) (cache s) (api s) (cnt s), [IUpload (p_sankey p) (p_id p) (p_nodes p)])
                             else (mkSt (queue s) Idle (cache s) (api s) (inc_failures (cnt s)), []))
      | _ => None
      end
  | LDecide d =>
      match proc s with
      | Asked p =>
          Some (match d with
                | Some true => mkSt (queue s) (Uploading p) (cache s) (api s) (inc_uploads (cnt s))
                | Some false => mkSt (queue s) Idle (lru_insert key key_eqb (cache s) (key_of p)) (api s) (inc_drops (cnt s))
                | None => mkSt (queue s) Idle (cache s) (api s) (inc_request_failures (cnt s))
                end, [IDecision d])
      | _ => None
      end
  | LResult r =>
      match proc s with
      | Uploaded p =>
          Some (match r with
                | Some _ => mkSt (queue s) Idle (lru_insert key key_eqb (cache s) (key_of p)) (api s) (inc_successes (cnt s)) (* lines 220-229: what the answer says is not looked at *)
                | None => mkSt (queue s) Idle (cache s) (api s) (inc_failures (cnt s))
                end, [IResult r])
      | _ => None
      end
  | LApiGone => Some (mkSt (queue s) (proc s) (cache s) false (cnt s), [])
  end.
(** A run: the observations of a schedule. *)
Fixpoint run (s : st) (ls : list label) : option (st * list item) :=
  match ls with
  | [] => Some (s, [])
  | l :: ls' =>
      match step s l with
      | None => None
      | Some (s1, o1) => match run s1 ls' with None => None | Some (s2, o2) => Some (s2, o1 ++ o2) end
      end
  end.
