(** Model of the session strategies: bd-session/src/activity_based.rs and
    bd-session/src/fixed.rs, over the key-value store of bd-key-value.

    Simplifications.
    - Times are integers (OffsetDateTime), identifiers strings. Fresh identifiers
      (Uuid::new_v4, or the callback of the fixed strategy) are inputs of the
      operations.
    - The store keeps what was set and returns it (C62 is about the store); its
      failures, which the code only logs, are not modelled.
    - Every operation writes to the store at most once, and its memory is lost in a
      crash, so a crash inside an operation is a crash before it or after it:
      [Restart] between operations covers every crash point.
    - The fixed strategy's guard against calls from inside its own callback
      (fixed.rs 76-84, 119-124) is not modelled. *)
From Verif Require Import Base Str_Base.
Local Open Scope string_scope.
Local Open Scope Z_scope.

(** ** activity_based.rs *)

(** activity_based.rs 213-221 (State): what is in the store. *)
Record stored := { s_id : string; s_activity : Z }.

(** activity_based.rs 196-205 (InMemoryState) *)
Record mem := { m_id : string; m_prev : option string; m_activity : Z; m_write : option Z }.

(** activity_based.rs 223-231 (From<InMemoryState> for State) *)
Definition to_stored (m : mem) : stored := {| s_id := m_id m; s_activity := m_activity m |}.

(** activity_based.rs 28-45 (Strategy): memory and store. *)
Record act := { a_mem : option mem; a_store : option stored }.

Section Activity.
Variable threshold : Z.          (* inactivity_threshold *)
Variable write_interval : Z.     (* max_write_interval, 15 seconds, 59 *)

(** activity_based.rs 67-137 (session_id). [g1] is the identifier generated if
    there is none at all, [g2] the one generated on a change of session. *)
Definition session_id (s : act) (now : Z) (g1 g2 : string) : act * string :=
  let m :=
    match a_mem s with
    | Some m => m
    | None =>
        match a_store s with
        | Some st => {| m_id := s_id st; m_prev := Some (s_id st);
                        m_activity := s_activity st; m_write := None |}
        | None => {| m_id := g1; m_prev := None; m_activity := now; m_write := None |}
        end
    end in
  let before := now <? m_activity m in
  let exceeded := threshold <? now - m_activity m in
  let allowed := match m_write m with None => true | Some w => write_interval <? now - w end in
  if before || exceeded then
    let m := {| m_id := g2; m_prev := m_prev m; m_activity := now; m_write := Some now |} in
    ({| a_mem := Some m; a_store := Some (to_stored m) |}, m_id m)
  else if allowed then
    let m := {| m_id := m_id m; m_prev := m_prev m; m_activity := now; m_write := Some now |} in
    ({| a_mem := Some m; a_store := Some (to_stored m) |}, m_id m)
  else
    let m := {| m_id := m_id m; m_prev := m_prev m; m_activity := now; m_write := m_write m |} in
    ({| a_mem := Some m; a_store := a_store s |}, m_id m).

(** activity_based.rs 139-168 (start_new_session) *)
Definition start_new_session (s : act) (now : Z) (g : string) : act * string :=
  let prev := match a_mem s with
              | Some m => m_prev m
              | None => option_map s_id (a_store s)
              end in
  let m := {| m_id := g; m_prev := prev; m_activity := now; m_write := Some now |} in
  ({| a_mem := Some m; a_store := Some (to_stored m) |}, g).

(** activity_based.rs 170-175 (previous_process_session_id) *)
Definition previous_process_session_id (s : act) : option string :=
  match a_mem s with
  | Some m => m_prev m
  | None => option_map s_id (a_store s)
  end.

(** activity_based.rs 177-184 (flush) *)
Definition flush (s : act) : act :=
  match a_mem s with
  | Some m => {| a_mem := a_mem s; a_store := Some (to_stored m) |}
  | None => s
  end.

(** The operations; a restart loses the memory. *)
Inductive op :=
| Use (now : Z) (g1 g2 : string)
| New (now : Z) (g : string)
| Prev
| Flush
| Restart.

(** What the operations of lib.rs 28-61 return. *)
Inductive out :=
| OId (id : string)            (* result of Use and New *)
| OPrev (id : option string)   (* result of Prev *)
| ONone
| ORestart.

(** One operation of activity_based.rs. *)
Definition act_step (s : act) (o : op) : act * out :=
  match o with
  | Use now g1 g2 => let (s, i) := session_id s now g1 g2 in (s, OId i)
  | New now g => let (s, i) := start_new_session s now g in (s, OId i)
  | Prev => (s, OPrev (previous_process_session_id s))
  | Flush => (flush s, ONone)
  | Restart => ({| a_mem := None; a_store := a_store s |}, ORestart)
  end.

(** A history of operations of activity_based.rs. *)
Fixpoint act_run (s : act) (os : list op) : act * list out :=
  match os with
  | [] => (s, [])
  | o :: os => let (s, r) := act_step s o in let (s, rs) := act_run s os in (s, r :: rs)
  end.

(** activity_based.rs 47-61 (new), with an empty store. *)
Definition act_new : act := {| a_mem := None; a_store := None |}.
End Activity.

(** ** fixed.rs *)

(** fixed.rs 196-217 (State, InMemoryState) *)
Record fixed := { f_mem : option (string * option string); f_store : option string }.

(** fixed.rs 73-116 (session_id); [g] is the identifier generated if there is no
    state yet, 49-71. *)
Definition fixed_session_id (s : fixed) (g : string) : fixed * string :=
  match f_mem s with
  | Some (i, _) => (s, i)
  | None => ({| f_mem := Some (g, f_store s); f_store := Some g |}, g)
  end.

(** fixed.rs 118-150 (start_new_session) *)
Definition fixed_start_new_session (s : fixed) (g : string) : fixed * string :=
  let prev := match f_mem s with Some (_, p) => p | None => f_store s end in
  ({| f_mem := Some (g, prev); f_store := Some g |}, g).

(** fixed.rs 152-163 (previous_process_session_id) *)
Definition fixed_previous (s : fixed) : option string :=
  match f_mem s with Some (_, p) => p | None => f_store s end.

(** lib.rs 28-61: the same operations; flush does nothing for this strategy. *)
Definition fixed_step (s : fixed) (o : op) : fixed * out :=
  match o with
  | Use _ g _ => let (s, i) := fixed_session_id s g in (s, OId i)
  | New _ g => let (s, i) := fixed_start_new_session s g in (s, OId i)
  | Prev => (s, OPrev (fixed_previous s))
  | Flush => (s, ONone)
  | Restart => ({| f_mem := None; f_store := f_store s |}, ORestart)
  end.

(** A history of operations of fixed.rs. *)
Fixpoint fixed_run (s : fixed) (os : list op) : fixed * list out :=
  match os with
  | [] => (s, [])
  | o :: os => let (s, r) := fixed_step s o in let (s, rs) := fixed_run s os in (s, r :: rs)
  end.

(** fixed.rs 40-47 (new), with an empty store. *)
Definition fixed_new : fixed := {| f_mem := None; f_store := None |}.
