(** Model of the in-memory metric store: bd-client-stats-store/src/lib.rs, and its
    users DynamicStats (bd-client-stats/src/lib.rs 95-159) and
    snap_collector_to_snapshot (bd-client-stats/src/stats.rs 267-280).

    Simplifications.
    - A metric Id (name and labels) is a string.
    - A metric is a cell holding an amount: the value of a counter, the number of
      recorded values of a histogram (what happens to the values themselves is in
      Histogram_Model.v).
    - Threads are interleaved at the granularity of the atomic operations and of the
      critical sections of the collector lock; memory is sequentially consistent.
    - A handle (a clone of the Arc) is a number; an operation on a handle that does
      not exist has no effect. *)
From Verif Require Import Base Str_Base.
Local Open Scope Z_scope.

(** Range of a counter, lib.rs 100-118. *)
Definition U64 : Z := 18446744073709551616.

(** lib.rs 384-387 [MetricData]. *)
Inductive kind := KCounter | KHistogram.
(** Are the kinds of two metrics the same, lib.rs 297-360? *)
Definition kind_eqb (a b : kind) : bool :=
  match a, b with KCounter, KCounter | KHistogram, KHistogram => true | _, _ => false end.

(** One metric of the collector: its Id, its type and the cell the Arc points to. *)
Record metric := { m_id : string; m_kind : kind; m_cell : nat }.

(** lib.rs 463-471, with handles and cells. *)
Record store := {
  s_metrics : list metric;              (* lib.rs 463-466, metrics *)
  s_limit : option Z;                   (* lib.rs 465, limit: the value of the watch *)
  s_vals : nat -> Z;                    (* the amounts *)
  s_handles : list (nat * metric);      (* the clones of the Arcs outside the collector *)
  s_next : nat;                         (* fresh cells and handles *)
  s_snap : option (list metric * option metric);
                                        (* retain is running: the metrics to come, and the
                                           metric that had no data and is about to be checked *)
  s_overflow : Z                        (* bd-client-stats lib.rs 98, dynamic_stats_overflow *)
}.

(** lib.rs 474-481. *)
Definition store_new (limit : option Z) : store :=
  {| s_metrics := []; s_limit := limit; s_vals := fun _ => 0; s_handles := []; s_next := 0%nat;
     s_snap := None; s_overflow := 0 |}.

(** An atomic store to a cell, lib.rs 107-118. *)
Definition set_val (f : nat -> Z) (c : nat) (v : Z) : nat -> Z :=
  fun x => if Nat.eqb x c then v else f x.

(** What can be observed: an increment through a handle of an Id, a reported
    amount, and the outcome of a lookup. *)
Inductive event :=
| EInc (i : string) (n : Z)
| EReport (i : string) (n : Z)
| EHandle (i : string) (h : nat)
| EChangedType (i : string)
| EOverflow (i : string).

(** The lookup in the map, lib.rs 297-316. *)
Fixpoint find_metric (i : string) (l : list metric) : option metric :=
  match l with
  | [] => None
  | m :: l => if String.eqb i (m_id m) then Some m else find_metric i l
  end.
(** The metric a handle (an Arc, lib.rs 100-104 and 205-209) points to. *)
Fixpoint find_handle (h : nat) (l : list (nat * metric)) : option metric :=
  match l with
  | [] => None
  | (x, m) :: l => if Nat.eqb h x then Some m else find_handle h l
  end.

(** lib.rs 303-305 *)
Definition can_insert (s : store) : bool :=
  match s_limit s with None => true | Some l => Z.of_nat (List.length (s_metrics s)) <? l end.

(** lib.rs 297-332, 338-360 (get_common, counter_with_labels, histogram_with_labels),
    with the counting of an overflow by DynamicStats (bd-client-stats lib.rs 137-140,
    153-156). *)
Definition lookup (s : store) (k : kind) (i : string) : store * list event :=
  match find_metric i (s_metrics s) with
  | Some m =>
      if kind_eqb (m_kind m) k then
        ({| s_metrics := s_metrics s; s_limit := s_limit s; s_vals := s_vals s;
            s_handles := (s_next s, m) :: s_handles s; s_next := S (s_next s);
            s_snap := s_snap s; s_overflow := s_overflow s |}, [EHandle i (s_next s)])
      else (s, [EChangedType i])
  | None =>
      if can_insert s then
        let m := {| m_id := i; m_kind := k; m_cell := s_next s |} in
        ({| s_metrics := m :: s_metrics s; s_limit := s_limit s; s_vals := set_val (s_vals s) (s_next s) 0;
            s_handles := (s_next s, m) :: s_handles s; s_next := S (s_next s);
            s_snap := s_snap s; s_overflow := s_overflow s |}, [EHandle i (s_next s)])
      else
        ({| s_metrics := s_metrics s; s_limit := s_limit s; s_vals := s_vals s; s_handles := s_handles s;
            s_next := s_next s; s_snap := s_snap s; s_overflow := s_overflow s + 1 |}, [EOverflow i])
  end.

(** Update of one field of the state: the [retain] under way (lib.rs 519-531). *)
Definition set_snap (s : store) (x : option (list metric * option metric)) : store :=
  {| s_metrics := s_metrics s; s_limit := s_limit s; s_vals := s_vals s; s_handles := s_handles s;
     s_next := s_next s; s_snap := x; s_overflow := s_overflow s |}.

(** lib.rs 111-113 (inc_by), 220-222 (observe) *)
Definition inc_by (s : store) (h : nat) (n : Z) : store * list event :=
  match find_handle h (s_handles s) with
  | None => (s, [])
  | Some m => ({| s_metrics := s_metrics s; s_limit := s_limit s;
                  s_vals := set_val (s_vals s) (m_cell m) ((s_vals s (m_cell m) + n) mod U64);
                  s_handles := s_handles s; s_next := s_next s; s_snap := s_snap s;
                  s_overflow := s_overflow s |}, [EInc (m_id m) n])
  end.

(** Cloning and dropping an Arc. *)
Definition clone (s : store) (h : nat) : store * list event :=
  match find_handle h (s_handles s) with
  | None => (s, [])
  | Some m => ({| s_metrics := s_metrics s; s_limit := s_limit s; s_vals := s_vals s;
                  s_handles := (s_next s, m) :: s_handles s; s_next := S (s_next s);
                  s_snap := s_snap s; s_overflow := s_overflow s |}, [EHandle (m_id m) (s_next s)])
  end.
(** Drop of an Arc (lib.rs 100-104, 205-209). *)
Definition drop (s : store) (h : nat) : store :=
  {| s_metrics := s_metrics s; s_limit := s_limit s; s_vals := s_vals s;
     s_handles := filter (fun x => negb (Nat.eqb h (fst x))) (s_handles s); s_next := s_next s;
     s_snap := s_snap s; s_overflow := s_overflow s |}.

(** lib.rs 131-133, 275-277 (multiple_references): the collector holds one
    reference. *)
Definition multiple_references (s : store) (c : nat) : bool :=
  existsb (fun x => Nat.eqb (m_cell (snd x)) c) (s_handles s).

(** lib.rs 120-129, 247-273 (snap), inside of stats.rs 271-279: take the amount of
    the next metric; if there was any, it is reported and the metric is kept. *)
Definition snap_swap (s : store) : store * list event :=
  match s_snap s with
  | Some (m :: todo, None) =>
      let v := s_vals s (m_cell m) in
      let s' := {| s_metrics := s_metrics s; s_limit := s_limit s;
                   s_vals := set_val (s_vals s) (m_cell m) 0; s_handles := s_handles s;
                   s_next := s_next s;
                   s_snap := Some (todo, if v =? 0 then Some m else None);
                   s_overflow := s_overflow s |} in
      (s', if v =? 0 then [] else [EReport (m_id m) v])
  | _ => (s, [])
  end.

(** stats.rs 273: a metric without data is kept if there are other references. *)
Definition snap_check (s : store) : store :=
  match s_snap s with
  | Some (todo, Some m) =>
      {| s_metrics := if multiple_references s (m_cell m) then s_metrics s
                      else filter (fun x => negb (Nat.eqb (m_cell x) (m_cell m))) (s_metrics s);
         s_limit := s_limit s; s_vals := s_vals s; s_handles := s_handles s; s_next := s_next s;
         s_snap := Some (todo, None); s_overflow := s_overflow s |}
  | _ => s
  end.

(** The calls of lib.rs 107-275, 297-360 and 519-531, of DynamicStats and of stats.rs 267-280. *)
Inductive op :=
| Lookup (k : kind) (i : string)    (* under the collector lock *)
| Inc (h : nat) (n : Z)
| Clone (h : nat)
| Drop (h : nat)
| SetLimit (l : Z)                  (* the runtime flag changes *)
| SnapBegin                         (* retain takes the collector lock: lib.rs 520 *)
| SnapSwap
| SnapCheck
| SnapEnd.                          (* and releases it *)

(** One atomic step of lib.rs 107-275, 297-360, 519-531 and stats.rs 267-280. *)
Definition step (s : store) (o : op) : store * list event :=
  match o with
  | Lookup k i => match s_snap s with None => lookup s k i | Some _ => (s, []) end
  | Inc h n => inc_by s h n
  | Clone h => clone s h
  | Drop h => (drop s h, [])
  | SetLimit l => ({| s_metrics := s_metrics s; s_limit := option_map (fun _ => l) (s_limit s);
                      s_vals := s_vals s; s_handles := s_handles s; s_next := s_next s;
                      s_snap := s_snap s; s_overflow := s_overflow s |}, [])
  | SnapBegin => match s_snap s with
                 | None => (set_snap s (Some (s_metrics s, None)), [])
                 | Some _ => (s, [])
                 end
  | SnapSwap => snap_swap s
  | SnapCheck => (snap_check s, [])
  | SnapEnd => match s_snap s with
               | Some ([], None) => (set_snap s None, [])
               | _ => (s, [])
               end
  end.

(** A history of atomic steps of lib.rs 107-531 and stats.rs 267-280. *)
Fixpoint run (s : store) (os : list op) : store * list event :=
  match os with
  | [] => (s, [])
  | o :: os => let (s1, e1) := step s o in let (s2, e2) := run s1 os in (s2, e1 ++ e2)
  end.
