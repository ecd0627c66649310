(** Model of bd-server-stats/src/stats.rs [LabelTracker] ("stats" below). Counters are natural numbers; the overflow metric (stats:104) is
    left out. *)
From Verif Require Import Base Str_Base.
Local Open Scope string_scope.
Local Open Scope list_scope.

(** stats:53-60: the keys of the map, and [label_count]. *)
Record tracker := mkTracker { lt_labels : list string; lt_count : nat }.
(** stats:64-79 [LabelTracker::new]. *)
Definition lt_new : tracker := mkTracker [] 0.

(** stats:95 the key of a label. *)
Definition key_of (name value : string) : string := String.append name (String.append "_" value).

(** stats:95-97: is the key in the map? *)
Definition known (k : string) (l : list string) : bool := existsb (String.eqb k) l.

(** stats:93-108: the loop, called by one thread; [true]: the labels may be used. *)
Fixpoint track (max : nat) (t : tracker) (keys : list string) : tracker * bool :=
  match keys with
  | [] => (t, true)
  | k :: rest =>
      if known k (lt_labels t) then track max t rest
      else if Nat.ltb (lt_count t) max then track max (mkTracker (k :: lt_labels t) (S (lt_count t))) rest
      else (t, false)
  end.

(** The keys of the loop; indexing past the provided labels (stats:95) panics: [None]. *)
Fixpoint keys_of (names values : list string) : option (list string) :=
  match names, values with
  | [], _ => Some []
  | _ :: _, [] => None
  | n :: names, v :: values => option_map (cons (key_of n v)) (keys_of names values)
  end.

(** stats:81-114 [track_labels]; [None] is a panic. (If the loop runs into the panic it has tracked the first labels; the model leaves that out.) *)
Definition track_labels (max : nat) (t : tracker) (names values : list string) : tracker * option (list string) :=
  match keys_of names values with
  | None => (t, None)
  | Some keys =>
      match track max t keys with
      | (t, true) => (t, Some values)
      | (t, false) => (t, Some (repeat "label_overflow" (List.length values)))
      end
  end.

(** A history of calls of stats:81-115. *)
Fixpoint track_all (max : nat) (t : tracker) (l : list (list string * list string)) : tracker * list (option (list string)) :=
  match l with
  | [] => (t, [])
  | (n, v) :: l => let (t, o) := track_labels max t n v in let (t, os) := track_all max t l in (t, o :: os)
  end.

(** * Several threads
    A step is one access to shared state: [entry] with the load of the counter (stats:96-99; the map's lock on the key is then held),
    the insertion (stats:100; releases the lock), and the increment (stats:101). *)
Inductive pc := Look | Hold | Added.
(** A thread inside stats:81-115, with the calls it will make. *)
Record thread := mkThread {
  th_todo : list (list string);              (* the label sets it will track *)
  th_cur : option (list string * list string);  (* the current one, and its labels not yet seen *)
  th_pc : pc;
  th_done : list (list string * bool) }.

(** The lock of a map entry (stats:96-108) is held. *)
Definition holds_lock (k : string) (t : thread) : bool :=
  match th_cur t, th_pc t with Some (_, k' :: _), Hold => String.eqb k k' | _, _ => false end.

(** stats:53-60, with the threads that use it. *)
Record shared := mkShared { sh_t : tracker; sh_threads : list thread }.

(** Update of one thread of the list. *)
Fixpoint set_nth {A} (n : nat) (x : A) (l : list A) : list A :=
  match n, l with
  | _, [] => []
  | O, _ :: l => x :: l
  | S n, y :: l => y :: set_nth n x l
  end.

(** One step of thread [i]; a thread that waits for a lock stays where it is. *)
Definition th_step (max : nat) (s : shared) (i : nat) : shared :=
  match nth_error (sh_threads s) i with
  | None => s
  | Some th =>
      let t := sh_t s in
      let put t th := mkShared t (set_nth i th (sh_threads s)) in
      match th_cur th, th_pc th with
      | None, _ =>
          match th_todo th with
          | [] => s
          | r :: todo => put t (mkThread todo (Some (r, r)) Look (th_done th))
          end
      | Some (r, []), _ => put t (mkThread (th_todo th) None Look (th_done th ++ [(r, true)]))
      | Some (r, k :: rest), Look =>
          if existsb (holds_lock k) (sh_threads s) then s
          else if known k (lt_labels t) then put t (mkThread (th_todo th) (Some (r, rest)) Look (th_done th))
          else if Nat.ltb (lt_count t) max then put t (mkThread (th_todo th) (Some (r, k :: rest)) Hold (th_done th))
          else put t (mkThread (th_todo th) None Look (th_done th ++ [(r, false)]))
      | Some (r, k :: rest), Hold => put (mkTracker (k :: lt_labels t) (lt_count t)) (mkThread (th_todo th) (Some (r, k :: rest)) Added (th_done th))
      | Some (r, k :: rest), Added => put (mkTracker (lt_labels t) (S (lt_count t))) (mkThread (th_todo th) (Some (r, rest)) Look (th_done th))
      end
  end.
(** stats:64-79, with the programs of the threads. *)
Definition sh_new (programs : list (list (list string))) : shared := mkShared lt_new (map (fun p => mkThread p None Look []) programs).
(** A schedule of the threads inside stats:81-115. *)
Definition sh_run (max : nat) (s : shared) (schedule : list nat) : shared := fold_left (th_step max) schedule s.
