(** Model of bd-server-stats/src/stats.rs: scopes, the caches of metrics and gathering ("stats" below; the label tracker is in [Labels_Model]).

    - The registry is that of the crate prometheus: it takes a metric unless one of its name is there with the same values of the fixed labels
      or with other label names. Its hashes are taken to be free of collisions. Which names and labels it takes at all is a parameter.
    - A map of labels is a list in which later entries win; two maps are equal if they agree on every key.
    - A metric keeps the list of the operations on it; the sums and buckets made of them are the crate's.
    - Gathering: metrics are listed one by one, not grouped into families; metrics of vectors are left out. *)
From Verif Require Import Base Str_Base.

(** Maps of labels, stats:353 and 361. *)
Definition labels := list (string * string).
(** [HashMap::get] on the maps of stats:353 and 361. *)
Fixpoint lookup (l : labels) (k : string) : option string :=
  match l with [] => None | (k', v) :: l' => match lookup l' k with Some w => Some w | None => if String.eqb k' k then Some v else None end end.
(** Equality of two optional texts, for the next one. *)
Definition opt_eqb (a b : option string) : bool :=
  match a, b with Some x, Some y => String.eqb x y | None, None => true | _, _ => false end.
(** Equality of maps: of the keys of the caches (bd-stats-common lib.rs:41-45) and of the fixed labels in the registry. *)
Definition labels_eqb (a b : labels) : bool := forallb (fun p => opt_eqb (lookup a (fst p)) (lookup b (fst p))) (a ++ b).
(** Whether a name is among some (crate prometheus, [Desc]). *)
Definition mem (k : string) (l : list string) : bool := existsb (String.eqb k) l.
(** The same names (crate prometheus, the dimensions of [Desc]). *)
Definition names_eqb (a b : list string) : bool := forallb (fun k => mem k b) a && forallb (fun k => mem k a) b.

(** stats:351-355. *)
Record scope := mkScope { sc_name : string; sc_labels : labels }.
(** stats:519-525. *)
Definition metric_name (s : scope) (name : string) : string := if String.eqb (sc_name s) "" then name else (sc_name s ++ ":" ++ name)%string.
(** stats:361-365: the input's labels win. *)
Definition final_labels (s : scope) (l : labels) : labels := sc_labels s ++ l.
(** stats:587-593. *)
Definition root (name : string) : scope := mkScope name [].
(** stats:368-388. *)
Definition scope_with_labels (s : scope) (extend : string) (l : labels) : scope :=
  mkScope (if String.eqb extend "" then sc_name s else metric_name s extend) (final_labels s l).
(** A chain of these: stats:368-388, 587-593. *)
Definition scope_of (name : string) (path : list (string * labels)) : scope := fold_left (fun s p => scope_with_labels s (fst p) (snd p)) path (root name).

(** Kinds of metrics; the requests of stats:400-421 (a counter), 437-454 (a gauge), 470-498 and 513-516 (a histogram, perhaps with
    buckets), and of a vector of some kind (stats:424-434, 457-467, 500-510, 128-207). *)
Inductive kind := Counter | Gauge | Histogram.
(** The requests, see above. *)
Inductive request :=
| RCounter (s : scope) (name : string) (l : labels)
| RGauge (s : scope) (name : string)
| RHistogram (s : scope) (name : string) (buckets : option (list Z))
| RVec (k : kind) (s : scope) (name : string) (vars : list string).
(** The kind of a request, stats:400-516. *)
Definition r_kind (r : request) : kind := match r with RCounter _ _ _ => Counter | RGauge _ _ => Gauge | RHistogram _ _ _ => Histogram | RVec k _ _ _ => k end.
(** Its full name, stats:408, 428, 439, 461, 476, 504, 134. *)
Definition r_name (r : request) : string :=
  match r with RCounter s n _ | RGauge s n | RHistogram s n _ | RVec _ s n _ => metric_name s n end.
(** Its fixed labels, stats:409, 446, 483; a vector has none, stats:427-432, 133-136. *)
Definition r_labels (r : request) : labels :=
  match r with RCounter s _ l => final_labels s l | RGauge s _ | RHistogram s _ _ => sc_labels s | RVec _ _ _ _ => [] end.
(** Its variable labels, stats:430, 463, 506, 135. *)
Definition r_vars (r : request) : list string := match r with RVec _ _ _ vars => vars | _ => [] end.
(** Its buckets, stats:488-492. *)
Definition r_buckets (r : request) : option (list Z) := match r with RHistogram _ _ b => b | _ => None end.
(** Whether it is for a vector, stats:424, 457, 500. *)
Definition r_vec (r : request) : bool := match r with RVec _ _ _ _ => true | _ => false end.

(** Operations on a metric, with a number: adding to a counter, to a gauge, setting a gauge, a value for a histogram. *)
Inductive use := UInc (n : N) | UAdd (z : Z) | USet (z : Z) | UObserve (z : Z).
(** A registered metric; a vector has no operations of its own. *)
Record metric := mkMetric { m_kind : kind; m_name : string; m_labels : labels; m_vars : list string; m_vec : bool; m_buckets : option (list Z); m_uses : list use }.

(** The collector's registry (stats:545-553), and what each request was given: its metric, or a panic. A metric is known by its place. The
    three caches hold what is registered and not a vector. *)
Record st := mkSt { reg : list metric; given : list (option nat) }.
(** The name of stats:70, in the registry from the start: stats:570-571. *)
Definition overflow_metric : metric := mkMetric Counter "stats:label_tracker:label_overflow" [] [] true None [].
(** stats:569-583. The metric of the label tracker is in no cache, like a vector. *)
Definition init : st := mkSt [overflow_metric] [].

(** Equality of kinds (the choice of the cache, stats:410-413, 440-443, 477-480). *)
Definition kind_eqb (a b : kind) : bool := match a, b with Counter, Counter | Gauge, Gauge | Histogram, Histogram => true | _, _ => false end.
(** What is in the cache of the request's kind under its name and labels (stats:410-414, 440-447, 477-484). *)
Definition cached (r : request) (m : metric) : bool :=
  negb (m_vec m) && kind_eqb (m_kind m) (r_kind r) && String.eqb (m_name m) (r_name r) && labels_eqb (m_labels m) (r_labels r).
(** The place of the first that meets a test ([DashMap::entry], stats:414, 444, 481). *)
Fixpoint find_from (p : metric -> bool) (l : list metric) (i : nat) : option nat :=
  match l with [] => None | m :: l' => if p m then Some i else find_from p l' (S i) end.
(** The registry does not take the request's metric beside another (crate prometheus, [Registry::register]). *)
Definition clash (r : request) (m : metric) : bool :=
  String.eqb (m_name m) (r_name r)
  && (negb (names_eqb (map fst (m_labels m)) (map fst (r_labels r)) && names_eqb (m_vars m) (r_vars r)) || labels_eqb (m_labels m) (r_labels r)).

Section Collector.
(** Whether the crate takes a name, labels and label names for a kind of metric at all. *)
Variable valid : kind -> string -> labels -> list string -> bool.

(** Making the metric and registering it: stats:415-419, 448-452, 485-496, 426-433, 193-200; [None]: the unwrap panics. *)
Definition register (s : st) (r : request) : option (list metric) :=
  if valid (r_kind r) (r_name r) (r_labels r) (r_vars r) && negb (existsb (clash r) (reg s))
  then Some (reg s ++ [mkMetric (r_kind r) (r_name r) (r_labels r) (r_vars r) (r_vec r) (r_buckets r) []])
  else None.
(** A request: stats:400-516. *)
Definition make (s : st) (r : request) : st :=
  match (if r_vec r then None else find_from (cached r) (reg s) 0) with
  | Some i => mkSt (reg s) (given s ++ [Some i])
  | None =>
      match register s r with
      | Some g => mkSt g (given s ++ [Some (length (reg s))])
      | None => mkSt (reg s) (given s ++ [None])
      end
  end.

(** An operation on the [i]th metric (crate prometheus). *)
Fixpoint use_at (l : list metric) (i : nat) (u : use) : list metric :=
  match l, i with
  | [], _ => []
  | m :: l', O => mkMetric (m_kind m) (m_name m) (m_labels m) (m_vars m) (m_vec m) (m_buckets m) (m_uses m ++ [u]) :: l'
  | m :: l', S i' => m :: use_at l' i' u
  end.
(** Actions: a request, and an operation on what the [r]th request was given. *)
Inductive action := AMake (r : request) | AUse (r : nat) (u : use).
(** One action; [None]: there is nothing to operate on (a vector's metrics are left out). *)
Definition step (s : st) (a : action) : option st :=
  match a with
  | AMake r => Some (make s r)
  | AUse r u =>
      match nth_error (given s) r with
      | Some (Some i) =>
          match nth_error (reg s) i with
          | Some m => if m_vec m then None else Some (mkSt (use_at (reg s) i u) (given s))
          | None => None
          end
      | _ => None
      end
  end.
(** The actions of all threads, in the order of the locks. *)
Fixpoint exec (s : st) (l : list action) : option st :=
  match l with [] => Some s | a :: l' => match step s a with Some s' => exec s' l' | None => None end end.
(** What is gathered, stats:629-642: kind, name, labels, operations; of the registry only. *)
Definition gather (s : st) : list metric := filter (fun m => negb (m_vec m)) (reg s).
End Collector.
