(** Model of bd-client-common/src/error.rs: the process-wide handler of unexpected errors.

    Threads run against the handler behind its mutex; a report holds the mutex while the details are made and while the reporter runs. One
    label is one action of one thread. The log lines, the numbers of a thread and the conversion of an error into text are left out. *)
From Verif Require Import Base Str_Base.

(** error.rs:38-48, 54-71 and any [Reporter] (line 26): the default, which does nothing in a release build, and those given by a user. *)
Inductive reporter := RDefault | RUser (id : nat).
(** error.rs:207, 212-224: what a reporter is given. *)
Record item := mkItem { it_to : reporter; it_text : string; it_details : option string }.
(** The mutex of error.rs:240-241: free, held by a report that is about to make its details (line 212) or about to call its reporter
    (lines 217-226), or held by a report whose reporter or details closure asked for the mutex again, which never returns. *)
Inductive lock := Free | Making (t : nat) (text : string) | Calling (t : nat) (text : string) (details : option string) | Stuck (t : nat).
(** error.rs:130-136 with the counters that were ever registered (by number) and the thread locals of lines 243-245. *)
Record st := mkSt {
  h_reporter : reporter; h_left : nat; h_dropped : option nat; counters : nat -> nat; overrides : nat -> option reporter; h_lock : lock; given : list item }.
(** error.rs:139-146. *)
Definition init : st := mkSt RDefault 5 None (fun _ => 0) (fun _ => None) Free [].

(** One action: setting (line 149) and clearing (line 196) the reporter, disabling (154), registering a counter (188), an error (248-257), the
    making of its details (212), the call of the reporter (217-226), the entry into and exit from [with_reporter] (159-186), a panic in it,
    and a call into the handler from inside the details or the reporter. *)
Inductive label :=
| LSet (r : reporter) | LClear | LDisable | LRegister (c : nat)
| LError (t : nat) (message description : string) | LDetails (t : nat) (d : option string) | LCall (t : nat)
| LEnter (t : nat) (r : reporter) | LLeave (t : nat) | LUnwind (t : nat) | LReenter (t : nat).

(** A change at one point. *)
Definition upd {A} (f : nat -> A) (k : nat) (v : A) : nat -> A := fun x => if Nat.eqb x k then v else f x.
(** The holder of the mutex, of error.rs:254-256. *)
Definition holder (l : lock) : option nat := match l with Free => None | Making t _ | Calling t _ _ | Stuck t => Some t end.
(** Whether a thread is not inside a report, so that it can act for itself. *)
Definition outside (s : st) (t : nat) : bool := match holder (h_lock s) with Some u => negb (Nat.eqb u t) | None => true end.
(** The reporter used, error.rs:217-226. *)
Definition chosen (s : st) (t : nat) : reporter := match overrides s t with Some r => r | None => h_reporter s end.
(** error.rs:202: the text. *)
Definition format (message description : string) : string := (description ++ ": " ++ message)%string.

(** One action; [None]: it cannot happen now. *)
Definition step (s : st) (l : label) : option st :=
  match l with
  | LSet r => match h_lock s with Free => Some (mkSt r (h_left s) (h_dropped s) (counters s) (overrides s) Free (given s)) | _ => None end
  | LClear => match h_lock s with Free => Some (mkSt RDefault (h_left s) (h_dropped s) (counters s) (overrides s) Free (given s)) | _ => None end
  | LDisable => match h_lock s with Free => Some (mkSt (h_reporter s) 0 (h_dropped s) (counters s) (overrides s) Free (given s)) | _ => None end
  | LRegister c => match h_lock s with Free => Some (mkSt (h_reporter s) (h_left s) (Some c) (counters s) (overrides s) Free (given s)) | _ => None end
  | LError t message description =>
      match h_lock s with
      | Free =>
          match h_left s with
          | O => Some (mkSt (h_reporter s) 0 (h_dropped s)
                         (match h_dropped s with Some c => upd (counters s) c (S (counters s c)) | None => counters s end) (overrides s) Free (given s))
          | S n => Some (mkSt (h_reporter s) n (h_dropped s) (counters s) (overrides s) (Making t (format message description)) (given s))
          end
      | _ => None
      end
  | LDetails t d =>
      match h_lock s with
      | Making u text => if Nat.eqb u t then Some (mkSt (h_reporter s) (h_left s) (h_dropped s) (counters s) (overrides s) (Calling t text d) (given s)) else None
      | _ => None
      end
  | LCall t =>
      match h_lock s with
      | Calling u text d =>
          if Nat.eqb u t then Some (mkSt (h_reporter s) (h_left s) (h_dropped s) (counters s) (overrides s) Free (given s ++ [mkItem (chosen s t) text d])) else None
      | _ => None
      end
  | LEnter t r => if outside s t then Some (mkSt (h_reporter s) (h_left s) (h_dropped s) (counters s) (upd (overrides s) t (Some r)) (h_lock s) (given s)) else None
  | LLeave t => if outside s t then Some (mkSt (h_reporter s) (h_left s) (h_dropped s) (counters s) (upd (overrides s) t None) (h_lock s) (given s)) else None
  | LUnwind t => if outside s t then Some s else None
  | LReenter t =>
      match h_lock s with
      | Making u _ | Calling u _ _ => if Nat.eqb u t then Some (mkSt (h_reporter s) (h_left s) (h_dropped s) (counters s) (overrides s) (Stuck t) (given s)) else None
      | _ => None
      end
  end.
(** A schedule of the actions of all threads. *)
Fixpoint exec (s : st) (ls : list label) : option st :=
  match ls with [] => Some s | l :: ls' => match step s l with Some s' => exec s' ls' | None => None end end.

(** [HashMap::insert]. *)
Definition insert (fs : list (string * string)) (k v : string) : list (string * string) := (k, v) :: filter (fun p => negb (String.eqb (fst p) k)) fs.
(** error.rs:119: ['_'] becomes ['-']. *)
Fixpoint dashes (s : string) : string :=
  match s with EmptyString => EmptyString | String c s' => String (if Ascii.eqb c "_" then "-"%char else c) (dashes s') end.
(** error.rs:107-125: the fields of a [MetadataErrorReporter]; [metadata]: what [collect] returned, in the order of its iteration. *)
Definition metadata_fields (fields : list (string * string)) (session : string) (metadata : list (string * string)) : list (string * string) :=
  fold_left (fun fs p => insert fs ("x-" ++ dashes (fst p))%string (snd p)) metadata (insert fields "x-session-id" session).
