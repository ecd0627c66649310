(** What is asked of the connection's trace, without reference to the task's
    state. *)
From Verif Require Export Connection_Model.

(** When a ping is due: one interval after the handshake or the last pong, unless
    a ping has been sent since; never if the interval is negative. The first component is the stream's interval. *)
Definition usable (d : option Z) : option Z := match d with Some d => if 0 <=? d then Some d else None | None => None end.
Definition due_step (w : option Z * option Z) (i : item) : option Z * option Z :=
  match i with
  | TStream _ _ => (None, None)
  | THandshake t d => (usable d, option_map (fun d => t + d) (usable d))
  | TPong t => (fst w, option_map (fun d => t + d) (fst w))
  | TPing _ => (fst w, None)
  | _ => w
  end.
Definition due (tr : list item) : option Z := snd (fold_left due_step tr (None, None)).

(** Whether a stream is up, and since when none has been (from the start of the
    task at [t0] on). *)
Definition up_step (w : bool * Z) (i : item) : bool * Z :=
  match i with
  | TUp _ => (true, snd w)
  | TClosed t _ | TReturn t _ => if fst w then (false, t) else w
  | _ => w
  end.
Definition up (t0 : Z) (tr : list item) : bool * Z := fold_left up_step tr (false, t0).

(** The app got an HTTP response after the last attempt to connect. *)
Definition seen_step (w : bool) (i : item) : bool :=
  match i with TResponse _ => true | TStream _ _ | TRejected _ => false | _ => w end.
Definition seen (tr : list item) : bool := fold_left seen_step tr false.

(** When streams were started. *)
Definition stream_times (tr : list item) : list Z :=
  flat_map (fun i => match i with TStream t _ => [t] | _ => [] end) tr.

(** When the first attempt to connect was made since a stream was up. *)
Definition attempt_step (w : option Z) (i : item) : option Z :=
  match i with
  | TUp _ => None
  | TStream t _ => match w with Some a => Some a | None => Some t end
  | _ => w
  end.
Definition first_attempt (tr : list item) : option Z := fold_left attempt_step tr None.
(** When the last attempt was made. *)
Definition last_attempt (tr : list item) : option Z :=
  fold_left (fun w i => match i with TStream t _ => Some t | _ => w end) tr None.

(** The interval from which the delay before the [k]th reconnect in a row is drawn:
    it grows by half each time up to the maximum. *)
Fixpoint nth_interval (initial max : Z) (k : nat) : Z :=
  match k with
  | O => initial
  | S k => Z.min max (3 * nth_interval initial max k / 2)
  end.

(** How many streams in a row ended without having been up for more than a minute,
    when the last one ended, and whether the task has waited since. *)
Record ends := mkEnds { e_up : option Z; e_row : nat; e_last : option Z }.
Definition ends_step (w : ends) (i : item) : ends :=
  match i with
  | TUp t => mkEnds (Some t) (e_row w) (e_last w)
  | TClosed t _ =>
      mkEnds None
        (match e_up w with Some t0 => if MINUTE <? t - t0 then O else S (e_row w) | None => S (e_row w) end)
        (Some t)
  | _ => w
  end.
Definition ends_of (tr : list item) : ends := fold_left ends_step tr (mkEnds None O None).

(** The reason the last stream ended for, if none has been started since. *)
Definition reason_step (w : option string) (i : item) : option string :=
  match i with TClosed _ r => Some r | TStream _ _ => None | _ => w end.
Definition pending_reason (tr : list item) : option string := fold_left reason_step tr None.

(** How often an item of a kind occurs. *)
Definition count_of (f : item -> bool) (tr : list item) : Z := Z.of_nat (List.length (filter f tr)).
Definition is_stream (i : item) : bool := match i with TStream _ _ => true | _ => false end.
Definition is_error (i : item) : bool := match i with TErrorShutdown => true | _ => false end.
(** Streams that ended before they were up. *)
Definition failed_step (w : bool * Z) (i : item) : bool * Z :=
  match i with
  | TUp _ => (true, snd w)
  | TClosed _ _ => (false, if fst w then snd w else snd w + 1)
  | _ => w
  end.
Definition failed (tr : list item) : Z := snd (fold_left failed_step tr (false, 0)).
