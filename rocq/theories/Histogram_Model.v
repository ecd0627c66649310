(** Model of the histograms of bd-client-stats-store/src/lib.rs 155-273, 384-448.

    The sketch (the DDSketch of an external crate) is a parameter: a type with an
    empty sketch, accept, merge_with, encode and decode. The values (f64) are a
    parameter, too. Locks are not modelled: each method holds the lock of the
    histogram from beginning to end. *)
From Verif Require Import Base.

Section Hist.
  Variable value sketch bytes : Type.
  Variable make_sketch : sketch.
  Variable s_accept : sketch -> value -> sketch.
  Variable s_merge : sketch -> sketch -> sketch.
  Variable s_is_empty : sketch -> bool.
  Variable s_encode : sketch -> bytes.
  Variable s_decode : bytes -> option sketch.    (* decode_and_merge_with into an empty one *)

  (** lib.rs 44 *)
  Definition MAX_INLINE : nat := 5.

  (** lib.rs 159-162 *)
  Inductive hist := Inline (l : list value) | Sketch (s : sketch).

  (** lib.rs 164-168 *)
  Definition hist_new : hist := Inline [].

  (** lib.rs 185-199 *)
  Definition switch_to_sketch (h : hist) (extra : option value) : hist :=
    match h with
    | Inline l =>
        let s := fold_left s_accept l make_sketch in
        Sketch (match extra with Some v => s_accept s v | None => s end)
    | Sketch s => Sketch s
    end.

  (** lib.rs 171-183 *)
  Definition accept (h : hist) (v : value) : hist :=
    match h with
    | Inline l => if MAX_INLINE <=? List.length l then switch_to_sketch h (Some v) else Inline (l ++ [v])
    | Sketch s => Sketch (s_accept s v)
    end.

  (** lib.rs 224-245 *)
  Definition merge_from (h other : hist) : hist :=
    match other with
    | Inline l => fold_left accept l h
    | Sketch s =>
        match switch_to_sketch h None with
        | Sketch s' => Sketch (s_merge s' s)
        | Inline l => Inline l
        end
    end.

  (** lib.rs 247-273: what is taken, and what is left; sketch.clear() gives an empty
      sketch. *)
  Definition snap (h : hist) : option hist * hist :=
    match h with
    | Inline l => match l with [] => (None, h) | _ => (Some (Inline l), Inline []) end
    | Sketch s => if s_is_empty s then (None, h) else (Some (Sketch s), Sketch make_sketch)
    end.

  (** lib.rs 384-440: the protobuf of a histogram, to_proto and from_proto. *)
  Inductive proto := PInline (l : list value) | PSketch (b : bytes).
  (** lib.rs 416-440. *)
  Definition to_proto (h : hist) : proto :=
    match h with Inline l => PInline l | Sketch s => PSketch (s_encode s) end.
  (** lib.rs 390-414. *)
  Definition from_proto (p : proto) : option hist :=
    match p with
    | PInline l => Some (Inline l)
    | PSketch b => option_map Sketch (s_decode b)
    end.

  (** A histogram and where its values come from. *)
  Inductive op := Observe (v : value) | Merge (os : list op) | Reload.

  (** Reload: the histogram is written to disk and read back, as in
      merge_delta_snapshot_to_disk (bd-client-stats/src/stats.rs 168-227). *)
  Fixpoint step (h : option hist) (o : op) : option hist :=
    match h with
    | None => None
    | Some h =>
        match o with
        | Observe v => Some (accept h v)
        | Merge os => option_map (merge_from h) (fold_left step os (Some hist_new))
        | Reload => from_proto (to_proto h)
        end
    end.
  (** A history of the calls of lib.rs 207-273. *)
  Definition run (os : list op) : option hist := fold_left step os (Some hist_new).

  (** The values recorded. *)
  Fixpoint recorded_op (o : op) : list value :=
    match o with
    | Observe v => [v]
    | Merge os => flat_map recorded_op os
    | Reload => []
    end.
  (** What a history of lib.rs 207-273 recorded. *)
  Definition recorded (os : list op) : list value := flat_map recorded_op os.
End Hist.
