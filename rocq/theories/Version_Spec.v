(** Versions as users write them. *)
From Verif Require Import Base Str_Base Version_Model.
Local Open Scope string_scope.

(** Does [candidate] satisfy the matcher [op value]? [None] when there is no such matcher. *)
Definition satisfies (re_ok : string -> bool) (re_match : string -> string -> bool) (op : operator) (value candidate : string) : option bool :=
  match version_match_new re_ok op value with Some m => Some (version_evaluate re_match m candidate) | None => None end.

(** The part of a version string that counts: what comes before the first - or +. *)
Fixpoint core (s : string) : string :=
  match s with
  | EmptyString => EmptyString
  | String a s' => if Ascii.eqb a "-" || Ascii.eqb a "+" then EmptyString else String a (core s')
  end.

(** The i-th dot separated piece, "0" when there is none. *)
Definition piece (s : string) (i : nat) : string := nth i (split "." (core s)) "0".
Definition number (s : string) : Prop := parse_u32 s <> None.
(** At every position, the three versions all have a number or all have something else. *)
Definition same_kinds (a b c : string) : Prop :=
  forall i, (number (piece a i) /\ number (piece b i) /\ number (piece c i)) \/ (~ number (piece a i) /\ ~ number (piece b i) /\ ~ number (piece c i)).
