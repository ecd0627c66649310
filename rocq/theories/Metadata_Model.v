(** Model of bd-logger/src/metadata.rs. The provider's answers (clock and fields, either may fail) are inputs. *)
From Verif Require Import Base Str_Base Log_Model.
Local Open Scope string_scope.

(** bd-log-primitives/src/lib.rs lines 141-144 [LogFieldKind] and [AnnotatedLogField]. *)
Inductive kind := Ootb | Custom.
(** bd-log-primitives/src/lib.rs lines 111-115 [AnnotatedLogField]. *)
Record annotated := mkAnnotated { a_field : field; a_kind : kind }.

(** Lines 21-35. *)
Definition RESERVED_FIELD_NAMES : list string :=
  ["app_id"; "app_version"; "carrier"; "foreground"; "log_level"; "log_type"; "model"; "network_type"; "os"; "os_version"; "radio_type"].
(** Lines 173-191. *)
Definition verify_custom_field_name (f : field) : bool :=
  if existsb (String.eqb (f_key f)) RESERVED_FIELD_NAMES then false else if starts_with (f_key f) "_" then false else true.

(** Lines 154-171. *)
Fixpoint partition_fields (l : list annotated) : list field * list field :=
  match l with
  | [] => ([], [])
  | a :: l' =>
      let (o, c) := partition_fields l' in
      match a_kind a with
      | Ootb => (a_field a :: o, c)
      | Custom => if verify_custom_field_name (a_field a) then (o, a_field a :: c) else (o, c)
      end
  end.

(** [unique_by] of itertools on the key: [seen] are the keys yielded so far. *)
Fixpoint unique_by_key (seen : list string) (l : list field) : list field :=
  match l with
  | [] => []
  | f :: l' => if existsb (String.eqb (f_key f)) seen then unique_by_key seen l' else f :: unique_by_key (f_key f :: seen) l'
  end.

(** buffer_log_generated.rs lines 160-164. *)
Definition is_matching_only_type (t : N) : bool := (t =? 1)%N || (t =? 3)%N || (t =? 4)%N.

(** Lines 42-48. *)
Record metadata := mkMetadata { m_time : Z; m_fields : list field; m_matching : list field }.

(** Lines 71-129; [globals] is the collector's own list, [None] the propagated error of the provider. *)
Definition normalized_metadata (globals : list field) (timestamp : option Z) (provider : option (list annotated))
  (fields matching : list annotated) (log_type : N) : option metadata :=
  match timestamp, provider with
  | Some ts, Some provider =>
      let '(provider_fields, provider_matching) := if is_matching_only_type log_type then ([], provider) else (provider, []) in
      let '(po, pc) := partition_fields provider_fields in
      let '(lo, lc) := partition_fields fields in
      let '(pmo, pmc) := partition_fields provider_matching in
      let '(mo, mc) := partition_fields matching in
      Some (mkMetadata ts (unique_by_key [] (concat [po; lo; lc; globals; pc])) (unique_by_key [] (concat [pmo; mo; mc; pmc])))
  | _, _ => None
  end.

(** [position] followed by [remove], lines 134-136 and 144-146. *)
Fixpoint remove_first (k : string) (l : list field) : list field :=
  match l with [] => [] | f :: l' => if String.eqb (f_key f) k then l' else f :: remove_first k l' end.
(** Lines 131-141; [false]: the name is refused. *)
Definition add_field (globals : list field) (f : field) : list field * bool :=
  if verify_custom_field_name f then ((remove_first (f_key f) globals ++ [f])%list, true) else (globals, false).
(** Lines 143-147. *)
Definition remove_field (globals : list field) (k : string) : list field := remove_first k globals.
