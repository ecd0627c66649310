(** Which fields a log carries. *)
From Verif Require Import Base Str_Base Log_Model Metadata_Model Matcher_Spec.
Local Open Scope string_scope.

(** Names applications may use. *)
Definition admissible (k : string) : Prop :=
  ~ In k ["app_id"; "app_version"; "carrier"; "foreground"; "log_level"; "log_type"; "model"; "network_type"; "os"; "os_version"; "radio_type"] /\
  forall r, k <> "_" ++ r.
(** [source l kd s]: [s] lists the usable fields of kind [kd] in [l], in order. *)
Inductive source : list annotated -> kind -> list field -> Prop :=
| source_nil kd : source [] kd []
| source_use f kd l s : (kd = Custom -> admissible (f_key f)) -> source l kd s -> source (mkAnnotated f kd :: l) kd (f :: s)
| source_other f kd kd' l s : kd <> kd' -> source l kd s -> source (mkAnnotated f kd' :: l) kd s
| source_refused f l s : ~ admissible (f_key f) -> source l Custom s -> source (mkAnnotated f Custom :: l) Custom s.

(** The value of [k] in the first source that has it. *)
Inductive picks (k : string) : list (list field) -> value -> Prop :=
| picks_here s rest v : first k s v -> picks k (s :: rest) v
| picks_later s rest v : absent k s -> picks k rest v -> picks k (s :: rest) v.

(** Histories of the globally added fields. *)
Inductive gop := Add (k : string) (v : value) | Remove (k : string).
Definition gstep (g : list field) (o : gop) : list field :=
  match o with Add k v => fst (add_field g (mkField k v)) | Remove k => remove_field g k end.
(** The last operation on [k] (refused ones aside) was adding [v]. *)
Inductive added (k : string) (v : value) : list gop -> Prop :=
| added_last ops : admissible k -> added k v (ops ++ [Add k v])
| added_other ops o : match o with Add k' _ => k' <> k | Remove k' => k' <> k end -> added k v ops -> added k v (ops ++ [o]).
