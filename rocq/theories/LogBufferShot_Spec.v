(** The part of a history that concerns the screenshots: the recorder is told right after each screenshot log was taken, and never otherwise. *)
From Verif Require Import Base Str_Base Log_Model LogBuffer_Model.
Local Open Scope string_scope. Local Open Scope list_scope.

Section Shot.
Variables (V E : Type).
Notation event := (event V E).
(** The log that carries a screenshot. *)
Definition screenshot_log (l : line) : Prop := ln_type l = 1%N /\ ln_message l = VStr "Screenshot captured".
(** [told e]: in [e] the recorder is told right after each screenshot log was taken, and nowhere else. *)
Inductive told : list event -> Prop :=
| told_nil : told []
| told_shot k l w t e : screenshot_log l -> told e -> told (Taken k (CLog l w) t :: Shot :: e)
| told_log k l w t e : ~ screenshot_log l -> told e -> told (Taken k (CLog l w) t :: e)
| told_other x e : x <> Shot -> (forall k l w t, x <> Taken k (CLog l w) t) -> told e -> told (x :: e).
End Shot.
Arguments told {V E}.
