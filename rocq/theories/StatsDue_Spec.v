(** Which statistics are sent, and when (C149). *)
From Verif Require Import Base Str_Base StatsStore_Model StatsFile_Model StatsFile_Spec.
Local Open Scope list_scope. Local Open Scope Z_scope.

(** A state after a history in which no write fails; reads may fail, and the process
    may end at any point. *)
Definition healthy (s : state) : Prop :=
  exists os, no_write_errors os /\ Forall (fun x => 2 <= v_max (fst (fst x))) os /\ NoDup (names os) /\ s = fst (run init os).
(** The window of the file is over. *)
Definition due (v : env) (e : entry) : Prop := e_start e + v_window v <= v_now v.
Definition unreadable (s : state) (e : entry) : Prop := forall q, d_files (s_disk s) (e_name e) <> FReq q.
(** What is sent of a file: its content and its period, which ends now if it was still open. *)
Definition upload_of (v : env) (e : entry) (q : request) : sent :=
  {| t_uuid := q_uuid q; t_metrics := q_metrics q; t_start := e_start e; t_end := match e_end e with Some x => Some x | None => Some (v_now v) end |}.
