(** C85, the part of the logging loop: the recorder learns of each screenshot log taken, and of nothing else. *)
From Verif Require Import Base Str_Base Log_Model Metadata_Model LogBuffer_Model LogBuffer_Spec LogBufferShot_Spec LogBufferShot_Proofs LogBuffer_Props.
Local Open Scope string_scope. Local Open Scope list_scope.

Theorem C85_told : forall C P V E R p_new p_update p_log p_run p_persist threshold write_interval size show_time has_stats l b b' e,
  run C P V E R p_new p_update p_log p_run p_persist threshold write_interval size show_time has_stats b l = Some (b', e) -> told e.
Proof. exact run_told. Qed.

(** The three cases: a screenshot, an ordinary log with the same message, and a replay log with another message. *)
Example C85_told_case : exists b e, toy toy_buf [toy_call 1 "Screenshot captured" [] None false; toy_call 0 "Screenshot captured" [] None false; toy_call 1 "Screen captured" [] None false;
    Take (toy_env 5 []); Take (toy_env 6 []); Take (toy_env 7 [])] = Some (b, e) /\
  map (fun x => match x with Taken k _ _ => Some (Some k) | Shot => Some None | _ => None end) e = [None; None; None; Some (Some 0%nat); Some None; None; Some (Some 1%nat); None; Some (Some 2%nat); None].
Proof. eexists _, _. split; vm_compute; reflexivity. Qed.
Print Assumptions C85_told.
