(** Model of bd-rt/src/lib.rs lines 15-90: the number of threads of a runtime.

    What the environment says and what the host says are inputs. [numeric] is the parser of [f64] (true of the texts that it takes). [address] is the address
    of the function [num_cpus]: line 44 converts the function itself, not the number that was parsed. Names of threads and the drivers of tokio are not
    modelled. *)
From Verif Require Import Base Str_Base.
Local Open Scope N_scope.

(** Line 22. *)
Definition MAX_RT_THREADPOOL_SIZE : N := 4096.
(** What is found outside when the number is computed: the variable [NUM_CPUS] (line 35) and the number of threads of the host, none if the call fails (lines 51-57). *)
Record world := mkWorld { w_var : option string; w_host : option N }.
(** [usize::clamp], line 58. *)
Definition clamp (x lo hi : N) : N := if x <? lo then lo else if hi <? x then hi else x.

Section Rt.
Variables (numeric : string -> bool) (address : N).
(** Lines 51-58. *)
Definition from_host (w : world) : N := clamp (match w_host w with Some n => n | None => 1 end) 1 MAX_RT_THREADPOOL_SIZE.
(** Lines 30-59. *)
Definition num_cpus (w : world) : N :=
  match w_var w with
  | Some v => if numeric v then N.max 1 address else from_host w
  | None => from_host w
  end.

(** What tokio is asked for, lines 75-84. *)
Inductive runtime := CurrentThread | MultiThread (workers : N) | Panics.
(** [worker_threads] of tokio panics for zero, line 82. *)
Definition build (n : N) : runtime := if n =? 1 then CurrentThread else if n =? 0 then Panics else MultiThread n.
(** The static of line 68 ([None]: not computed yet) and a call of [new_runtime] (lines 75-90) in a world. *)
Definition new_runtime (memo : option N) (w : world) : option N * runtime :=
  let n := match memo with Some n => n | None => num_cpus w end in (Some n, build n).
(** Calls one after the other, the world changing between them. *)
Fixpoint runtimes (memo : option N) (ws : list world) : list runtime :=
  match ws with [] => [] | w :: ws => let (m, r) := new_runtime memo w in r :: runtimes m ws end.
End Rt.
