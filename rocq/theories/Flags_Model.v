(** Model of bd-runtime-config/src/feature_flags.rs and loader.rs: feature flags and the loader that keeps them up to date with a file.

    Parsing YAML and the conversion function are parameters. The file system is part of the schedule: a swap (a rename in the watched
    directory that changes what the path leads to) queues a rename event once the watch is set up, a write in place queues another event.
    The queue of notify and the channel of sixteen are one queue. Reading the file is one step, publishing what was read another. *)
From Verif Require Import Base Str_Base.
Local Open Scope N_scope.

(** feature_flags.rs:61-68. *)
Inductive flag := FBool (b : bool) | FInteger (n : N) | FString (s : string).
(** feature_flags.rs:70-74. *)
Definition flags := list (string * flag).
(** [HashMap::get], feature_flags.rs:78. *)
Fixpoint lookup (fs : flags) (name : string) : option flag :=
  match fs with [] => None | (k, v) :: fs' => if String.eqb k name then Some v else lookup fs' name end.
(** feature_flags.rs:77-86; [random]: a u64. *)
Definition feature_enabled (fs : flags) (name : string) (default : bool) (random : N) : bool :=
  match lookup fs name with
  | Some (FInteger i) => if i =? 0 then false else if i <=? 9999 then random mod 10000 <? i else true
  | _ => default
  end.
(** feature_flags.rs:94-99. *)
Definition get_bool (fs : flags) (name : string) (default : bool) : bool := match lookup fs name with Some (FBool b) => b | _ => default end.
(** feature_flags.rs:101-106. *)
Definition get_integer (fs : flags) (name : string) (default : N) : N := match lookup fs name with Some (FInteger i) => i | _ => default end.
(** feature_flags.rs:108-113. *)
Definition get_string (fs : flags) (name : string) (default : string) : string := match lookup fs name with Some (FString s) => s | _ => default end.
(** feature_flags.rs:141-150: the conversion function of the feature flags: always something, empty if the file was no good. *)
Definition flags_conversion (o : option flags) : option flags := Some (match o with Some fs => fs | None => [] end).

Section Loader.
Context {Raw Config : Type}.
(** [serde_yaml::from_str], loader.rs:302. *)
Variable parse : string -> option Raw.
(** The conversion function, loader.rs:301. *)
Variable convert : option Raw -> option Config.

(** What reading the path gives: loader.rs:301; [None]: an error. *)
Definition file := option string.
(** Events, loader.rs:269-275: a rename of the mode looked for, another one, an error. *)
Inductive event := ERename | EOther | EError.
(** How far the making of the loader is (loader.rs:238-263): before the watch (line 239), before the file is read (243), with what was read,
    made. *)
Inductive stage := Unwatched | Watched | Loaded (c : option Config) | Made.
(** The task, loader.rs:268-289: waiting for an event, about to send what it loaded, ended. *)
Inductive task := Waiting | Sending (c : option Config) | Ended.
(** loader.rs:64-68, 150-154, with the file, the queue, the counters of 76-83, the first caller of shutdown and those it has returned to. *)
Record st := mkSt {
  disk : file; queue : list event; stg : stage; tsk : task; snapshot : option Config; ok : nat; bad : nat; io : nat;
  shut : option nat; returned : list nat }.
(** Before [new_loader]. *)
Definition init (f : file) : st := mkSt f [] Unwatched Waiting None 0 0 0 None [].

(** loader.rs:292-319: what is loaded from a file. *)
Definition load (f : file) : option Config := convert (match f with Some text => parse text | None => None end).
(** loader.rs:303-317: the counters. *)
Definition loaded (s : st) (q : list event) (g : stage) (t : task) : st :=
  match disk s with
  | None => mkSt (disk s) q g t (snapshot s) (ok s) (bad s) (S (io s)) (shut s) (returned s)
  | Some text =>
      match parse text with
      | Some _ => mkSt (disk s) q g t (snapshot s) (S (ok s)) (bad s) (io s) (shut s) (returned s)
      | None => mkSt (disk s) q g t (snapshot s) (ok s) (S (bad s)) (io s) (shut s) (returned s)
      end
  end.

(** Actions: of the file system ([LSwap], [LWrite], [LTouch] something else in the directory, [LFail] of the notification), of [new_loader]
    ([LWatch], [LRead], [LMake]), of the task ([LTake], [LSend]), of callers of shutdown ([LShutdown], [LReturn]). *)
Inductive label := LSwap (f : file) | LWrite (f : file) | LTouch | LFail | LWatch | LRead | LMake | LTake | LSend | LShutdown (c : nat) | LReturn (c : nat).

(** Whether events are queued: the watcher exists, loader.rs:239-240 and 171. *)
Definition watching (s : st) : bool := match stg s with Unwatched => false | _ => match shut s with None => true | Some _ => false end end.
(** An event comes, loader.rs:140-142. *)
Definition notify (s : st) (e : event) : list event := if watching s then queue s ++ [e] else queue s.

(** One action; [None]: it cannot happen now. *)
Definition step (s : st) (l : label) : option st :=
  match l with
  | LSwap f => Some (mkSt f (notify s ERename) (stg s) (tsk s) (snapshot s) (ok s) (bad s) (io s) (shut s) (returned s))
  | LWrite f => Some (mkSt f (notify s EOther) (stg s) (tsk s) (snapshot s) (ok s) (bad s) (io s) (shut s) (returned s))
  | LTouch => Some (mkSt (disk s) (notify s EOther) (stg s) (tsk s) (snapshot s) (ok s) (bad s) (io s) (shut s) (returned s))
  | LFail => Some (mkSt (disk s) (notify s EError) (stg s) (tsk s) (snapshot s) (ok s) (bad s) (io s) (shut s) (returned s))
  | LWatch => match stg s with Unwatched => Some (mkSt (disk s) (queue s) Watched (tsk s) (snapshot s) (ok s) (bad s) (io s) (shut s) (returned s)) | _ => None end
  | LRead => match stg s with Watched => Some (loaded s (queue s) (Loaded (load (disk s))) (tsk s)) | _ => None end
  | LMake => match stg s with Loaded c => Some (mkSt (disk s) (queue s) Made (tsk s) c (ok s) (bad s) (io s) (shut s) (returned s)) | _ => None end
  | LTake =>
      match stg s, tsk s with
      | Made, Waiting =>
          match queue s with
          | [] => match shut s with Some _ => Some (mkSt (disk s) [] Made Ended (snapshot s) (ok s) (bad s) (io s) (shut s) (returned s)) | None => None end
          | ERename :: q => Some (loaded s q Made (Sending (load (disk s))))
          | EOther :: q => Some (mkSt (disk s) q Made Waiting (snapshot s) (ok s) (bad s) (io s) (shut s) (returned s))
          | EError :: q => Some (mkSt (disk s) q Made Ended (snapshot s) (ok s) (bad s) (io s) (shut s) (returned s))
          end
      | _, _ => None
      end
  | LSend => match tsk s with Sending c => Some (mkSt (disk s) (queue s) (stg s) Waiting c (ok s) (bad s) (io s) (shut s) (returned s)) | _ => None end
  | LShutdown c =>
      match stg s, shut s with
      | Made, None => Some (mkSt (disk s) (queue s) Made (tsk s) (snapshot s) (ok s) (bad s) (io s) (Some c) (returned s))
      | Made, Some _ => Some (mkSt (disk s) (queue s) Made (tsk s) (snapshot s) (ok s) (bad s) (io s) (shut s) (c :: returned s))
      | _, _ => None
      end
  | LReturn c =>
      match shut s, tsk s with
      | Some c', Ended => if Nat.eqb c c' then Some (mkSt (disk s) (queue s) (stg s) Ended (snapshot s) (ok s) (bad s) (io s) (shut s) (c :: returned s)) else None
      | _, _ => None
      end
  end.
(** A schedule. *)
Fixpoint exec (s : st) (ls : list label) : option st :=
  match ls with [] => Some s | l :: ls' => match step s l with Some s' => exec s' ls' | None => None end end.
End Loader.
Arguments st : clear implicits.
Arguments stage : clear implicits.
Arguments task : clear implicits.
