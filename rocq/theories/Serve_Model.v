(** Model of bd-grpc/src/axum_helper.rs: the accept loop of a server and the tasks of its connections.

    What a connection does until it ends is up to the schedule (hyper's side of [graceful_shutdown] is not modelled; an upgraded connection
    counts as ended, as it does for [serve_connection_with_upgrades]). The gauge may be shared with other servers and starts anywhere.
    A connection's task that panics drops its guards like one that ends. *)
From Verif Require Import Base.
Local Open Scope Z_scope.

(** The server, axum_helper.rs:53-108: in the select of the loop (55-63), waiting in [shutdown] (106), returned with success or failure. *)
Inductive server := Accepting | Closing | Returned (ok : bool).
(** The trigger of axum_helper.rs:51 (bd-shutdown lib.rs:64-120): running, told to shut down, dropped. *)
Inductive trigger := Running | Pending | Dropped.
(** A connection's task, axum_helper.rs:74-102: being served, told to shut down and still being served, served but not yet dropped. *)
Inductive cx := Serving | Told | Served.
(** The tasks by connection; [total], [active]: the two metrics of axum_helper.rs:43-44; [asked]: the shutdown future is ready. *)
Record st := mkSt { srv : server; trig : trigger; cxs : list (nat * cx); total : nat; active : Z; asked : bool }.
(** axum_helper.rs:48-51. *)
Definition init (n : nat) (g : Z) : st := mkSt Accepting Running [] n g false.

(** Actions: the shutdown future becomes ready; the server accepts connection [c], fails to accept, takes the shutdown, returns; a
    connection's task sees the shutdown, ends serving, is dropped. *)
Inductive label := LAsk | LAccept (c : nat) | LAcceptError | LStop | LReturn | LTell (c : nat) | LEnd (c : nat) | LDrop (c : nat).

(** What a connection's task is at (axum_helper.rs:74-102); [None]: there is none. *)
Fixpoint find_cx (l : list (nat * cx)) (c : nat) : option cx :=
  match l with [] => None | (d, x) :: l' => if Nat.eqb d c then Some x else find_cx l' c end.
(** A connection's task moves on (axum_helper.rs:87-101). *)
Fixpoint set_cx (l : list (nat * cx)) (c : nat) (x : cx) : list (nat * cx) :=
  match l with [] => [] | (d, y) :: l' => if Nat.eqb d c then (d, x) :: l' else (d, y) :: set_cx l' c x end.
(** A connection's task is dropped (axum_helper.rs:102). *)
Fixpoint del_cx (l : list (nat * cx)) (c : nat) : list (nat * cx) :=
  match l with [] => [] | (d, y) :: l' => if Nat.eqb d c then l' else (d, y) :: del_cx l' c end.

(** One action; [None]: it cannot happen now. *)
Definition step (s : st) (l : label) : option st :=
  match l with
  | LAsk => Some (mkSt (srv s) (trig s) (cxs s) (total s) (active s) true)
  | LAccept c => (* 55-56, 67-74 *)
      match srv s, find_cx (cxs s) c with
      | Accepting, None => Some (mkSt Accepting (trig s) (cxs s ++ [(c, Serving)]) (S (total s)) (active s + 1) (asked s))
      | _, _ => None
      end
  | LAcceptError => (* 56-59: the trigger goes with the function's frame *)
      match srv s with Accepting => Some (mkSt (Returned false) Dropped (cxs s) (total s) (active s) (asked s)) | _ => None end
  | LStop => (* 60-61, 105-106; bd-shutdown lib.rs:101-104 *)
      match srv s, asked s with Accepting, true => Some (mkSt Closing Pending (cxs s) (total s) (active s) (asked s)) | _, _ => None end
  | LReturn => (* 106-108; bd-shutdown lib.rs:105: [closed] returns once there is no receiver *)
      match srv s, cxs s with Closing, [] => Some (mkSt (Returned true) Dropped [] (total s) (active s) (asked s)) | _, _ => None end
  | LTell c => (* 83, 95-97: once, being fused; a dropped trigger ends [cancelled] too, bd-shutdown lib.rs:137-141 *)
      match trig s, find_cx (cxs s) c with
      | Running, _ => None
      | _, Some Serving => Some (mkSt (srv s) (trig s) (set_cx (cxs s) c Told) (total s) (active s) (asked s))
      | _, _ => None
      end
  | LEnd c => (* 89-94, 101 *)
      match find_cx (cxs s) c with
      | Some Serving | Some Told => Some (mkSt (srv s) (trig s) (set_cx (cxs s) c Served) (total s) (active s - 1) (asked s))
      | _ => None
      end
  | LDrop c => (* 102: the task's receiver goes with it *)
      match find_cx (cxs s) c with
      | Some Served => Some (mkSt (srv s) (trig s) (del_cx (cxs s) c) (total s) (active s) (asked s))
      | _ => None
      end
  end.
(** A schedule. *)
Fixpoint exec (s : st) (ls : list label) : option st :=
  match ls with [] => Some s | l :: ls' => match step s l with Some s' => exec s' ls' | None => None end end.
