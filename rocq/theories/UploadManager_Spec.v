(* Executions of the upload manager and what is said about them. *)
From Verif Require Import Base BufferManager_Model BufferManager_Spec UploadManager_Model.
Local Open Scope Z_scope.

(* the states of an execution, with the configurations received so far *)
Inductive reach (order : bufs -> bufs) : list conf -> um -> Prop :=
| reach_new : reach order [] um_new
| reach_step : forall cs s l s', reach order cs s -> ustep order s l = Some s' ->
    reach order (cs ++ match l with UConfig c => [c] | _ => [] end) s'.

(* all steps of the list are possible, one after the other *)
Fixpoint steps (order : bufs -> bufs) (s : um) (ls : list label) : option um :=
  match ls with
  | [] => Some s
  | l :: r => match ustep order s l with Some s' => steps order s' r | None => None end
  end.

(* the steps that serve a configuration update: they need nothing from the network,
   from the application or from a trigger upload *)
Definition internal (l : label) : Prop :=
  match l with USend | UReturn | UHandle | UResume | UStop _ => True | _ => False end.

(* task t is a trigger upload that has not been reported complete *)
Definition uploading (t : task) : Prop := (exists r, tk_kind t = TKTrigger r) /\ tk_st t <> TDone.

(* the consumer of the buffer is still there *)
Definition consuming (t : task) : Prop := tk_st t = TReading \/ tk_st t = TWaiting.

(* a stream buffer is added only while there is none and removed only while there is one *)
Fixpoint stream_orderly (evs : list bevent) (known : bool) : Prop :=
  match evs with
  | [] => True
  | BStreamAdded _ :: r => known = false /\ stream_orderly r true
  | BStreamRemoved _ :: r => known = true /\ stream_orderly r false
  | _ :: r => stream_orderly r known
  end.

(* task t uploads the buffer object that is configured now *)
Definition current (s : um) (t : task) : Prop :=
  match tk_kind t with
  | TKTrigger _ => bfind (tk_buf t) (bm_bufs (um_bm s)) = Some (BTrigger, tk_h t)
  | TKContinuous => bfind (tk_buf t) (bm_bufs (um_bm s)) = Some (BContinuous, tk_h t)
  | TKStream => bm_stream (um_bm s) = Some (tk_h t)
  end.
