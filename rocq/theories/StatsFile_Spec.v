(** Specification of C41, C42 and C68. *)
From Verif Require Import Base Str_Base StatsStore_Model StatsFile_Model.
Local Open Scope list_scope.
Local Open Scope Z_scope.

Definition history := list (env * list io * op).

(** The upload identifiers that may be used for new files. *)
Definition op_name (x : env * list io * op) : list string :=
  match snd x with Flush _ _ n => [n] | _ => [] end.
Definition names (os : history) : list string := flat_map op_name os.

(** Writes and removals do not fail (they may be cut short by the end of the process). *)
Definition no_write_errors (os : history) : Prop :=
  Forall (fun x => Forall (fun i => forall t, i <> IoWriteErr t) (snd (fst x))) os.
(** Nothing fails, and the process does not end in the middle of a step. *)
Definition no_failures (os : history) : Prop := Forall (fun x => snd (fst x) = []) os.

(** The index, as it is used: in memory, or the one that will be loaded. *)
Definition index (s : state) : list entry :=
  match s_mem s with
  | MInit l => l
  | _ => match d_index (s_disk s) with IGood l => l | _ => [] end
  end.

(** The amount of a metric in a set of metrics, in a file and on disk. *)
Definition amount1 (x : mval) : Z := match x with MCounter n | MHist n => n end.
Fixpoint amount (i : string) (m : metrics) : Z :=
  match m with
  | [] => 0
  | (j, x) :: m => (if String.eqb i j then amount1 x else 0) + amount i m
  end.
Definition in_file (s : state) (i : string) (n : string) : Z :=
  match d_files (s_disk s) n with FReq q => amount i (q_metrics q) | _ => 0 end.
Fixpoint on_disk (s : state) (i : string) (l : list entry) : Z :=
  match l with
  | [] => 0
  | e :: l => in_file s i (e_name e) + on_disk s i l
  end.
Definition stored (s : state) (i : string) : Z := on_disk s i (index s).

(** What a step brings in. *)
Definition flushed (i : string) (o : op) : Z :=
  match o with Flush st dy _ => amount i st + amount i dy | _ => 0 end.

(** The metrics of one flush have different Ids, and each Id always has the same
    kind. *)
Definition kind_of (x : mval) : kind := match x with MCounter _ => KCounter | MHist _ => KHistogram end.
Definition well_kinded (k : string -> kind) (o : op) : Prop :=
  match o with
  | Flush st dy _ =>
      NoDup (map fst (st ++ dy)) /\ Forall (fun x => kind_of (snd x) = k (fst x)) (st ++ dy)
  | _ => True
  end.

(** What a step removes: the content of the files that leave the index. *)
Definition gone (s s' : state) (i : string) : Z :=
  on_disk s i (filter (fun e => negb (mem_str (e_name e) (map e_name (index s')))) (index s)).

(** Sums over a history. *)
Fixpoint flushed_all (i : string) (os : history) : Z :=
  match os with
  | [] => 0
  | x :: os => flushed i (snd x) + flushed_all i os
  end.
Fixpoint gone_all (s : state) (os : history) (i : string) : Z :=
  match os with
  | [] => 0
  | (v, ios, o) :: os => let s' := fst (step s v ios o) in gone s s' i + gone_all s' os i
  end.
