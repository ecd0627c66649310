(** Vocabulary for Delivery_Props.v: what is seen of the upload task. The records that reached the file are those of Aggregate_Spec.v. *)
From Verif Require Import Base Ring_Model Volatile_Model Nonvolatile_Model Aggregate_Model Batching_Model Delivery_Model.
From Verif Require Nonvolatile_Spec Aggregate_Spec.
Open Scope Z_scope.

(** The records the task got, with the limits in force at that time; the batches it sent. *)
Fixpoint got (o : list seen) : list (record * limits) := match o with [] => [] | Got r l :: o => (r, l) :: got o | _ :: o => got o end.
Fixpoint sent (o : list seen) : list (list record) := match o with [] => [] | Sent b :: o => b :: sent o | _ :: o => sent o end.
(** How many records the task released. *)
Fixpoint releases (o : list seen) : nat := match o with [] => 0%nat | Released :: o => S (releases o) | _ :: o => releases o end.
(** The batches whose upload attempt was answered; [p] is the one under way. *)
Fixpoint answered (p : option (list record)) (o : list seen) : list (list record) :=
  match o with
  | [] => []
  | Sent b :: o => answered (Some b) o
  | Answered _ :: o => match p with Some b => b :: answered None o | None => answered None o end
  | GaveUp :: o => answered None o
  | _ :: o => answered p o
  end.
(** The records of the batch being built; the records still to be released. *)
Definition collecting (d : delivery) : list record := match d_w d with Some w => logs (w_builder w) | None => [] end.
Definition to_release (d : delivery) : nat := match d_w d with Some w => match w_phase w with WReleasing n => n | _ => 0%nat end | None => 0%nat end.
(** The task has returned. *)
Definition ended (d : delivery) : Prop := match d_w d with Some w => w_phase w = WEnded | None => False end.

(** The bytes of the records that left the file. *)
Definition removed (q : Nonvolatile_Spec.queue) : list (list Z) := map (fun p => Nonvolatile_Spec.e_data (snd p)) (Nonvolatile_Spec.q_past q).
(** Sizes passed to [reserve] are [u32]. *)
Definition move_ok (m : move) : Prop := match m with World a => Aggregate_Spec.label_ok a | _ => True end.

(** * Rounds of attempts
    A move that cannot be made now is passed over. *)
Fixpoint attempts (rcrc : list Z -> Z) (hcrc : Z -> option Z -> option Z -> option Z -> Z) (d : delivery) (ms : list move) : delivery * list call * list seen :=
  match ms with
  | [] => (d, [], [])
  | m :: ms =>
      match d_step rcrc hcrc d m with
      | Some (d1, c1, o1) => let '(d2, c2, o2) := attempts rcrc hcrc d1 ms in (d2, c1 ++ c2, o1 ++ o2)
      | None => attempts rcrc hcrc d ms
      end
  end.
(** The moves of the flush thread, of the upload task and of the upload service. *)
Definition allowed (m : move) : Prop := match m with World Thread | Start | Take _ | Tick | Answer _ | Release => True | _ => False end.
(** Each of them gets its turn. *)
Definition round (r : list move) : Prop :=
  Forall allowed r /\ In (World Thread) r /\ In Start r /\ (exists l, In (Take l) r) /\ In Tick r /\ (exists a, In (Answer a) r) /\ In Release r.
