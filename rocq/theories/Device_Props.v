(** C119: the device keeps its id. *)
From Verif Require Import Base KeyValue_Model KeyValue_Spec Device_Model Device_Spec Device_Proofs.
From Coq Require Import String.
Local Open Scope list_scope.
Open Scope Z_scope.

(** Within a process, whatever the storage does. *)
Theorem C119_process : forall utf8 l d, ~ In Restart l -> all_same (ids (snd (run utf8 d l))).
Proof. exact process. Qed.
Print Assumptions C119_process.
(** Over any number of processes, if the storage works. *)
Theorem C119_restarts_partial : forall utf8 l s, Forall (works utf8) l -> all_same (ids (snd (run utf8 (new_device s) l))).
Proof. exact restarts. Qed.
Print Assumptions C119_restarts_partial.
(** An id that was stored before is the one given. *)
Theorem C119_stored : forall utf8 l s i, (forall df, kv_get value (value_de utf8) s device_key false df = (s, Some (VText i))) -> Forall (works utf8) l ->
  forall j, In j (ids (snd (run utf8 (new_device s) l))) -> j = i.
Proof. intros utf8 l s i H Hl. apply stored_given; [reflexivity|exact H|exact Hl]. Qed.
Print Assumptions C119_stored.

Definition ascii (l : list Z) : bool := forallb (fun b => b <? 128) l.
Definition history : list op :=
  [Id [97; 49] false None None; Other (KSet value "app"%string (VText [1]) None); Id [98] false None None; Restart; Id [99] false None (Some true); Restart; Id [100] false None None].
Example C119_ex : Forall (works ascii) history /\ ids (snd (run ascii (new_device (fun _ => None)) history)) = [[97; 49]; [97; 49]; [97; 49]; [97; 49]].
Proof.
  split; [|vm_compute; reflexivity]. unfold history.
  repeat (apply Forall_cons; [cbn [works]; try exact I; try discriminate; repeat match goal with |- _ /\ _ => split end; try reflexivity; try discriminate; repeat constructor; cbn; try lia; try reflexivity|]).
  constructor.
Qed.
Definition stored : storage := kv_set value value_ser (fun _ => None) device_key (VText [97]) None.
Example C119_stored_ex : forall df, kv_get value (value_de ascii) stored device_key false df = (stored, Some (VText [97])).
Proof. intros df. vm_compute. reflexivity. Qed.

(** If the id cannot be written, the next process has another one. *)
Theorem C119_write_refuted : exists l, (forall u rf df sf, In (Id u rf df sf) l -> rf = false) /\ ~ all_same (ids (snd (run ascii (new_device (fun _ => None)) l))).
Proof.
  exists [Id [97] false None (Some false); Restart; Id [98] false None None]. split.
  - intros u rf df sf [H|[H|[H|[]]]]; inv H; reflexivity.
  - intros H. specialize (H [97] [98]). cbv in H. assert ([97] = [98]) by (apply H; auto). discriminate.
Qed.
Print Assumptions C119_write_refuted.
(** If the storage fails to answer once, a stored id is replaced for good. *)
Theorem C119_read_refuted : exists u df, snd (id ascii (new_device stored) [99] false None None) = [97]
  /\ forall l, Forall (works ascii) l -> forall j, In j (ids (snd (run ascii (new_device stored) (Id u true df None :: l)))) -> j = u /\ u <> [97].
Proof.
  exists [98], None. split; [vm_compute; reflexivity|]. intros l Hl j Hj. split; [|discriminate].
  cbn [run] in Hj. destruct (step ascii (new_device stored) (Id [98] true None None)) as [d1 x] eqn:E. destruct (run ascii d1 l) as [d2 xs] eqn:E2.
  assert (E3 : x = Some [98] /\ d_id d1 = Some [98] /\ holds ascii (d_store d1) [98]).
  { cbn [step] in E. inv E. split; [reflexivity|]. split; [reflexivity|]. intros df. vm_compute. reflexivity. }
  destruct E3 as [-> [E3 E4]]. cbn [snd] in Hj. rewrite ids_cons in Hj. destruct Hj as [Hj|Hj]; [auto|].
  apply (restarts_from ascii l d1 [98] Hl E4 (or_intror E3)). rewrite E2. exact Hj.
Qed.
Print Assumptions C119_read_refuted.
