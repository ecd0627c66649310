From Verif Require Import Base KeyValue_Model KeyValue_Spec KeyValue_Proofs Device_Model Device_Spec.
From Coq Require Import String.
Local Open Scope list_scope.

Section Device.
Variable utf8 : list Z -> bool.
Notation get := (kv_get value (value_de utf8)).

Lemma ids_cons : forall x xs, ids (x :: xs) = match x with Some i => i :: ids xs | None => ids xs end.
Proof. intros [i|] xs; reflexivity. Qed.
Lemma process_mem : forall l d i, ~ In Restart l -> d_id d = Some i -> forall j, In j (ids (snd (run utf8 d l))) -> j = i.
Proof.
  induction l as [|o l IH]; intros d i Hr Hd j Hj; [destruct Hj|]. cbn [run] in Hj.
  destruct (step utf8 d o) as [d1 x] eqn:E. destruct (run utf8 d1 l) as [d2 xs] eqn:E2. cbn [snd] in Hj.
  assert (Hr' : ~ In Restart l) by (intros H; apply Hr; right; auto).
  destruct o; cbn [step] in E.
  - unfold id in E. rewrite Hd in E. inv E. rewrite ids_cons in Hj. destruct Hj as [Hj|Hj]; [auto|]. eapply IH; eauto. rewrite E2. exact Hj.
  - exfalso. apply Hr. left. reflexivity.
  - inv E. rewrite ids_cons in Hj. eapply (IH (mkDevice _ (d_id d))); [auto|exact Hd|]. rewrite E2. exact Hj.
Qed.
Theorem process : forall l d, ~ In Restart l -> all_same (ids (snd (run utf8 d l))).
Proof.
  induction l as [|o l IH]; intros d Hr a b Ha Hb; [destruct Ha|].
  assert (Hr' : ~ In Restart l) by (intros H; apply Hr; right; auto).
  destruct (d_id d) as [i|] eqn:Hd; [rewrite (process_mem _ _ _ Hr Hd _ Ha), (process_mem _ _ _ Hr Hd _ Hb); reflexivity|].
  cbn [run] in *. destruct (step utf8 d o) as [d1 x] eqn:E. destruct (run utf8 d1 l) as [d2 xs] eqn:E2. cbn [snd] in *.
  destruct o; cbn [step] in E.
  - destruct (id utf8 d uuid rf df sf) as [d' i] eqn:Ei. inv E. assert (Hi : d_id d1 = Some i).
    { unfold id in Ei. rewrite Hd in Ei. destruct (get (d_store d) device_key rf df) as [s0 [[v|v]|]]; inv Ei; reflexivity. }
    rewrite ids_cons in Ha, Hb. assert (Hall : forall j, In j (i :: ids xs) -> j = i).
    { intros j [Hj|Hj]; [auto|]. apply (process_mem l d1 i Hr' Hi). rewrite E2. exact Hj. }
    rewrite (Hall _ Ha), (Hall _ Hb). reflexivity.
  - exfalso. apply Hr. left. reflexivity.
  - inv E. rewrite ids_cons in Ha, Hb. eapply IH; [exact Hr'|rewrite E2; exact Ha|rewrite E2; exact Hb].
Qed.

(** What the storage holds for the device. *)
Definition holds (s : storage) (i : list Z) : Prop := forall df, get s device_key false df = (s, Some (VText i)).
Definition holds_cell (s s' : storage) : Prop := s' device_key = s device_key.
Lemma holds_same : forall s s' i, s' device_key = s device_key -> holds s i -> holds s' i.
Proof.
  intros s s' i He H df. specialize (H df). unfold kv_get in *. unfold kv_get_internal in *. rewrite He. destruct (s device_key) as [x|]; [|inv H].
  destruct (b64_decode x) as [b|]; [|inv H]. destruct (value_de utf8 device_key b) as [v|]; [|inv H]. inv H. reflexivity.
Qed.
Lemma set_holds_id : forall s u f, text_ok utf8 u -> f <> Some false -> holds (kv_set value value_ser s device_key (VText u) f) u.
Proof.
  intros s u f Hu Hf df. destruct (string_value utf8 device_key u Hu) as [Hd Hb]; [discriminate|].
  unfold kv_get, kv_get_internal, kv_set, set_string. destruct f as [[]|]; [| congruence |].
  all: rewrite String.eqb_refl, (b64_roundtrip _ Hb), Hd; reflexivity.
Qed.
Lemma other_cell : forall s o, works utf8 (Other o) -> fst (kv_step value value_ser (value_de utf8) s o) device_key = s device_key.
Proof.
  intros s o H. assert (D : forall k, k <> "device.state"%string -> String.eqb device_key k = false) by (intros k Hk; apply String.eqb_neq; intros E; apply Hk; symmetry; exact E).
  destruct o as [k v f|k rf df|k x]; cbn [works] in H; apply D in H; cbn [kv_step fst].
  - unfold kv_set, set_string. destruct f as [[]|]; rewrite ?H; reflexivity.
  - unfold kv_get. destruct (kv_get_internal value (value_de utf8) s k rf); [reflexivity|]. cbn [fst]. unfold delete. destruct df as [[]|]; rewrite ?H; reflexivity.
  - rewrite H. reflexivity.
Qed.
Lemma restarts_from : forall l d i, Forall (works utf8) l -> holds (d_store d) i -> (d_id d = None \/ d_id d = Some i) -> forall j, In j (ids (snd (run utf8 d l))) -> j = i.
Proof.
  induction l as [|o l IH]; intros d i Hw Hh Hd j Hj; [destruct Hj|]. inv Hw. cbn [run] in Hj.
  destruct (step utf8 d o) as [d1 x] eqn:E. destruct (run utf8 d1 l) as [d2 xs] eqn:E2. cbn [snd] in Hj. rewrite ids_cons in Hj.
  assert (R : forall d0, d0 = d1 -> holds (d_store d0) i -> (d_id d0 = None \/ d_id d0 = Some i) -> In j (ids xs) -> j = i).
  { intros d0 -> A B C. apply (IH d1 i); auto. rewrite E2. exact C. }
  destruct o; cbn [step] in E.
  - destruct H1 as [_ [-> _]]. unfold id in E. destruct Hd as [Hd|Hd]; rewrite Hd in E.
    + rewrite Hh in E. inv E. destruct Hj as [Hj|Hj]; auto. eapply (R _ eq_refl); cbn; auto.
    + inv E. destruct Hj as [Hj|Hj]; auto. eapply (R _ eq_refl); cbn; auto.
  - inv E. eapply (R _ eq_refl); cbn; auto.
  - inv E. eapply (R _ eq_refl); cbn; auto. eapply holds_same; [|exact Hh]. apply other_cell. auto.
Qed.
Theorem restarts : forall l s, Forall (works utf8) l -> all_same (ids (snd (run utf8 (new_device s) l))).
Proof.
  assert (G : forall l d, d_id d = None -> Forall (works utf8) l -> all_same (ids (snd (run utf8 d l)))).
  { induction l as [|o l IH]; intros d Hd Hw a b Ha Hb; [destruct Ha|]. inv Hw. cbn [run] in *.
    destruct (step utf8 d o) as [d1 x] eqn:E. destruct (run utf8 d1 l) as [d2 xs] eqn:E2. cbn [snd] in *. rewrite ids_cons in *.
    destruct o; cbn [step] in E.
    - destruct H1 as [Hu [-> Hf]]. unfold id in E. rewrite Hd in E.
      assert (G1 : exists i, x = Some i /\ holds (d_store d1) i /\ d_id d1 = Some i).
      { unfold kv_get in E. destruct (kv_get_internal value (value_de utf8) (d_store d) device_key false) as [[[i|v]|]|] eqn:Eg.
        - inv E. exists i. repeat split; auto. intros df'. unfold kv_get. cbn [d_store]. rewrite Eg. reflexivity.
        - inv E. exists uuid. repeat split; auto. cbn. apply set_holds_id; auto.
        - inv E. exists uuid. repeat split; auto. cbn. apply set_holds_id; auto.
        - inv E. exists uuid. repeat split; auto. cbn. apply set_holds_id; auto. }
      destruct G1 as [i [-> [G1 G2]]]. assert (Hall : forall j, In j (i :: ids xs) -> j = i).
      { intros j [Hj|Hj]; auto. apply (restarts_from l d1 i H2 G1 (or_intror G2)). rewrite E2. exact Hj. }
      rewrite (Hall _ Ha), (Hall _ Hb). reflexivity.
    - inv E. eapply (IH (new_device (d_store d))); [reflexivity|auto|rewrite E2; auto|rewrite E2; auto].
    - inv E. eapply (IH (mkDevice _ (d_id d))); [exact Hd|auto|rewrite E2; auto|rewrite E2; auto]. }
  intros l s. apply G. reflexivity.
Qed.
(** An id that is stored is the one given. *)
Theorem stored_given : forall l d i, d_id d = None -> holds (d_store d) i -> Forall (works utf8) l -> forall j, In j (ids (snd (run utf8 d l))) -> j = i.
Proof. intros. eapply restarts_from; eauto. Qed.
End Device.
