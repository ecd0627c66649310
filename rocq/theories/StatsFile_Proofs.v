(** Proofs for C41, C42 and C68. *)
From Verif Require Import Base Str_Base StatsStore_Model StatsFile_Model StatsFile_Spec.
Local Open Scope list_scope.
Local Open Scope Z_scope.

(** Reasoning about programs: the result, if writes do not fail; D is what holds of the
    disk if the process ends. *)
Definition wp {A} (m : M A) (Q : A -> world -> Prop) (D : disk -> Prop) (w : world) : Prop :=
  match m w with
  | (Ok a, w') => Q a w'
  | (Err, _) => False
  | (Dead, w') => D (w_disk w')
  | (Panic, w') => D (w_disk w')
  end.

Lemma wp_bind : forall A B (m : M A) (f : A -> M B) Q D w,
  wp m (fun a w' => wp (f a) Q D w') D w -> wp (bind m f) Q D w.
Proof.
  intros A B m f Q D w H. unfold wp in *. unfold bind. destruct (m w) as [[a| | |] w']; auto.
Qed.

Lemma wp_conseq : forall A (m : M A) (Q Q' : A -> world -> Prop) (D : disk -> Prop) w,
  wp m Q D w -> (forall a w', Q a w' -> Q' a w') -> wp m Q' D w.
Proof. intros A m Q Q' D w H I. unfold wp in *. destruct (m w) as [[a| | |] w']; auto. Qed.

Definition wok (w : world) : Prop := Forall (fun i => forall t, i <> IoWriteErr t) (w_io w).

(** next_io *)
Lemma wp_next : forall (Q : io -> world -> Prop) D w, wok w ->
  (forall x l, (forall t, x <> IoWriteErr t) ->
     let w' := {| w_disk := w_disk w; w_mem := w_mem w; w_io := l |} in wok w' -> Q x w') ->
  wp next_io Q D w.
Proof.
  intros Q D w K H. unfold wp, next_io. destruct (w_io w) as [|x l] eqn:E.
  - specialize (H IoOk []). cbn zeta in H.
    assert (W : w = {| w_disk := w_disk w; w_mem := w_mem w; w_io := [] |})
      by (destruct w; cbn in *; subst; reflexivity).
    rewrite W. apply H; [discriminate|constructor].
  - unfold wok in K. rewrite E in K. inversion K as [|? ? K1 K2]; subst. apply H; auto.
Qed.

Section Inv.
  Variable T : list sent.
  Variable used : list string.

  Record iinv (l : list entry) (f : string -> snap_file) : Prop := {
    i_nodup : NoDup (map e_name l);
    i_used : forall e, In e l -> In (e_name e) used;
    i_uuid : forall e q, In e l -> f (e_name e) = FReq q -> q_uuid q = e_name e;
    i_sent : forall t e, In t T -> In e l -> t_uuid t = e_name e ->
      e_end e = t_end t /\ e_start e = t_start t /\
      forall q, f (e_name e) = FReq q -> q_metrics q = t_metrics t
  }.

  Record ginv (f : string -> snap_file) : Prop := {
    g_used : forall t, In t T -> In (t_uuid t) used;
    g_end : forall t, In t T -> t_end t <> None;
    g_file : forall n q, f n = FReq q -> In n used
  }.

  Definition dinv (d : disk) : Prop :=
    ginv (d_files d) /\ match d_index d with IGood l => iinv l (d_files d) | _ => True end.

  Definition shrinks (f f' : string -> snap_file) : Prop := forall n q, f' n = FReq q -> f n = FReq q.

  Lemma iinv_shrinks : forall l f f', shrinks f f' -> iinv l f -> iinv l f'.
  Proof.
    intros l f f' S I. constructor.
    - apply I.
    - apply I.
    - intros e q E F. apply (i_uuid _ _ I e q E (S _ _ F)).
    - intros t e Ht E U. destruct (i_sent _ _ I t e Ht E U) as (A & B & C). splits; auto.
  Qed.
  Lemma ginv_shrinks : forall f f', shrinks f f' -> ginv f -> ginv f'.
  Proof. intros f f' S G. constructor; try apply G. intros n q F. apply (g_file _ G n q (S _ _ F)). Qed.
  Lemma dinv_shrinks : forall i f f', shrinks f f' ->
    dinv {| d_index := i; d_files := f |} -> dinv {| d_index := i; d_files := f' |}.
  Proof.
    intros i f f' S [G I]. split; cbn in *; [eapply ginv_shrinks; eauto|].
    destruct i; auto. eapply iinv_shrinks; eauto.
  Qed.
  Lemma shrinks_set : forall f n x, (forall q, x <> FReq q) -> shrinks f (set_file f n x).
  Proof. intros f n x N m q. unfold set_file. destruct (String.eqb m n); intros H; [elim (N q H)|exact H]. Qed.

  Lemma iinv_incl : forall l l' f, NoDup (map e_name l') -> incl l' l -> iinv l f -> iinv l' f.
  Proof.
    intros l l' f N S I. constructor.
    - exact N.
    - intros e E. apply (i_used _ _ I). auto.
    - intros e q E. apply (i_uuid _ _ I). auto.
    - intros t e Ht E. apply (i_sent _ _ I); auto.
  Qed.

  Definition close (e : entry) (t : Z) : entry :=
    {| e_name := e_name e; e_start := e_start e; e_end := Some t |}.

  (** An entry without end is not sent. *)
  Lemma open_unsent : forall l f e t, ginv f -> iinv l f -> In e l -> e_end e = None -> In t T ->
    t_uuid t <> e_name e.
  Proof.
    intros l f e t G I E N Ht U. destruct (i_sent _ _ I t e Ht E U) as (A & _).
    apply (g_end _ G t Ht). congruence.
  Qed.

  Lemma iinv_close : forall a e b t f, ginv f -> iinv (a ++ e :: b) f -> e_end e = None ->
    iinv (a ++ close e t :: b) f.
  Proof.
    intros a e b t f G I N.
    assert (X : forall x, In x (a ++ close e t :: b) -> In x (a ++ e :: b) \/ x = close e t).
    { intros x X. apply in_app_or in X. destruct X as [X|[X|X] ]; [left|right|left]; auto with datatypes. }
    assert (Ein : In e (a ++ e :: b)) by auto with datatypes.
    constructor.
    - pose proof (i_nodup _ _ I) as D. rewrite map_app in *. exact D.
    - intros x Hx. destruct (X x Hx) as [Y|Y]; [apply (i_used _ _ I x Y)|]. subst x.
      apply (i_used _ _ I e Ein).
    - intros x q Hx. destruct (X x Hx) as [Y|Y]; [apply (i_uuid _ _ I x q Y)|]. subst x.
      apply (i_uuid _ _ I e q Ein).
    - intros t' x Ht Hx U. destruct (X x Hx) as [Y|Y]; [apply (i_sent _ _ I t' x Ht Y U)|]. subst x.
      exfalso. apply (open_unsent _ _ e t' G I Ein N Ht U).
  Qed.

  Lemma iinv_push : forall l f e, ginv f -> iinv l f -> e_end e = None -> In (e_name e) used ->
    (forall t, In t T -> t_uuid t <> e_name e) -> (forall q, f (e_name e) <> FReq q) ->
    ~ In (e_name e) (map e_name l) ->
    iinv (l ++ [e]) f.
  Proof.
    intros l f e G I N U F1 F2 F3. constructor.
    - rewrite map_app. cbn. apply NoDup_rev in D || idtac.
      pose proof (i_nodup _ _ I) as D.
      clear -D F3. induction (map e_name l) as [|x m IH]; cbn in *; [constructor; auto; constructor|].
      inversion D; subst. constructor; [|apply IH; auto].
      intros H. apply in_app_or in H. destruct H as [H|[H|[] ]]; [auto|subst; auto].
    - intros x X. apply in_app_or in X. destruct X as [X|[X|[] ]]; [apply (i_used _ _ I x X)|subst; auto].
    - intros x q X F. apply in_app_or in X. destruct X as [X|[X|[] ]]; [apply (i_uuid _ _ I x q X F)|subst].
      elim (F2 q F).
    - intros t x Ht X E. apply in_app_or in X. destruct X as [X|[X|[] ]]; [apply (i_sent _ _ I t x Ht X E)|subst].
      elim (F1 t Ht E).
  Qed.

  Lemma unsnoc_some : forall l a e, unsnoc l = Some (a, e) -> l = a ++ [e].
  Proof.
    induction l as [|x l IH]; intros a e H; [discriminate|]. cbn in H.
    destruct (unsnoc l) as [ [a' e']|] eqn:E.
    - injection H as <- <-. rewrite (IH _ _ eq_refl). reflexivity.
    - injection H as <- <-. destruct l as [|y l]; [reflexivity|]. cbn in E.
      destruct (unsnoc l) as [ [? ?]|]; discriminate.
  Qed.
  Lemma unsnoc_none : forall l, unsnoc l = None -> l = [].
  Proof.
    intros [|x l] H; [reflexivity|]. cbn in H. destruct (unsnoc l) as [ [? ?]|]; discriminate.
  Qed.
  Lemma unsnoc_snoc : forall a e, unsnoc (a ++ [e]) = Some (a, e).
  Proof. induction a as [|x a IH]; intros e; [reflexivity|]. cbn. rewrite IH. reflexivity. Qed.

  (** The index in memory is the one on disk. *)
  Definition synced (l : list entry) (w : world) : Prop :=
    w_mem w = MInit l /\ (d_index (w_disk w) = IGood l \/ (l = [] /\ forall x, d_index (w_disk w) <> IGood x)).

  (** During a step. *)
  Definition winv (l : list entry) (w : world) : Prop :=
    wok w /\ dinv (w_disk w) /\ iinv l (d_files (w_disk w)).

  Lemma synced_iinv : forall l w, dinv (w_disk w) -> synced l w -> iinv l (d_files (w_disk w)).
  Proof.
    intros l w [G I] [_ [E|[E _] ]]; [rewrite E in I; exact I|]. subst l. constructor; cbn; try tauto. constructor.
  Qed.

  Lemma wp_write_index : forall l' (Q : unit -> world -> Prop) w,
    wok w -> dinv (w_disk w) -> iinv l' (d_files (w_disk w)) ->
    (forall w', wok w' -> w_mem w' = w_mem w -> d_files (w_disk w') = d_files (w_disk w) ->
       d_index (w_disk w') = IGood l' -> dinv (w_disk w') -> Q tt w') ->
    wp (write_index l') Q dinv w.
  Proof.
    intros l' Q w K D I H. unfold write_index. apply wp_bind. apply wp_next; [exact K|].
    intros x l Hx w' K'. destruct D as [G D].
    assert (Y : Q tt (set_disk w' {| d_index := IGood l'; d_files := d_files (w_disk w') |})).
    { apply H; try reflexivity; [exact K'|]. split; cbn; auto. }
    destruct x as [| |t|t g]; try exact Y; [elim (Hx t eq_refl)|].
    unfold wp, bind, when. destruct t; cbn; split; cbn; auto.
  Qed.

  Lemma wp_read_file : forall n (Q : option request -> world -> Prop) w,
    wok w -> dinv (w_disk w) ->
    (forall w' r, wok w' -> w_mem w' = w_mem w -> w_disk w' = w_disk w ->
       (forall q, r = Some q -> d_files (w_disk w) n = FReq q) -> Q r w') ->
    wp (read_file n) Q dinv w.
  Proof.
    intros n Q w K D H. unfold read_file. apply wp_bind. apply wp_next; [exact K|].
    intros x l Hx w' K'.
    assert (Y : Q (match d_files (w_disk w') n with FReq q => Some q | _ => None end) w').
    { apply H; try reflexivity; [exact K'|]. intros q E. cbn in *. destruct (d_files (w_disk w) n); congruence. }
    destruct x as [| |t|t g]; try exact Y; unfold wp; cbn.
    - apply H; try reflexivity; [exact K'|]. discriminate.
    - exact D.
  Qed.

  Lemma wp_delete_file : forall n (Q : unit -> world -> Prop) w,
    wok w -> dinv (w_disk w) ->
    (forall w', wok w' -> w_mem w' = w_mem w -> d_index (w_disk w') = d_index (w_disk w) ->
       d_files (w_disk w') = set_file (d_files (w_disk w)) n FNone -> dinv (w_disk w') -> Q tt w') ->
    wp (delete_file n) Q dinv w.
  Proof.
    intros n Q w K D H. unfold delete_file. apply wp_bind. apply wp_next; [exact K|].
    intros x l Hx w' K'.
    assert (Y : Q tt (set_disk w' {| d_index := d_index (w_disk w'); d_files := set_file (d_files (w_disk w')) n FNone |})).
    { apply H; try reflexivity; [exact K'|]. cbn.
      apply (dinv_shrinks _ (d_files (w_disk w))); [apply shrinks_set; discriminate|].
      destruct (w_disk w); exact D. }
    destruct x as [| |t|t g]; try exact Y; [elim (Hx t eq_refl)|]. exact D.
  Qed.

  Lemma wp_set_mem : forall m (Q : unit -> world -> Prop) w,
    Q tt {| w_disk := w_disk w; w_mem := m; w_io := w_io w |} -> wp (set_mem m) Q dinv w.
  Proof. intros m Q w H. exact H. Qed.

  (** file_manager.rs 180-217 *)
  Lemma wp_get_initialized : forall (Q : list entry -> world -> Prop) w,
    wok w -> dinv (w_disk w) ->
    (match w_mem w with MInit l => synced l w | _ => True end) ->
    (forall l w', wok w' -> dinv (w_disk w') -> synced l w' -> Q l w') ->
    wp get_initialized Q dinv w.
  Proof.
    intros Q w K D S H. unfold get_initialized. apply wp_bind. unfold wp at 1, get_mem.
    destruct (w_mem w) as [| |l] eqn:E.
    - apply wp_bind. apply wp_set_mem. set (w1 := {| w_disk := _; w_mem := _; w_io := _ |}).
      apply wp_bind. unfold read_index. apply wp_bind. apply wp_next; [exact K|].
      intros x l Hx w' K'.
      assert (Y0 : forall w2, wok w2 -> dinv (w_disk w2) -> 
        wp (l <- (remove_dir;;; create_dir;;; ret []);; set_mem (MInit l);;; ret l) Q dinv w2).
      { intros w2 K2 D2. apply wp_bind. apply wp_bind. unfold remove_dir. apply wp_bind. apply wp_next; [exact K2|].
        intros y l2 Hy w3 K3.
        assert (Z : wp (create_dir;;; ret []) (fun a w' => wp (set_mem (MInit a);;; ret a) Q dinv w') dinv
                    (set_disk w3 {| d_index := INone; d_files := fun _ => FNone |})).
        { apply wp_bind. unfold create_dir. apply wp_bind. apply wp_next; [exact K3|].
          intros z l4 Hz w5 K5.
          assert (Dn : dinv {| d_index := INone; d_files := fun _ => FNone |}).
          { destruct D2 as [G _]. split; cbn; auto. eapply ginv_shrinks; [|exact G]. intros ? ? X. discriminate X. }
          assert (Y : Q [] {| w_disk := w_disk w5; w_mem := MInit []; w_io := w_io w5 |}).
          { apply H; [exact K5|exact Dn|]. split; cbn; auto. right. split; [reflexivity|discriminate]. }
          destruct z as [| |t|t g]; try exact Y; [elim (Hz t eq_refl)|]. exact Dn. }
        destruct y as [| |t|t g]; try exact Z; [elim (Hy t eq_refl)|].
        unfold wp. cbn.
        assert (S0 : shrinks (d_files (w_disk w2)) (fun n => if mem_str n g then FNone else d_files (w_disk w2) n)).
        { intros n q. destruct (mem_str n g); [discriminate|auto]. }
        destruct D2 as [G I2]. split; cbn; [eapply ginv_shrinks; eauto|]. destruct t; [exact I|].
        destruct (d_index (w_disk w2)); auto. eapply iinv_shrinks; eauto. }
      assert (Y : wp (l <- match (match d_index (w_disk w') with IGood l => Some l | _ => None end) with
                           | Some l => ret l
                           | None => remove_dir;;; create_dir;;; ret []
                           end;; set_mem (MInit l);;; ret l) Q dinv w').
      { destruct (d_index (w_disk w')) as [| |l'] eqn:Ei; try (apply Y0; [exact K'|exact D]).
        apply H; [exact K'|exact D|]. split; cbn; auto. }
      destruct x as [| |t|t g]; try exact Y.
      + apply Y0; [exact K'|exact D].
      + exact D.
    - exact D.
    - apply H; auto.
  Qed.

  Lemma iinv_tail : forall e l f, iinv (e :: l) f -> iinv l f.
  Proof.
    intros e l f I. apply (iinv_incl (e :: l)); [|auto with datatypes|exact I].
    pose proof (i_nodup _ _ I) as N. inversion N; auto.
  Qed.
  Lemma iinv_front : forall l e f, iinv (l ++ [e]) f -> iinv l f.
  Proof.
    intros l e f I. apply (iinv_incl (l ++ [e])); [|auto with datatypes|exact I].
    pose proof (i_nodup _ _ I) as N. rewrite map_app in N. apply NoDup_remove_1 in N. rewrite app_nil_r in N. exact N.
  Qed.

  Lemma wp_delete_oldest : forall l (Q : list entry -> world -> Prop) w,
    wok w -> dinv (w_disk w) -> iinv l (d_files (w_disk w)) ->
    (forall e l' w', l = e :: l' -> wok w' -> dinv (w_disk w') -> w_mem w' = MInit l' ->
       iinv l' (d_files (w_disk w')) -> d_files (w_disk w') = set_file (d_files (w_disk w)) (e_name e) FNone -> Q l' w') ->
    wp (delete_oldest_snapshot l) Q dinv w.
  Proof.
    intros [|e l] Q w K D I H; [exact D|]. cbn. apply wp_bind. apply wp_delete_file; auto.
    intros w' K' M' Di Df D'. apply wp_bind. apply wp_set_mem.
    eapply (H e l); cbn; auto. rewrite Df. eapply iinv_shrinks; [apply shrinks_set; discriminate|].
    eapply iinv_tail; eauto.
  Qed.

  Lemma wp_delete_pending : forall e l (Q : list entry -> world -> Prop) w,
    wok w -> dinv (w_disk w) -> iinv (e :: l) (d_files (w_disk w)) ->
    (forall w', wok w' -> dinv (w_disk w') -> synced l w' -> Q l w') ->
    wp (delete_pending_upload (e :: l)) Q dinv w.
  Proof.
    intros e l Q w K D I H. unfold delete_pending_upload. apply wp_bind. apply wp_delete_oldest; auto.
    intros e' l' w' E K' D' M' I' _. injection E as <- <-. apply wp_bind. apply wp_write_index; auto.
    intros w2 K2 M2 F2 Ix2 D2. unfold wp, ret. apply H; auto. split; [congruence|auto].
  Qed.

  (** file_manager.rs 344-405 *)
  Lemma wp_upload_loop : forall v old l (Q : option sent -> world -> Prop) w,
    wok w -> dinv (w_disk w) -> synced l w ->
    (forall r l' w', wok w' -> dinv (w_disk w') -> synced l' w' ->
       (forall t, r = Some t -> exists e rest q, l' = e :: rest /\ e_name e = t_uuid t /\ e_start e = t_start t /\
          e_end e = t_end t /\ t_end t <> None /\ d_files (w_disk w') (e_name e) = FReq q /\
          q_metrics q = t_metrics t) -> Q r w') ->
    wp (upload_loop v old l) Q dinv w.
  Proof.
    intros v old. induction l as [|e l IH]; intros Q w K D S H.
    { cbn. unfold wp, ret. apply (H _ []); auto. discriminate. }
    cbn [upload_loop]. destruct (old && _); [unfold wp, ret; apply (H _ (e :: l)); auto; discriminate|].
    assert (Y : forall e1 w1, wok w1 -> dinv (w_disk w1) -> synced (e1 :: l) w1 -> e_end e1 <> None ->
      wp (q <- read_file (e_name e1);;
          match q with
          | Some q => ret (Some {| t_uuid := q_uuid q; t_metrics := q_metrics q; t_start := e_start e1; t_end := e_end e1 |})
          | None => delete_pending_upload (e1 :: l);;; upload_loop v old l
          end) Q dinv w1).
    { intros e1 w1 K1 D1 S1 N1. pose proof (synced_iinv _ _ D1 S1) as I1.
      apply wp_bind. apply wp_read_file; auto. intros w2 r K2 M2 E2 R.
      destruct r as [q|].
      - specialize (R q eq_refl). unfold wp, ret. apply (H _ (e1 :: l)); auto; try (rewrite E2; exact D1).
        + destruct S1 as [S1 S2]. split; [congruence|rewrite E2; exact S2].
        + intros t Et. injection Et as <-. cbn. exists e1, l, q.
          pose proof (i_uuid _ _ I1 e1 q (or_introl eq_refl) R) as U. rewrite E2. splits; auto.
      - apply wp_bind. apply wp_delete_pending; auto; try (rewrite E2; auto). }
    apply wp_bind. destruct (e_end e) eqn:N.
    - unfold wp at 1, ret. apply Y; auto. congruence.
    - apply wp_bind. apply wp_set_mem. apply wp_bind.
      pose proof (synced_iinv _ _ D S) as I.
      assert (I1 : iinv (close e (v_now v) :: l) (d_files (w_disk w))).
      { apply (iinv_close [] e l); auto. apply D. }
      apply wp_write_index; auto.
      intros w1 K1 M1 F1 X1 D1. unfold wp at 1, ret. apply Y; auto; [|discriminate]. split; [exact M1|auto].
  Qed.

  Lemma wp_complete : forall u (Q : unit -> world -> Prop) w,
    wok w -> dinv (w_disk w) -> (match w_mem w with MInit l => synced l w | _ => True end) ->
    (forall l w', wok w' -> dinv (w_disk w') -> synced l w' -> Q tt w') ->
    wp (complete_pending_upload u) Q dinv w.
  Proof.
    intros u Q w K D S H. unfold complete_pending_upload. apply wp_bind. apply wp_get_initialized; auto.
    intros l w1 K1 D1 S1. pose proof (synced_iinv _ _ D1 S1) as I1. destruct l as [|e l]; [exact D1|].
    destruct (String.eqb (e_name e) u); [|unfold wp, ret; eauto].
    apply wp_bind. apply wp_delete_pending; auto. intros w2 K2 D2 S2. unfold wp, ret. eauto.
  Qed.

  Lemma wp_pending : forall v old (Q : option sent -> world -> Prop) w,
    wok w -> dinv (w_disk w) -> (match w_mem w with MInit l => synced l w | _ => True end) ->
    (forall r l' w', wok w' -> dinv (w_disk w') -> synced l' w' ->
       (forall t, r = Some t -> exists e rest q, l' = e :: rest /\ e_name e = t_uuid t /\ e_start e = t_start t /\
          e_end e = t_end t /\ t_end t <> None /\ d_files (w_disk w') (e_name e) = FReq q /\
          q_metrics q = t_metrics t) -> Q r w') ->
    wp (get_or_create_pending_upload v old) Q dinv w.
  Proof.
    intros v old Q w K D S H. unfold get_or_create_pending_upload. apply wp_bind. apply wp_get_initialized; auto.
    intros l w1 K1 D1 S1. apply wp_upload_loop; auto.
  Qed.

  Lemma close_last_spec : forall v l f new l1, ginv f -> iinv l f -> close_last v l = (new, l1) ->
    iinv l1 f /\ (new = false -> l1 = l /\ exists a e, l = a ++ [e] /\ e_end e = None).
  Proof.
    intros v l f new l1 G I H. unfold close_last in H. destruct (unsnoc l) as [ [a e]|] eqn:E.
    - apply unsnoc_some in E. subst l. destruct (e_end e) eqn:N.
      + injection H as <- <-. split; [exact I|discriminate].
      + destruct (_ <=? _).
        * injection H as <- <-. split; [|discriminate]. apply iinv_close; auto.
        * injection H as <- <-. split; [exact I|]. intros _. split; [reflexivity|]. exists a, e. auto.
    - injection H as <- <-. split; [exact I|discriminate].
  Qed.

End Inv.

Lemma ginv_mono : forall T u u' f, incl u u' -> ginv T u f -> ginv T u' f.
Proof.
  intros T u u' f S G. constructor.
  - intros t H. apply S. apply (g_used _ _ _ G t H).
  - apply (g_end _ _ _ G).
  - intros n q H. apply S. apply (g_file _ _ _ G n q H).
Qed.
Lemma iinv_mono : forall T u u' l f, incl u u' -> iinv T u l f -> iinv T u' l f.
Proof.
  intros T u u' l f S I. constructor; try apply I. intros e H. apply S. apply (i_used _ _ _ _ I e H).
Qed.
Lemma dinv_mono : forall T u u' d, incl u u' -> dinv T u d -> dinv T u' d.
Proof.
  intros T u u' d S [G I]. split; [eapply ginv_mono; eauto|]. destruct (d_index d); auto. eapply iinv_mono; eauto.
Qed.
Lemma wp_mono : forall A (m : M A) Q (D D' : disk -> Prop) w, wp m Q D w -> (forall d, D d -> D' d) -> wp m Q D' w.
Proof. intros A m Q D D' w H I. unfold wp in *. destruct (m w) as [[a| | |] w']; auto. Qed.

Definition ready (w : world) : Prop := match w_mem w with MInit l => synced l w | _ => True end.

(** file_manager.rs 235-299 *)
Lemma wp_get_or_create : forall T used v name (Q : string * metrics -> world -> Prop) w,
  wok w -> dinv T used (w_disk w) -> ready w -> ~ In name used ->
  (forall h a e w', wok w' -> dinv T (name :: used) (w_disk w') -> synced (a ++ [e]) w' -> e_end e = None ->
     fst h = e_name e -> Q h w') ->
  wp (get_or_create_snapshot v name) Q (dinv T (name :: used)) w.
Proof.
  intros T used v name Q w K D S F H. unfold get_or_create_snapshot. apply wp_bind.
  assert (INC : incl used (name :: used)) by auto with datatypes.
  apply (wp_mono _ _ _ (dinv T used)); [|intros d; apply dinv_mono; exact INC].
  apply wp_get_initialized; auto.
  intros l w1 K1 D1 S1. pose proof (synced_iinv _ _ _ _ D1 S1) as I1.
  destruct (close_last v l) as [new l1] eqn:C.
  destruct (close_last_spec _ _ _ _ _ _ _ (proj1 D1) I1 C) as [I2 CL].
  apply wp_bind. apply wp_set_mem. set (w2 := {| w_disk := w_disk w1; w_mem := MInit l1; w_io := w_io w1 |}).
  destruct new.
  - apply wp_bind.
    assert (Y : forall l2 w3, wok w3 -> dinv T used (w_disk w3) -> iinv T used l2 (d_files (w_disk w3)) ->
      wp (let l3 := l2 ++ [ {| e_name := name; e_start := v_now v; e_end := None |} ] in
          set_mem (MInit l3);;; write_index l3;;; ret (name, [])) Q (dinv T (name :: used)) w3).
    { intros l2 w3 K3 D3 I3. cbv zeta. apply wp_bind. apply wp_set_mem. apply wp_bind.
      apply wp_write_index; auto.
      - apply (dinv_mono T used); auto.
      - cbn. apply iinv_push; cbn; auto.
        + apply (ginv_mono T used); auto. apply D3.
        + apply (iinv_mono T used); auto.
        + intros t Ht E. apply F. rewrite <- E. apply (g_used _ _ _ (proj1 D3) t Ht).
        + intros q E. apply F. apply (g_file _ _ _ (proj1 D3) _ _ E).
        + intros E. apply F. apply in_map_iff in E. destruct E as (e & E1 & E2). rewrite <- E1.
          apply (i_used _ _ _ _ I3 e E2).
      - intros w4 K4 M4 F4 X4 D4. unfold wp, ret. apply (H _ l2 {| e_name := name; e_start := v_now v; e_end := None |}); auto.
        split; [exact M4|auto]. }
    destruct (_ <=? _).
    + apply (wp_mono _ _ _ (dinv T used)); [|intros d; apply dinv_mono; exact INC].
      apply wp_delete_oldest; auto.
    + unfold wp at 1, ret. apply Y; auto.
  - destruct (CL eq_refl) as (E1 & a & e & E2 & N). subst l1. subst l. rewrite unsnoc_snoc.
    apply (wp_mono _ _ _ (dinv T used)); [|intros d; apply dinv_mono; exact INC].
    apply wp_bind. apply wp_read_file; auto. intros w3 r K3 M3 E3 R.
    unfold wp, ret. apply (H _ a e); auto.
    + rewrite E3. apply (dinv_mono T used); auto.
    + split; [rewrite M3; reflexivity|]. rewrite E3. apply S1.
    + destruct r as [q|]; [|reflexivity]. specialize (R q eq_refl). cbn.
      apply (i_uuid _ _ _ _ I1 e q); [auto with datatypes|exact R].
Qed.

(** Writing the file of an entry without end. *)
Lemma dinv_write : forall T used i f a e q, dinv T used {| d_index := i; d_files := f |} -> 
  i = IGood (a ++ [e]) -> e_end e = None -> q_uuid q = e_name e ->
  dinv T used {| d_index := i; d_files := set_file f (e_name e) (FReq q) |}.
Proof.
  intros T used i f a e q [G I] E N U. cbn in *. subst i.
  assert (Ein : In e (a ++ [e])) by auto with datatypes.
  split; cbn.
  - constructor; try apply G. intros n q'. unfold set_file. destruct (String.eqb_spec n (e_name e)) as [->|X].
    + intros _. apply (i_used _ _ _ _ I e Ein).
    + apply (g_file _ _ _ G).
  - constructor; try apply I.
    + intros x q' X. unfold set_file. destruct (String.eqb_spec (e_name x) (e_name e)) as [Y|Y].
      * intros Z. injection Z as <-. congruence.
      * apply (i_uuid _ _ _ _ I x q' X).
    + intros t x Ht X Ux. destruct (i_sent _ _ _ _ I t x Ht X Ux) as (A & B & C). splits; auto.
      intros q'. unfold set_file. destruct (String.eqb_spec (e_name x) (e_name e)) as [Y|Y]; [|apply C].
      exfalso. apply (open_unsent _ _ _ _ e t G I Ein N Ht). congruence.
Qed.

Lemma wp_write_file : forall T used n q (Q : unit -> world -> Prop) w,
  wok w -> dinv T used (w_disk w) ->
  dinv T used {| d_index := d_index (w_disk w); d_files := set_file (d_files (w_disk w)) n (FReq q) |} ->
  (forall w', wok w' -> w_mem w' = w_mem w -> d_index (w_disk w') = d_index (w_disk w) ->
     d_files (w_disk w') = set_file (d_files (w_disk w)) n (FReq q) -> dinv T used (w_disk w') -> Q tt w') ->
  wp (write_file n q) Q (dinv T used) w.
Proof.
  intros T used n q Q w K D D' H. unfold write_file. apply wp_bind. apply wp_next; [exact K|].
  intros x l Hx w' K'.
  assert (Y : Q tt (set_disk w' {| d_index := d_index (w_disk w'); d_files := set_file (d_files (w_disk w')) n (FReq q) |})).
  { apply H; try reflexivity; [exact K'|]. exact D'. }
  destruct x as [| |t|t g]; try exact Y; [elim (Hx t eq_refl)|].
  unfold wp, bind, when. destruct t; cbn; [|exact D].
  apply (dinv_shrinks T used _ (d_files (w_disk w))); [apply shrinks_set; discriminate|].
  destruct (w_disk w); exact D.
Qed.

Lemma wp_inited : forall l (Q : list entry -> world -> Prop) D w, w_mem w = MInit l -> Q l w ->
  wp get_initialized Q D w.
Proof. intros l Q D w E H. unfold wp, get_initialized, bind, get_mem, ret. rewrite E. exact H. Qed.

(** stats.rs 168-227 *)
Lemma wp_merge : forall T used v name delta (Q : unit -> world -> Prop) w,
  wok w -> dinv T used (w_disk w) -> ready w -> ~ In name used ->
  (forall l w', wok w' -> dinv T (name :: used) (w_disk w') -> synced l w' -> Q tt w') ->
  wp (merge_delta_snapshot_to_disk v name delta) Q (dinv T (name :: used)) w.
Proof.
  intros T used v name delta Q w K D S F H. unfold merge_delta_snapshot_to_disk. apply wp_bind.
  apply wp_get_or_create; auto. intros h a e w1 K1 D1 S1 N1 E1.
  pose proof (synced_iinv _ _ _ _ D1 S1) as I1.
  assert (R1 : ready w1) by (unfold ready; rewrite (proj1 S1); exact S1).
  set (m := merge_all (snd h) delta). destruct m as [|x m].
  - unfold remove_empty_snapshot. apply wp_bind. apply (wp_inited _ _ _ _ (proj1 S1)). rewrite unsnoc_snoc. apply wp_bind. apply wp_set_mem. apply wp_write_index; auto.
    + cbn. eapply iinv_front; eauto.
    + intros w2 K2 M2 F2 X2 D2. apply (H a); auto. split; [exact M2|auto].
  - unfold write_snapshot. apply wp_bind. apply (wp_inited _ _ _ _ (proj1 S1)). rewrite unsnoc_snoc. apply wp_write_file; auto.
    + destruct S1 as [S1 [S2|[S2 _] ]]; [|destruct a; discriminate].
      apply (dinv_write _ _ _ _ a); auto.
    + intros w2 K2 M2 X2 F2 D2. apply (H (a ++ [e])); auto. split; [rewrite M2; apply S1|]. rewrite X2. apply S1.
Qed.

(** Between the steps. *)
Definition sends_of (t : list event) : list sent :=
  flat_map (fun e => match e with ESent t => [t] | _ => [] end) t.

Record sinv (T : list sent) (used : list string) (s : state) : Prop := {
  s_dinv : dinv T used (s_disk s);
  s_ready : s_alive s = true -> ready (start s [])
}.

Lemma dinv_sent : forall T used d e rest q t, dinv T used d -> d_index d = IGood (e :: rest) ->
  e_name e = t_uuid t -> e_start e = t_start t -> e_end e = t_end t -> t_end t <> None ->
  d_files d (e_name e) = FReq q -> q_metrics q = t_metrics t ->
  dinv (T ++ [t]) used d /\ (forall t0, In t0 T -> t_uuid t0 = t_uuid t -> t0 = t).
Proof.
  intros T used d e rest q t [G I] X E1 E2 E3 E4 E5 E6. rewrite X in I.
  assert (Ein : In e (e :: rest)) by auto with datatypes.
  split.
  - split.
    + constructor.
      * intros t0 H. apply in_app_or in H. destruct H as [H|[H|[] ]]; [apply (g_used _ _ _ G t0 H)|subst t0].
        rewrite <- E1. apply (i_used _ _ _ _ I e Ein).
      * intros t0 H. apply in_app_or in H. destruct H as [H|[H|[] ]]; [apply (g_end _ _ _ G t0 H)|subst t0; auto].
      * apply (g_file _ _ _ G).
    + rewrite X. constructor; try apply I. intros t0 x Ht Hx U. apply in_app_or in Ht.
      destruct Ht as [Ht|[Ht|[] ]]; [apply (i_sent _ _ _ _ I t0 x Ht Hx U)|subst t0].
      assert (x = e) as ->.
      { pose proof (i_nodup _ _ _ _ I) as N. cbn in N. inversion N as [|? ? N1 N2]; subst.
        destruct Hx as [Hx|Hx]; [auto|]. exfalso. apply N1. rewrite E1, U. apply in_map. exact Hx. }
      splits; auto. intros q' F. rewrite F in E5. injection E5 as ->. exact E6.
  - intros t0 Ht U. destruct (i_sent _ _ _ _ I t0 e Ht Ein) as (A & B & C); [congruence|].
    specialize (C q E5). destruct t0, t. cbn in *. congruence.
Qed.

Lemma restarted_inv : forall T used d, dinv T used d -> sinv T used (restarted d).
Proof. intros T used d D. constructor; cbn; auto.  Qed.

Lemma finish_upload : forall T used s v old w,
  dinv T used (w_disk w) -> wok w -> ready w ->
  let (s', t) := finish s (get_or_create_pending_upload v old w) (upload_inflight v) (upload_events v) in
  sinv (T ++ sends_of t) used s' /\
  (forall a b, In a T -> In b (sends_of t) -> t_uuid a = t_uuid b -> a = b) /\ (List.length (sends_of t) <= 1)%nat.
Proof.
  intros T used s v old w D K R.
  pose proof (wp_pending T used v old (fun r w' => exists l', wok w' /\ dinv T used (w_disk w') /\ synced l' w' /\
       (forall t, r = Some t -> exists e rest q, l' = e :: rest /\ e_name e = t_uuid t /\ e_start e = t_start t /\
          e_end e = t_end t /\ t_end t <> None /\ d_files (w_disk w') (e_name e) = FReq q /\
          q_metrics q = t_metrics t)) w K D R) as P.
  unfold wp in P. 
  assert (P' : match get_or_create_pending_upload v old w with
      | (Ok a, w') => exists l', wok w' /\ dinv T used (w_disk w') /\ synced l' w' /\
       (forall t, a = Some t -> exists e rest q, l' = e :: rest /\ e_name e = t_uuid t /\ e_start e = t_start t /\
          e_end e = t_end t /\ t_end t <> None /\ d_files (w_disk w') (e_name e) = FReq q /\
          q_metrics q = t_metrics t)
      | (Err, _) => False
      | (Dead, w') => dinv T used (w_disk w')
      | (Panic, w') => dinv T used (w_disk w')
      end).
  { apply P. intros r l' w' H1 H2 H3 H4. exists l'. splits; auto. }
  clear P. destruct (get_or_create_pending_upload v old w) as [ [r| | |] w']; cbn [finish].
  - destruct P' as (l' & K' & D' & S' & H').
    assert (Y : sinv T used {| s_disk := w_disk w'; s_mem := w_mem w'; s_inflight := upload_inflight v (Some r); s_alive := true |}).
    { constructor; cbn; auto. intros _. unfold ready. cbn. rewrite (proj1 S'). destruct S' as [S1 S2].
      split; [reflexivity|exact S2]. }
    destruct r as [t|]; [|cbn; rewrite app_nil_r; splits; auto; tauto].
    unfold upload_events. destruct (v_open v); cbn [sends_of flat_map app List.length]; [|rewrite app_nil_r; splits; auto; try lia; intros a b _ []].
    destruct (H' t eq_refl) as (e & rest & q & E0 & E1 & E2 & E3 & E4 & E5 & E6).
    assert (X : d_index (w_disk w') = IGood (e :: rest)).
    { destruct S' as [_ [S2|[S2 _] ]]; subst l'; [exact S2|discriminate]. }
    destruct (dinv_sent _ _ _ _ _ _ t D' X E1 E2 E3 E4 E5 E6) as [D2 U]. splits.
    + constructor; [exact D2|exact (s_ready _ _ _ Y)].
    + intros a b Ha [Hb|[] ]. subst b. auto.
    + lia.
  - destruct P'.
  - cbn. rewrite app_nil_r. splits; [apply restarted_inv; exact P'|intros a b _ []|lia].
  - cbn. rewrite app_nil_r. splits; [|intros a b _ []|lia]. constructor; [exact P'|discriminate].
Qed.

Definition consistent (T : list sent) : Prop :=
  forall a b, In a T -> In b T -> t_uuid a = t_uuid b -> a = b.

Lemma wok_start : forall s ios, Forall (fun i => forall t, i <> IoWriteErr t) ios -> wok (start s ios).
Proof. intros s ios H. exact H. Qed.

Lemma step_inv : forall T used s v ios o, sinv T used s ->
  Forall (fun i => forall t, i <> IoWriteErr t) ios ->
  (forall n, In n (op_name (v, ios, o)) -> ~ In n used) ->
  let (s', t) := step s v ios o in
  sinv (T ++ sends_of t) (op_name (v, ios, o) ++ used) s' /\
  (forall a b, In a T -> In b (sends_of t) -> t_uuid a = t_uuid b -> a = b) /\ (List.length (sends_of t) <= 1)%nat.
Proof.
  intros T used s v ios o I K F.
  assert (Same : forall s', s_disk s' = s_disk s -> s_mem s' = s_mem s -> s_alive s' = s_alive s ->
    sinv (T ++ sends_of []) (op_name (v, ios, o) ++ used) s' /\
    (forall a b, In a T -> In b (sends_of []) -> t_uuid a = t_uuid b -> a = b) /\ (List.length (sends_of []) <= 1)%nat).
  { intros s' E1 E2 E3. cbn. rewrite app_nil_r. splits; [|intros a b _ []|lia]. constructor.
    - rewrite E1. apply (dinv_mono T used); [auto with datatypes|apply I].
    - intros A. rewrite E3 in A. pose proof (s_ready _ _ _ I A) as R. unfold ready, start, synced in *. cbn in *.
      rewrite E1, E2. exact R. }
  assert (Ans : forall su t, sends_of (EAnswer su :: t) = sends_of t) by reflexivity.
  unfold step. destruct o as [st dy n| |su u|].
  - destruct (s_alive s) eqn:A; [|apply Same; auto].
    specialize (F n (or_introl eq_refl)).
    pose proof (wp_merge T used v n (create_delta st dy)
      (fun _ w' => exists l, wok w' /\ dinv T (n :: used) (w_disk w') /\ synced l w') (start s ios)
      (wok_start s ios K) (s_dinv _ _ _ I) (s_ready _ _ _ I A) F) as P.
    assert (P' : wp (merge_delta_snapshot_to_disk v n (create_delta st dy))
       (fun _ w' => exists l, wok w' /\ dinv T (n :: used) (w_disk w') /\ synced l w') (dinv T (n :: used)) (start s ios)).
    { apply P. intros l w' H1 H2 H3. exists l. auto. }
    clear P. unfold wp in P'. cbn [op_name snd app].
    destruct (merge_delta_snapshot_to_disk v n (create_delta st dy) (start s ios)) as [ [r| | |] w'];
      cbn [finish sends_of flat_map]; rewrite app_nil_r; (splits; [|intros a b _ []|cbn; lia]).
    + destruct P' as (l & K' & D' & S'). constructor; cbn; [exact D'|]. intros _. unfold ready, synced in *. cbn.
      destruct S' as [S1 S2]. rewrite S1. auto.
    + destruct P'.
    + apply restarted_inv. exact P'.
    + constructor; [exact P'|discriminate].
  - destruct (s_alive s) eqn:A; [|apply Same; auto]. destruct (s_inflight s); [apply Same; auto|].
    apply finish_upload; [apply I|exact K|]. apply (s_ready _ _ _ I A).
  - destruct (s_alive s) eqn:A; [|apply Same; auto]. destruct (s_inflight s); [|apply Same; auto].
    unfold answered.
    destruct su; [|cbn [fst snd]; rewrite Ans; apply Same; auto].
    pose proof (wp_complete T used u (fun _ w' => exists l, wok w' /\ dinv T used (w_disk w') /\ synced l w')
       (start s ios) (wok_start s ios K) (s_dinv _ _ _ I) (s_ready _ _ _ I A)) as P.
    assert (P' : wp (complete_pending_upload u) (fun _ w' => exists l, wok w' /\ dinv T used (w_disk w') /\ synced l w')
       (dinv T used) (start s ios)).
    { apply P. intros l w' H1 H2 H3. exists l. auto. }
    clear P. unfold wp in P'. unfold attempt.
    destruct (complete_pending_upload u (start s ios)) as [ [r| | |] w'].
    + destruct P' as (l & K' & D' & S').
      assert (R' : ready w') by (unfold ready; rewrite (proj1 S'); exact S').
      pose proof (finish_upload T used s v true w' D' K' R') as X.
      destruct (finish s (get_or_create_pending_upload v true w') (upload_inflight v) (upload_events v)) as [s2 t2].
      exact X.
    + destruct P'.
    + cbn. rewrite app_nil_r. splits; [apply restarted_inv; exact P'|intros a b _ []|lia].
    + cbn. rewrite app_nil_r. splits; [|intros a b _ []|lia]. constructor; [exact P'|discriminate].
  - cbn. rewrite app_nil_r. splits; [apply restarted_inv; apply I|intros a b _ []|lia].
Qed.

Lemma sends_of_app : forall a b, sends_of (a ++ b) = sends_of a ++ sends_of b.
Proof. intros a b. unfold sends_of. apply flat_map_app. Qed.

Lemma run_inv : forall os T used s, sinv T used s -> consistent T -> no_write_errors os ->
  NoDup (names os) -> (forall n, In n (names os) -> ~ In n used) ->
  sinv (T ++ sends_of (snd (run s os))) (rev (names os) ++ used) (fst (run s os)) /\
  consistent (T ++ sends_of (snd (run s os))).
Proof.
  induction os as [| [ [v ios] o] os IH]; intros T used s I C K N F.
  { cbn. rewrite app_nil_r. auto. }
  inversion K as [|? ? K1 K2]; subst. cbn [snd fst] in K1.
  change (names ((v, ios, o) :: os)) with (op_name (v, ios, o) ++ names os) in *.
  assert (N1 : forall n, In n (op_name (v, ios, o)) -> ~ In n used) by (intros n Hn; apply F; auto with datatypes).
  assert (OP : (exists n, op_name (v, ios, o) = [n]) \/ op_name (v, ios, o) = []) by (destruct o; cbn; eauto).
  pose proof (step_inv T used s v ios o I K1 N1) as St. cbn [run].
  destruct (step s v ios o) as [s1 t1]. destruct St as (I1 & C1 & L1).
  specialize (IH (T ++ sends_of t1) (op_name (v, ios, o) ++ used) s1 I1).
  destruct (run s1 os) as [s2 t2]. cbn [fst snd] in *. rewrite sends_of_app, app_assoc.
  assert (R : rev (op_name (v, ios, o) ++ names os) ++ used = rev (names os) ++ op_name (v, ios, o) ++ used).
  { destruct OP as [ [n ->]| ->]; cbn; [rewrite <- app_assoc; reflexivity|reflexivity]. }
  rewrite R. apply IH; auto.
  - intros a b Ha Hb U. apply in_app_or in Ha. apply in_app_or in Hb.
    destruct Ha as [Ha|Ha], Hb as [Hb|Hb]; auto.
    + symmetry. apply C1; auto.
    + destruct (sends_of t1) as [|x [|y l] ]; [destruct Ha| |cbn in L1; lia].
      destruct Ha as [Ha|[] ], Hb as [Hb|[] ]. congruence.
  - destruct OP as [ [n E]|E]; rewrite E in N; [inversion N; auto|exact N].
  - intros n Hn. destruct OP as [ [m E]|E]; rewrite E in *; cbn; [|apply F; auto with datatypes].
    intros [X|X]; [|revert X; apply F; auto with datatypes]. subst m. inversion N; auto.
Qed.

Lemma init_inv : sinv [] [] init.
Proof.
  apply restarted_inv. split; [|exact I]. constructor; cbn; intros; try tauto. discriminate.
Qed.

Lemma in_sends : forall t x, In (ESent x) t <-> In x (sends_of t).
Proof.
  intros t x. unfold sends_of. rewrite in_flat_map. split.
  - intros H. exists (ESent x). cbn. auto.
  - intros (e & H & E). destruct e; cbn in E; try tauto. destruct E as [->|[] ]. exact H.
Qed.

(** C41 *)
Lemma unchanging : forall os a b, no_write_errors os -> NoDup (names os) ->
  In (ESent a) (snd (run init os)) -> In (ESent b) (snd (run init os)) -> t_uuid a = t_uuid b -> a = b.
Proof.
  intros os a b K N A B U.
  destruct (run_inv os [] [] init init_inv) as [_ C]; auto; try (intros ? ? []).
  cbn [app] in C. apply C; auto; apply in_sends; auto.
Qed.

(** At most one upload in flight. *)
Definition waiting1 (b : bool) (e : event) : bool :=
  match e with ESent _ => true | EAnswer _ | ERestart => false | EPanic => b end.
Definition waiting (b : bool) (t : list event) : bool := fold_left waiting1 t b.
Fixpoint alternates (b : bool) (t : list event) : Prop :=
  match t with
  | [] => True
  | e :: t => (match e with ESent _ => b = false | _ => True end) /\ alternates (waiting1 b e) t
  end.
Lemma alternates_app : forall a b t, alternates b (a ++ t) <-> alternates b a /\ alternates (waiting b a) t.
Proof.
  induction a as [|e a IH]; intros b t; cbn; [tauto|]. rewrite IH. unfold waiting. cbn. tauto.
Qed.

Definition finv (b : bool) (s : state) : Prop := b = true -> s_alive s = true -> s_inflight s <> None.

Lemma step_alternates : forall s v ios o b, finv b s ->
  let (s', t) := step s v ios o in alternates b t /\ finv (waiting b t) s'.
Proof.
  intros s v ios o b F. unfold step. destruct o as [st dy n| |su u|].
  - destruct (s_alive s) eqn:A; [|cbn; auto].
    destruct (merge_delta_snapshot_to_disk v n _ _) as [ [r| | |] w']; cbn; splits; auto; unfold finv; cbn; auto; discriminate.
  - destruct (s_alive s) eqn:A; [|cbn; auto]. destruct (s_inflight s) eqn:Fl; [cbn; auto|].
    assert (b = false) as -> by (destruct b; [elim (F eq_refl A Fl)|reflexivity]).
    destruct (get_or_create_pending_upload v false _) as [ [r| | |] w']; cbn; try (splits; auto; discriminate).
    destruct r as [t|]; cbn; [|splits; auto; discriminate]. destruct (v_open v); cbn; splits; auto; discriminate.
  - destruct (s_alive s) eqn:A; [|cbn; auto]. destruct (s_inflight s) eqn:Fl; [|cbn; auto].
    destruct su; [|cbn; splits; auto; discriminate].
    destruct (attempt _ _ _) as [ [r| | |] w']; cbn; try (splits; auto; discriminate).
    destruct r as [t|]; cbn; [|splits; auto; discriminate]. destruct (v_open v); cbn; splits; auto; discriminate.
  - cbn. splits; auto. discriminate.
Qed.

Lemma run_alternates : forall os s b, finv b s -> alternates b (snd (run s os)).
Proof.
  induction os as [| [ [v ios] o] os IH]; intros s b F; [exact I|]. cbn [run].
  pose proof (step_alternates s v ios o b F) as St. destruct (step s v ios o) as [s1 t1]. destruct St as [A1 F1].
  specialize (IH s1 _ F1). destruct (run s1 os) as [s2 t2]. cbn [snd] in *. apply alternates_app. auto.
Qed.

Lemma alternates_mid : forall mid b y t2, alternates b (mid ++ ESent y :: t2) -> b = true ->
  (exists su, In (EAnswer su) mid) \/ In ERestart mid.
Proof.
  induction mid as [|e mid IH]; intros b y t2 H B; cbn in H.
  - destruct H as [H _]. congruence.
  - destruct H as [H1 H2]. destruct e as [t|su| |]; cbn in H2.
    + congruence.
    + left. exists su. auto with datatypes.
    + destruct (IH b y t2 H2 B) as [ [su X]|X]; [left; exists su|right]; auto with datatypes.
    + right. auto with datatypes.
Qed.

Lemma one_in_flight : forall os t1 x mid y t2,
  snd (run init os) = t1 ++ ESent x :: mid ++ ESent y :: t2 ->
  (exists su, In (EAnswer su) mid) \/ In ERestart mid.
Proof.
  intros os t1 x mid y t2 E. pose proof (run_alternates os init false ltac:(discriminate)) as A.
  rewrite E in A. apply alternates_app in A. destruct A as [_ A]. cbn in A. destruct A as [_ A].
  apply (alternates_mid _ _ _ _ A). reflexivity.
Qed.

(** * The number of files *)
Section Bound.
  Variable N : Z.
  Hypothesis N0 : 0 <= N.
  Definition fits (l : list entry) : Prop := Z.of_nat (List.length l) <= N.
  Definition bnd (d : disk) (m : mem) : Prop :=
    (match m with MInit l => fits l | _ => True end) /\
    (match d_index d with IGood l => fits l | _ => True end).
  Definition keeps {A} (m : M A) (P : A -> Prop) : Prop :=
    forall w, bnd (w_disk w) (w_mem w) ->
      let r := m w in bnd (w_disk (snd r)) (w_mem (snd r)) /\ (forall a, fst r = Ok a -> P a).

  Lemma keeps_bind : forall A B (m : M A) (f : A -> M B) P Q,
    keeps m P -> (forall a, P a -> keeps (f a) Q) -> keeps (bind m f) Q.
  Proof.
    intros A B m f P Q H1 H2 w W. cbv zeta. unfold bind. specialize (H1 w W). cbv zeta in H1.
    destruct (m w) as [ [a| | |] w']; cbn [fst snd] in *; destruct H1 as [H1 H1'];
      try (split; [exact H1|discriminate]).
    apply H2; auto.
  Qed.
  Lemma keeps_ret : forall A (a : A) (P : A -> Prop), P a -> keeps (ret a) P.
  Proof. intros A a P H w W. cbn. split; [exact W|]. intros b E. injection E as <-. exact H. Qed.
  Lemma keeps_stop : forall A (P : A -> Prop), keeps fail P /\ keeps die P /\ keeps panic P.
  Proof. intros A P. splits; intros w W; cbn; (split; [exact W|discriminate]). Qed.
  Lemma keeps_fail : forall A (P : A -> Prop), keeps fail P. Proof. intros. apply keeps_stop. Qed.
  Lemma keeps_die : forall A (P : A -> Prop), keeps die P. Proof. intros. apply keeps_stop. Qed.
  Lemma keeps_panic : forall A (P : A -> Prop), keeps panic P. Proof. intros. apply keeps_stop. Qed.

  Lemma keeps_next : keeps next_io (fun _ => True).
  Proof. intros w W. unfold next_io. destruct (w_io w); cbn; auto. Qed.
  Lemma keeps_set_mem : forall l, fits l -> keeps (set_mem (MInit l)) (fun _ => True).
  Proof. intros l F w [_ W]. cbn. split; [split; cbn; auto|auto]. Qed.
  Lemma keeps_put_index : forall i, (match i with IGood l => fits l | _ => True end) -> keeps (put_index i) (fun _ => True).
  Proof. intros l F w [W _]. cbn. split; [split; cbn; auto|auto]. Qed.
  Lemma keeps_put_file : forall n x, keeps (put_file n x) (fun _ => True).
  Proof. intros n x w W. cbn. split; [exact W|auto]. Qed.
  Lemma keeps_when : forall b m, keeps m (fun _ => True) -> keeps (when b m) (fun _ => True).
  Proof. intros b m H. destruct b; [exact H|]. apply keeps_ret. exact I. Qed.

  Ltac ks := eapply keeps_bind; [|intros ? ?].

  Lemma keeps_write_index : forall l, fits l -> keeps (write_index l) (fun _ => True).
  Proof.
    intros l F. unfold write_index. ks; [apply keeps_next|].
    destruct a as [| |t|t g]; try (apply keeps_put_index; exact F).
    - ks; [apply keeps_when; apply keeps_put_index; exact I|apply keeps_fail].
    - ks; [apply keeps_when; apply keeps_put_index; exact I|apply keeps_die].
  Qed.
  Lemma keeps_write_file : forall n q, keeps (write_file n q) (fun _ => True).
  Proof.
    intros n q. unfold write_file. ks; [apply keeps_next|].
    destruct a as [| |t|t g]; try apply keeps_put_file.
    - ks; [apply keeps_when; apply keeps_put_file|apply keeps_fail].
    - ks; [apply keeps_when; apply keeps_put_file|apply keeps_die].
  Qed.
  Lemma keeps_read_file : forall n, keeps (read_file n) (fun _ => True).
  Proof.
    intros n. unfold read_file. ks; [apply keeps_next|].
    destruct a as [| |t|t g]; try apply keeps_die; try (apply keeps_ret; exact I); intros w W; cbn; auto.
  Qed.
  Lemma keeps_delete_file : forall n, keeps (delete_file n) (fun _ => True).
  Proof.
    intros n. unfold delete_file. ks; [apply keeps_next|].
    destruct a as [| |t|t g]; try apply keeps_put_file; [apply keeps_fail|apply keeps_die].
  Qed.
  Lemma keeps_get_initialized : keeps get_initialized fits.
  Proof.
    intros w W. cbv zeta.
    change (get_initialized w) with
      (match w_mem w with
       | MInit l => ret l
       | MTaken => panic
       | MNotInit => set_mem MTaken;;;
           i <- read_index;;
           l <- match i with Some l => ret l | None => remove_dir;;; create_dir;;; ret [] end;;
           set_mem (MInit l);;; ret l
       end w).
    assert (W0 := W). destruct (w_mem w) as [| |l] eqn:E; rewrite <- E in W0;
      [|cbn; split; [exact W0|discriminate]|].
    - clear W. revert w W0 E. cut (keeps (set_mem MTaken;;;
        i <- read_index;;
        l <- match i with Some l => ret l | None => remove_dir;;; create_dir;;; ret [] end;;
        set_mem (MInit l);;; ret l) fits). { intros K w W E. apply K. exact W. }
      ks. { intros w [_ W]. cbn. split; [split; cbn; auto|]. intros ? _. exact I. }
      eapply (keeps_bind _ _ _ _ (fun i => match i with Some l => fits l | None => True end)).
      { unfold read_index. ks; [apply keeps_next|].
        destruct a0 as [| |t|t g]; try apply keeps_die; try (apply keeps_ret; exact I);
          intros w W; cbn; (split; [exact W|]); intros b Eb; injection Eb as <-; destruct W as [_ W];
          destruct (d_index (w_disk w)); auto. }
      intros i Hi. eapply (keeps_bind _ _ _ _ fits).
      { destruct i as [l|]; [apply keeps_ret; exact Hi|].
        eapply (keeps_bind _ _ _ _ (fun _ => True)).
        { unfold remove_dir. ks; [apply keeps_next|].
          destruct a0 as [| |t|t g]; try apply keeps_fail; try solve [intros w [W _]; cbn; split; [split; cbn; auto|auto] ].
          ks; [|apply keeps_die]. intros w [W W2]. cbn. split; [split; cbn; auto; destruct t; auto|]. intros ? _. exact I. }
        intros _ _. eapply (keeps_bind _ _ _ _ (fun _ => True)).
        { unfold create_dir. ks; [apply keeps_next|].
          destruct a0 as [| |t|t g]; try apply keeps_fail; try apply keeps_die; apply keeps_ret; exact I. }
        intros _ _. apply keeps_ret. unfold fits. cbn. exact N0. }
      intros l Hl. ks; [apply keeps_set_mem; exact Hl|]. apply keeps_ret. exact Hl.
    - cbn. split; [exact W0|]. intros a Ea. injection Ea as <-. destruct W as [W _]. exact W.
  Qed.

  Lemma keeps_delete_oldest : forall l, fits l ->
    keeps (delete_oldest_snapshot l) (fun l' => Z.of_nat (List.length l') + 1 <= N).
  Proof.
    intros [|e l] F; [apply keeps_panic|]. cbn. unfold fits in F. cbn [List.length] in F.
    ks; [apply keeps_delete_file|]. ks; [apply keeps_set_mem; unfold fits; lia|]. apply keeps_ret. lia.
  Qed.
  Lemma keeps_delete_pending : forall l, fits l -> keeps (delete_pending_upload l) fits.
  Proof.
    intros l F. unfold delete_pending_upload. eapply keeps_bind; [apply keeps_delete_oldest; exact F|].
    intros l' Hl. cbn in Hl. ks; [apply keeps_write_index; unfold fits; lia|]. apply keeps_ret. unfold fits. lia.
  Qed.

  Lemma close_last_length : forall v l, List.length (snd (close_last v l)) = List.length l.
  Proof.
    intros v l. unfold close_last. destruct (unsnoc l) as [ [a e]|] eqn:E; [|reflexivity].
    apply unsnoc_some in E. subst l. destruct (e_end e); [reflexivity|].
    destruct (_ <=? _); [|reflexivity]. cbn [snd]. rewrite !app_length. reflexivity.
  Qed.

  Lemma keeps_get_or_create : forall v name, v_max v = N -> keeps (get_or_create_snapshot v name) (fun _ => True).
  Proof.
    intros v name V. unfold get_or_create_snapshot. eapply keeps_bind; [apply keeps_get_initialized|].
    intros l F. pose proof (close_last_length v l) as L. destruct (close_last v l) as [new l1]. cbn [snd] in L.
    assert (F1 : fits l1) by (unfold fits in *; rewrite L; exact F).
    ks; [apply keeps_set_mem; exact F1|]. destruct new.
    - eapply (keeps_bind _ _ _ _ (fun l' => Z.of_nat (List.length l') + 1 <= N)).
      + destruct (Z.leb_spec (v_max v) (Z.of_nat (List.length l1))); [apply keeps_delete_oldest; exact F1|].
        apply keeps_ret. lia.
      + intros l2 H2. cbv zeta. assert (F3 : fits (l2 ++ [ {| e_name := name; e_start := v_now v; e_end := None |} ])).
        { unfold fits. rewrite app_length. cbn. lia. }
        ks; [apply keeps_set_mem; exact F3|]. ks; [apply keeps_write_index; exact F3|]. apply keeps_ret. exact I.
    - destruct (unsnoc l1) as [ [a' e]|]; [|apply keeps_panic]. ks; [apply keeps_read_file|]. apply keeps_ret. exact I.
  Qed.

  Lemma keeps_merge : forall v name delta, v_max v = N -> keeps (merge_delta_snapshot_to_disk v name delta) (fun _ => True).
  Proof.
    intros v name delta V. unfold merge_delta_snapshot_to_disk. ks; [apply keeps_get_or_create; exact V|].
    destruct (merge_all _ _).
    - unfold remove_empty_snapshot. eapply keeps_bind; [apply keeps_get_initialized|]. intros l F.
      destruct (unsnoc l) as [ [a' e]|] eqn:E; [|apply keeps_panic]. apply unsnoc_some in E. subst l.
      assert (fits a') by (unfold fits in *; rewrite app_length in F; cbn in F; lia).
      ks; [apply keeps_set_mem; assumption|]. apply keeps_write_index. assumption.
    - unfold write_snapshot. eapply keeps_bind; [apply keeps_get_initialized|]. intros l F.
      destruct (unsnoc l) as [ [a' e]|]; [|apply keeps_panic]. apply keeps_write_file.
  Qed.

  Lemma keeps_upload_loop : forall v old l, fits l -> keeps (upload_loop v old l) (fun _ => True).
  Proof.
    intros v old. induction l as [|e l IH]; intros F; [apply keeps_ret; exact I|]. cbn [upload_loop].
    destruct (old && _); [apply keeps_ret; exact I|].
    assert (F' : forall e1, fits (e1 :: l)) by (intros e1; exact F).
    ks. 2: ks; [apply keeps_read_file|].
    - destruct (e_end e); [apply keeps_ret|]. + instantiate (1 := fun _ => True). exact I.
      + cbv zeta. ks; [apply keeps_set_mem; apply F'|]. ks; [apply keeps_write_index; apply F'|]. apply keeps_ret. exact I.
    - destruct a0 as [q|]; [apply keeps_ret; exact I|]. ks; [apply keeps_delete_pending; apply F'|].
      apply IH. unfold fits in *. cbn [List.length] in F. lia.
  Qed.

  Lemma keeps_pending : forall v old, keeps (get_or_create_pending_upload v old) (fun _ => True).
  Proof.
    intros v old. unfold get_or_create_pending_upload. eapply keeps_bind; [apply keeps_get_initialized|].
    intros l F. apply keeps_upload_loop. exact F.
  Qed.
  Lemma keeps_complete : forall u, keeps (complete_pending_upload u) (fun _ => True).
  Proof.
    intros u. unfold complete_pending_upload. eapply keeps_bind; [apply keeps_get_initialized|].
    intros l F. destruct l as [|e l]; [apply keeps_panic|]. destruct (String.eqb _ _); [|apply keeps_ret; exact I].
    eapply keeps_bind; [apply keeps_delete_pending; exact F|]. intros ? _. apply keeps_ret. exact I.
  Qed.

  Lemma finish_bnd : forall A (m : M A) P s w f g, keeps m P -> bnd (w_disk w) (w_mem w) ->
    let s' := fst (finish s (m w) f g) in bnd (s_disk s') (s_mem s').
  Proof.
    intros A m P s w f g K W. cbv zeta. specialize (K w W). cbv zeta in K. destruct K as [K _].
    destruct (m w) as [ [a| | |] w']; cbn in *; auto. split; [exact I|apply K].
  Qed.

  Lemma step_bnd : forall s v ios o, v_max v = N -> bnd (s_disk s) (s_mem s) ->
    let s' := fst (step s v ios o) in bnd (s_disk s') (s_mem s').
  Proof.
    intros s v ios o V B. unfold step. cbv zeta. destruct o as [st dy n| |su u|].
    - destruct (s_alive s); [|exact B]. eapply finish_bnd; [apply keeps_merge; exact V|exact B].
    - destruct (s_alive s); [|exact B]. destruct (s_inflight s); [exact B|].
      eapply finish_bnd; [apply keeps_pending|exact B].
    - destruct (s_alive s); [|exact B]. destruct (s_inflight s); [|exact B]. cbn [answered fst].
      destruct su; [|exact B].
      apply (finish_bnd _ (attempt (complete_pending_upload u) (get_or_create_pending_upload v true)) (fun _ => True)); [|exact B].
      intros w W. cbv zeta. unfold attempt. pose proof (keeps_complete u w W) as K. cbv zeta in K.
      destruct (complete_pending_upload u w) as [ [a| | |] w']; cbn [fst snd] in *; destruct K as [K _];
        try (split; [exact K|discriminate]); apply keeps_pending; exact K.
    - split; [exact I|apply B].
  Qed.

  Lemma run_bnd : forall os s, Forall (fun x => v_max (fst (fst x)) = N) os -> bnd (s_disk s) (s_mem s) ->
    let s' := fst (run s os) in bnd (s_disk s') (s_mem s').
  Proof.
    induction os as [| [ [v ios] o] os IH]; intros s F B; [exact B|]. inversion F as [|? ? F1 F2]; subst.
    cbn [run fst] in *. pose proof (step_bnd s v ios o F1 B) as St. cbv zeta in *.
    destruct (step s v ios o) as [s1 t1]. specialize (IH s1 F2 St). destruct (run s1 os) as [s2 t2]. exact IH.
  Qed.
End Bound.

Lemma index_bounded : forall os N, 0 <= N -> Forall (fun x => v_max (fst (fst x)) = N) os ->
  Z.of_nat (List.length (index (fst (run init os)))) <= N.
Proof.
  intros os N N0 F. pose proof (run_bnd N N0 os init F) as B. cbv zeta in B.
  destruct B as [B1 B2]. { split; exact I. }
  unfold index. destruct (s_mem _); try (destruct (d_index _)); auto.
Qed.

(** * Conservation *)
Definition W (d : disk) (m : mem) : world := {| w_disk := d; w_mem := m; w_io := [] |}.
Definition D (i : idx_file) (f : string -> snap_file) : disk := {| d_index := i; d_files := f |}.
Definition idx (d : disk) (m : mem) : list entry :=
  match m with MInit l => l | _ => match d_index d with IGood l => l | _ => [] end end.

Fixpoint tot (f : string -> snap_file) (i : string) (ns : list string) : Z :=
  match ns with
  | [] => 0
  | n :: ns => (match f n with FReq q => amount i (q_metrics q) | _ => 0 end) + tot f i ns
  end.
Lemma on_disk_tot : forall s i l, on_disk s i l = tot (d_files (s_disk s)) i (map e_name l).
Proof. induction l as [|e l IH]; [reflexivity|]. cbn. rewrite IH. reflexivity. Qed.
Lemma tot_app : forall f i a b, tot f i (a ++ b) = tot f i a + tot f i b.
Proof. induction a as [|n a IH]; intros b; [reflexivity|]. cbn. rewrite IH. lia. Qed.
Lemma tot_ext : forall f g i l, (forall n q, In n l -> f n = FReq q <-> g n = FReq q) -> tot f i l = tot g i l.
Proof.
  induction l as [|n l IH]; intros H; [reflexivity|]. cbn. rewrite IH; [|intros; apply H; auto with datatypes].
  f_equal. pose proof (fun q => H n q (or_introl eq_refl)) as X.
  destruct (f n) as [| |q] eqn:Ef, (g n) as [| |q'] eqn:Eg; try reflexivity;
    try (destruct (X q) as [X1 X2]; discriminate (X1 eq_refl));
    try (destruct (X q') as [X1 X2]; discriminate (X2 eq_refl)).
  destruct (X q) as [X1 _]. specialize (X1 eq_refl). congruence.
Qed.
Lemma tot_set_out : forall f i n x l, ~ In n l -> tot (set_file f n x) i l = tot f i l.
Proof.
  intros f i n x l H. apply tot_ext. intros m q M. unfold set_file.
  destruct (String.eqb_spec m n) as [->|]; [contradiction|tauto].
Qed.

(** Starting from a state that has not read the index is starting with the index. *)
Lemma init_eq : forall d m, m <> MTaken ->
  (match m with MInit l => synced l (W d m) | _ => True end) ->
  exists d', get_initialized (W d m) = (Ok (idx d m), W d' (MInit (idx d m))) /\
    synced (idx d m) (W d' (MInit (idx d m))) /\
    (d' = d \/ (idx d m = [] /\ d' = D INone (fun _ => FNone))).
Proof.
  intros d m T S. destruct m as [| |l]; [|contradiction|].
  - unfold idx. destruct (d_index d) as [| |l] eqn:E.
    + exists (D INone (fun _ => FNone)). splits; auto.
      * unfold get_initialized, bind, get_mem, W, set_mem, read_index, next_io. cbn. rewrite E. reflexivity.
      * split; [reflexivity|]. right. split; [reflexivity|discriminate].
    + exists (D INone (fun _ => FNone)). splits; auto.
      * unfold get_initialized, bind, get_mem, W, set_mem, read_index, next_io. cbn. rewrite E. reflexivity.
      * split; [reflexivity|]. right. split; [reflexivity|discriminate].
    + exists d. splits; auto.
      * unfold get_initialized, bind, get_mem, W, set_mem, read_index, next_io. cbn. rewrite E. reflexivity.
      * split; [reflexivity|]. left. exact E.
  - exists d. splits; auto.
Qed.

Definition flush_done (v : env) (name : string) (delta : metrics) (l2 : list entry) (f : string -> snap_file) : outcome unit * world :=
  match merge_all [] delta with
  | [] => (Ok tt, W (D (IGood l2) f) (MInit l2))
  | m =>
      let l3 := l2 ++ [ {| e_name := name; e_start := v_now v; e_end := None |} ] in
      (Ok tt, W (D (IGood l3) (set_file f name (FReq {| q_uuid := name; q_metrics := m |}))) (MInit l3))
  end.

Lemma flush_eq : forall v name delta d l,
  merge_delta_snapshot_to_disk v name delta (W d (MInit l)) =
  let (new, l1) := close_last v l in
  if new then
    if v_max v <=? Z.of_nat (List.length l1) then
      match l1 with
      | [] => (Panic, W d (MInit []))
      | e :: l2 => flush_done v name delta l2 (set_file (d_files d) (e_name e) FNone)
      end
    else flush_done v name delta l1 (d_files d)
  else
    match unsnoc l1 with
    | None => (Panic, W d (MInit l1))
    | Some (a, e) =>
        let h := match d_files d (e_name e) with FReq q => (q_uuid q, q_metrics q) | _ => (e_name e, []) end in
        match merge_all (snd h) delta with
        | [] => (Ok tt, W (D (IGood a) (d_files d)) (MInit a))
        | m => (Ok tt, W (D (d_index d) (set_file (d_files d) (e_name e) (FReq {| q_uuid := fst h; q_metrics := m |}))) (MInit l1))
        end
    end.
Proof.
  intros v name delta d l. unfold merge_delta_snapshot_to_disk, get_or_create_snapshot.
  destruct (close_last v l) as [new l1] eqn:C.
  assert (G : forall (A : Type) (f : list entry -> M A), bind get_initialized f (W d (MInit l)) = f l (W d (MInit l))) by reflexivity.
  unfold bind at 1. rewrite G, C. clear G C. destruct new.
  - assert (Y : forall l2 d2,
      match (let l3 := l2 ++ [ {| e_name := name; e_start := v_now v; e_end := None |} ] in
             set_mem (MInit l3);;; write_index l3;;; ret (name, @nil (string * mval))) (W d2 (MInit l2)) with
      | (Ok h, w') => match merge_all (snd h) delta with [] => remove_empty_snapshot | _ => write_snapshot (fst h) (merge_all (snd h) delta) end w'
      | (Err, w') => (Err, w') | (Dead, w') => (Dead, w') | (Panic, w') => (Panic, w')
      end = flush_done v name delta l2 (d_files d2)).
    { intros l2 d2. unfold flush_done.
      unfold bind, set_mem, write_index, bind, next_io, ret, W. cbn [w_io put_index set_disk w_disk w_mem snd fst].
      destruct (merge_all [] delta) as [|x m].
      - unfold remove_empty_snapshot, get_initialized, bind, get_mem, ret, set_disk. cbn [w_mem].
        rewrite unsnoc_snoc. reflexivity.
      - unfold write_snapshot, get_initialized, bind, get_mem, ret, set_disk. cbn [w_mem].
        rewrite unsnoc_snoc. reflexivity. }
    destruct (v_max v <=? Z.of_nat (List.length l1)).
    + destruct l1 as [|e l2]; [reflexivity|].
      exact (Y l2 (D (d_index d) (set_file (d_files d) (e_name e) FNone))).
    + exact (Y l1 d).
  - destruct (unsnoc l1) as [ [a e]|] eqn:U; [|reflexivity].
    unfold bind, set_mem, read_file, bind, next_io, ret, W. rewrite ?U. cbn [w_io w_disk].
    destruct (d_files d (e_name e)) as [| |q]; cbn [fst snd];
      destruct (merge_all _ delta) as [|x m];
      unfold remove_empty_snapshot, write_snapshot, get_initialized, bind, get_mem, ret; cbn [w_mem]; rewrite U; reflexivity.
Qed.

Definition same_files (f g : string -> snap_file) : Prop := forall n q, f n = FReq q <-> g n = FReq q.
Definition sy (l : list entry) (d : disk) : Prop :=
  d_index d = IGood l \/ (l = [] /\ forall x, d_index d <> IGood x).

Definition uploaded (l : list entry) (d : disk) (l' : list entry) (d' : disk) : Prop :=
  sy l' d' /\ same_files (d_files d) (d_files d') /\
  (forall n, d_files d' n = d_files d n \/ d_files d' n = FNone) /\
  exists pre, map e_name l = pre ++ map e_name l' /\ (forall n q, In n pre -> d_files d n <> FReq q).

Lemma uploaded_refl : forall l d, sy l d -> uploaded l d l d.
Proof. intros l d S. unfold uploaded. splits; auto. intros n q; tauto. exists []. splits; auto. Qed.

Lemma upload_eq : forall v old l d, sy l d ->
  exists r l' d', upload_loop v old l (W d (MInit l)) = (Ok r, W d' (MInit l')) /\ uploaded l d l' d'.
Proof.
  intros v old. induction l as [|e l IH]; intros d X.
  { exists None, [], d. split; [reflexivity|apply uploaded_refl; exact X]. }
  cbn [upload_loop]. destruct (old && _).
  { exists None, (e :: l), d. split; [reflexivity|apply uploaded_refl; exact X]. }
  assert (Y : forall e1 d1, e_name e1 = e_name e -> d_index d1 = IGood (e1 :: l) -> d_files d1 = d_files d ->
    exists r l' d',
      (q <- read_file (e_name e1);;
       match q with
       | Some q => ret (Some {| t_uuid := q_uuid q; t_metrics := q_metrics q; t_start := e_start e1; t_end := e_end e1 |})
       | None => delete_pending_upload (e1 :: l);;; upload_loop v old l
       end) (W d1 (MInit (e1 :: l))) = (Ok r, W d' (MInit l')) /\ uploaded (e :: l) d l' d').
  { intros e1 d1 En X1 F1.
    assert (Z : (forall q, d_files d (e_name e) <> FReq q) ->
      exists r l' d', upload_loop v old l (W (D (IGood l) (set_file (d_files d1) (e_name e1) FNone)) (MInit l)) = (Ok r, W d' (MInit l')) /\
      uploaded (e :: l) d l' d').
    { intros NF. destruct (IH (D (IGood l) (set_file (d_files d1) (e_name e1) FNone)) (or_introl eq_refl))
        as (r & l' & d' & E & I' & SF & Sm & pre & Nm & P).
      assert (SF0 : same_files (d_files d) (set_file (d_files d1) (e_name e1) FNone)).
      { intros n q. unfold set_file. rewrite F1, En. destruct (String.eqb_spec n (e_name e)) as [->|]; [|tauto].
        split; [intros H; elim (NF q H)|discriminate]. }
      exists r, l', d'. split; [exact E|]. unfold uploaded. splits; [exact I'| | |].
      - intros n q. rewrite (SF0 n q). apply SF.
      - intros n. destruct (Sm n) as [X'|X']; [|auto]. cbn in X'. unfold set_file in X'. rewrite F1 in X'.
        destruct (String.eqb n (e_name e1)); auto.
      - exists (e_name e :: pre). split; [cbn; rewrite Nm; reflexivity|].
        intros n q [H|H]; [subst n; apply NF|]. intros H2. apply SF0 in H2. revert H2. apply P. exact H. }
    unfold bind at 1. unfold read_file, bind at 1, next_io. cbn [w_io W w_disk]. rewrite F1, En.
    destruct (d_files d (e_name e)) as [| |q] eqn:F.
    - exact (Z ltac:(congruence)).
    - exact (Z ltac:(congruence)).
    - exists (Some {| t_uuid := q_uuid q; t_metrics := q_metrics q; t_start := e_start e1; t_end := e_end e1 |}), (e1 :: l), d1.
      split; [reflexivity|]. unfold uploaded. splits; [left; exact X1|rewrite F1; intros n q'; tauto|rewrite F1; auto|].
      exists []. cbn. rewrite En. splits; auto. }
  destruct X as [X|[X _] ]; [|discriminate].
  unfold bind at 1. destruct (e_end e) as [t|] eqn:N.
  - cbn [ret]. destruct (Y e d eq_refl X eq_refl) as (r & l' & d' & E & U). exists r, l', d'. split; [exact E|exact U].
  - destruct (Y {| e_name := e_name e; e_start := e_start e; e_end := Some (v_now v) |}
      (D (IGood ({| e_name := e_name e; e_start := e_start e; e_end := Some (v_now v) |} :: l)) (d_files d))
      eq_refl eq_refl eq_refl) as (r & l' & d' & E & U).
    exists r, l', d'. split; [exact E|exact U].
Qed.

Lemma complete_eq : forall u d l, sy l d -> complete_pending_upload u (W d (MInit l)) =
  match l with
  | [] => (Panic, W d (MInit []))
  | e :: l' => if String.eqb (e_name e) u
               then (Ok tt, W (D (IGood l') (set_file (d_files d) (e_name e) FNone)) (MInit l'))
               else (Ok tt, W d (MInit l))
  end.
Proof.
  intros u d l S. destruct l as [|e l]; [reflexivity|].
  unfold complete_pending_upload, bind, get_initialized, bind, get_mem, W, ret. cbn [w_mem].
  destruct (String.eqb (e_name e) u); reflexivity.
Qed.

(** Programs that begin with get_initialized. *)
Lemma init_first : forall A (f : list entry -> M A) d m d' l,
  get_initialized (W d m) = (Ok l, W d' (MInit l)) ->
  bind get_initialized f (W d m) = bind get_initialized f (W d' (MInit l)).
Proof. intros A f d m d' l E. unfold bind. rewrite E. reflexivity. Qed.

(** * Amounts *)
Lemma amount_insert : forall m i x j, ~ In i (map fst m) ->
  insert_metric m i x = m ++ [(i, x)] /\ amount j (m ++ [(i, x)]) = amount j m + (if String.eqb j i then amount1 x else 0).
Proof.
  induction m as [| [k y] m IH]; intros i x j H; cbn.
  - split; [reflexivity|lia].
  - cbn in H. destruct (String.eqb_spec i k); [subst; tauto|].
    destruct (IH i x j) as [E A]; [tauto|]. rewrite E, A. split; [reflexivity|lia].
Qed.
Lemma create_delta_eq : forall st dy, NoDup (map fst (st ++ dy)) -> create_delta st dy = st ++ dy.
Proof.
  intros st dy. unfold create_delta. generalize (st ++ dy) as l. clear st dy. intros l N.
  assert (G : forall l m, NoDup (map fst (m ++ l)) -> fold_left (fun m x => insert_metric m (fst x) (snd x)) l m = m ++ l).
  { clear l N. induction l as [| [i x] l IH]; intros m N; cbn; [rewrite app_nil_r; reflexivity|].
    assert (NI : ~ In i (map fst m)).
    { rewrite map_app in N. cbn in N. apply NoDup_remove_2 in N. intros H. apply N. apply in_or_app. auto. }
    destruct (amount_insert m i x i NI) as [E _]. rewrite E, IH; rewrite <- app_assoc; [reflexivity|exact N]. }
  apply (G l []). exact N.
Qed.
Lemma amount_app : forall i a b, amount i (a ++ b) = amount i a + amount i b.
Proof. induction a as [| [j x] a IH]; intros b; cbn; [reflexivity|]. rewrite IH. lia. Qed.

Definition kinded (k : string -> kind) (m : metrics) : Prop := Forall (fun x => kind_of (snd x) = k (fst x)) m.

(** Equality modulo 2^64. *)
Definition eqm (a b : Z) : Prop := exists c, a = b + c * U64.
Lemma eqm_mod : forall a b, eqm a b -> a mod U64 = b mod U64.
Proof. intros a b [c ->]. apply Z.mod_add. unfold U64. lia. Qed.
Lemma eqm_refl : forall a, eqm a a.
Proof. intros a. exists 0. lia. Qed.
Lemma eqm_trans : forall a b c, eqm a b -> eqm b c -> eqm a c.
Proof. intros a b c [x ->] [y ->]. exists (x + y). lia. Qed.
Lemma eqm_add : forall a b c d, eqm a b -> eqm c d -> eqm (a + c) (b + d).
Proof. intros a b c d [x ->] [y ->]. exists (x + y). lia. Qed.
Lemma mod_eqm : forall a, eqm (a mod U64) a.
Proof. intros a. exists (- (a / U64)). rewrite (Z.div_mod a U64) at 2 by (unfold U64; lia). lia. Qed.

Lemma merge_metric_ok : forall k m i x, kinded k m -> kind_of x = k i ->
  kinded k (merge_metric m i x) /\ merge_metric m i x <> [] /\
  forall j, eqm (amount j (merge_metric m i x)) (amount j m + (if String.eqb j i then amount1 x else 0)).
Proof.
  intros k. induction m as [| [n y] m IH]; intros i x K Kx; cbn [merge_metric].
  - splits; [constructor; [exact Kx|constructor]|discriminate|]. intros j. cbn. exists 0. lia.
  - inversion K as [|? ? K1 K2]; subst. cbn in K1. destruct (String.eqb_spec i n) as [->|Ne].
    + assert (Q : exists z, match x, y with
                  | MCounter a, MCounter b => MCounter ((b + a) mod U64)
                  | MHist a, MHist b => MHist (b + a)
                  | _, _ => y end = z /\ kind_of z = k n /\ eqm (amount1 z) (amount1 y + amount1 x)).
      { rewrite <- K1 in Kx. destruct x as [a|a], y as [b|b]; cbn in Kx; try discriminate;
          eexists; (split; [reflexivity|]); (split; [exact K1|]); cbn; [apply mod_eqm|apply eqm_refl]. }
      destruct Q as (z & -> & Kz & E). splits; [constructor; auto|discriminate|].
      intros j. cbn. destruct (String.eqb j n); [|exists 0; lia]. destruct E as [c E]. exists c. lia.
    + destruct (IH i x K2 Kx) as (A & B & C). splits; [constructor; auto|discriminate|].
      intros j. cbn. destruct (C j) as [c E]. exists c. lia.
Qed.

Lemma merge_all_ok : forall k delta m, kinded k m -> kinded k delta ->
  kinded k (merge_all m delta) /\ (merge_all m delta = [] -> m = [] /\ delta = []) /\
  forall j, eqm (amount j (merge_all m delta)) (amount j m + amount j delta).
Proof.
  intros k. unfold merge_all. induction delta as [| [i x] delta IH]; intros m K Kd; cbn [fold_left].
  - splits; auto. intros j. cbn. exists 0. lia.
  - inversion Kd as [|? ? K1 K2]; subst. cbn [fst snd] in *.
    destruct (merge_metric_ok k m i x K K1) as (A & B & C).
    destruct (IH _ A K2) as (A' & B' & C'). splits; auto.
    + intros E. destruct (B' E) as [E1 _]. contradiction.
    + intros j. cbn [amount]. eapply eqm_trans; [apply C'|]. destruct (C j) as [c E]. exists c. lia.
Qed.

(** * What leaves the index *)
Lemma mem_str_in : forall n l, mem_str n l = true <-> In n l.
Proof.
  induction l as [|x l IH]; cbn; [split; [discriminate|tauto]|]. rewrite orb_true_iff, IH.
  destruct (String.eqb_spec n x); split; intros [H|H]; auto; try discriminate; subst; auto; congruence.
Qed.
Lemma mem_str_out : forall n l, mem_str n l = false <-> ~ In n l.
Proof. intros n l. rewrite <- mem_str_in. destruct (mem_str n l); split; congruence. Qed.

Definition goneN (f : string -> snap_file) (i : string) (L L' : list string) : Z :=
  tot f i (filter (fun n => negb (mem_str n L')) L).
Definition val (f : string -> snap_file) (i n : string) : Z :=
  match f n with FReq q => amount i (q_metrics q) | _ => 0 end.

Lemma filter_map_comm : forall (p : string -> bool) l, map e_name (filter (fun e => p (e_name e)) l) = filter p (map e_name l).
Proof. induction l as [|e l IH]; [reflexivity|]. cbn. destruct (p (e_name e)); cbn; rewrite IH; reflexivity. Qed.

Lemma gone_goneN : forall s s' i, gone s s' i = goneN (d_files (s_disk s)) i (map e_name (index s)) (map e_name (index s')).
Proof.
  intros s s' i. unfold gone, goneN. rewrite on_disk_tot. f_equal.
  apply (filter_map_comm (fun n => negb (mem_str n (map e_name (index s'))))).
Qed.

Lemma goneN_zero : forall f i L L', (forall n, In n L -> ~ In n L' -> val f i n = 0) -> goneN f i L L' = 0.
Proof.
  intros f i. unfold goneN. induction L as [|n L IH]; intros L' H; [reflexivity|]. cbn.
  destruct (mem_str n L') eqn:M; cbn; [apply IH; intros; apply H; auto with datatypes|].
  rewrite IH by (intros; apply H; auto with datatypes).
  apply mem_str_out in M. specialize (H n (or_introl eq_refl) M). unfold val in H. rewrite H. reflexivity.
Qed.
Lemma goneN_head : forall f i e L L', incl L L' -> ~ In e L' -> goneN f i (e :: L) L' = val f i e.
Proof.
  intros f i e L L' S N. unfold goneN. cbn. apply mem_str_out in N. rewrite N. cbn.
  replace (tot f i (filter _ L)) with 0; [unfold val; lia|]. symmetry.
  apply (goneN_zero f i L L'). intros n Hn H. elim H. apply S. exact Hn.
Qed.

Definition kinv (k : string -> kind) (f : string -> snap_file) : Prop :=
  forall n q, f n = FReq q -> kinded k (q_metrics q).

(** The result of a step without failures, from files f and index l to f' and l'. *)
Definition conserves (k : string -> kind) (f : string -> snap_file) (l : list entry)
  (f' : string -> snap_file) (l' : list entry) (delta : string -> Z) : Prop :=
  kinv k f' /\
  forall i, eqm (tot f' i (map e_name l') + goneN f i (map e_name l) (map e_name l'))
                (tot f i (map e_name l) + delta i).

Lemma close_last_names : forall v l, map e_name (snd (close_last v l)) = map e_name l.
Proof.
  intros v l. unfold close_last. destruct (unsnoc l) as [ [a e]|] eqn:E; [|reflexivity].
  apply unsnoc_some in E. subst l. destruct (e_end e); [reflexivity|].
  destruct (_ <=? _); [|reflexivity]. cbn [snd]. rewrite !map_app. reflexivity.
Qed.

Lemma kinv_set : forall k f n q, kinv k f -> kinded k (q_metrics q) -> kinv k (set_file f n (FReq q)).
Proof.
  intros k f n q K H m q'. unfold set_file. destruct (String.eqb m n); [|apply K]. intros E. injection E as <-. exact H.
Qed.
Lemma kinv_clear : forall k f n, kinv k f -> kinv k (set_file f n FNone).
Proof. intros k f n K m q'. unfold set_file. destruct (String.eqb m n); [discriminate|apply K]. Qed.

Lemma val_tot : forall f i n, tot f i [n] = val f i n.
Proof. intros. cbn. unfold val. lia. Qed.

Lemma flush_conserves : forall k v name delta d l, sy l d -> NoDup (map e_name l) ->
  ~ In name (map e_name l) -> (forall q, d_files d name <> FReq q) -> kinv k (d_files d) -> kinded k delta ->
  (exists d' l', merge_delta_snapshot_to_disk v name delta (W d (MInit l)) = (Ok tt, W d' (MInit l')) /\
     sy l' d' /\ conserves k (d_files d) l (d_files d') l' (fun i => amount i delta) /\
     (forall n i, In n (map e_name l) -> ~ In n (map e_name l') -> val (d_files d) i n <> 0 ->
        v_max v <= Z.of_nat (List.length l) /\ exists e r, l = e :: r /\ n = e_name e)) \/
  (exists w, merge_delta_snapshot_to_disk v name delta (W d (MInit l)) = (Panic, w)).
Proof.
  intros k v name delta d l S N Fr Ff K Kd. rewrite flush_eq.
  pose proof (close_last_names v l) as Nm. pose proof (close_last_length v l) as Len.
  destruct (close_last v l) as [new l1] eqn:C. cbn [snd] in Nm, Len.
  destruct (merge_all_ok k delta [] (Forall_nil _) Kd) as (MK & ME & MA).
  destruct new.
  - destruct (Z.leb_spec (v_max v) (Z.of_nat (List.length l1))) as [Full|Room].
    + destruct l1 as [|e l2]; [right; eauto|]. left.
      destruct l as [|e0 l0]; [discriminate|]. cbn in Nm. injection Nm as En Nl.
      cbn in N. inversion N as [|? ? N1 N2]; subst.
      assert (Hd : forall n i L', In n (map e_name (e0 :: l0)) -> ~ In n L' -> incl (map e_name l0) L' ->
                 val (d_files d) i n <> 0 -> v_max v <= Z.of_nat (List.length (e0 :: l0)) /\
                 exists e r, e0 :: l0 = e :: r /\ n = e_name e).
      { intros n i L' [H|H] NL Inc V; [split; [rewrite <- Len; exact Full|eauto]|]. elim NL. apply Inc. exact H. }
      unfold flush_done. destruct (merge_all [] delta) as [|x m] eqn:M.
      * destruct (ME eq_refl) as [_ ->].
        eexists _, l2. splits; [reflexivity|left; reflexivity| |].
        -- split; [apply kinv_clear; exact K|]. intros i. cbn [d_files D map]. rewrite En, Nl.
           rewrite goneN_head; [|apply incl_refl|exact N1].
           rewrite tot_set_out by exact N1. cbn [tot amount]. unfold val. exists 0. lia.
        -- intros n i H1 H2. eapply Hd; eauto. rewrite Nl. apply incl_refl.
      * eexists _, _. splits; [reflexivity|left; reflexivity| |].
        -- split; [apply kinv_set; [apply kinv_clear; exact K|exact MK]|]. intros i. cbn [d_files D].
           rewrite map_app, Nl, En. cbn [map e_name]. rewrite tot_app.
           assert (Nn : ~ In name (map e_name l0)) by (intros H; apply Fr; right; exact H).
           rewrite (tot_set_out _ i name _ (map e_name l0) Nn). rewrite tot_set_out by exact N1.
           rewrite goneN_head; [|apply incl_appl; apply incl_refl|].
           2:{ intros H. apply in_app_or in H. destruct H as [H|[H|[] ]]; [contradiction|]. apply Fr. left. symmetry. exact H. }
           rewrite val_tot. unfold val at 1, set_file. rewrite String.eqb_refl. cbn [q_metrics].
           destruct (MA i) as [c Ec]. change (amount i []) with 0 in Ec. exists c. cbn [tot]. unfold val. lia.
        -- intros n i H1 H2. eapply Hd; eauto. rewrite map_app, Nl. apply incl_appl. apply incl_refl.
    + left. unfold flush_done. destruct (merge_all [] delta) as [|x m] eqn:M.
      * destruct (ME eq_refl) as [_ ->]. eexists _, l1. splits; [reflexivity|left; reflexivity| |].
        -- split; [exact K|]. intros i. cbn [d_files D]. rewrite Nm.
           rewrite goneN_zero by (intros; contradiction). exists 0. cbn. lia.
        -- intros n i H1 H2. rewrite Nm in H2. contradiction.
      * eexists _, _. splits; [reflexivity|left; reflexivity| |].
        -- split; [apply kinv_set; [exact K|exact MK]|]. intros i. cbn [d_files D].
           rewrite map_app, Nm. cbn [map e_name]. rewrite tot_app. rewrite tot_set_out by exact Fr.
           rewrite goneN_zero by (intros n Hn H; elim H; apply in_or_app; auto).
           rewrite val_tot. unfold val, set_file. rewrite String.eqb_refl. cbn [q_metrics].
           destruct (MA i) as [c Ec]. change (amount i []) with 0 in Ec. exists c. lia.
        -- intros n i H1 H2. rewrite map_app, Nm in H2. elim H2. apply in_or_app; auto.
  - destruct (unsnoc l1) as [ [a e]|] eqn:U; [|right; eauto]. left. apply unsnoc_some in U. subst l1.
    assert (l = a ++ [e]) as ->.
    { unfold close_last in C. destruct (unsnoc l) as [ [a' e']|]; [|discriminate].
      destruct (e_end e'); [discriminate|]. destruct (_ <=? _); [discriminate|]. congruence. }
    assert (Ne : ~ In (e_name e) (map e_name a)).
    { rewrite map_app in N. cbn in N. apply NoDup_remove_2 in N. rewrite app_nil_r in N. exact N. }
    set (h := match d_files d (e_name e) with FReq q => (q_uuid q, q_metrics q) | _ => (e_name e, []) end).
    assert (Kh : kinded k (snd h)).
    { unfold h. destruct (d_files d (e_name e)) as [| |q] eqn:F; try constructor. apply (K _ _ F). }
    assert (Vh : forall i, val (d_files d) i (e_name e) = amount i (snd h)).
    { intros i. unfold val, h. destruct (d_files d (e_name e)); reflexivity. }
    cbv zeta. destruct (merge_all_ok k delta (snd h) Kh Kd) as (HK & HE & HA).
    destruct (merge_all (snd h) delta) as [|x m] eqn:M.
    + destruct (HE eq_refl) as [E1 ->]. rewrite E1 in Vh. eexists _, a. splits; [reflexivity|left; reflexivity| |].
      * split; [exact K|]. intros i. cbn [d_files D]. rewrite map_app, tot_app. cbn [map]. rewrite val_tot, Vh.
        rewrite goneN_zero; [exists 0; cbn; lia|]. intros n H1 H2. apply in_app_or in H1.
        destruct H1 as [H1|[H1|[] ]]; [contradiction|]. subst n. apply Vh.
      * intros n i H1 H2 V. rewrite map_app in H1. apply in_app_or in H1.
        destruct H1 as [H1|[H1|[] ]]; [contradiction|]. subst n. elim V. apply Vh.
    + eexists _, _. splits; [reflexivity| | |].
      * unfold sy in *. cbn. exact S.
      * split; [apply kinv_set; [exact K|exact HK]|]. intros i. cbn [d_files D]. rewrite map_app, !tot_app. cbn [map].
        rewrite tot_set_out by exact Ne. rewrite goneN_zero by (intros; contradiction).
        rewrite !val_tot, Vh. unfold val, set_file. rewrite String.eqb_refl. cbn [q_metrics].
        destruct (HA i) as [c Ec]. exists c. lia.
      * intros n i H1 H2. contradiction.
Qed.

Lemma goneN_pre : forall f i pre L', NoDup (pre ++ L') -> goneN f i (pre ++ L') L' = tot f i pre.
Proof.
  intros f i pre L' N. unfold goneN. induction pre as [|n pre IH]; cbn [app].
  - replace (tot f i []) with 0 by reflexivity. apply (goneN_zero f i L' L'). intros; contradiction.
  - inversion N as [|? ? N1 N2]; subst. cbn. rewrite (proj2 (mem_str_out n L')) by (intros H; apply N1; apply in_or_app; auto).
    cbn. rewrite IH by exact N2. reflexivity.
Qed.

Lemma suffix_conserves : forall k f f' l l' pre, kinv k f' -> NoDup (map e_name l) ->
  map e_name l = pre ++ map e_name l' ->
  (forall n q, In n (map e_name l') -> f n = FReq q <-> f' n = FReq q) ->
  conserves k f l f' l' (fun _ => 0).
Proof.
  intros k f f' l l' pre K N E S. split; [exact K|]. intros i. rewrite E in *.
  rewrite goneN_pre by exact N. rewrite tot_app. rewrite (tot_ext f f' i (map e_name l')) by exact S.
  exists 0. lia.
Qed.

Definition sameD (d d' : disk) (l : list entry) : Prop := d' = d \/ (l = [] /\ d' = D INone (fun _ => FNone)).
Lemma conserves_init : forall k d d' l f' l' delta, sameD d d' l ->
  conserves k (d_files d') l f' l' delta -> conserves k (d_files d) l f' l' delta.
Proof.
  intros k d d' l f' l' delta [->|[-> ->] ] C; [exact C|]. exact C.
Qed.
Lemma kinv_sameD : forall k d d' l, sameD d d' l -> kinv k (d_files d) -> kinv k (d_files d').
Proof. intros k d d' l [->|[_ ->] ] K; [exact K|]. intros n q H. discriminate H. Qed.

(** Between steps, without failures. *)
Record cinv (k : string -> kind) (T : list sent) (used : list string) (s : state) : Prop := {
  c_sinv : sinv T used s;
  c_alive : s_alive s = true;
  c_taken : s_mem s <> MTaken;
  c_kinv : kinv k (d_files (s_disk s))
}.

Lemma cinv_index : forall k T used s, cinv k T used s ->
  iinv T used (index s) (d_files (s_disk s)).
Proof.
  intros k T used s C. destruct (c_sinv _ _ _ _ C) as [Dv R]. specialize (R (c_alive _ _ _ _ C)).
  unfold index, ready, start in *. cbn [w_mem] in R. destruct (s_mem s) as [| |l] eqn:M.
  - destruct Dv as [_ I']. destruct (d_index (s_disk s)); auto; constructor; cbn; try tauto; constructor.
  - elim (c_taken _ _ _ _ C M).
  - apply (synced_iinv T used l {| w_disk := s_disk s; w_mem := MInit l; w_io := [] |} Dv R).
Qed.

Lemma start_W : forall s, start s [] = W (s_disk s) (s_mem s).
Proof. reflexivity. Qed.

Lemma pending_conserves : forall k T used v old d m, m <> MTaken -> (match m with MInit l => synced l (W d m) | _ => True end) ->
  kinv k (d_files d) -> iinv T used (idx d m) (d_files d) ->
  exists r l' d', get_or_create_pending_upload v old (W d m) = (Ok r, W d' (MInit l')) /\
    conserves k (d_files d) (idx d m) (d_files d') l' (fun _ => 0) /\
    (exists pre, map e_name (idx d m) = pre ++ map e_name l' /\ (forall n q, In n pre -> d_files d n <> FReq q)) /\
    (forall n q, In n (map e_name l') -> d_files d n = FReq q <-> d_files d' n = FReq q) /\
    (forall n, d_files d' n = d_files d n \/ d_files d' n = FNone).
Proof.
  intros k T used v old d m Tk S K I.
  destruct (init_eq d m Tk S) as (d1 & E & S1 & SD).
  unfold get_or_create_pending_upload. rewrite (init_first _ _ _ _ _ _ E).
  change (bind get_initialized (upload_loop v old) (W d1 (MInit (idx d m)))) with (upload_loop v old (idx d m) (W d1 (MInit (idx d m)))).
  assert (S1' : sy (idx d m) d1).
  { destruct S1 as [_ S1]. exact S1. }
  destruct (upload_eq v old (idx d m) d1 S1') as (r & l' & d' & E' & U1 & U2 & U5 & pre & U3 & U4).
  exists r, l', d'. split; [exact E'|].
  assert (P : exists pre, map e_name (idx d m) = pre ++ map e_name l' /\ (forall n q, In n pre -> d_files d n <> FReq q)).
  { exists pre. split; [exact U3|]. intros n q Hn. destruct SD as [->|[X ->] ]; [apply U4; exact Hn|].
    rewrite X in U3. destruct pre; [destruct Hn|discriminate]. }
  assert (Q : forall n q, In n (map e_name l') -> d_files d n = FReq q <-> d_files d' n = FReq q).
  { intros n q Hn. destruct SD as [->|[X ->] ]; [apply U2|]. rewrite X in U3. destruct pre; [|discriminate].
    cbn in U3. rewrite <- U3 in Hn. destruct Hn. }
  splits; auto.
  2:{ intros n. destruct (U5 n) as [Y|Y]; [|auto]. destruct SD as [->|[_ ->] ]; auto. }
  apply (conserves_init k d d1 (idx d m)); [exact SD|].
  apply (suffix_conserves k _ _ _ _ pre).
  - intros n q H. apply U2 in H. apply (kinv_sameD k d d1 _ SD K n q H).
  - apply (i_nodup _ _ _ _ I).
  - exact U3.
  - intros n q _. apply U2.
Qed.

Definition left_by (s s' : state) (n i : string) : Prop :=
  In n (map e_name (index s)) /\ ~ In n (map e_name (index s')) /\ val (d_files (s_disk s)) i n <> 0.

Lemma step_conserves : forall k T used s v o, cinv k T used s -> well_kinded k o ->
  (forall n, In n (op_name (v, [], o)) -> ~ In n used) ->
  ~ In EPanic (snd (step s v [] o)) ->
  let s' := fst (step s v [] o) in
  cinv k (T ++ sends_of (snd (step s v [] o))) (op_name (v, [], o) ++ used) s' /\
  (forall i, eqm (stored s' i + gone s s' i) (stored s i + flushed i o)) /\
  (forall n i, left_by s s' n i ->
     (exists st dy nm, o = Flush st dy nm /\ v_max v <= Z.of_nat (List.length (index s)) /\
        exists e r, index s = e :: r /\ n = e_name e) \/
     (o = Response true n /\ s_inflight s <> None /\ exists e r, index s = e :: r /\ n = e_name e)).
Proof.
  intros k T used s v o C Kd F NP. cbv zeta.
  pose proof (step_inv T used s v [] o (c_sinv _ _ _ _ C) (Forall_nil _) F) as SI.
  pose proof (cinv_index _ _ _ _ C) as II. change (index s) with (idx (s_disk s) (s_mem s)) in II.
  pose proof (c_taken _ _ _ _ C) as Tk.
  assert (R : match s_mem s with MInit l => synced l (W (s_disk s) (s_mem s)) | _ => True end).
  { pose proof (s_ready _ _ _ (c_sinv _ _ _ _ C) (c_alive _ _ _ _ C)) as R. exact R. }
  pose proof (c_kinv _ _ _ _ C) as K. pose proof (c_alive _ _ _ _ C) as A.
  (* it is enough to know the new files and index *)
  assert (Fin : forall s' t delta,
    (let (s', t) := (s', t) in sinv (T ++ sends_of t) (op_name (v, [], o) ++ used) s' /\
      (forall a b, In a T -> In b (sends_of t) -> t_uuid a = t_uuid b -> a = b) /\ (List.length (sends_of t) <= 1)%nat) ->
    s_alive s' = true -> s_mem s' <> MTaken ->
    conserves k (d_files (s_disk s)) (index s) (d_files (s_disk s')) (index s') delta ->
    (forall i, delta i = flushed i o) ->
    cinv k (T ++ sends_of t) (op_name (v, [], o) ++ used) s' /\
    (forall i, eqm (stored s' i + gone s s' i) (stored s i + flushed i o))).
  { intros s' t delta (SI' & _) A' M' [CK CE] Dl. split; [constructor; auto|].
    intros i. unfold stored. rewrite !on_disk_tot, gone_goneN, <- Dl. apply CE. }
  (* nothing changes *)
  assert (Same : forall s', s_disk s' = s_disk s -> index s' = index s ->
    conserves k (d_files (s_disk s)) (index s) (d_files (s_disk s')) (index s') (fun _ => 0) /\
    (forall n i, left_by s s' n i -> False)).
  { intros s' E1 E2. split.
    - apply (suffix_conserves k _ _ _ _ []); rewrite ?E1, ?E2; auto. 
      + apply (i_nodup _ _ _ _ II).
      + intros; tauto.
    - intros n i (L1 & L2 & _). rewrite E2 in L2. contradiction. }
  revert SI NP. unfold step. rewrite A. destruct o as [st dy n| |su u|].
  - destruct Kd as [Kd1 Kd2]. rewrite (create_delta_eq st dy Kd1). rewrite start_W.
    assert (Fn : ~ In n used) by (apply F; left; reflexivity).
    destruct (init_eq (s_disk s) (s_mem s) Tk R) as (d1 & E & S1 & SD).
    assert (EQ : merge_delta_snapshot_to_disk v n (st ++ dy) (W (s_disk s) (s_mem s))
               = merge_delta_snapshot_to_disk v n (st ++ dy) (W d1 (MInit (idx (s_disk s) (s_mem s))))).
    { unfold merge_delta_snapshot_to_disk, get_or_create_snapshot. unfold bind at 1. rewrite (init_first _ _ _ _ _ _ E).
      reflexivity. }
    rewrite EQ. clear EQ.
    destruct (flush_conserves k v n (st ++ dy) d1 (idx (s_disk s) (s_mem s))) as [(d' & l' & E' & S' & Cs & Hd)|(w & E')].
    + destruct S1 as [_ S1]. exact S1.
    + apply (i_nodup _ _ _ _ II).
    + intros H. apply Fn. apply in_map_iff in H. destruct H as (e & <- & He). apply (i_used _ _ _ _ II e He).
    + intros q H. destruct SD as [->|[_ ->] ]; [|discriminate H]. apply Fn.
      apply (g_file _ _ _ (proj1 (s_dinv _ _ _ (c_sinv _ _ _ _ C))) _ _ H).
    + apply (kinv_sameD k _ _ _ SD K).
    + exact Kd2.
    + rewrite E'. cbn [finish snd fst]. intros SI NP. apply and_assoc. split.
      * eapply Fin; [exact SI|reflexivity|discriminate| |].
        -- apply (conserves_init k _ d1 _ _ _ _ SD). exact Cs.
        -- intros i. cbn [flushed]. apply amount_app.
      * intros m i (L1 & L2 & L3). left. exists st, dy, n. split; [reflexivity|].
        apply (Hd m i); [exact L1|exact L2|]. destruct SD as [->|[X ->] ]; [exact L3|].
        change (index s) with (idx (s_disk s) (s_mem s)) in L1. rewrite X in L1. destruct L1.
    + rewrite E'. cbn. intros _ NP. elim NP. auto.
  - destruct (s_inflight s) as [u|] eqn:Fl.
    + intros SI NP. cbn [fst snd]. destruct (Same s eq_refl eq_refl) as [S1 S2].
      apply and_assoc. split; [eapply Fin; eauto|]. intros n i L. destruct (S2 n i L).
    + rewrite start_W. destruct (pending_conserves k T used v false (s_disk s) (s_mem s) Tk R K II) as (r & l' & d' & E & Cs & (pre & P1 & P2) & P3 & P4).
      rewrite E. cbn [finish snd fst]. intros SI NP. apply and_assoc. split.
      * eapply Fin; [exact SI|reflexivity|discriminate|exact Cs|reflexivity].
      * intros n i (L1 & L2 & L3). exfalso. unfold index in L2. cbn [s_mem] in L2.
        change (index s) with (idx (s_disk s) (s_mem s)) in L1.
        rewrite P1 in L1. apply in_app_or in L1. destruct L1 as [L1|L1]; [|contradiction].
        apply L3. unfold val. destruct (d_files (s_disk s) n) eqn:X; try reflexivity. elim (P2 _ _ L1 X).
  - destruct (s_inflight s) as [u'|] eqn:Fl.
    2:{ intros SI NP. cbn [fst snd]. destruct (Same s eq_refl eq_refl) as [S1 S2].
        apply and_assoc. split; [eapply Fin; eauto|]. intros n i L. destruct (S2 n i L). }
    unfold answered. destruct su.
    2:{ cbn [fst snd]. intros SI NP. destruct (Same {| s_disk := s_disk s; s_mem := s_mem s; s_inflight := None; s_alive := true |} eq_refl eq_refl) as [S1 S2].
        apply and_assoc. split; [eapply (Fin _ (EAnswer false :: [])); eauto|]. intros n i L. destruct (S2 n i L). }
    rewrite start_W. unfold attempt.
    destruct (init_eq (s_disk s) (s_mem s) Tk R) as (d1 & E & S1 & SD).
    assert (EQ : complete_pending_upload u (W (s_disk s) (s_mem s)) = complete_pending_upload u (W d1 (MInit (idx (s_disk s) (s_mem s))))).
    { unfold complete_pending_upload. apply (init_first _ _ _ _ _ _ E). }
    rewrite EQ. clear EQ. rewrite complete_eq by (apply S1).
    set (l := idx (s_disk s) (s_mem s)) in *.
    pose proof (i_nodup _ _ _ _ II) as ND.
    destruct l as [|e l0] eqn:El.
    { intros _ NP. exfalso. apply NP. right. left. reflexivity. }
    assert (d1 = s_disk s) as -> by (destruct SD as [SD|[X _] ]; [exact SD|discriminate]).
    destruct (String.eqb_spec (e_name e) u) as [Eu|Eu].
    + (* acknowledged *)
      set (d2 := D (IGood l0) (set_file (d_files (s_disk s)) (e_name e) FNone)).
      cbn in ND. inversion ND as [|? ? ND1 ND2]; subst.
      assert (II2 : iinv T used l0 (d_files d2)).
      { cbn. eapply iinv_shrinks; [apply shrinks_set; discriminate|]. eapply iinv_tail; eauto. }
      destruct (pending_conserves k T used v true d2 (MInit l0)) as (r & l' & d' & E' & Cs & (pre & P1 & P2) & P3 & P4).
      { discriminate. }
      { split; [reflexivity|left; reflexivity]. }
      { apply kinv_clear. exact K. }
      { exact II2. }
      rewrite E'. cbn [finish snd fst]. intros SI NP.
      change (idx d2 (MInit l0)) with l0 in *.
      assert (Cs' : conserves k (d_files (s_disk s)) (index s) (d_files d') l' (fun _ => 0)).
      { change (index s) with (idx (s_disk s) (s_mem s)). fold l. rewrite El.
        apply (suffix_conserves k _ _ _ _ (e_name e :: pre)); [apply Cs|exact ND|cbn; rewrite P1; reflexivity|].
        intros n q Hn. rewrite <- (P3 n q Hn). cbn. unfold set_file.
        destruct (String.eqb_spec n (e_name e)) as [->|]; [|tauto]. elim ND1. rewrite P1. apply in_or_app. auto. }
      apply and_assoc. split.
      * eapply (Fin _ (EAnswer true :: upload_events v (Some r))); [exact SI|reflexivity|discriminate|exact Cs'|reflexivity].
      * intros n i (L1 & L2 & L3). right.
        change (index s) with (idx (s_disk s) (s_mem s)) in *. fold l in L1. fold l. rewrite El in *.
        cbn in L1. destruct L1 as [L1|L1]; [subst n; splits; eauto; discriminate|].
        exfalso. unfold index in L2. cbn [s_mem] in L2. rewrite P1 in L1. apply in_app_or in L1.
        destruct L1 as [L1|L1]; [|contradiction].
        assert (n <> e_name e) by (intros ->; apply ND1; rewrite P1; apply in_or_app; auto).
        apply L3. unfold val. destruct (d_files (s_disk s) n) eqn:X; try reflexivity. exfalso. apply (P2 n q L1).
        cbn. unfold set_file. destruct (String.eqb_spec n (e_name e)); [contradiction|exact X].
    + destruct (pending_conserves k T used v true (s_disk s) (MInit (e :: l0))) as (r & l' & d' & E' & Cs & (pre & P1 & P2) & P3 & P4).
      { discriminate. }
      { exact S1. }
      { exact K. }
      { exact II. }
      rewrite E'. cbn [finish snd fst]. intros SI NP.
      change (idx (s_disk s) (MInit (e :: l0))) with (e :: l0) in *.
      apply and_assoc. split.
      * eapply (Fin _ (EAnswer true :: upload_events v (Some r))); [exact SI|reflexivity|discriminate| |reflexivity].
        change (index s) with (idx (s_disk s) (s_mem s)). fold l. rewrite El. exact Cs.
      * intros n i (L1 & L2 & L3). exfalso. unfold index in L2. cbn [s_mem] in L2.
        change (index s) with (idx (s_disk s) (s_mem s)) in L1. fold l in L1. rewrite El in L1.
        rewrite P1 in L1. apply in_app_or in L1. destruct L1 as [L1|L1]; [|contradiction].
        apply L3. unfold val. destruct (d_files (s_disk s) n) eqn:X; try reflexivity. elim (P2 _ _ L1 X).
  - intros SI NP. cbn [fst snd].
    assert (Ix : index (restarted (s_disk s)) = index s).
    { unfold index. cbn. destruct (s_mem s) as [| |l] eqn:M; try reflexivity.
      destruct R as [_ [R|[R1 R2] ]]; cbn in *; [rewrite R; reflexivity|]. subst l.
      destruct (d_index (s_disk s)) as [| |x]; try reflexivity. elim (R2 x eq_refl). }
    destruct (Same (restarted (s_disk s)) eq_refl Ix) as [S1 S2].
    apply and_assoc. split; [eapply (Fin _ [ERestart]); [exact SI|reflexivity|discriminate|exact S1|reflexivity]|].
    intros n i L. destruct (S2 n i L).
Qed.

Lemma run_conserves : forall k os T used s, cinv k T used s -> no_failures os ->
  Forall (fun x => well_kinded k (snd x)) os ->
  NoDup (names os) -> (forall n, In n (names os) -> ~ In n used) ->
  ~ In EPanic (snd (run s os)) ->
  cinv k (T ++ sends_of (snd (run s os))) (rev (names os) ++ used) (fst (run s os)) /\
  forall i, eqm (stored (fst (run s os)) i + gone_all s os i) (stored s i + flushed_all i os).
Proof.
  intros k. induction os as [| [ [v ios] o] os IH]; intros T used s C K Kd N F NP.
  { cbn. rewrite app_nil_r. split; [exact C|]. intros i. apply eqm_refl. }
  inversion K as [|? ? K1 K2]; subst. cbn [snd fst] in K1. subst ios.
  inversion Kd as [|? ? Kd1 Kd2]; subst. cbn [snd] in Kd1.
  change (names ((v, [], o) :: os)) with (op_name (v, [], o) ++ names os) in *.
  assert (N1 : forall n, In n (op_name (v, [], o)) -> ~ In n used) by (intros n Hn; apply F; auto with datatypes).
  assert (OP : (exists n, op_name (v, [], o) = [n]) \/ op_name (v, [], o) = []) by (destruct o; cbn; eauto).
  pose proof (step_conserves k T used s v o C Kd1 N1) as St. cbn [run gone_all flushed_all snd] in *.
  destruct (step s v [] o) as [s1 t1] eqn:Es. cbn [fst snd] in *.
  assert (NP1 : ~ In EPanic t1).
  { intros H. apply NP. destruct (run s1 os). cbn. apply in_or_app. auto. }
  destruct (St NP1) as (C1 & E1 & _).
  assert (NP2 : ~ In EPanic (snd (run s1 os))).
  { intros H. apply NP. destruct (run s1 os). cbn in *. apply in_or_app. auto. }
  specialize (IH (T ++ sends_of t1) (op_name (v, [], o) ++ used) s1 C1 K2 Kd2).
  destruct (run s1 os) as [s2 t2]. cbn [fst snd] in *. rewrite sends_of_app, app_assoc.
  assert (R : rev (op_name (v, [], o) ++ names os) ++ used = rev (names os) ++ op_name (v, [], o) ++ used).
  { destruct OP as [ [n ->]| ->]; cbn; [rewrite <- app_assoc; reflexivity|reflexivity]. }
  rewrite R. destruct IH as [C2 E2]; auto.
  - destruct OP as [ [n E]|E]; rewrite E in N; [inversion N; auto|exact N].
  - intros n Hn. destruct OP as [ [m E]|E]; rewrite E in *; cbn; [|apply F; auto with datatypes].
    intros [X|X]; [|revert X; apply F; auto with datatypes]. subst m. inversion N; auto.
  - split; [exact C2|]. intros i. destruct (E1 i) as [x X]. destruct (E2 i) as [y Y]. exists (x + y). lia.
Qed.

Lemma init_cinv : forall k, cinv k [] [] init.
Proof.
  intros k. constructor; [apply init_inv|reflexivity|discriminate|]. intros n q H. discriminate H.
Qed.

(** C42 *)
Lemma conserved : forall k os i, no_failures os -> Forall (fun x => well_kinded k (snd x)) os ->
  NoDup (names os) -> ~ In EPanic (snd (run init os)) ->
  (stored (fst (run init os)) i + gone_all init os i) mod U64 = flushed_all i os mod U64.
Proof.
  intros k os i K Kd N NP. destruct (run_conserves k os [] [] init (init_cinv k) K Kd N) as [_ E]; auto.
  specialize (E i). replace (stored init i + flushed_all i os) with (flushed_all i os) in E by reflexivity.
  apply eqm_mod. exact E.
Qed.

Lemma run_app : forall a b s, run s (a ++ b) =
  (fst (run (fst (run s a)) b), snd (run s a) ++ snd (run (fst (run s a)) b)).
Proof.
  induction a as [| [ [v ios] o] a IH]; intros b s; cbn [app run].
  - cbn [fst snd app]. destruct (run s b); reflexivity.
  - destruct (step s v ios o) as [s1 t1]. rewrite IH. destruct (run s1 a) as [s2 t2]. cbn [fst snd].
    rewrite app_assoc. reflexivity.
Qed.

(** Whoever waits for an answer has sent something. *)
Lemma step_inflight : forall s v ios o u, s_inflight (fst (step s v ios o)) = Some u ->
  s_inflight s = Some u \/ exists t, In (ESent t) (snd (step s v ios o)) /\ t_uuid t = u.
Proof.
  intros s v ios o u. unfold step.
  assert (X : forall v r l, upload_inflight v r = Some u ->
    exists t, In (ESent t) (l ++ upload_events v r) /\ t_uuid t = u).
  { intros v0 r l H. unfold upload_inflight in H. destruct r as [ [t|]|]; try discriminate. cbn.
    destruct (v_open v0); [|discriminate]. injection H as <-. exists t. split; auto. apply in_or_app. cbn. auto. }
  destruct o as [st dy n| |su n|].
  - destruct (s_alive s); [|auto]. destruct (merge_delta_snapshot_to_disk _ _ _ _) as [ [a| | |] w]; cbn; auto; discriminate.
  - destruct (s_alive s); [|auto]. destruct (s_inflight s) eqn:Fl; [rewrite <- Fl; auto|].
    destruct (get_or_create_pending_upload _ _ _) as [ [a| | |] w]; cbn [finish fst snd s_inflight]; intros H;
      try discriminate; right; apply (X _ _ [] H).
  - destruct (s_alive s); [|auto]. destruct (s_inflight s) eqn:Fl; [|cbn; rewrite Fl; discriminate].
    destruct su; [|discriminate]. cbn [answered fst snd].
    destruct (attempt _ _ _) as [ [a| | |] w]; cbn [finish fst snd s_inflight]; intros H;
      try discriminate; right; apply (X _ _ [EAnswer true] H).
  - discriminate.
Qed.
Lemma inflight_sent : forall os u, s_inflight (fst (run init os)) = Some u ->
  exists t, In (ESent t) (snd (run init os)) /\ t_uuid t = u.
Proof.
  induction os as [| [ [v ios] o] os IH] using rev_ind; intros u H; [discriminate H|].
  rewrite run_app in *. cbn [run fst snd] in *.
  pose proof (step_inflight (fst (run init os)) v ios o u) as St.
  destruct (step _ v ios o) as [s1 t1]. cbn [fst snd] in *. rewrite app_nil_r.
  destruct (St H) as [X|(t & X & Y)].
  - destruct (IH u X) as (t & Z & Y). exists t. split; auto. apply in_or_app. auto.
  - exists t. split; auto. apply in_or_app. auto.
Qed.

Lemma left_only : forall k os v o n i,
  no_failures os -> Forall (fun x => well_kinded k (snd x)) (os ++ [(v, [], o)]) ->
  NoDup (names (os ++ [(v, [], o)])) -> ~ In EPanic (snd (run init (os ++ [(v, [], o)]))) ->
  let s := fst (run init os) in let s' := fst (step s v [] o) in
  In n (map e_name (index s)) -> ~ In n (map e_name (index s')) -> in_file s i n <> 0 ->
  (exists e r, index s = e :: r /\ n = e_name e) /\
  ((exists st dy nm, o = Flush st dy nm /\ v_max v <= Z.of_nat (List.length (index s))) \/
   (o = Response true n /\ s_inflight s <> None /\
     (s_inflight s = Some n -> exists t, In (ESent t) (snd (run init os)) /\ t_uuid t = n /\
        forall q, d_files (s_disk s) n = FReq q -> q_metrics q = t_metrics t))).
Proof.
  intros k os v o n i K Kd N NP s s' I1 I2 I3.
  rewrite run_app in NP. cbn [snd] in NP.
  assert (NP1 : ~ In EPanic (snd (run init os))) by (intros H; apply NP; apply in_or_app; auto).
  assert (NP2 : ~ In EPanic (snd (step s v [] o))).
  { intros H; apply NP; apply in_or_app; right. fold s. cbn [run]. destruct (step s v [] o). cbn in *. rewrite app_nil_r. exact H. }
  apply Forall_app in Kd. destruct Kd as [Kd1 Kd2]. inversion Kd2 as [|? ? Kd3 _]; subst. cbn [snd] in Kd3.
  assert (Nn : names (os ++ [(v, [], o)]) = names os ++ op_name (v, [], o)).
  { unfold names. rewrite flat_map_app. cbn. rewrite app_nil_r. reflexivity. }
  rewrite Nn in N.
  assert (N1 : NoDup (names os)).
  { apply NoDup_rev in N. rewrite rev_app_distr in N. clear -N. rewrite <- (rev_involutive (names os)). apply NoDup_rev.
    induction (rev (op_name (v, [], o))) as [|x l IH]; [exact N|]. inversion N; auto. }
  destruct (run_conserves k os [] [] init (init_cinv k) K Kd1 N1) as [C _]; auto. fold s in C.
  rewrite app_nil_r in C. cbn [app] in C.
  assert (Fr : forall m, In m (op_name (v, [], o)) -> ~ In m (rev (names os))).
  { intros m Hm H. apply in_rev in H. clear -N Hm H. induction (names os) as [|x l IH]; [destruct H|].
    inversion N as [|? ? X Y]; subst. destruct H as [->|H]; [apply X; apply in_or_app; auto|auto]. }
  destruct (step_conserves k _ _ s v o C Kd3 Fr NP2) as (_ & _ & L).
  destruct (L n i) as [(st & dy & nm & -> & V & e & r & E1 & E2)|(-> & Fl & e & r & E1 & E2)].
  { unfold left_by. splits; auto. }
  - split; [eauto|]. left. eauto 6.
  - split; [eauto|]. right. splits; auto. intros Fn. destruct (inflight_sent os n Fn) as (t & T1 & T2).
    exists t. splits; auto. intros q Q. pose proof (cinv_index _ _ _ _ C) as II.
    destruct (i_sent _ _ _ _ II t e) as (_ & _ & X).
    + apply in_sends. exact T1.
    + rewrite E1. left. reflexivity.
    + congruence.
    + apply X. rewrite <- E2. exact Q.
Qed.

(** * No panic *)
Definition closed (e : entry) : Prop := e_end e <> None.
Fixpoint good (l : list entry) : Prop :=
  match l with
  | [] => True
  | e :: r => (r = [] \/ closed e) /\ good r
  end.
Lemma good_snoc : forall a e, good (a ++ [e]) <-> Forall closed a.
Proof.
  induction a as [|x a IH]; intros e; cbn.
  - split; auto.
  - rewrite IH. split.
    + intros [ [X|X] H]; [destruct a; discriminate|constructor; auto].
    + intros H. inversion H; subst. auto.
Qed.
Lemma good_front : forall a e, good (a ++ [e]) -> good a.
Proof.
  intros a e H. apply good_snoc in H. induction H as [|x a C H IH]; cbn; auto.
Qed.
Lemma good_close_last : forall v l, good l -> good (snd (close_last v l)) /\
  (fst (close_last v l) = true -> Forall closed (snd (close_last v l))) /\
  (fst (close_last v l) = false -> exists a e, l = a ++ [e] /\ snd (close_last v l) = l /\ ~ closed e).
Proof.
  intros v l G. unfold close_last. destruct (unsnoc l) as [ [a e]|] eqn:E.
  - apply unsnoc_some in E. subst l. destruct (e_end e) eqn:En; cbn.
    + splits; auto; [|discriminate]. intros _. apply good_snoc in G. apply Forall_app. split; auto.
      constructor; auto. unfold closed. congruence.
    + destruct (_ <=? _); cbn.
      * apply good_snoc in G. splits; [apply good_snoc; exact G| |discriminate]. intros _. apply Forall_app. split; auto.
        constructor; auto. discriminate.
      * splits; auto; [discriminate|]. intros _. exists a, e. splits; auto. all: unfold closed; tauto.
  - apply unsnoc_none in E. subst l. cbn. splits; auto. discriminate.
Qed.

Definition J (d : disk) : Prop := match d_index d with IGood l => good l | _ => True end.
Definition sw {A} (m : M A) (Q : A -> world -> Prop) (w : world) : Prop :=
  match m w with
  | (Ok a, w') => Q a w'
  | (Err, _) => False
  | (Dead, w') => J (w_disk w')
  | (Panic, _) => False
  end.
Lemma sw_bind : forall A B (m : M A) (f : A -> M B) Q w, sw m (fun a w' => sw (f a) Q w') w -> sw (bind m f) Q w.
Proof. intros A B m f Q w H. unfold sw, bind in *. destruct (m w) as [ [a| | |] w']; auto. Qed.
Lemma sw_next : forall (Q : io -> world -> Prop) w, wok w ->
  (forall x io', (forall t, x <> IoWriteErr t) -> wok {| w_disk := w_disk w; w_mem := w_mem w; w_io := io' |} ->
     Q x {| w_disk := w_disk w; w_mem := w_mem w; w_io := io' |}) -> sw next_io Q w.
Proof.
  intros Q w K H. unfold sw, next_io. destruct w as [d m [|x l] ]; cbn in *.
  - apply H; [discriminate|exact K].
  - inversion K; subst. apply H; auto.
Qed.
Lemma sw_set_mem : forall l (Q : unit -> world -> Prop) w,
  Q tt {| w_disk := w_disk w; w_mem := MInit l; w_io := w_io w |} -> sw (set_mem (MInit l)) Q w.
Proof. intros l Q w H. exact H. Qed.
Lemma sw_write_index : forall l (Q : unit -> world -> Prop) w, wok w -> good l -> J (w_disk w) ->
  (forall w', wok w' -> J (w_disk w') -> w_mem w' = w_mem w -> Q tt w') -> sw (write_index l) Q w.
Proof.
  intros l Q w K G Jd H. unfold write_index. apply sw_bind. apply sw_next; [exact K|]. intros x io' Hx K'.
  destruct x as [| |t|t g]; try (apply H; [exact K'|exact G|reflexivity]); [elim (Hx t eq_refl)|].
  unfold sw, bind, when. destruct t; cbn; [exact I|exact Jd].
Qed.
Lemma sw_write_file : forall n q (Q : unit -> world -> Prop) w, wok w -> J (w_disk w) ->
  (forall w', wok w' -> J (w_disk w') -> w_mem w' = w_mem w -> Q tt w') -> sw (write_file n q) Q w.
Proof.
  intros n q Q w K Jd H. unfold write_file. apply sw_bind. apply sw_next; [exact K|]. intros x io' Hx K'.
  destruct x as [| |t|t g]; try (apply H; [exact K'|exact Jd|reflexivity]); [elim (Hx t eq_refl)|].
  unfold sw, bind, when. destruct t; cbn; exact Jd.
Qed.
Lemma sw_read_file : forall n (Q : option request -> world -> Prop) w, wok w -> J (w_disk w) ->
  (forall r w', wok w' -> J (w_disk w') -> w_mem w' = w_mem w -> Q r w') -> sw (read_file n) Q w.
Proof.
  intros n Q w K Jd H. unfold read_file. apply sw_bind. apply sw_next; [exact K|]. intros x io' Hx K'.
  destruct x as [| |t|t g]; try (apply H; [exact K'|exact Jd|reflexivity]). exact Jd.
Qed.
Lemma sw_delete_file : forall n (Q : unit -> world -> Prop) w, wok w -> J (w_disk w) ->
  (forall w', wok w' -> J (w_disk w') -> w_mem w' = w_mem w -> Q tt w') -> sw (delete_file n) Q w.
Proof.
  intros n Q w K Jd H. unfold delete_file. apply sw_bind. apply sw_next; [exact K|]. intros x io' Hx K'.
  destruct x as [| |t|t g]; try (apply H; [exact K'|exact Jd|reflexivity]); [elim (Hx t eq_refl)|exact Jd].
Qed.

Definition mgood (m : mem) : Prop := match m with MInit l => good l | MTaken => False | MNotInit => True end.
Lemma sw_get_initialized : forall (Q : list entry -> world -> Prop) w, wok w -> J (w_disk w) -> mgood (w_mem w) ->
  (forall l w', wok w' -> J (w_disk w') -> w_mem w' = MInit l -> good l ->
     (forall l0, w_mem w = MInit l0 -> l = l0) -> Q l w') ->
  sw get_initialized Q w.
Proof.
  intros Q w K Jd G H. unfold get_initialized. apply sw_bind. unfold sw at 1, get_mem.
  destruct (w_mem w) as [| |l] eqn:E; [|destruct G|].
  - apply sw_bind. unfold sw at 1, set_mem. set (w1 := {| w_disk := _; w_mem := _; w_io := _ |}).
    assert (Fin : forall l w', wok w' -> J (w_disk w') -> good l -> sw (set_mem (MInit l);;; ret l) Q w').
    { intros l w' K' J' G'. unfold sw, bind, set_mem, ret. apply H; auto. discriminate. }
    assert (Cl : forall w', wok w' -> J (w_disk w') -> sw (l <- (remove_dir;;; create_dir;;; ret []);; set_mem (MInit l);;; ret l) Q w').
    { intros w' K' J'. apply sw_bind. apply sw_bind. unfold remove_dir. apply sw_bind. apply sw_next; [exact K'|].
      intros x io' Hx K1.
      assert (C2 : forall w2, wok w2 -> J (w_disk w2) ->
        sw (create_dir;;; ret []) (fun a w' => sw (set_mem (MInit a);;; ret a) Q w') w2).
      { intros w2 K2 J2. apply sw_bind. unfold create_dir. apply sw_bind. apply sw_next; [exact K2|].
        intros y io2 Hy K3. destruct y as [| |t|t g]; try (apply (Fin []); [exact K3|exact J2|exact I]); [elim (Hy t eq_refl)|exact J2]. }
      destruct x as [| |t|t g]; try (apply C2; [exact K1|exact I]); [elim (Hx t eq_refl)|].
      unfold sw, bind, set_disk, die. unfold J. cbn. destruct t; [exact I|exact J']. }
    apply sw_bind. unfold read_index. apply sw_bind. apply sw_next; [exact K|]. intros x io' Hx K'.
    assert (Rd : sw (fun w0 => (Ok (match d_index (w_disk w0) with IGood l => Some l | _ => None end), w0))
      (fun a w' => sw (l <- match a with Some l => ret l | None => remove_dir;;; create_dir;;; ret [] end;;
                       set_mem (MInit l);;; ret l) Q w') {| w_disk := w_disk w1; w_mem := w_mem w1; w_io := io' |}).
    { unfold sw at 1. cbn [w_disk w1]. pose proof Jd as J1. unfold J in J1. destruct (d_index (w_disk w)) as [| |l] eqn:Ei.
      - apply Cl; [exact K'|exact Jd].
      - apply Cl; [exact K'|exact Jd].
      - apply (Fin l); [exact K'|exact Jd|exact J1]. }
    destruct x as [| |t|t g]; try exact Rd.
    + apply Cl; [exact K'|exact Jd].
    + exact Jd.
  - apply H; auto. intros l0 X. congruence.
Qed.

Lemma sw_delete_oldest : forall e l (Q : list entry -> world -> Prop) w, wok w -> J (w_disk w) ->
  (forall w', wok w' -> J (w_disk w') -> w_mem w' = MInit l -> Q l w') -> sw (delete_oldest_snapshot (e :: l)) Q w.
Proof.
  intros e l Q w K Jd H. cbn. apply sw_bind. apply sw_delete_file; auto. intros w' K' J' _.
  apply sw_bind. apply sw_set_mem. apply H; [exact K'|exact J'|reflexivity].
Qed.
Lemma sw_delete_pending : forall e l (Q : list entry -> world -> Prop) w, wok w -> J (w_disk w) -> good l ->
  (forall w', wok w' -> J (w_disk w') -> w_mem w' = MInit l -> Q l w') -> sw (delete_pending_upload (e :: l)) Q w.
Proof.
  intros e l Q w K Jd G H. unfold delete_pending_upload. apply sw_bind. apply sw_delete_oldest; auto. intros w' K' J' M'.
  apply sw_bind. apply sw_write_index; auto. intros w2 K2 J2 M2. apply H; auto. congruence.
Qed.

(** The index after a flush, when an upload is in flight. *)
Definition head_closed (m : mem) : Prop := match m with MInit (e :: _) => closed e | _ => False end.

Lemma sw_merge : forall v name delta w, 2 <= v_max v -> wok w -> J (w_disk w) -> mgood (w_mem w) ->
  sw (merge_delta_snapshot_to_disk v name delta)
     (fun _ w' => J (w_disk w') /\ mgood (w_mem w') /\ (head_closed (w_mem w) -> head_closed (w_mem w'))) w.
Proof.
  intros v name delta w V K Jd G. unfold merge_delta_snapshot_to_disk. apply sw_bind.
  assert (X : sw (get_or_create_snapshot v name) (fun _ w' => wok w' /\ J (w_disk w') /\
    exists a e, w_mem w' = MInit (a ++ [e]) /\ good (a ++ [e]) /\ (head_closed (w_mem w) -> head_closed (MInit a))) w).
  { unfold get_or_create_snapshot. apply sw_bind. apply sw_get_initialized; auto. intros l w1 K1 J1 M1 G1 S1.
    destruct (good_close_last v l G1) as (C1 & C2 & C3).
    pose proof (close_last_length v l) as Len.
    destruct (close_last v l) as [new l1] eqn:Cl. cbn [fst snd] in *. apply sw_bind. apply sw_set_mem. destruct new.
    - specialize (C2 eq_refl).
      assert (HC : head_closed (w_mem w) -> l1 <> []).
      { intros H ->. unfold head_closed in H. destruct (w_mem w) as [| |l0]; try destruct H. 
        rewrite (S1 l0 eq_refl) in *. destruct l0; [destruct H|discriminate Len]. }
      apply sw_bind.
      assert (Y : forall l2 w2, wok w2 -> J (w_disk w2) -> Forall closed l2 ->
        (head_closed (w_mem w) -> l2 <> []) ->
        sw (let l3 := l2 ++ [ {| e_name := name; e_start := v_now v; e_end := None |} ] in
            set_mem (MInit l3);;; write_index l3;;; ret (name, []))
          (fun (_ : string * metrics) w' => wok w' /\ J (w_disk w') /\ exists a e, w_mem w' = MInit (a ++ [e]) /\ good (a ++ [e]) /\
             (head_closed (w_mem w) -> head_closed (MInit a))) w2).
      { intros l2 w2 K2 J2 F2 H2. cbv zeta. apply sw_bind. apply sw_set_mem. apply sw_bind.
        apply sw_write_index; [exact K2|apply good_snoc; exact F2|exact J2|]. intros w3 K3 J3 M3.
        unfold sw, ret. splits; auto. eexists l2, _. splits; [exact M3|apply good_snoc; exact F2|].
        intros H. specialize (H2 H). destruct l2; [congruence|]. inversion F2; subst. assumption. }
      destruct (Z.leb_spec (v_max v) (Z.of_nat (List.length l1))) as [L|L].
      + destruct l1 as [|e [|e2 l1] ]; [cbn in L; lia|cbn in L; lia|].
        apply sw_delete_oldest; [exact K1|exact J1|]. intros w2 K2 J2 M2. apply Y; auto.
        * inversion C2; subst; assumption.
        * discriminate.
      + unfold sw at 1, ret. apply Y; auto.
    - destruct (C3 eq_refl) as (a & e & -> & -> & O). rewrite unsnoc_snoc. apply sw_bind.
      apply sw_read_file; [exact K1|exact J1|]. intros r w2 K2 J2 M2. cbn [w_mem] in M2.
      unfold sw, ret. splits; auto. exists a, e. splits; auto.
      intros H. unfold head_closed in H. destruct (w_mem w) as [| |l0]; try destruct H.
      specialize (S1 l0 eq_refl). subst l0. destruct a as [|x a]; cbn in H; [contradiction|exact H]. }
  unfold sw at 1. unfold sw at 1 in X. destruct (get_or_create_snapshot v name w) as [ [h| | |] w1]; auto.
  destruct X as (K1 & J1 & a & e & M1 & G1 & H1).
  assert (Gi : forall A (f : list entry -> M A) Q, (forall w2, wok w2 -> J (w_disk w2) -> w_mem w2 = MInit (a ++ [e]) ->
    sw (f (a ++ [e])) Q w2) -> sw (l <- get_initialized;; f l) Q w1).
  { intros A f Q Hf. apply sw_bind. apply sw_get_initialized; auto; [rewrite M1; exact G1|].
    intros l w2 K2 J2 M2 _ S2. rewrite (S2 _ M1) in *. auto. }
  destruct (merge_all (snd h) delta) as [|x m].
  - unfold remove_empty_snapshot. apply Gi. intros w2 K2 J2 M2. rewrite unsnoc_snoc. apply sw_bind. apply sw_set_mem.
    pose proof (good_front _ _ G1) as Ga. apply sw_write_index; auto. intros w3 K3 J3 M3. cbn [w_mem] in M3. rewrite M3. splits; auto.
  - unfold write_snapshot. apply Gi. intros w2 K2 J2 M2. rewrite unsnoc_snoc.
    apply sw_write_file; auto. intros w3 K3 J3 M3. rewrite M3, M2. splits; auto.
    intros H. specialize (H1 H). destruct a; [destruct H1|exact H1].
Qed.

Lemma sw_upload_loop : forall v old l w, wok w -> J (w_disk w) -> w_mem w = MInit l -> good l ->
  sw (upload_loop v old l) (fun r w' => J (w_disk w') /\ mgood (w_mem w') /\ (r <> None -> head_closed (w_mem w'))) w.
Proof.
  intros v old. induction l as [|e l IH]; intros w K Jd M G.
  { unfold sw. cbn. rewrite M. splits; auto. congruence. }
  cbn [upload_loop]. destruct (old && _).
  { unfold sw. cbn. rewrite M. splits; auto. congruence. }
  destruct G as [G1 G2]. apply sw_bind.
  assert (Y : forall e1 w1, wok w1 -> J (w_disk w1) -> w_mem w1 = MInit (e1 :: l) -> closed e1 ->
    sw (q <- read_file (e_name e1);;
      match q with
      | Some q => ret (Some {| t_uuid := q_uuid q; t_metrics := q_metrics q;
                               t_start := e_start e1; t_end := e_end e1 |})
      | None => delete_pending_upload (e1 :: l);;; upload_loop v old l
      end) (fun r w' => J (w_disk w') /\ mgood (w_mem w') /\ (r <> None -> head_closed (w_mem w'))) w1).
  { intros e1 w1 K1 J1 M1 C1. apply sw_bind. apply sw_read_file; auto. intros r w2 K2 J2 M2.
    destruct r as [q|].
    - unfold sw, ret. rewrite M2, M1. splits; auto. cbn. auto.
    - apply sw_bind. apply sw_delete_pending; auto. }
  destruct (e_end e) eqn:En.
  - apply Y; auto. unfold closed. congruence.
  - cbv zeta. apply sw_bind. apply sw_set_mem. apply sw_bind. apply sw_write_index; [exact K| |exact Jd|].
    + cbn. split; [right; discriminate|exact G2].
    + intros w2 K2 J2 M2. cbn [w_mem] in M2. unfold sw at 1, ret. apply Y; auto. discriminate.
Qed.
Lemma sw_pending : forall v old w, wok w -> J (w_disk w) -> mgood (w_mem w) ->
  sw (get_or_create_pending_upload v old) (fun r w' => J (w_disk w') /\ mgood (w_mem w') /\ (r <> None -> head_closed (w_mem w'))) w.
Proof.
  intros v old w K Jd G. unfold get_or_create_pending_upload. apply sw_bind. apply sw_get_initialized; auto.
  intros l w' K' J' M' G' _. apply sw_upload_loop; auto.
Qed.
Lemma sw_complete : forall u w, wok w -> J (w_disk w) -> mgood (w_mem w) -> head_closed (w_mem w) ->
  sw (complete_pending_upload u) (fun _ w' => wok w' /\ J (w_disk w') /\ mgood (w_mem w')) w.
Proof.
  intros u w K Jd G H. unfold complete_pending_upload. apply sw_bind. apply sw_get_initialized; auto.
  intros l w' K' J' M' G' S. unfold head_closed in H. destruct (w_mem w) as [| |l0] eqn:M; try destruct H.
  specialize (S l0 eq_refl). subst l0. destruct l as [|e l]; [destruct H|].
  destruct (String.eqb (e_name e) u).
  - apply sw_bind. destruct G' as [_ G']. apply sw_delete_pending; auto. intros w2 K2 J2 M2. unfold sw, ret. rewrite M2. splits; auto.
  - unfold sw, ret. rewrite M'. splits; auto.
Qed.

Record ninv (s : state) : Prop := {
  n_alive : s_alive s = true;
  n_disk : J (s_disk s);
  n_mem : mgood (s_mem s);
  n_flight : s_inflight s <> None -> head_closed (s_mem s)
}.
Lemma restarted_ninv : forall d, J d -> ninv (restarted d).
Proof. intros d H. constructor; cbn; auto; congruence. Qed.

Lemma step_ninv : forall s v ios o, 2 <= v_max v -> Forall (fun i => forall t, i <> IoWriteErr t) ios -> ninv s ->
  ninv (fst (step s v ios o)) /\ ~ In EPanic (snd (step s v ios o)).
Proof.
  intros s v ios o V K I. assert (I0 := I). destruct I as [A Jd G Fl]. unfold step.
  assert (NE : forall r, ~ In EPanic (upload_events v r)).
  { intros r. unfold upload_events. destruct r as [ [t|]|]; [destruct (v_open v)| |]; cbn; intuition discriminate. }
  assert (NF : forall r, upload_inflight v (Some r) <> None -> r <> None).
  { intros r. unfold upload_inflight. destruct r; [discriminate|auto]. }
  destruct o as [st dy n| |su u|]; rewrite ?A.
  - pose proof (sw_merge v n (create_delta st dy) (start s ios) V K Jd G) as S. unfold sw in S.
    destruct (merge_delta_snapshot_to_disk _ _ _ _) as [ [r| | |] w']; try contradiction; try destruct S as (S1 & S2 & S3); cbn.
    + split; [|tauto]. constructor; cbn; auto.
    + split; [apply restarted_ninv; exact S|]. intros [X|[] ]. discriminate.
  - destruct (s_inflight s) eqn:Fe; [cbn; tauto|].
    pose proof (sw_pending v false (start s ios) K Jd G) as S. unfold sw in S.
    destruct (get_or_create_pending_upload _ _ _) as [ [r| | |] w']; try contradiction; try destruct S as (S1 & S2 & S3); cbn [finish fst snd].
    + split; [|apply NE]. constructor; cbn [s_alive s_disk s_mem s_inflight]; auto.
    + split; [apply restarted_ninv; exact S|]. intros [X|[] ]. discriminate.
  - destruct (s_inflight s) eqn:Fe; [|cbn; tauto]. destruct su.
    + cbn [answered fst snd]. 
      pose proof (sw_complete u (start s ios) K Jd G ltac:(apply Fl; discriminate)) as S. unfold sw in S. unfold attempt.
      destruct (complete_pending_upload u (start s ios)) as [ [r| | |] w']; try contradiction; try destruct S as (S1 & S2 & S3).
      * pose proof (sw_pending v true w' S1 S2 S3) as P. unfold sw in P.
        destruct (get_or_create_pending_upload _ _ _) as [ [r'| | |] w2]; try contradiction; try destruct P as (P1 & P2 & P3); cbn [finish fst snd].
        -- split; [constructor; cbn [s_alive s_disk s_mem s_inflight]; auto|]. intros [X|X]; [discriminate|revert X; apply NE].
        -- split; [apply restarted_ninv; exact P|]. intros [X|[X|[] ]]; discriminate.
      * cbn. split; [apply restarted_ninv; exact S|]. intros [X|[X|[] ]]; discriminate.
    + cbn. split; [constructor; cbn; auto; congruence|]. intros [X|[] ]. discriminate.
  - cbn. split; [apply restarted_ninv; exact Jd|]. intros [X|[] ]. discriminate.
Qed.

Lemma no_panic : forall os, no_write_errors os -> Forall (fun x => 2 <= v_max (fst (fst x))) os ->
  ~ In EPanic (snd (run init os)).
Proof.
  intros os. assert (I : ninv init) by (apply restarted_ninv; exact I). revert I. generalize init.
  induction os as [| [ [v ios] o] os IH]; intros s I K V; [cbn; tauto|].
  inversion K as [|? ? K1 K2]; subst. inversion V as [|? ? V1 V2]; subst. cbn [fst snd] in *.
  destruct (step_ninv s v ios o V1 K1 I) as [I' N]. cbn [run]. destruct (step s v ios o) as [s1 t1]. cbn [fst snd] in *.
  specialize (IH s1 I' K2 V2). destruct (run s1 os). cbn [snd] in *. intros H. apply in_app_or in H. tauto.
Qed.

(** * Without failures all files are in the index *)
Definition indexed (f : string -> snap_file) (ns : list string) : Prop :=
  forall n, f n <> FNone -> In n ns /\ exists q, f n = FReq q /\ q_metrics q <> [].

Lemma step_indexed : forall k T used s v o, cinv k T used s -> well_kinded k o ->
  (forall n, In n (op_name (v, [], o)) -> ~ In n used) ->
  ~ In EPanic (snd (step s v [] o)) ->
  indexed (d_files (s_disk s)) (map e_name (index s)) ->
  let s' := fst (step s v [] o) in
  indexed (d_files (s_disk s')) (map e_name (index s')).
Proof.
  intros k T used s v o C Kd F NP X. cbv zeta.
  pose proof (cinv_index _ _ _ _ C) as II. change (index s) with (idx (s_disk s) (s_mem s)) in *.
  pose proof (c_taken _ _ _ _ C) as Tk.
  assert (R : match s_mem s with MInit l => synced l (W (s_disk s) (s_mem s)) | _ => True end).
  { pose proof (s_ready _ _ _ (c_sinv _ _ _ _ C) (c_alive _ _ _ _ C)) as R. exact R. }
  pose proof (c_kinv _ _ _ _ C) as K. pose proof (c_alive _ _ _ _ C) as A.
  pose proof (i_nodup _ _ _ _ II) as ND.
  (* removing unreadable files, and their entries *)
  assert (Up : forall f l pre f' l', indexed f l -> l = pre ++ l' -> (forall n q, In n pre -> f n <> FReq q) ->
    (forall n, f' n = f n \/ f' n = FNone) -> indexed f' l').
  { intros f l pre f' l' H -> P1 P2 n Hn. destruct (P2 n) as [E|E]; [|contradiction]. rewrite E in Hn. rewrite E.
    destruct (H n Hn) as (H1 & q & H2 & H3). split; [|eauto]. apply in_app_or in H1. destruct H1 as [H1|H1]; [|exact H1].
    elim (P1 n q H1 H2). }
  assert (Rm : forall f e l, indexed f (e :: l) -> indexed (set_file f e FNone) l).
  { intros f e l H n Hn. unfold set_file in Hn |- *. destruct (String.eqb_spec n e) as [X0|Ne]; [congruence|].
    destruct (H n Hn) as (H1 & H2). split; [|exact H2]. destruct H1; [congruence|assumption]. }
  revert NP. unfold step. rewrite A. destruct o as [st dy n| |su u|].
  - destruct Kd as [Kd1 Kd2]. rewrite (create_delta_eq st dy Kd1). rewrite start_W.
    destruct (init_eq (s_disk s) (s_mem s) Tk R) as (d1 & E & S1 & SD).
    assert (EQ : merge_delta_snapshot_to_disk v n (st ++ dy) (W (s_disk s) (s_mem s))
               = merge_delta_snapshot_to_disk v n (st ++ dy) (W d1 (MInit (idx (s_disk s) (s_mem s))))).
    { unfold merge_delta_snapshot_to_disk, get_or_create_snapshot. unfold bind at 1. rewrite (init_first _ _ _ _ _ _ E).
      reflexivity. }
    rewrite EQ. clear EQ. set (l := idx (s_disk s) (s_mem s)) in *.
    assert (X1 : indexed (d_files d1) (map e_name l)).
    { destruct SD as [->|[_ ->] ]; [exact X|]. intros m Hm. elim Hm. reflexivity. }
    rewrite flush_eq. pose proof (close_last_names v l) as Nm.
    destruct (close_last v l) as [new l1] eqn:Cl. cbn [snd] in Nm. rewrite <- Nm in X1.
    assert (Fd : forall l2 f, indexed f (map e_name l2) -> ~ In EPanic (snd (finish s (flush_done v n (st ++ dy) l2 f) (fun _ => s_inflight s) (fun _ => []))) ->
      let s' := fst (finish s (flush_done v n (st ++ dy) l2 f) (fun _ => s_inflight s) (fun _ => [])) in
      indexed (d_files (s_disk s')) (map e_name (index s'))).
    { intros l2 f H _. cbv zeta. unfold flush_done. destruct (merge_all [] (st ++ dy)) as [|x m]; cbn; [exact H|].
      intros n' Hn. unfold index. cbn. rewrite map_app. unfold set_file in Hn |- *. destruct (String.eqb_spec n' n) as [X0|X0]; [subst n'|].
      - split; [apply in_or_app; right; left; reflexivity|]. eexists. split; [reflexivity|discriminate].
      - destruct (H n' Hn) as [H1 H2]. split; [apply in_or_app; auto|exact H2]. }
    destruct new.
    + destruct (_ <=? _).
      * destruct l1 as [|e l2]; [cbn; tauto|]. apply Fd. apply Rm. exact X1.
      * apply Fd. exact X1.
    + destruct (unsnoc l1) as [ [a e]|] eqn:U; [|cbn; tauto]. apply unsnoc_some in U. subst l1. cbv zeta. intros _.
      set (h := match d_files d1 (e_name e) with FReq q => (q_uuid q, q_metrics q) | _ => (e_name e, []) end).
      destruct (merge_all_ok k (st ++ dy) (snd h)) as (HK & HE & HA); [|exact Kd2|].
      { unfold h. destruct (d_files d1 (e_name e)) as [| |q] eqn:Fe; try constructor. apply (kinv_sameD k _ _ _ SD K _ _ Fe). }
      destruct (merge_all (snd h) (st ++ dy)) as [|x m]; cbn; unfold index; cbn.
      * destruct (HE eq_refl) as [E1 _]. intros m Hm. destruct (X1 m Hm) as (H1 & q & H2 & H3). split; [|eauto].
        rewrite map_app in H1. apply in_app_or in H1. destruct H1 as [H1|[H1|[] ]]; [exact H1|]. exfalso.
        cbn in H1. subst m. unfold h in E1. rewrite H2 in E1. contradiction.
      * intros m' Hm. unfold set_file in Hm |- *. destruct (String.eqb_spec m' (e_name e)) as [X0|X0]; [subst m'|].
        -- split; [rewrite map_app; apply in_or_app; right; left; reflexivity|]. eexists. split; [reflexivity|discriminate].
        -- apply X1. exact Hm.
  - destruct (s_inflight s) as [u|] eqn:Fl; [intros _; exact X|].
    rewrite start_W. destruct (pending_conserves k T used v false (s_disk s) (s_mem s) Tk R K II) as (r & l' & d' & E & Cs & (pre & P1 & P2) & P3 & P4).
    rewrite E. cbn [finish snd fst]. intros NP. unfold index. cbn [s_mem s_disk]. eapply Up; eauto.
  - destruct (s_inflight s) as [u'|] eqn:Fl; [|intros _; exact X].
    unfold answered. destruct su; [|intros _; exact X].
    rewrite start_W. unfold attempt.
    destruct (init_eq (s_disk s) (s_mem s) Tk R) as (d1 & E & S1 & SD).
    assert (EQ : complete_pending_upload u (W (s_disk s) (s_mem s)) = complete_pending_upload u (W d1 (MInit (idx (s_disk s) (s_mem s))))).
    { unfold complete_pending_upload. apply (init_first _ _ _ _ _ _ E). }
    rewrite EQ. clear EQ. rewrite complete_eq by (apply S1).
    set (l := idx (s_disk s) (s_mem s)) in *.
    destruct l as [|e l0] eqn:El.
    { intros NP. exfalso. apply NP. right. left. reflexivity. }
    assert (d1 = s_disk s) as -> by (destruct SD as [SD|[Y _] ]; [exact SD|discriminate]).
    destruct (String.eqb_spec (e_name e) u) as [Eu|Eu].
    + set (d2 := D (IGood l0) (set_file (d_files (s_disk s)) (e_name e) FNone)).
      assert (II2 : iinv T used l0 (d_files d2)).
      { cbn. eapply iinv_shrinks; [apply shrinks_set; discriminate|]. eapply iinv_tail; eauto. }
      destruct (pending_conserves k T used v true d2 (MInit l0)) as (r & l' & d' & E' & Cs & (pre & P1 & P2) & P3 & P4).
      { discriminate. }
      { split; [reflexivity|left; reflexivity]. }
      { apply kinv_clear. exact K. }
      { exact II2. }
      rewrite E'. cbn [finish snd fst]. intros _. unfold index. cbn [s_mem s_disk].
      eapply Up; [|exact P1|exact P2|exact P4]. apply Rm. exact X.
    + destruct (pending_conserves k T used v true (s_disk s) (MInit (e :: l0))) as (r & l' & d' & E' & Cs & (pre & P1 & P2) & P3 & P4).
      { discriminate. }
      { exact S1. }
      { exact K. }
      { exact II. }
      rewrite E'. cbn [finish snd fst]. intros _. unfold index. cbn [s_mem s_disk]. eapply Up; eauto.
  - intros _. cbn [fst].
    assert (Ix : index (restarted (s_disk s)) = idx (s_disk s) (s_mem s)).
    { unfold index, idx. cbn. destruct (s_mem s) as [| |l] eqn:M; try reflexivity.
      destruct R as [_ [R|[R1 R2] ]]; cbn in *; [rewrite R; reflexivity|]. subst l.
      destruct (d_index (s_disk s)) as [| |x]; try reflexivity. elim (R2 x eq_refl). }
    rewrite Ix. exact X.
Qed.

Lemma files_indexed : forall k os n, no_failures os -> Forall (fun x => well_kinded k (snd x)) os ->
  NoDup (names os) -> ~ In EPanic (snd (run init os)) ->
  d_files (s_disk (fst (run init os))) n <> FNone -> In n (map e_name (index (fst (run init os)))).
Proof.
  intros k os n K Kd N NP. 
  cut (indexed (d_files (s_disk (fst (run init os)))) (map e_name (index (fst (run init os))))).
  { intros H Hn. apply (H n Hn). }
  induction os as [| [ [v ios] o] os IH] using rev_ind.
  { intros m Hm. elim Hm. reflexivity. }
  apply Forall_app in K. destruct K as [K1 K2]. inversion K2 as [|? ? K3 _]; subst. cbn in K3. subst ios.
  apply Forall_app in Kd. destruct Kd as [Kd1 Kd2]. inversion Kd2 as [|? ? Kd3 _]; subst. cbn [snd] in Kd3.
  rewrite run_app in *. cbn [snd] in NP. set (s := fst (run init os)) in *.
  assert (NP1 : ~ In EPanic (snd (run init os))) by (intros H; apply NP; apply in_or_app; auto).
  assert (NP2 : ~ In EPanic (snd (step s v [] o))).
  { intros H; apply NP; apply in_or_app; right. fold s. cbn [run]. destruct (step s v [] o). cbn in *. rewrite app_nil_r. exact H. }
  assert (Nn : names (os ++ [(v, [], o)]) = names os ++ op_name (v, [], o)).
  { unfold names. rewrite flat_map_app. cbn. rewrite app_nil_r. reflexivity. }
  rewrite Nn in N.
  assert (N1 : NoDup (names os)).
  { apply NoDup_rev in N. rewrite rev_app_distr in N. clear -N. rewrite <- (rev_involutive (names os)). apply NoDup_rev.
    induction (rev (op_name (v, [], o))) as [|x l IH]; [exact N|]. inversion N; auto. }
  destruct (run_conserves k os [] [] init (init_cinv k) K1 Kd1 N1) as [C _]; auto. fold s in C.
  rewrite app_nil_r in C. cbn [app] in C.
  assert (Fr : forall m, In m (op_name (v, [], o)) -> ~ In m (rev (names os))).
  { intros m Hm H. apply in_rev in H. clear -N Hm H. induction (names os) as [|x l IH]; [destruct H|].
    inversion N as [|? ? X Y]; subst. destruct H as [->|H]; [apply X; apply in_or_app; auto|auto]. }
  specialize (IH K1 Kd1 N1 NP1).
  pose proof (step_indexed k _ _ s v o C Kd3 Fr NP2 IH) as St. cbv zeta in St. cbn [run fst].
  destruct (step s v [] o). exact St.
Qed.

(** What was sent stays as it is. *)
Lemma frozen : forall os t e q, no_write_errors os -> NoDup (names os) ->
  In (ESent t) (snd (run init os)) ->
  In e (index (fst (run init os))) -> e_name e = t_uuid t ->
  s_alive (fst (run init os)) = true ->
  d_files (s_disk (fst (run init os))) (e_name e) = FReq q ->
  q_metrics q = t_metrics t /\ e_start e = t_start t /\ e_end e = t_end t.
Proof.
  intros os t e q K N S He E A Q.
  destruct (run_inv os [] [] init init_inv) as [ [Dv R] _]; auto; try (intros ? ? []). cbn [app] in *.
  specialize (R A). set (s := fst (run init os)) in *.
  assert (II : iinv (sends_of (snd (run init os))) (rev (names os) ++ []) (index s) (d_files (s_disk s))).
  { unfold ready, start in R. cbn [w_mem] in R. unfold index in *. destruct (s_mem s) as [| |l] eqn:M.
    - destruct Dv as [_ I']. destruct (d_index (s_disk s)); auto; destruct He.
    - destruct Dv as [_ I']. destruct (d_index (s_disk s)); auto; destruct He.
    - apply (synced_iinv _ _ l {| w_disk := s_disk s; w_mem := MInit l; w_io := [] |} Dv R). }
  destruct (i_sent _ _ _ _ II t e) as (X1 & X2 & X3); auto. { apply in_sends. exact S. }
Qed.

(** The oldest file is uploaded. *)
Lemma bind_ok : forall A B (m : M A) (f : A -> M B) w a w', m w = (Ok a, w') -> bind m f w = f a w'.
Proof. intros A B m f w a w' E. unfold bind. rewrite E. reflexivity. Qed.
Lemma oldest_sent : forall k os v e r q, no_failures os -> Forall (fun x => well_kinded k (snd x)) os ->
  NoDup (names os) -> ~ In EPanic (snd (run init os)) ->
  let s := fst (run init os) in
  s_inflight s = None -> index s = e :: r -> d_files (s_disk s) (e_name e) = FReq q -> v_open v = true ->
  exists t, snd (step s v [] UploadTick) = [ESent t] /\ t_uuid t = e_name e /\ t_metrics t = q_metrics q /\
    s_inflight (fst (step s v [] UploadTick)) = Some (e_name e).
Proof.
  intros k os v e r q K Kd N NP s Fl Ix Q Op.
  destruct (run_conserves k os [] [] init (init_cinv k) K Kd N) as [C _]; auto. fold s in C. clearbody s.
  assert (U : q_uuid q = e_name e).
  { pose proof (cinv_index _ _ _ _ C) as II. apply (i_uuid _ _ _ _ II e q); [rewrite Ix; left; reflexivity|exact Q]. }
  assert (X : exists w, get_or_create_pending_upload v false (start s []) =
    (Ok (Some {| t_uuid := e_name e; t_metrics := q_metrics q; t_start := e_start e;
                 t_end := match e_end e with Some t => Some t | None => Some (v_now v) end |}), w)).
  { unfold get_or_create_pending_upload. rewrite start_W.
    destruct (init_eq (s_disk s) (s_mem s) (c_taken _ _ _ _ C)) as (d1 & E & S1 & SD).
    { pose proof (s_ready _ _ _ (c_sinv _ _ _ _ C) (c_alive _ _ _ _ C)) as R. exact R. }
    change (idx (s_disk s) (s_mem s)) with (index s) in *. rewrite Ix in *.
    destruct SD as [->|[SD _] ]; [|discriminate].
    erewrite bind_ok by exact E.
    cbn [upload_loop andb]. unfold W.
    set (e1 := {| e_name := e_name e; e_start := e_start e; e_end := match e_end e with Some t => Some t | None => Some (v_now v) end |}).
    assert (Y : exists w1, d_files (w_disk w1) = d_files (s_disk s) /\ w_io w1 = [] /\
      (match e_end e with
       | Some _ => ret e
       | None =>
           let e1 := {| e_name := e_name e; e_start := e_start e; e_end := Some (v_now v) |} in
           set_mem (MInit (e1 :: r));;; write_index (e1 :: r);;; ret e1
       end) {| w_disk := s_disk s; w_mem := MInit (e :: r); w_io := [] |} = (Ok e1, w1)).
    { unfold e1. destruct (e_end e) as [t|] eqn:En.
      - eexists. splits; [| |unfold ret; rewrite <- En; destruct e; reflexivity]; reflexivity.
      - eexists. splits; [| |reflexivity]; reflexivity. }
    destruct Y as (w1 & Y1 & Y2 & Y). erewrite bind_ok by exact Y.
    erewrite bind_ok.
    2:{ unfold read_file. erewrite bind_ok; [|unfold next_io; rewrite Y2; reflexivity]. cbv beta iota. rewrite Y1.
        change (e_name e1) with (e_name e). rewrite Q. reflexivity. }
    unfold ret. rewrite U. exists w1. reflexivity. }
  destruct X as [w X]. unfold step. rewrite (c_alive _ _ _ _ C), Fl, X. cbn [finish upload_events upload_inflight fst snd s_inflight]. rewrite Op.
  eexists. splits; [reflexivity|reflexivity|reflexivity|reflexivity].
Qed.
