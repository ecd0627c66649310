From Verif Require Import Base Str_Base Runtime_Model Runtime_Spec.
Local Open Scope Z_scope.

(** * C36 *)

Lemma get_has : forall m k v, has m k v -> get k m = Some v.
Proof.
  intros m k v [a [b [-> N] ] ]. induction a as [|[x y] a IH]; cbn.
  - rewrite String.eqb_refl. reflexivity.
  - cbn in N. destruct (String.eqb_spec k x) as [->|X]; [exfalso; apply N; left; reflexivity|].
    apply IH. intros H. apply N. right. exact H.
Qed.

Lemma get_absent : forall A (m : list (string * A)) k, ~ In k (map fst m) -> get k m = None.
Proof.
  induction m as [|[x y] m IH]; intros k N; [reflexivity|]. cbn in *.
  destruct (String.eqb_spec k x) as [->|X]; [exfalso; apply N; left; reflexivity|].
  apply IH. intros H. apply N. right. exact H.
Qed.

Lemma get_map_send : forall m w k,
  get k (map (send m) w) = option_map (fun x => (fst x, read_value m k (fst x))) (get k w).
Proof.
  induction w as [|[x [d c] ] w IH]; intros k; [reflexivity|]. cbn.
  destruct (String.eqb_spec k x) as [->|X]; [reflexivity|]. apply IH.
Qed.

(** Every watch shows its default or the value in the snapshot. *)
Definition linv (os : list op) (l : loader) : Prop :=
  l_values l = current os [] /\
  (forall k d c, get k (l_watches l) = Some (d, c) ->
     In (Register k d) os /\ c = read_value (l_values l) k d) /\
  (forall k d, In (Register k d) os -> exists d' c, get k (l_watches l) = Some (d', c)).

Lemma current_app : forall a b d, current (a ++ b) d = current b (current a d).
Proof. induction a as [|[p x|m] a IH]; intros b d; cbn; auto. Qed.

Lemma linv_step : forall os l o, linv os l -> linv (os ++ [o]) (l_step l o).
Proof.
  intros os l o [I1 [I2 I3] ]. destruct o as [p d|m]; cbn.
  - unfold register_watch. destruct (get p (l_watches l)) as [ [d0 c0]|] eqn:G; cbn.
    + split; [rewrite current_app; exact I1|]. split.
      * intros k d' c' H. destruct (I2 _ _ _ H) as [A B]. split; [apply in_or_app; left; exact A|exact B].
      * intros k d' H. apply in_app_or in H. destruct H as [H|[H|[] ] ]; [apply (I3 _ _ H)|].
        inversion H; subst. eauto.
    + split; [rewrite current_app; exact I1|]. split; cbn.
      * intros k d' c' H. destruct (String.eqb_spec k p) as [->|X].
        -- injection H as <- <-. split; [apply in_or_app; right; left; reflexivity|reflexivity].
        -- destruct (I2 _ _ _ H) as [A B]. split; [apply in_or_app; left; exact A|exact B].
      * intros k d' H. destruct (String.eqb_spec k p) as [->|X]; [eauto|].
        apply in_app_or in H. destruct H as [H|[H|[] ] ]; [apply (I3 _ _ H)|]. congruence.
  - unfold update_values. split; [rewrite current_app; reflexivity|]. split; cbn.
    + intros k d' c' H. rewrite get_map_send in H.
      destruct (get k (l_watches l)) as [ [d0 c0]|] eqn:G; [|discriminate]. cbn in H.
      injection H as <- <-. destruct (I2 _ _ _ G) as [A B].
      split; [apply in_or_app; left; exact A|reflexivity].
    + intros k d' H. apply in_app_or in H. destruct H as [H|[H|[] ] ]; [|discriminate].
      destruct (I3 _ _ H) as [d0 [c0 G] ]. rewrite get_map_send, G. cbn. eauto.
Qed.

Lemma linv_run : forall os, linv os (l_run os).
Proof.
  intros os. unfold l_run.
  assert (G : forall b a l, linv a l -> linv (a ++ b) (fold_left l_step b l)).
  { induction b as [|o b IH]; intros a l I; [rewrite app_nil_r; exact I|].
    cbn. replace (a ++ o :: b) with ((a ++ [o]) ++ b) by (rewrite <- app_assoc; reflexivity).
    apply IH. apply linv_step. exact I. }
  apply (G os [] loader_new). split; [reflexivity|]. split; [discriminate|]. intros k d [].
Qed.

Lemma watch_present : forall os p d v x,
  In (Register p d) os -> path_kind os p d -> has (current os []) p v -> typed d v x ->
  read (l_run os) p = Some x.
Proof.
  intros os p d v x R K H T. destruct (linv_run os) as [I1 [I2 I3] ].
  destruct (I3 _ _ R) as [d' [c G] ]. destruct (I2 _ _ _ G) as [A ->].
  unfold read. rewrite G. cbn. f_equal. rewrite I1. unfold read_value. rewrite (get_has _ _ _ H).
  specialize (K _ A). destruct d, d', v; cbn in *; try discriminate; try contradiction; congruence.
Qed.

Lemma watch_absent : forall os p d,
  In (Register p d) os -> path_default os p d -> ~ In p (map fst (current os [])) ->
  read (l_run os) p = Some d.
Proof.
  intros os p d R K H. destruct (linv_run os) as [I1 [I2 I3] ].
  destruct (I3 _ _ R) as [d' [c G] ]. destruct (I2 _ _ _ G) as [A ->].
  unfold read. rewrite G. cbn. f_equal. rewrite I1. unfold read_value. rewrite get_absent by exact H.
  apply K. exact A.
Qed.

(** * C35 *)

(** How many of the numbers below [x] are below 6 modulo 2^32. *)
Definition G (x : Z) : Z := 6 * (x / 4294967296) + Z.min (x mod 4294967296) 6.

Lemma G_mono : forall x, G x <= G (x + 1).
Proof. intros x. unfold G. lia. Qed.
Lemma G_low : forall x, x mod 4294967296 < 6 -> G (x + 1) = G x + 1.
Proof. intros x H. unfold G. lia. Qed.
Lemma G_diff : forall x n, 0 <= n -> G (x + n) - G x <= 6 * (n / 4294967296 + 1).
Proof. intros x n H. unfold G. lia. Qed.
Lemma G_le : forall x n, 0 <= n -> G x <= G (x + n).
Proof. intros x n H. unfold G. lia. Qed.

(** [x] represents the retry count of the cache, if there is one to be read. *)
Definition rep (c : cache) (x : Z) : Prop :=
  match c_retry c with RCount n => n = x mod 4294967296 | _ => True end.
(** Nothing will be applied. *)
Definition spent (c : cache) : Prop :=
  c_pb c = PNone \/ c_retry c = RNone \/ c_retry c = RBad.

Lemma reset_applied : forall c i, applied (reset c i) = [].
Proof. intros c i. unfold reset. destruct (io_reset i); reflexivity. Qed.
Lemma firstn_applied_nil : forall k fs, applied fs = [] -> applied (firstn k fs) = [].
Proof.
  induction k as [|k IH]; intros fs H; [reflexivity|]. destruct fs as [|f fs]; [reflexivity|].
  destruct f; cbn in *; [apply IH; exact H|discriminate].
Qed.

Definition disks_in (P : cache -> Prop) (fs : list fx) : Prop :=
  Forall (fun f => match f with FDisk c => P c | _ => True end) fs.
Lemma perform_in : forall (P : cache -> Prop) fs c, P c -> disks_in P fs -> P (perform c fs).
Proof.
  intros P. induction fs as [|f fs IH]; intros c H F; [exact H|].
  apply Forall_cons_iff in F. destruct F as [F1 F2]. cbn. apply IH; [|exact F2].
  destruct f; cbn; assumption.
Qed.
Lemma firstn_disks : forall P k fs, disks_in P fs -> disks_in P (firstn k fs).
Proof.
  intros P. induction k as [|k IH]; intros fs F; [constructor|]. destruct fs as [|f fs]; [constructor|].
  apply Forall_cons_iff in F. destruct F as [F1 F2]. cbn. constructor; [exact F1|apply IH; exact F2].
Qed.

Lemma reset_disks : forall (P : cache -> Prop) c i,
  P {| c_retry := RNone; c_pb := c_pb c |} -> P {| c_retry := c_retry c; c_pb := PNone |} ->
  P {| c_retry := RNone; c_pb := PNone |} -> disks_in P (reset c i).
Proof.
  intros P c i A B C. unfold reset. destruct (io_reset i); [|constructor].
  destruct (io_order i); repeat constructor; assumption.
Qed.

Lemma start_spent : forall c i cut, spent c ->
  spent (fst (start c i cut)) /\ snd (start c i cut) = [].
Proof.
  intros [r p] i cut S. unfold start. cbn [fst snd].
  assert (B : boot {| c_retry := r; c_pb := p |} i = reset {| c_retry := r; c_pb := p |} i).
  { unfold spent in S. cbn in S. unfold boot. cbn.
    destruct S as [E|[E|E] ]; rewrite E; [destruct r|destruct p|destruct p]; reflexivity. }
  rewrite B. split; [|apply firstn_applied_nil, reset_applied].
  apply perform_in; [exact S|]. apply firstn_disks.
  apply reset_disks; unfold spent in *; cbn in *; tauto.
Qed.

(** One start: nothing is left to apply, or the count is the same and nothing was
    applied, or the count went up. *)
Lemma start_count : forall c i cut x, rep c x ->
  let c' := fst (start c i cut) in let a := snd (start c i cut) in
  (List.length a <= 1)%nat /\
  (spent c' \/ (c_retry c' = c_retry c /\ a = []) \/
    (c_retry c' = RCount ((x + 1) mod 4294967296))) /\
  (a <> [] -> x mod 4294967296 < 6).
Proof.
  intros [r p] i cut x R. cbn zeta. unfold rep in R. cbn in R.
  assert (Sp : spent {| c_retry := r; c_pb := p |} ->
    (List.length (snd (start {| c_retry := r; c_pb := p |} i cut)) <= 1)%nat /\
    (spent (fst (start {| c_retry := r; c_pb := p |} i cut)) \/
      (c_retry (fst (start {| c_retry := r; c_pb := p |} i cut)) = r /\
        snd (start {| c_retry := r; c_pb := p |} i cut) = []) \/
      (c_retry (fst (start {| c_retry := r; c_pb := p |} i cut)) = RCount ((x + 1) mod 4294967296))) /\
    (snd (start {| c_retry := r; c_pb := p |} i cut) <> [] -> x mod 4294967296 < 6)).
  { intros S. destruct (start_spent _ i cut S) as [S1 A]. rewrite A. splits; auto. congruence. }
  destruct r as [| |n]; [apply Sp; right; left; reflexivity|apply Sp; right; right; reflexivity|].
  assert (P : p = PNone \/ p <> PNone) by (destruct p; auto; right; discriminate).
  destruct P as [->|P]; [apply Sp; left; reflexivity|]. clear Sp.
  assert (Nil : forall fs, applied fs = [] -> disks_in (fun c => spent c \/ c_retry c = RCount n \/
      c_retry c = RCount ((x + 1) mod 4294967296)) fs ->
    let c' := perform {| c_retry := RCount n; c_pb := p |} (firstn cut fs) in
    (List.length (applied (firstn cut fs)) <= 1)%nat /\
    (spent c' \/ (c_retry c' = RCount n /\ applied (firstn cut fs) = []) \/
      c_retry c' = RCount ((x + 1) mod 4294967296)) /\
    (applied (firstn cut fs) <> [] -> x mod 4294967296 < 6)).
  { intros fs A D. cbv zeta. rewrite firstn_applied_nil by exact A. splits; [cbn; lia| |congruence].
    assert (Q : (fun c => spent c \/ c_retry c = RCount n \/ c_retry c = RCount ((x + 1) mod 4294967296))
                  (perform {| c_retry := RCount n; c_pb := p |} (firstn cut fs))).
    { apply perform_in; [cbn; auto|]. apply firstn_disks. exact D. }
    cbn beta in Q. tauto. }
  assert (In : incr32 n = (x + 1) mod 4294967296) by (unfold incr32; lia).
  assert (B : boot {| c_retry := RCount n; c_pb := p |} i =
      if negb (io_read i) then reset {| c_retry := RCount n; c_pb := p |} i
      else if negb (io_retry i) then
        (if io_trunc i then FDisk {| c_retry := RBad; c_pb := p |} :: reset {| c_retry := RBad; c_pb := p |} i
         else reset {| c_retry := RCount n; c_pb := p |} i)
      else
        write_retry {| c_retry := RCount n; c_pb := p |} (incr32 n) ++
        (if 5 <? n then reset {| c_retry := RCount (incr32 n); c_pb := p |} i
         else match p with
              | PGood m => if io_read_pb i then
                             FApply m :: (if io_pb i then write_pb i (RCount (incr32 n)) m
                                          else [FDisk {| c_retry := RCount (incr32 n); c_pb := io_torn i |}])
                           else reset {| c_retry := RCount (incr32 n); c_pb := p |} i
              | _ => reset {| c_retry := RCount (incr32 n); c_pb := p |} i
              end)).
  { unfold boot. cbn [c_retry c_pb]. destruct p; [congruence|reflexivity|reflexivity]. }
  unfold start. cbn [fst snd c_retry]. rewrite B. clear B.
  destruct (io_read i); cbn [negb].
  2:{ apply Nil; [apply reset_applied|]. apply reset_disks; unfold spent; cbn; auto. }
  destruct (io_retry i); cbn [negb].
  2:{ destruct (io_trunc i).
      - apply Nil; [cbn; apply reset_applied|].
        constructor; [left; right; right; reflexivity|]. apply reset_disks; unfold spent; cbn; auto.
      - apply Nil; [apply reset_applied|]. apply reset_disks; unfold spent; cbn; auto. }
  rewrite In.
  assert (Rst : let fs := write_retry {| c_retry := RCount n; c_pb := p |} ((x + 1) mod 4294967296) ++
      reset {| c_retry := RCount ((x + 1) mod 4294967296); c_pb := p |} i in
    (List.length (applied (firstn cut fs)) <= 1)%nat /\
    (spent (perform {| c_retry := RCount n; c_pb := p |} (firstn cut fs)) \/
      (c_retry (perform {| c_retry := RCount n; c_pb := p |} (firstn cut fs)) = RCount n /\
       applied (firstn cut fs) = []) \/
      c_retry (perform {| c_retry := RCount n; c_pb := p |} (firstn cut fs)) = RCount ((x + 1) mod 4294967296)) /\
    (applied (firstn cut fs) <> [] -> x mod 4294967296 < 6)).
  { apply Nil; [cbn; apply reset_applied|].
    unfold write_retry. cbn [app]. constructor; [left; right; right; reflexivity|].
    constructor; [auto|]. apply reset_disks; unfold spent; cbn; auto. }
  cbv zeta in Rst.
  destruct (5 <? n) eqn:L; [exact Rst|].
  destruct p as [| |m]; [congruence|exact Rst|].
  destruct (io_read_pb i); [|exact Rst]. clear Rst Nil.
  apply Z.ltb_ge in L. unfold write_retry. cbn [app c_pb c_retry].
  assert (D : disks_in (fun c => c_retry c = RCount ((x + 1) mod 4294967296))
     (if io_pb i then write_pb i (RCount ((x + 1) mod 4294967296)) m
      else [FDisk {| c_retry := RCount ((x + 1) mod 4294967296); c_pb := io_torn i |}])).
  { destruct (io_pb i); repeat constructor. }
  assert (A : applied (if io_pb i then write_pb i (RCount ((x + 1) mod 4294967296)) m
      else [FDisk {| c_retry := RCount ((x + 1) mod 4294967296); c_pb := io_torn i |}]) = []).
  { destruct (io_pb i); reflexivity. }
  remember (if io_pb i then write_pb i (RCount ((x + 1) mod 4294967296)) m
      else [FDisk {| c_retry := RCount ((x + 1) mod 4294967296); c_pb := io_torn i |}]) as fs eqn:Efs.
  clear Efs.
  destruct cut as [|[|[|cut] ] ]; cbn [firstn perform fold_left fx_disk applied].
  - cbn. splits; auto; congruence.
  - cbn. splits; auto; [left; right; right; reflexivity|congruence].
  - cbn. splits; auto; congruence.
  - rewrite firstn_applied_nil by exact A. splits; [cbn; lia| |intros _; lia].
    right. right.
    apply (perform_in (fun c => c_retry c = RCount ((x + 1) mod 4294967296)));
      [reflexivity|apply firstn_disks; exact D].
Qed.

Lemma starts_spent : forall l c, spent c -> spent (fst (starts c l)) /\ List.concat (snd (starts c l)) = [].
Proof.
  induction l as [|[i cut] l IH]; intros c S; [auto|]. cbn [starts].
  destruct (start_spent c i cut S) as [S1 A1]. destruct (start c i cut) as [c1 a1]. cbn in S1, A1. subst a1.
  destruct (IH _ S1) as [S2 A2]. destruct (starts c1 l) as [c2 r2]. cbn in *. auto.
Qed.

Lemma starts_bound : forall l c x, rep c x -> 
  Z.of_nat (List.length (List.concat (snd (starts c l)))) <= G (x + Z.of_nat (List.length l)) - G x.
Proof.
  induction l as [|[i cut] l IH]; intros c x R; [cbn; rewrite Z.add_0_r; lia|]. cbn [starts].
  pose proof (start_count c i cut x R) as P. cbn zeta in P.
  destruct (start c i cut) as [c1 a1]. cbn [fst snd] in P. destruct P as [L [D A] ].
  assert (Mono : G (x + 1) <= G (x + 1 + Z.of_nat (List.length l))) by (apply G_le; lia).
  pose proof (G_mono x) as M1.
  assert (Hn : a1 <> [] -> 1 <= G (x + 1) - G x).
  { intros X. rewrite G_low; [lia|]. apply A, X. }
  assert (La : Z.of_nat (List.length a1) <= G (x + 1) - G x).
  { destruct a1 as [|y a1]; [cbn; lia|]. specialize (Hn ltac:(discriminate)). cbn in *. lia. }
  cbn [List.length]. replace (x + Z.of_nat (S (List.length l))) with (x + 1 + Z.of_nat (List.length l)) by lia.
  destruct D as [D|[ [D1 D2]|D] ].
  - destruct (starts_spent l c1 D) as [_ E]. destruct (starts c1 l) as [c2 r2]. cbn in *.
    rewrite E, app_nil_r. lia.
  - subst a1. assert (R1 : rep c1 x) by (unfold rep in *; rewrite D1; exact R).
    specialize (IH c1 x R1). destruct (starts c1 l) as [c2 r2]. cbn in *.
    pose proof (G_mono (x + Z.of_nat (List.length l))).
    replace (x + 1 + Z.of_nat (List.length l)) with (x + Z.of_nat (List.length l) + 1) by lia. lia.
  - assert (R1 : rep c1 (x + 1)) by (unfold rep; rewrite D; reflexivity).
    specialize (IH c1 (x + 1) R1). destruct (starts c1 l) as [c2 r2]. cbn in *.
    rewrite app_length. lia.
Qed.

Lemma applied_bound : forall c l, valid c ->
  Z.of_nat (List.length (List.concat (snd (starts c l)))) <= 6 * (Z.of_nat (List.length l) / 4294967296 + 1).
Proof.
  intros c l V.
  assert (X : exists x, rep c x).
  { unfold rep, valid in *. destruct (c_retry c) as [| |n]; [exists 0; exact I|exists 0; exact I|].
    exists n. lia. }
  destruct X as [x R]. pose proof (starts_bound l c x R). pose proof (G_diff x (Z.of_nat (List.length l))). lia.
Qed.

(** Complete starts use up the cache. *)
Definition left_to_do (c : cache) : Z :=
  match c_pb c with
  | PNone => 0
  | _ => match c_retry c with RCount n => if n <? 6 then 7 - n else 1 | _ => 1 end
  end.

Lemma reset_perform : forall c i, io_reset i = true -> perform c (reset c i) = {| c_retry := RNone; c_pb := PNone |}.
Proof. intros c i H. unfold reset. rewrite H. reflexivity. Qed.

Lemma complete_step : forall c x, valid c -> complete c x ->
  valid (fst (start c (fst x) (snd x))) /\
  (left_to_do (fst (start c (fst x) (snd x))) <= Z.max 0 (left_to_do c - 1)).
Proof.
  intros [r p] [i cut] V [C3 C4]. cbn [fst snd]. unfold start.
  rewrite firstn_all2 by exact C4. cbn [fst].
  assert (Rs : forall c fs, perform c (fs ++ reset (perform c fs) i) = {| c_retry := RNone; c_pb := PNone |}).
  { intros c fs. unfold perform at 1. rewrite fold_left_app. apply reset_perform. exact C3. }
  unfold boot, valid in *. cbn [c_retry c_pb] in *.
  assert (Done : valid {| c_retry := RNone; c_pb := PNone |} /\
    left_to_do {| c_retry := RNone; c_pb := PNone |} <= Z.max 0 (left_to_do {| c_retry := r; c_pb := p |} - 1))
    by (unfold valid, left_to_do at 1; cbn [c_pb c_retry]; split; [exact I|lia]).
  assert (Rs2 : perform {| c_retry := r; c_pb := p |} (FDisk {| c_retry := RBad; c_pb := p |}
      :: reset {| c_retry := RBad; c_pb := p |} i) = {| c_retry := RNone; c_pb := PNone |})
    by (apply (Rs _ [FDisk {| c_retry := RBad; c_pb := p |}])).
  destruct r as [| |n]; [rewrite reset_perform by exact C3; exact Done
                        |destruct p; rewrite reset_perform by exact C3; exact Done|].
  destruct p as [| |m]; [rewrite reset_perform by exact C3; exact Done| |].
  - destruct (negb (io_read i)); [rewrite reset_perform by exact C3; exact Done|].
    destruct (negb (io_retry i)).
    { destruct (io_trunc i); [rewrite Rs2; exact Done|rewrite reset_perform by exact C3; exact Done]. }
    assert (E : (if 5 <? n then reset {| c_retry := RCount (incr32 n); c_pb := PBad |} i
                 else reset {| c_retry := RCount (incr32 n); c_pb := PBad |} i)
                = reset {| c_retry := RCount (incr32 n); c_pb := PBad |} i) by (destruct (5 <? n); reflexivity).
    rewrite E. rewrite (Rs _ (write_retry {| c_retry := RCount n; c_pb := PBad |} (incr32 n))). exact Done.
  - destruct (negb (io_read i)); [rewrite reset_perform by exact C3; exact Done|].
    destruct (negb (io_retry i)).
    { destruct (io_trunc i); [rewrite Rs2; exact Done|rewrite reset_perform by exact C3; exact Done]. }
    destruct (5 <? n) eqn:L.
    + rewrite (Rs _ (write_retry {| c_retry := RCount n; c_pb := PGood m |} (incr32 n))). exact Done.
    + destruct (io_read_pb i).
      2:{ rewrite (Rs _ (write_retry {| c_retry := RCount n; c_pb := PGood m |} (incr32 n))). exact Done. }
      apply Z.ltb_ge in L.
      assert (In : incr32 n = n + 1) by (unfold incr32; lia). rewrite In. clear Rs Rs2 Done C3 C4.
      assert (Q : forall q, valid {| c_retry := RCount (n + 1); c_pb := q |} /\
        left_to_do {| c_retry := RCount (n + 1); c_pb := q |} <=
          Z.max 0 (left_to_do {| c_retry := RCount n; c_pb := PGood m |} - 1)).
      { intros q. unfold valid, left_to_do. cbn [c_pb c_retry]. split; [lia|].
        rewrite (proj2 (Z.ltb_lt n 6)) by lia.
        destruct q; [lia| |]; (destruct (n + 1 <? 6) eqn:L2; [lia|apply Z.ltb_ge in L2; lia]). }
      destruct (io_pb i); cbn [app perform fold_left fx_disk write_retry write_pb c_retry c_pb]; apply Q.
Qed.

Lemma left_bound : forall c, valid c -> 0 <= left_to_do c <= 7.
Proof.
  intros [r p] V. unfold left_to_do, valid in *. cbn [c_pb c_retry] in *.
  destruct p; [lia| |]; destruct r as [| |n]; try lia; destruct (n <? 6) eqn:L; lia.
Qed.

Lemma starts_app_fst : forall l1 l2 c, fst (starts c (l1 ++ l2)) = fst (starts (fst (starts c l1)) l2).
Proof.
  induction l1 as [|[i cut] l1 IH]; intros l2 c; [reflexivity|]. cbn [app starts].
  destruct (start c i cut) as [c1 a1]. specialize (IH l2 c1).
  destruct (starts c1 (l1 ++ l2)) as [c2 r2]. destruct (starts c1 l1) as [c3 r3]. cbn in *. exact IH.
Qed.

Lemma complete_starts : forall l c, valid c -> all_complete c l ->
  left_to_do (fst (starts c l)) <= Z.max 0 (left_to_do c - Z.of_nat (List.length l)).
Proof.
  induction l as [|[i cut] l IH]; intros c V A; [cbn; lia|].
  destruct A as [A1 A2]. destruct (complete_step c (i, cut) V A1) as [V1 L1].
  cbn [fst snd] in *. cbn [starts]. destruct (start c i cut) as [c1 a1]. cbn [fst] in *.
  specialize (IH _ V1 A2). destruct (starts c1 l) as [c2 r2]. cbn [fst List.length] in *. lia.
Qed.

Lemma discarded : forall c l, valid c -> all_complete c l -> (7 <= List.length l)%nat ->
  c_pb (fst (starts c l)) = PNone.
Proof.
  intros c l V A L. pose proof (complete_starts l c V A) as H. pose proof (left_bound c V) as B.
  assert (Z0 : left_to_do (fst (starts c l)) <= 0) by lia. clear -Z0.
  unfold left_to_do in Z0. destruct (c_pb (fst (starts c l))); [reflexivity| |];
    destruct (c_retry (fst (starts c l))) as [| |n]; try lia; destruct (n <? 6) eqn:E; lia.
Qed.

(** A configuration that lets the client reach the server stays. *)
Lemma good_kept : forall l m,
  Forall (fun i => io_read i = true /\ io_read_pb i = true /\ io_retry i = true /\ io_pb i = true) l ->
  good_starts (update_snapshot m) l = (update_snapshot m, repeat [m] (List.length l)).
Proof.
  induction l as [|i l IH]; intros m F; [reflexivity|].
  apply Forall_cons_iff in F. destruct F as [ [F1 [F2 [F3 F4] ] ] F].
  cbn [good_starts repeat List.length].
  assert (P : perform (update_snapshot m) (boot (update_snapshot m) i) = {| c_retry := RCount 1; c_pb := PGood m |}
              /\ applied (boot (update_snapshot m) i) = [m]).
  { unfold boot, update_snapshot. cbn [c_retry c_pb]. rewrite F1, F2, F3, F4. cbn. auto. }
  destruct P as [P1 P2]. rewrite P1, P2. unfold mark_safe. cbn [c_pb].
  change {| c_retry := RCount 0; c_pb := PGood m |} with (update_snapshot m).
  rewrite IH by exact F. reflexivity.
Qed.

Lemma incompatible : forall os p d d', In (Register p d) os -> path_kind os p d -> kind d' <> kind d ->
  register_watch (l_run os) p d' = (l_run os, false).
Proof.
  intros os p d d' R K N. destruct (linv_run os) as [I1 [I2 I3] ].
  destruct (I3 _ _ R) as [d0 [c G] ]. destruct (I2 _ _ _ G) as [A _]. specialize (K _ A).
  unfold register_watch. rewrite G. f_equal. destruct d, d', d0; cbn in *; congruence.
Qed.

Lemma compatible : forall os p d, (forall d', In (Register p d') os -> kind d' = kind d) -> snd (register_watch (l_run os) p d) = true.
Proof.
  intros os p d K. destruct (linv_run os) as [I1 [I2 I3] ]. unfold register_watch. destruct (get p (l_watches (l_run os))) as [ [d0 c] |] eqn:G; [|reflexivity].
  destruct (I2 _ _ _ G) as [A _]. specialize (K _ A). cbn [snd]. destruct d, d0; cbn in *; congruence.
Qed.
