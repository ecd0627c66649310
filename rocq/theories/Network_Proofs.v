From Verif Require Import Base Str_Base Log_Model Network_Model Network_Spec.
From Coq Require Import DecimalString.
Local Open Scope string_scope.
Local Open Scope list_scope.
Local Open Scope N_scope.

Lemma parse_dec64 : forall n, n < U64 -> parse_u64 (dec_string n) = Some n.
Proof.
  intros n H. destruct (dec_digits n) as (d & -> & Ed & Hd). unfold parse_u64.
  assert (E: (match NilEmpty.string_of_uint d with String "+"%char s' => s' | _ => NilEmpty.string_of_uint d end) = NilEmpty.string_of_uint d).
  { destruct d; reflexivity. }
  rewrite E, NilEmpty.usu, Ed. replace (n <? U64) with true by (symmetry; apply N.ltb_lt; exact H). destruct d; try reflexivity. congruence.
Qed.

(** Decimal numbers. *)
Fixpoint of_acc (d : Decimal.uint) (a : N) : N :=
  match d with
  | Decimal.Nil => a
  | Decimal.D0 d => of_acc d (10 * a + 0) | Decimal.D1 d => of_acc d (10 * a + 1) | Decimal.D2 d => of_acc d (10 * a + 2) | Decimal.D3 d => of_acc d (10 * a + 3)
  | Decimal.D4 d => of_acc d (10 * a + 4) | Decimal.D5 d => of_acc d (10 * a + 5) | Decimal.D6 d => of_acc d (10 * a + 6) | Decimal.D7 d => of_acc d (10 * a + 7)
  | Decimal.D8 d => of_acc d (10 * a + 8) | Decimal.D9 d => of_acc d (10 * a + 9)
  end.
Lemma of_acc_pos : forall d p, Npos (Pos.of_uint_acc d p) = of_acc d (Npos p).
Proof. induction d; intros p; cbn [Pos.of_uint_acc of_acc]; [reflexivity|..]; rewrite IHd; f_equal; lia. Qed.
Lemma of_acc_uint : forall d, N.of_uint d = of_acc d 0.
Proof. induction d; cbn [of_acc]; try (unfold N.of_uint in *; cbn [Pos.of_uint]; rewrite ?of_acc_pos; try exact IHd; reflexivity). Qed.
Lemma reads_char : forall c s a n, (exists d, NilEmpty.uint_of_string (String c s) = Some d /\ n = of_acc d a) <->
  exists k d, Ascii.N_of_ascii c = 48 + k /\ k < 10 /\ NilEmpty.uint_of_string s = Some d /\ n = of_acc d (10 * a + k).
Proof.
  intros c s a n. cbn [NilEmpty.uint_of_string]. destruct (NilEmpty.uint_of_string s) as [d|].
  - split.
    + intros (d' & E & ->). destruct c as [ [|] [|] [|] [|] [|] [|] [|] [|] ]; cbn in E; try discriminate E; inversion E; subst; clear E; cbn [of_acc].
      all: match goal with |- context [of_acc ?d (10 * ?a + ?k)] => exists k, d; splits; [reflexivity|lia|reflexivity|reflexivity] end.
    + intros (k & d' & E & Hk & X & ->). inversion X; subst. clear X.
      assert (K : k = 0 \/ k = 1 \/ k = 2 \/ k = 3 \/ k = 4 \/ k = 5 \/ k = 6 \/ k = 7 \/ k = 8 \/ k = 9) by lia.
      rewrite <- (Ascii.ascii_N_embedding c), E.
      destruct K as [->|[->|[->|[->|[->|[->|[->|[->|[->| ->] ] ] ] ] ] ] ] ]; eexists; (split; [vm_compute; reflexivity|reflexivity]).
  - split; [intros (d & E & _); destruct c as [ [|] [|] [|] [|] [|] [|] [|] [|] ]; discriminate|intros (k & d & _ & _ & X & _); discriminate].
Qed.
Lemma reads_uint : forall s a n, reads s a n <-> exists d, NilEmpty.uint_of_string s = Some d /\ n = of_acc d a.
Proof.
  induction s as [|c s IH]; intros a n.
  - split; [intros H; inversion H; subst; exists Decimal.Nil; auto|intros (d & E & ->); inversion E; subst; constructor].
  - rewrite reads_char. split.
    + intros H. inversion H; subst. apply IH in H6 as (d' & E & ->). exists d, d'. auto.
    + intros (k & d & E & Hk & Es & ->). apply reads_digit with k; auto. apply IH. eauto.
Qed.
Lemma parse_numeral : forall s n, parse_u64 s = Some n <-> numeral s n.
Proof.
  assert (P : forall t n, (match t with EmptyString => None | _ => match NilEmpty.uint_of_string t with Some d => if N.of_uint d <? U64 then Some (N.of_uint d) else None | None => None end end) = Some n <->
    t <> EmptyString /\ n < 2 ^ 64 /\ reads t 0 n).
  { intros t n. rewrite reads_uint. destruct t as [|c t]; [split; [discriminate|intros (H & _); contradiction]|].
    destruct (NilEmpty.uint_of_string (String c t)) as [d|]; [|split; [discriminate|intros (_ & _ & d & E & _); discriminate] ]. rewrite of_acc_uint. change (2 ^ 64) with U64. split.
    - destruct (N.ltb_spec (of_acc d 0) U64); [|discriminate]. intros E. inversion E; subst. splits; [discriminate|assumption|]. exists d. auto.
    - intros (_ & H & d' & E & ->). inversion E; subst. replace (of_acc d' 0 <? U64) with true by (symmetry; apply N.ltb_lt; exact H). reflexivity. }
  assert (NP : forall t a n, ~ reads (String "+"%char t) a n). { intros t a n H. inversion H; subst. change (Ascii.N_of_ascii "+"%char) with 43 in *. lia. }
  intros s n. unfold parse_u64, numeral.
  assert (C : (exists t, s = String "+"%char t) \/ (match s with String "+"%char s' => s' | _ => s end) = s /\ forall t, s <> String "+"%char t).
  { destruct s as [|c s]; [right; split; [reflexivity|discriminate]|]. destruct c as [ [|] [|] [|] [|] [|] [|] [|] [|] ]; try (right; split; [reflexivity|intros t E; discriminate E]). left. eauto. }
  destruct C as [(t & ->)|(E & N)]; cbv zeta.
  - cbn [Ascii.ascii_rect]. rewrite P. split.
    + intros (A & B & D). split; [exact B|]. exists t. auto.
    + intros (B & t' & [<-|E] & A & D); [destruct (NP _ _ _ D)|]. inversion E; subst. auto.
  - rewrite E, P. split.
    + intros (A & B & D). split; [exact B|]. exists s. auto.
    + intros (B & t' & [<-|X] & A & D); [auto|]. destruct (N _ X).
Qed.
Lemma dec_numeral : forall n, n < U64 -> numeral (dec_string n) n.
Proof. intros n H. apply parse_numeral, parse_dec64, H. Qed.

Lemma carries_plus : forall fs k n a, carries fs k n -> a < U64 -> plus a (get_int_field_value fs k) = (a + n) mod U64.
Proof.
  intros fs k n a H Ha. assert (Z : a = (a + 0) mod U64) by (rewrite N.add_0_r, N.mod_small by exact Ha; reflexivity).
  induction H as [k|f fs k n Hk H IH|k x fs|k s fs n Hs H IH|k s fs n Hs]; cbn [get_int_field_value f_key f_val].
  - exact Z.
  - apply String.eqb_neq in Hk. rewrite Hk. exact IH.
  - rewrite String.eqb_refl. exact Z.
  - rewrite String.eqb_refl. cbn [negb]. destruct (parse_u64 s) as [m|] eqn:E; [|exact IH]. apply parse_numeral in E. destruct (Hs _ E).
  - rewrite String.eqb_refl. cbn [negb]. apply parse_numeral in Hs. rewrite Hs. reflexivity.
Qed.
Lemma carries_some : forall fs k, exists n, carries fs k n.
Proof.
  induction fs as [|[k' v] fs IH]; intros k; [exists 0; constructor|]. destruct (IH k) as (n & H). destruct (String.eqb_spec k' k) as [->|Hk].
  - destruct v as [s|x]; [|exists 0; apply carries_bytes]. destruct (parse_u64 s) as [m|] eqn:E.
    + exists m. apply carries_number, parse_numeral, E.
    + exists n. apply carries_text; [|exact H]. intros m Hm. apply parse_numeral in Hm. congruence.
  - exists n. apply carries_other; assumption.
Qed.
Lemma carries_absent : forall fs k, (forall f, In f fs -> f_key f <> k) -> carries fs k 0.
Proof. induction fs as [|f fs IH]; intros k H; constructor; [apply H; left; reflexivity|]. apply IH. intros g Hg. apply H. right. exact Hg. Qed.
Lemma described : forall e, exists v, describes e v.
Proof.
  intros [t ty m fs]. unfold describes. cbn.
  assert (D1 : (ty = 8 /\ m = VStr "HTTPResponse") \/ ~ (ty = 8 /\ m = VStr "HTTPResponse")).
  { destruct (N.eq_dec ty 8); [|tauto]. destruct m as [s|]; [|right; intros [_ E]; discriminate]. destruct (String.eqb_spec s "HTTPResponse") as [->|]; [auto|right; intros [_ E]; congruence]. }
  assert (D2 : (ty = 3 /\ m = VStr "") \/ ~ (ty = 3 /\ m = VStr "")).
  { destruct (N.eq_dec ty 3); [|tauto]. destruct m as [s|]; [|right; intros [_ E]; discriminate]. destruct (String.eqb_spec s "") as [->|]; [auto|right; intros [_ E]; congruence]. }
  destruct D1 as [[-> ->]|D1].
  - destruct (carries_some fs "_request_body_bytes_sent_count") as (a & A), (carries_some fs "_request_headers_bytes_count") as (b & B),
      (carries_some fs "_response_body_bytes_received_count") as (c & C), (carries_some fs "_response_headers_bytes_count") as (d & D). exists (Response t a b c d). auto 10.
  - destruct D2 as [[-> ->]|D2]; [exists (Report t); auto|exists (Other t); auto].
Qed.

(** The periods, with what happened in each. *)
Fixpoint periods (b : N) (l : list event) : list (N * list event) :=
  match l with
  | [] => [(b, [])]
  | Report t :: l => (b, []) :: periods t l
  | e :: l => match periods b l with (b', es) :: ps => (b', e :: es) :: ps | [] => [] end
  end.

Definition sum_of (sel : event -> N) (es : list event) : N := fold_right (fun e n => sel e + n) 0 es.
Definition sum_periods (sel : event -> N) (t : N) (ps : list (N * list event)) : N :=
  fold_right (fun p n => (if t - fst p <=? minute then sum_of sel (snd p) else 0) + n) 0 ps.

Lemma periods_head : forall l b, exists es ps, periods b l = (b, es) :: ps.
Proof.
  induction l as [|e l IH]; intros b; cbn [periods]; [eauto|]. destruct (IH b) as (es & ps & E). destruct e; rewrite ?E; eauto.
Qed.

Lemma traffic_periods : forall sel t l b, traffic sel b t l = sum_periods sel t (periods b l).
Proof.
  intros sel t. induction l as [|e l IH]; intros b; cbn [traffic periods].
  - cbn. destruct (_ <=? _); reflexivity.
  - destruct (periods_head l b) as (es & ps & E). destruct e; rewrite IH, ?E; cbn [sum_periods fold_right fst snd sum_of]; unfold minute;
      destruct (_ <=? _); cbn; try lia; fold (sum_periods sel t (periods t0 l)); reflexivity.
Qed.

Lemma starts_periods : forall l b, starts b l = map fst (periods b l).
Proof.
  induction l as [|e l IH]; intros b; cbn [starts periods]; [reflexivity|]. destruct (periods_head l b) as (es & ps & E).
  destruct e; rewrite IH, ?E; reflexivity.
Qed.

Fixpoint add_last (e : event) (ps : list (N * list event)) : list (N * list event) :=
  match ps with [] => [] | [(b, es)] => [(b, es ++ [e])] | p :: ps => p :: add_last e ps end.

Lemma add_last_cons : forall e p ps, ps <> [] -> add_last e (p :: ps) = p :: add_last e ps.
Proof. intros e [b es] [|q ps] H; [congruence|reflexivity]. Qed.

Lemma periods_snoc : forall l b e, periods b (l ++ [e]) =
  match e with Report t => periods b l ++ [(t, [])] | _ => add_last e (periods b l) end.
Proof.
  induction l as [|x l IH]; intros b e.
  - destruct e; reflexivity.
  - assert (G: forall c, match match e with Report t => periods b l ++ [(t, [])] | _ => add_last e (periods b l) end with
        (b', es) :: ps => (b', c :: es) :: ps | [] => [] end =
      match e with Report t => match periods b l with (b', es) :: ps => (b', c :: es) :: ps | [] => [] end ++ [(t, [])]
      | _ => add_last e (match periods b l with (b', es) :: ps => (b', c :: es) :: ps | [] => [] end) end).
    { intros c. destruct (periods_head l b) as (es & ps & ->). destruct e; try reflexivity; destruct ps; reflexivity. }
    destruct x as [tx a1 a2 a3 a4|tx|tx]; cbn [app periods]; rewrite IH; [apply G| |apply G].
    destruct (periods_head l tx) as (es & ps & ->). destruct e; reflexivity.
Qed.

Definition sample_of (p : N * list event) : sample :=
  mkSample (fst p) (sum_of req_body (snd p) mod U64) (sum_of req_headers (snd p) mod U64)
    (sum_of resp_body (snd p) mod U64) (sum_of resp_headers (snd p) mod U64).
Definition kept (t : N) (p : N * list event) : bool := t - fst p <=? minute.

(** The state: the samples of the periods that the latest report kept. *)
Definition state_of (b : N) (l : list event) : list sample :=
  map sample_of (List.filter (kept (last (map fst (periods b l)) 0)) (periods b l)).

Lemma sum_snoc : forall sel es e, sum_of sel (es ++ [e]) = sum_of sel es + sel e.
Proof. intros sel es e. induction es as [|x es IH]; cbn; [lia|]. unfold sum_of in *. rewrite IH. lia. Qed.

Lemma U64_pos : U64 <> 0.
Proof. discriminate. Qed.

Lemma last_snoc : forall (A : Type) (l : list A) x d, last (l ++ [x]) d = x.
Proof. intros A l x d. apply last_last. Qed.

Lemma update_last_snoc : forall f l s, update_last f (l ++ [s]) = l ++ [f s].
Proof. intros f l s. induction l as [|x [|y l] IH]; cbn in *; [reflexivity..|]. rewrite IH. reflexivity. Qed.
Lemma add_last_snoc : forall e l b es, add_last e (l ++ [(b, es)]) = l ++ [(b, es ++ [e])].
Proof. intros e l b es. induction l as [|x [|y l] IH]; [reflexivity| |]; destruct x; cbn in *; [reflexivity|]. rewrite IH. reflexivity. Qed.

Lemma periods_last : forall l b, exists ps s es, periods b l = ps ++ [(s, es)].
Proof.
  intros l b. destruct (periods_head l b) as (es & ps & E). destruct (exists_last (l := periods b l)) as (q & [s es'] & E'); [congruence|]. eauto.
Qed.

Lemma response_step : forall b l e t a1 a2 a3 a4, describes e (Response t a1 a2 a3 a4) ->
  process_http_response_log (state_of b l) (en_fields e) = state_of b (l ++ [Response t a1 a2 a3 a4]).
Proof.
  intros b l e t a1 a2 a3 a4 (_ & _ & _ & C1 & C2 & C3 & C4). unfold state_of, process_http_response_log.
  rewrite periods_snoc. destruct (periods_last l b) as (ps & s & es & ->). rewrite add_last_snoc, !map_app, !filter_app. cbn [map].
  rewrite !last_snoc. cbn [fst List.filter]. unfold kept at 2 4. cbn [fst]. rewrite N.sub_diag. cbn [N.leb minute N.compare]. rewrite !map_app. cbn [map].
  rewrite update_last_snoc. f_equal. f_equal. unfold add_response, sample_of. cbn [sm_start sm_req_body sm_req_headers sm_resp_body sm_resp_headers fst snd].
  rewrite !sum_snoc. cbn [req_body req_headers resp_body resp_headers].
  pose proof U64_pos.
  rewrite (carries_plus _ _ _ _ C1), (carries_plus _ _ _ _ C2), (carries_plus _ _ _ _ C3), (carries_plus _ _ _ _ C4) by (apply N.mod_lt; exact U64_pos).
  rewrite !N.add_mod_idemp_l by exact U64_pos. reflexivity.
Qed.

Lemma other_step : forall b l t, state_of b (l ++ [Other t]) = state_of b l.
Proof.
  intros b l t. unfold state_of. rewrite periods_snoc. destruct (periods_last l b) as (ps & s & es & ->).
  rewrite add_last_snoc, !map_app, !filter_app. cbn [map]. rewrite !last_snoc. cbn [fst List.filter]. unfold kept at 2 4. cbn [fst].
  rewrite N.sub_diag. cbn [N.leb minute N.compare]. rewrite !map_app. cbn [map]. unfold sample_of at 2 4. cbn [fst snd]. rewrite !sum_snoc.
  cbn [req_body req_headers resp_body resp_headers]. rewrite !N.add_0_r. reflexivity.
Qed.

Lemma filter_map : forall (A B : Type) (f : A -> B) (p : B -> bool) l, List.filter p (map f l) = map f (List.filter (fun a => p (f a)) l).
Proof. intros A B f p l. induction l as [|x l IH]; cbn; [reflexivity|]. destruct (p (f x)); cbn; rewrite IH; reflexivity. Qed.

Lemma filter_filter : forall (A : Type) (p q : A -> bool) l, (forall x, p x = true -> q x = true) -> List.filter p (List.filter q l) = List.filter p l.
Proof.
  intros A p q l H. induction l as [|x l IH]; cbn; [reflexivity|]. destruct (q x) eqn:E; cbn; [destruct (p x); rewrite IH; reflexivity|].
  destruct (p x) eqn:E'; [apply H in E'; congruence|exact IH].
Qed.

Lemma filter_shorter : forall (A : Type) (p : A -> bool) l, Nat.ltb (List.length (List.filter p l)) (List.length l) = true <-> exists x, In x l /\ p x = false.
Proof.
  intros A p l. rewrite Nat.ltb_lt. induction l as [|x l IH]; cbn; [split; [lia|intros (x & [] & _)]|].
  assert (L: (List.length (List.filter p l) <= List.length l)%nat) by (clear; induction l as [|y l IH]; cbn; [lia|]; destruct (p y); cbn; lia).
  destruct (p x) eqn:E; cbn.
  - split.
    + intros H. destruct (proj1 IH) as (y & Hy & E'); [lia|]. eauto.
    + intros (y & [->|Hy] & E'); [congruence|]. enough (List.length (List.filter p l) < List.length l)%nat by lia. apply IH. eauto.
  - split; [eauto|lia].
Qed.

Lemma last_le : forall l b, ordered b l -> forall t, (forall e, In e l -> at_time e <= t) -> b <= t -> last (map fst (periods b l)) 0 <= t.
Proof.
  intros l b. revert b. induction l as [|e l IH] using rev_ind; intros b O t H Hb; [exact Hb|].
  rewrite periods_snoc. assert (O': ordered b l). { clear -O. revert b O. induction l as [|x l IH]; cbn; [trivial|]. intros b [H O]. split; [exact H|]. apply IH, O. }
  specialize (IH b O' t (fun e' He' => H e' (in_or_app _ _ _ (or_introl He'))) Hb).
  destruct e as [tt a1 a2 a3 a4|tt|tt].
  - destruct (periods_last l b) as (ps & s & es & E). rewrite E in *. rewrite add_last_snoc, map_app in *. cbn [map] in *. rewrite last_snoc in *. exact IH.
  - rewrite map_app. cbn [map]. rewrite last_snoc. apply (H (Report tt)). apply in_or_app. right. now left.
  - destruct (periods_last l b) as (ps & s & es & E). rewrite E in *. rewrite add_last_snoc, map_app in *. cbn [map] in *. rewrite last_snoc in *. exact IH.
Qed.

Lemma accumulate_sum : forall ps r, 
  fold_left accumulate (map sample_of ps) r =
  mkSample (sm_start r)
    (match ps with [] => sm_req_body r | _ => (sm_req_body r + fold_right (fun p n => sum_of req_body (snd p) + n) 0 ps) mod U64 end)
    (match ps with [] => sm_req_headers r | _ => (sm_req_headers r + fold_right (fun p n => sum_of req_headers (snd p) + n) 0 ps) mod U64 end)
    (match ps with [] => sm_resp_body r | _ => (sm_resp_body r + fold_right (fun p n => sum_of resp_body (snd p) + n) 0 ps) mod U64 end)
    (match ps with [] => sm_resp_headers r | _ => (sm_resp_headers r + fold_right (fun p n => sum_of resp_headers (snd p) + n) 0 ps) mod U64 end).
Proof.
  pose proof U64_pos as Hu.
  induction ps as [|p ps IH]; intros r; cbn [map fold_left]; [destruct r; reflexivity|].
  rewrite IH. unfold accumulate, sample_of, add64. cbn [sm_start sm_req_body sm_req_headers sm_resp_body sm_resp_headers fold_right].
  f_equal; (destruct ps as [|q ps]; [cbn [fold_right]; rewrite N.add_0_r, N.add_mod_idemp_r by exact Hu; reflexivity|]);
    rewrite N.add_mod_idemp_l by exact Hu;
    (match goal with |- context [fold_right ?f 0 ?l] => set (z := fold_right f 0 l) end);
    rewrite <- N.add_assoc, (N.add_comm (_ mod U64)), N.add_assoc, N.add_mod_idemp_r by exact Hu; f_equal; lia.
Qed.

Lemma sum_periods_filter : forall sel t ps, sum_periods sel t ps = fold_right (fun p n => sum_of sel (snd p) + n) 0 (List.filter (kept t) ps).
Proof. intros sel t ps. induction ps as [|p ps IH]; cbn; [reflexivity|]. unfold kept at 1. destruct (_ <=? _); cbn; unfold sum_periods in *; rewrite IH; lia. Qed.

Lemma sum_add : forall f g h es, (forall e, h e = f e + g e) -> sum_of h es = sum_of f es + sum_of g es.
Proof. intros f g h es H. induction es as [|e es IH]; cbn; [reflexivity|]. unfold sum_of in *. rewrite IH, H. lia. Qed.
Lemma sum_periods_add : forall f g h t ps, (forall e, h e = f e + g e) -> sum_periods h t ps = sum_periods f t ps + sum_periods g t ps.
Proof.
  intros f g h t ps H. induction ps as [|p ps IH]; cbn; [reflexivity|]. unfold sum_periods in *. rewrite IH, (sum_add f g h) by exact H.
  destruct (_ <=? _); lia.
Qed.

Lemma ordered_snoc_report : forall t y x, ordered x (y ++ [Report t]) -> ordered x y /\ x <= t /\ forall e, In e y -> at_time e <= t.
Proof.
  intros t y. induction y as [|e y IH]; cbn; intros x [H O]; [splits; [trivial|exact H|intros e []]|].
  destruct (IH _ O) as (O1 & H1 & H2). splits; [exact H|exact O1|lia|]. intros e' [<-|He']; [exact H1|apply H2; exact He'].
Qed.

Lemma kept_now : forall b l t, ordered b (l ++ [Report t]) ->
  List.filter (fun s => t - sm_start s <=? minute) (state_of b l) = map sample_of (List.filter (kept t) (periods b l)).
Proof.
  intros b l t O. destruct (ordered_snoc_report _ _ _ O) as (O1 & Hb & Ht).
  pose proof (last_le l b O1 t Ht Hb) as Hu. unfold state_of. rewrite filter_map. cbn [sm_start sample_of]. 
  apply (f_equal (map sample_of)). apply (filter_filter _ (kept t)). intros x. unfold kept. rewrite !N.leb_le. lia.
Qed.

Lemma state_report : forall b l t, map sample_of (List.filter (kept t) (periods b l)) ++ [sample_new t] = state_of b (l ++ [Report t]).
Proof.
  intros b l t. unfold state_of. rewrite periods_snoc, map_app. cbn [map]. rewrite last_snoc. cbn [fst]. rewrite filter_app, map_app. cbn [List.filter].
  replace (kept t (t, [])) with true by (unfold kept; cbn [fst]; rewrite N.sub_diag; reflexivity). reflexivity.
Qed.

Lemma due_removed : forall b l t,
  (Nat.ltb (List.length (List.filter (fun s => t - sm_start s <=? minute) (state_of b l))) (List.length (state_of b l)) = true) <-> due b t l.
Proof.
  intros b l t. rewrite filter_shorter. unfold due. rewrite starts_periods. unfold state_of. split.
  - intros (s & Hs & E). apply in_map_iff in Hs. destruct Hs as (p & <- & Hp). apply filter_In in Hp. destruct Hp as (Hp & Hk). exists (fst p).
    split; [apply in_map; exact Hp|]. unfold kept in Hk. cbn [sm_start sample_of] in E. apply N.leb_le in Hk. apply N.leb_gt in E. split; assumption.
  - intros (s & Hs & H1 & H2). apply in_map_iff in Hs. destruct Hs as (p & <- & Hp). exists (sample_of p). split.
    + apply in_map. apply filter_In. split; [exact Hp|]. apply N.leb_le. exact H1.
    + cbn [sm_start sample_of]. apply N.leb_gt. exact H2.
Qed.

Lemma six_sums : forall b l t, let s := fold_left accumulate (map sample_of (List.filter (kept t) (periods b l))) (sample_new t) in
  add64 (sm_req_body s) (sm_req_headers s) = traffic req_all b t l mod U64 /\ sm_req_body s = traffic req_body b t l mod U64 /\
  sm_req_headers s = traffic req_headers b t l mod U64 /\ add64 (sm_resp_body s) (sm_resp_headers s) = traffic resp_all b t l mod U64 /\ sm_resp_body s = traffic resp_body b t l mod U64 /\
  sm_resp_headers s = traffic resp_headers b t l mod U64.
Proof.
  intros b l t. cbn zeta. rewrite !traffic_periods, (sum_periods_add req_body req_headers req_all), (sum_periods_add resp_body resp_headers resp_all) by reflexivity.
  rewrite !sum_periods_filter, accumulate_sum. set (ps := List.filter (kept t) (periods b l)).
  cbn [sm_start sm_req_body sm_req_headers sm_resp_body sm_resp_headers sample_new]. unfold add64.
  destruct ps as [|p ps]; [splits; reflexivity|]. cbn [fold_right]. rewrite !N.add_0_l. rewrite <- !N.add_mod by exact U64_pos. splits; reflexivity.
Qed.

Lemma report_step : forall b l t, ordered b (l ++ [Report t]) ->
  exists fs, process_resource_utilization_log t (state_of b l) = (state_of b (l ++ [Report t]), fs) /\    ((due b t l /\ fs = six b t l) \/ (~ due b t l /\ fs = [])).
Proof.
  intros b l t O. unfold process_resource_utilization_log, get_summary_sample. pose proof (due_removed b l t) as D.
  destruct (Nat.ltb _ _); rewrite (kept_now b l t O), state_report.
  - eexists. split; [reflexivity|]. left. split; [apply D; reflexivity|]. unfold six, create_int_field.
    destruct (six_sums b l t) as (E1 & E2 & E3 & E4 & E5 & E6). rewrite E1, E2, E3, E4, E5, E6. reflexivity.
  - eexists. split; [reflexivity|]. right. split; [|reflexivity]. intros Hd. apply D in Hd. discriminate.
Qed.

(** What each log looks like afterwards. *)
Lemma ordered_app : forall l1 l2 b, ordered b (l1 ++ l2) -> ordered b l1.
Proof. induction l1 as [|e l1 IH]; cbn; [trivial|]. intros l2 b [H O]. split; [exact H|]. eapply IH, O. Qed.

Lemma run_answers : forall es vs b before, Forall2 describes es vs -> ordered b (before ++ vs) ->
  answers b before es vs (snd (run (state_of b before) es)).
Proof.
  induction es as [|e es IH]; intros vs b before D O; inv D; cbn [run snd answers]; [trivial|].
  rename y into v. rename l' into vs. assert (O': ordered b ((before ++ [v]) ++ vs)) by (rewrite <- app_assoc; exact O).
  enough (P: exists fs, process (en_time e) (state_of b before) (en_type e) (en_msg e) (en_fields e) = (state_of b (before ++ [v]), fs) /\ answer b before e v fs).
  { destruct P as (fs & -> & A). specialize (IH vs b (before ++ [v]) H3 O'). destruct (run _ es) as [c fss]. cbn [snd] in *. split; assumption. }
  destruct v as [t a1 a2 a3 a4|t|t].
  - pose proof H1 as (Et & Ety & Em & _). unfold process. rewrite Em, Ety. cbn [N.eqb Pos.eqb String.eqb Ascii.eqb Bool.eqb andb].
    rewrite (response_step b before e t a1 a2 a3 a4 H1). eexists. split; reflexivity.
  - destruct H1 as (Et & Ety & Em). unfold process. rewrite Em, Ety, Et. cbn [N.eqb Pos.eqb String.eqb andb].
    destruct (report_step b before t) as (fs & -> & A). { apply ordered_app in O'. exact O'. }
    eexists. split; [reflexivity|]. cbn [answer]. destruct A as [[A ->] | [A ->]]; [left|right]; split; try exact A; [reflexivity|]. apply app_nil_r.
  - destruct H1 as (Et & H1 & H2). rewrite other_step. exists (en_fields e). split; [|reflexivity]. unfold process.
    destruct (en_msg e) as [m|m]; [|reflexivity].
    destruct (N.eqb_spec (en_type e) 8), (N.eqb_spec (en_type e) 3), (String.eqb_spec m "HTTPResponse"), (String.eqb_spec m ""); subst; cbn [andb]; try reflexivity;
      exfalso; first [congruence | apply H1; split; [assumption|reflexivity] | apply H2; split; [assumption|reflexivity] ].
Qed.

(** The window. *)
Lemma total_false : forall sel p l, (forall e, In e l -> p (at_time e) = false) -> total sel p l = 0.
Proof. intros sel p l H. induction l as [|e l IH]; cbn; [reflexivity|]. rewrite H by now left. rewrite IH; [reflexivity|]. intros x Hx. apply H. now right. Qed.
Lemma ordered_ge : forall l b, ordered b l -> forall e, In e l -> b <= at_time e.
Proof. induction l as [|x l IH]; cbn; intros b O e He; [contradiction|]. destruct O as [H O], He as [<-|He]; [exact H|]. specialize (IH _ O e He). lia. Qed.

Lemma within : forall p l b tt, ordered tt l -> regular p b l -> last (starts b l) 0 = b \/ tt <= b + p.
Proof.
  intros p. induction l as [|e l IH]; intros b tt O R; [now left|]. destruct O as [H O]. destruct e as [te a1 a2 a3 a4|te|te]; cbn [starts regular at_time] in *.
  - destruct (IH b te O R); [now left|right; lia].
  - right. lia.
  - destruct (IH b te O R); [now left|right; lia].
Qed.

Lemma starts_ne : forall l b, starts b l <> [].
Proof. induction l as [|[] l IH]; intros b; cbn; congruence || apply IH. Qed.

Lemma window : forall sel p t l b, (forall x, sel (Report x) = 0) -> ordered b l -> regular p b l -> 
  (forall e, In e l -> at_time e <= t) -> t - last (starts b l) 0 <= p -> p <= minute ->
  total sel (fun x => t - minute + p <? x) l <= traffic sel b t l <= total sel (fun x => t - minute <=? x) l.
Proof.
  intros sel p t l b Hs. revert b. induction l as [|e l IH]; intros b O R B L P; [cbn; lia|].
  destruct O as [Ho O].
  assert (Ot: ordered b l). { destruct l as [|x l]; [exact Logic.I|]. destruct O as [H O]. split; [lia|exact O]. }
  assert (Bt: forall x, In x l -> at_time x <= t) by (intros x Hx; apply B; now right).
  assert (Be: at_time e <= t) by (apply B; now left).
  destruct e as [tt a1 a2 a3 a4|tt|tt]; cbn [starts regular total traffic at_time] in *.
  - specialize (IH b Ot R Bt L P). fold minute. destruct (within p l b tt O R) as [E|E];
      destruct (N.leb_spec (t - b) minute), (N.ltb_spec (t - minute + p) tt), (N.leb_spec (t - minute) tt); try lia.
  - assert (L': t - last (starts tt l) 0 <= p). { destruct (starts tt l) eqn:E; [exfalso; eapply starts_ne, E|exact L]. }
    specialize (IH tt O (proj2 R) Bt L' P). rewrite Hs. destruct (_ <? tt), (_ <=? tt); lia.
  - specialize (IH b Ot R Bt L P). fold minute. destruct (within p l b tt O R) as [E|E];
      destruct (N.leb_spec (t - b) minute), (N.ltb_spec (t - minute + p) tt), (N.leb_spec (t - minute) tt); try lia.
Qed.

Lemma run_new : forall es vs b, Forall2 describes es vs -> ordered b vs -> answers b [] es vs (snd (run (new b) es)).
Proof.
  intros es vs b D O. replace (new b) with (state_of b []); [apply run_answers; assumption|].
  unfold state_of. cbn [periods map last fst List.filter]. unfold kept. cbn [fst]. rewrite N.sub_diag. reflexivity.
Qed.
