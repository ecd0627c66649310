From Verif Require Import Base Str_Base Handshake_Model Handshake_Spec.
Local Open Scope string_scope. Local Open Scope list_scope.

Lemma get_insert k j v m : get k (insert j v m) = if String.eqb k j then Some v else get k m.
Proof.
  induction m as [|[i w] m IH]; cbn [insert get]; [reflexivity|]. destruct (String.eqb_spec j i) as [E|E]; cbn [get].
  - destruct (String.eqb_spec k j) as [K|K]; [reflexivity|]. destruct (String.eqb_spec k i); [congruence|reflexivity].
  - rewrite IH. destruct (String.eqb_spec k i) as [K|K]; [|reflexivity]. destruct (String.eqb_spec k j); [congruence|reflexivity].
Qed.
Lemma insert_keys j v m : NoDup (List.map fst m) -> NoDup (List.map fst (insert j v m)).
Proof.
  assert (I : forall x l, In x (List.map fst (insert j v l)) -> x = j \/ In x (List.map fst l)).
  { intros x. induction l as [|[i w] l IH]; cbn [insert]; [cbn; intuition|]. destruct (String.eqb_spec j i); cbn [List.map fst In]; intuition. }
  induction m as [|[i w] m IH]; cbn [insert List.map fst]; intros N; [repeat constructor; auto|]. inversion N as [|? ? N1 N2]; subst. destruct (String.eqb_spec j i) as [E|E]; cbn [List.map fst].
  - subst. constructor; auto.
  - constructor; [|auto]. intros X. apply I in X as [X|X]; [congruence|contradiction].
Qed.
Lemma collect_told p sdk inner k : get k (collect p sdk inner) = told p sdk inner k.
Proof. unfold collect, told. rewrite !get_insert. destruct p; reflexivity. Qed.
Lemma collect_keys p sdk inner : NoDup (List.map fst inner) -> NoDup (List.map fst (collect p sdk inner)).
Proof. intros H. unfold collect. repeat apply insert_keys. exact H. Qed.

Lemma merge_text_empty b : merge_text "" b = b.
Proof. unfold merge_text. destruct (String.eqb_spec b ""); congruence. Qed.
Lemma request_two ps meta reason : two_pipes ps -> handshake_request ps meta reason = mkHandshake meta (or_empty reason) (initial Runtime ps) (initial Config ps).
Proof.
  intros H. destruct ps as [|[r1 v1] [|[r2 v2] [|x ps]]]; try (destruct H as [H|H]; discriminate). unfold handshake_request. cbn [fold_left]. 
  assert (X : (r1 = Runtime /\ r2 = Config) \/ (r1 = Config /\ r2 = Runtime)) by (destruct H as [H|H]; cbn in H; inv H; auto).
  destruct X as [[-> ->]|[-> ->]]; unfold merge, partial; cbn [p_role p_version h_meta h_reason h_runtime h_config fold_left]; rewrite !merge_text_empty; reflexivity.
Qed.
Lemma take_two r v ps : two_pipes ps -> two_pipes (List.map (take r v) ps).
Proof. unfold two_pipes. rewrite map_map. assert (E : forall p, p_role (take r v p) = p_role p) by (intros [[] w]; destruct r; reflexivity). rewrite (map_ext _ _ E). auto. Qed.
Lemma take_initial r v ps r' : two_pipes ps -> initial r' (List.map (take r v) ps) = match r', r with Runtime, Runtime | Config, Config => v | _, _ => initial r' ps end.
Proof.
  intros H. destruct ps as [|[r1 v1] [|[r2 v2] [|x ps]]]; try (destruct H as [H|H]; discriminate).
  assert (X : (r1 = Runtime /\ r2 = Config) \/ (r1 = Config /\ r2 = Runtime)) by (destruct H as [H|H]; cbn in H; inv H; auto). destruct X as [[-> ->]|[-> ->]]; destruct r, r'; reflexivity.
Qed.

Lemma run_app key a b s : run key s (a ++ b) = let (s1, e1) := run key s a in let (s2, e2) := run key s1 b in (s2, e1 ++ e2).
Proof.
  revert s. induction a as [|o a IH]; intros s; cbn [app run]; [destruct (run key s b); reflexivity|]. destruct (step key s o) as [s1 e1]. rewrite IH. destruct (run key s1 a) as [s2 e2]. destruct (run key s2 b) as [s3 e3]. rewrite app_assoc. reflexivity.
Qed.
Section History.
Variables (key sdk : string) (p : platform) (inner : map) (ps : list pipe).
Hypothesis two : two_pipes ps.
Definition at_ (s : state) (ph : phase) (h : list seen) : Prop :=
  s_phase s = ph /\ s_meta s = collect p sdk inner /\ or_empty (s_reason s) = last_reason h /\ two_pipes (s_pipes s) /\ forall r, initial r (s_pipes s) = last_version r (initial r ps) h.
Lemma story_at ops ph h : story ops ph h -> at_ (fst (run key (start p sdk inner ps) ops)) ph h.
Proof.
  unfold at_. induction 1 as [|ops c h S IH|ops h S IH|ops r h ph P S IH|ops m h S IH|ops r v h S IH].
  - cbn. auto.
  - rewrite run_app. destruct (run key (start p sdk inner ps) ops) as [s e]. cbn [fst] in IH. destruct IH as (A & B & C & D & E). cbn [run step]. rewrite A. cbn [fst s_phase s_meta s_reason s_pipes or_empty last_reason]. splits; auto.
  - rewrite run_app. destruct (run key (start p sdk inner ps) ops) as [s e]. cbn [fst] in IH. destruct IH as (A & B & C & D & E). cbn [run step]. rewrite A. cbn [fst s_phase s_meta s_reason s_pipes]. splits; auto. inv S. exact C.
  - rewrite run_app. destruct (run key (start p sdk inner ps) ops) as [s e]. cbn [fst] in IH. destruct IH as (A & B & C & D & E). cbn [run step]. rewrite A. destruct P as [-> | ->]; cbn [fst s_phase s_meta s_reason s_pipes or_empty last_reason]; splits; auto.
  - rewrite run_app. destruct (run key (start p sdk inner ps) ops) as [s e]. cbn [fst] in IH. destruct IH as (A & B & C & D & E). cbn [run step]. rewrite A. cbn [fst s_phase s_meta s_reason s_pipes or_empty last_reason]. splits; auto.
  - rewrite run_app. destruct (run key (start p sdk inner ps) ops) as [s e]. cbn [fst] in IH. destruct IH as (A & B & C & D & E). cbn [run step]. rewrite A. cbn [fst s_phase s_meta s_reason s_pipes or_empty]. splits; auto.
    + inv S; exact C.
    + apply take_two. exact D.
    + intros r'. rewrite take_initial by exact D. cbn [last_version]. rewrite E. destruct r', r; reflexivity.
Qed.
Lemma opens ops h c : story ops Top h -> exists o, snd (run key (start p sdk inner ps) (ops ++ [Connect c])) = snd (run key (start p sdk inner ps) ops) ++ [o] /\
  h_meta (o_handshake o) = collect p sdk inner /\ h_reason (o_handshake o) = last_reason h /\
  h_runtime (o_handshake o) = last_version Runtime (initial Runtime ps) h /\ h_config (o_handshake o) = last_version Config (initial Config ps) h /\
  forall k, get k (o_headers o) = if String.eqb k "grpc-accept-encoding" || String.eqb k "grpc-encoding" then (if c then Some "deflate" else None)
    else if String.eqb k "x-bitdrift-api-key" then Some key else if String.eqb k "x-bitdrift-app-id" then Some (match get "app_id" inner with Some a => a | None => "" end)
    else if String.eqb k "content-type" then Some "application/grpc" else None.
Proof.
  intros S. apply story_at in S. rewrite run_app. destruct (run key (start p sdk inner ps) ops) as [s e]. cbn [fst snd] in *. destruct S as (A & B & C & D & E). cbn [run step]. rewrite A. cbn [app]. eexists. split; [reflexivity|]. cbn [o_handshake o_headers].
  rewrite (request_two _ _ _ D). cbn [h_meta h_reason h_runtime h_config]. splits; auto. intros k. unfold headers. rewrite B, collect_told. unfold told. cbn [String.eqb Ascii.eqb Bool.eqb].
  destruct c.
  - rewrite !get_insert. destruct (String.eqb_spec k "grpc-accept-encoding"); cbn [orb]; [reflexivity|]. destruct (String.eqb k "grpc-encoding"); [reflexivity|]. reflexivity.
  - destruct (String.eqb_spec k "grpc-accept-encoding") as [->|_]; [reflexivity|]. destruct (String.eqb_spec k "grpc-encoding") as [->|_]; [reflexivity|]. reflexivity.
Qed.
End History.
Lemma dead_stays key s ops : s_phase s = Dead -> run key s ops = (s, []).
Proof. intros D. induction ops as [|o ops IH]; [reflexivity|]. cbn [run]. assert (E : step key s o = (s, [])) by (unfold step; rewrite D; destruct o; reflexivity). rewrite E, IH. reflexivity. Qed.
Lemma no_more key p sdk inner ps ops h more : two_pipes ps -> story ops Waiting h ->
  snd (run key (start p sdk inner ps) (ops ++ Unauthorized :: more)) = snd (run key (start p sdk inner ps) ops).
Proof.
  intros T S. apply (story_at key sdk p inner ps T) in S. rewrite run_app. destruct (run key (start p sdk inner ps) ops) as [s e]. cbn [fst snd] in *. destruct S as (A & _). cbn [run step]. rewrite A. rewrite (dead_stays key _ more) by reflexivity. cbn. apply app_nil_r.
Qed.
Lemma stories key p sdk inner ps ops : two_pipes ps -> ~ In Unauthorized ops ->
  exists ops' ph h, story ops' ph h /\ run key (start p sdk inner ps) ops' = run key (start p sdk inner ps) ops.
Proof.
  intros T. induction ops as [|o ops IH] using rev_ind; intros N; [exists [], Top, []; split; [constructor|reflexivity]|].
  destruct IH as (ops' & ph & h & S & E); [intros X; apply N, in_or_app; auto|]. pose proof (story_at key sdk p inner ps T _ _ _ S) as (A & _).
  assert (K : (exists ph' h', story (ops' ++ [o]) ph' h') -> exists ops'' ph h, story ops'' ph h /\ run key (start p sdk inner ps) ops'' = run key (start p sdk inner ps) (ops ++ [o])).
  { intros (ph' & h' & S'). exists (ops' ++ [o]), ph', h'. split; [exact S'|]. rewrite !run_app, E. reflexivity. }
  assert (L : step key (fst (run key (start p sdk inner ps) ops')) o = (fst (run key (start p sdk inner ps) ops'), []) -> exists ops'' ph h, story ops'' ph h /\ run key (start p sdk inner ps) ops'' = run key (start p sdk inner ps) (ops ++ [o])).
  { intros F. exists ops', ph, h. split; [exact S|]. rewrite run_app, <- E. destruct (run key (start p sdk inner ps) ops') as [s e]. cbn [fst] in F. cbn [run]. rewrite F. cbn. rewrite app_nil_r. reflexivity. }
  assert (D : ph <> Dead) by (intros ->; inversion S).
  destruct o as [c| |r|m| |r v].
  - destruct ph; try (apply L; unfold step; rewrite A; reflexivity). apply K. do 2 eexists. apply story_connect. exact S.
  - destruct ph; try (apply L; unfold step; rewrite A; reflexivity). apply K. do 2 eexists. apply story_accept. exact S.
  - destruct ph; try (apply L; unfold step; rewrite A; reflexivity); apply K; do 2 eexists; (eapply story_close; [|exact S]; auto).
  - destruct ph; try (apply L; unfold step; rewrite A; reflexivity). apply K. do 2 eexists. apply story_refuse. exact S.
  - exfalso. apply N, in_or_app. cbn. auto.
  - destruct ph; try (apply L; unfold step; rewrite A; reflexivity). apply K. do 2 eexists. apply story_apply. exact S.
Qed.
