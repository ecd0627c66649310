(** C157: a call reaches the method it is for. *)
From Verif Require Import Base Str_Base Paths_Model Paths_Spec Paths_Proofs.
Local Open Scope string_scope. Local Open Scope list_scope.

(** A method can be named exactly if the file defines it with the types of the caller. *)
Theorem C157_defined : forall f svc name out inc, well_formed f -> ((exists p, new_with_fd f svc name out inc = Path p) <-> defines f svc name out inc).
Proof. intros f svc name out inc W. split; [intros [p E]; exact (proj1 (made_defined _ _ _ _ _ _ E))|]. intros D. eexists. apply defined_made; assumption. Qed.

(** In a file with a package it has the path that gRPC asks for. Missing: files without a package. *)
Theorem C157_path_partial : forall f svc name out inc p, new_with_fd f svc name out inc = Path p -> f_package f <> "" -> p = grpc_path (f_package f) svc name.
Proof. intros f svc name out inc p E N. destruct (made_defined _ _ _ _ _ _ E) as [_ ->]. unfold grpc_path. destruct (String.eqb_spec (f_package f) ""); [contradiction|reflexivity]. Qed.

(** Without a package, no method has it: the path has a dot in front. *)
Theorem C157_no_package_refuted : forall f svc name out inc p, new_with_fd f svc name out inc = Path p -> f_package f = "" -> free "." svc -> p <> grpc_path (f_package f) svc name.
Proof.
  intros f svc name out inc p E N F. destruct (made_defined _ _ _ _ _ _ E) as [_ ->]. rewrite N. cbn. intros X. inversion X as [Y]. destruct svc as [|c svc]; cbn in *; [discriminate|]. inversion Y; subst. tauto.
Qed.

(** Different methods have different paths. *)
Theorem C157_distinct : forall f svc name out inc f' svc' name' out' inc' p,
  new_with_fd f svc name out inc = Path p -> new_with_fd f' svc' name' out' inc' = Path p -> named (f_package f) svc name -> named (f_package f') svc' name' ->
  f_package f = f_package f' /\ svc = svc' /\ name = name'.
Proof. intros f svc name out inc f' svc' name' out' inc' p E E' A B. destruct (made_defined _ _ _ _ _ _ E) as [_ ->]. destruct (made_defined _ _ _ _ _ _ E') as [_ X]. exact (path_inj _ _ _ _ _ _ A B X). Qed.

(** What a server registers: methods by package, service and name, each with its path and handler. *)
Definition registered {H : Type} (ms : list ((string * string * string) * (string * H))) : Prop :=
  NoDup (map fst ms) /\ forall pkg svc name p h, In ((pkg, svc, name), (p, h)) ms -> named pkg svc name /\ exists f out inc, f_package f = pkg /\ new_with_fd f svc name out inc = Path p.
(** A server can register any different methods, and a call of one of them by a client, from whatever file of that package it has it, reaches its handler. *)
Theorem C157_routed : forall (H : Type) (ms : list ((string * string * string) * (string * H))), registered ms ->
  exists routes, register [] (map snd ms) = Some routes /\
    forall pkg svc name p h, In ((pkg, svc, name), (p, h)) ms -> forall f out inc q, f_package f = pkg -> new_with_fd f svc name out inc = Path q -> dispatch routes q = Some h.
Proof.
  intros H ms [D R].
  assert (N : NoDup (map fst (map snd ms))).
  { clear -D R. induction ms as [|[[[pkg svc] name] [p h]] ms IH]; cbn; [constructor|]. cbn in D. inversion D as [|? ? D1 D2]; subst. constructor; [|apply IH; [exact D2|intros; apply (R pkg0 svc0 name0 p0 h0); right; assumption]].
    intros I. rewrite map_map in I. apply in_map_iff in I as ([[[pkg' svc'] name'] [p' h']] & E & I). cbn in E. subst p'. apply D1. destruct (R _ _ _ _ _ (or_introl eq_refl)) as (A & f & o & i & F & P). destruct (R _ _ _ _ _ (or_intror I)) as (A' & f' & o' & i' & F' & P').
    subst. destruct (C157_distinct _ _ _ _ _ _ _ _ _ _ _ P P' A A') as (-> & -> & ->). apply (in_map fst) in I. exact I. }
  exists (map snd ms). split; [apply (register_ok (map snd ms) []); exact N|]. intros pkg svc name p h I f out inc q F Q. apply dispatch_in; [exact N|].
  destruct (R _ _ _ _ _ I) as (_ & f' & o' & i' & F' & P'). destruct (made_defined _ _ _ _ _ _ Q) as [_ ->]. destruct (made_defined _ _ _ _ _ _ P') as [_ X]. rewrite F. rewrite F' in X. rewrite <- X. apply (in_map snd) in I. exact I.
Qed.
Print Assumptions C157_defined.
Print Assumptions C157_path_partial.
Print Assumptions C157_no_package_refuted.
Print Assumptions C157_distinct.
Print Assumptions C157_routed.

(** A file with two services that share the name of a method. *)
Definition toy_file pkg := mkFile pkg [mkService "Api" [mkMethod "Mux" "Req" "Res"; mkMethod "Ping" "P" "Q"]; mkService "Admin" [mkMethod "Ping" "P" "Q"]].
Example C157_case : new_with_fd (toy_file "bitdrift.v1") "Admin" "Ping" "P" "Q" = Path "/bitdrift.v1.Admin/Ping" /\ new_with_fd (toy_file "bitdrift.v1") "Api" "Ping" "P" "X" = WrongOutput /\
  new_with_fd (toy_file "bitdrift.v1") "Admin" "Mux" "Req" "Res" = NoMethod /\ new_with_fd (toy_file "") "Api" "Mux" "Req" "Res" = Path "/.Api/Mux" /\ grpc_path "" "Api" "Mux" = "/Api/Mux".
Proof. splits; reflexivity. Qed.
Example C157_well_formed : well_formed (toy_file "bitdrift.v1").
Proof. split; [repeat constructor; cbn; intuition discriminate|]. intros s [<-|[<-|[]]]; repeat constructor; cbn; intuition discriminate. Qed.
Example C157_registered : registered [(("bitdrift.v1", "Api", "Ping"), ("/bitdrift.v1.Api/Ping", 1%nat)); (("bitdrift.v1", "Admin", "Ping"), ("/bitdrift.v1.Admin/Ping", 2%nat))].
Proof.
  split; [repeat constructor; cbn; intuition discriminate|]. intros pkg svc name p h I. cbn in I.
  destruct I as [I|[I|[]]]; inversion I; subst; (split; [unfold named; cbn; intuition discriminate|]; exists (toy_file "bitdrift.v1"), "P", "Q"; split; reflexivity).
Qed.
