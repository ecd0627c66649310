(** C32: logs received before the first configuration. *)
From Verif Require Import Base PreConfig_Model PreConfig_Spec PreConfig_Proofs.

(** For every history whose first configuration is c: the logs before c that fit are processed first, once, in order and under c; then the
    later ones, in order, each under the configuration in force. Which ones fit is given by [kept]. *)
Theorem C32_replayed_first : forall (L M F C : Type) (size : L -> N) (build : F -> M -> option L) (h1 h2 : list (msg M F C)) c f max_count max_size,
  no_config h1 ->
  exists ks, kept size max_count max_size (logs build f h1) ks /\
    a_out (run size build (alb_new max_count max_size f) (h1 ++ Config c :: h2)) = map (fun l => (c, l)) ks ++ logs_under build c (fields_after f h1) h2.
Proof. exact (@replay_first). Qed.
Print Assumptions C32_replayed_first.

(** Before any configuration nothing is processed and the buffer is within its limits. *)
Theorem C32_within_limits : forall (L M F C : Type) (size : L -> N) (build : F -> M -> option L) (h : list (msg M F C)) f max_count max_size,
  no_config h ->
  exists p, a_state (run size build (alb_new max_count max_size f) h) = Uninitialized p /\
    a_out (run size build (alb_new max_count max_size f) h) = [] /\
    kept size max_count max_size (logs build f h) (p_items p) /\
    (bytes size (p_items p) <= max_size)%N /\ (N.of_nat (length (p_items p)) <= max_count)%N.
Proof. exact (@nothing_before). Qed.
Print Assumptions C32_within_limits.

(** [kept] leaves no freedom, and keeps everything when everything fits. *)
Theorem C32_kept_all : forall (L : Type) (size : L -> N) (ls : list L) max_count max_size ks,
  (bytes size ls <= max_size)%N -> (N.of_nat (length ls) <= max_count)%N -> kept size max_count max_size ls ks -> ks = ls.
Proof. intros L size ls mc ms ks Hb Hn H. exact (kept_functional size _ _ _ _ H _ (kept_total size ls mc ms Hb Hn)). Qed.
Print Assumptions C32_kept_all.

(** Logs are numbers, their size is the number; the metadata is an offset. Two logs are dropped: one too large, one too many. *)
Example C32_case :
  let build (f m : N) := if (m =? 99)%N then None else Some (f + m)%N in
  let h1 := [EmitLog 10; EmitLog 99; EmitLog 50; ChangeFields 1; EmitLog 4; EmitLog 5; EmitLog 1]%N in
  let h2 := [EmitLog 50; Config 8; EmitLog 1]%N in
  no_config (C := N) h1 /\
  a_out (run (fun x => x) build (alb_new 3 40 0%N) (h1 ++ Config 7%N :: h2)) = [(7, 10); (7, 5); (7, 6); (7, 51); (8, 2)]%N.
Proof. split; [intros c H; cbn in H; intuition discriminate|vm_compute; reflexivity]. Qed.
