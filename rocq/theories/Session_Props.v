(** C33, C34 and C66: session identifiers. *)
From Verif Require Import Base Str_Base Session_Model Session_Spec Session_Proofs.
Local Open Scope string_scope.
Local Open Scope list_scope.
Local Open Scope Z_scope.

(** Two uses of the session in the same process with no other use between them:
    the identifier stays if the clock did not go back and the gap is within the
    threshold; otherwise it is replaced by the fresh identifier. [h] is any history
    before, with any number of processes. *)
Theorem C33_same_process : forall thr wi h t1 a1 b1 mid t2 a2 b2 x y o1 o2,
  0 <= wi -> Forall passive mid ->
  snd (act_run thr wi act_new (h ++ Use t1 a1 b1 :: mid ++ [Use t2 a2 b2]))
    = o1 ++ OId x :: o2 ++ [OId y] ->
  List.length o1 = List.length h ->
  (t1 <= t2 <= t1 + thr -> y = x) /\ (t2 < t1 \/ t1 + thr < t2 -> y = b2).
Proof. exact same_process. Qed.
Print Assumptions C33_same_process.

(** The same with crashes and restarts between the two uses. *)
Theorem C33_after_restart : forall thr wi h t1 a1 b1 mid t2 a2 b2 x y o1 o2,
  0 <= wi -> Forall passive_or_restart mid -> In Restart mid ->
  snd (act_run thr wi act_new (h ++ Use t1 a1 b1 :: mid ++ [Use t2 a2 b2]))
    = o1 ++ OId x :: o2 ++ [OId y] ->
  List.length o1 = List.length h ->
  (t1 <= t2 <= t1 + thr - wi -> y = x) /\ (t1 + thr < t2 -> y = b2) /\ (y = x \/ y = b2).
Proof. exact after_restart. Qed.
Print Assumptions C33_after_restart.

(** A history with an unwritten use (at 110), a crash, and a use exactly at the
    limit; then a use beyond the threshold. *)
Example C33_history :
  snd (act_run 1800 15 act_new
    [Use 100 "a" "b"; Use 110 "c" "d"; Prev; Restart; Prev; Use 1895 "e" "f"; Flush; Restart;
     Use 3696 "g" "h"; Use 5496 "i" "j"; Use 5495 "k" "l"])
  = [OId "a"; OId "a"; OPrev None; ORestart; OPrev (Some "a"); OId "a"; ONone; ORestart;
     OId "h"; OId "h"; OId "l"].
Proof. vm_compute. reflexivity. Qed.

(** Between the two limits the crash decides: the use at 110 was not written, so a
    restart at 1905 sees a gap of 1805. *)
Example C33_between :
  snd (act_run 1800 15 act_new [Use 100 "a" "b"; Use 110 "c" "d"; Restart; Use 1905 "e" "f"])
  = [OId "a"; OId "a"; ORestart; OId "f"] /\
  snd (act_run 1800 15 act_new [Use 100 "a" "b"; Use 110 "c" "d"; Flush; Restart; Use 1905 "e" "f"])
  = [OId "a"; OId "a"; ONone; ORestart; OId "a"].
Proof. vm_compute. auto. Qed.

(** The previous-process identifier is the last identifier handed out before the
    last restart, in whichever process that was; there is none in the first
    process. The answer does not depend on what happened since the restart. *)
Theorem C34_activity_based : forall thr wi os a x b,
  snd (act_run thr wi act_new os) = a ++ OPrev x :: b ->
  (forall p l, a = p ++ ORestart :: l -> ~ In ORestart l -> x = last_id p None) /\
  (~ In ORestart a -> x = None).
Proof. exact act_previous. Qed.
Print Assumptions C34_activity_based.

Theorem C34_fixed : forall os a x b,
  snd (fixed_run fixed_new os) = a ++ OPrev x :: b ->
  (forall p l, a = p ++ ORestart :: l -> ~ In ORestart l -> x = last_id p None) /\
  (~ In ORestart a -> x = None).
Proof. exact fixed_previous_id. Qed.
Print Assumptions C34_fixed.

Example C34_history :
  let os := [Prev; Use 0 "a" "b"; Prev; New 5 "c"; Restart; Prev; New 6 "d"; Prev; Use 7 "e" "f";
             Prev; Restart; Restart; Use 5000 "g" "h"; Prev] in
  snd (act_run 1800 15 act_new os)
  = [OPrev None; OId "a"; OPrev None; OId "c"; ORestart; OPrev (Some "c"); OId "d";
     OPrev (Some "c"); OId "d"; OPrev (Some "c"); ORestart; ORestart; OId "h"; OPrev (Some "d")] /\
  snd (fixed_run fixed_new os)
  = [OPrev None; OId "a"; OPrev None; OId "c"; ORestart; OPrev (Some "c"); OId "d";
     OPrev (Some "c"); OId "d"; OPrev (Some "c"); ORestart; ORestart; OId "g"; OPrev (Some "d")].
Proof. vm_compute. auto. Qed.

(** The fixed strategy: the identifier stays the same in a process until a new
    session is started, *)
Theorem C66_constant : forall h o mid t a b x y,
  (match o with Use _ _ _ | New _ _ => True | _ => False end) ->
  (forall o, In o mid -> match o with New _ _ | Restart => False | _ => True end) ->
  let r := fixed_run fixed_new (h ++ [o]) in
  (exists o1, snd r = o1 ++ [OId x]) ->
  (exists o2, snd (fixed_run (fst r) (mid ++ [Use t a b])) = o2 ++ [OId y]) -> x = y.
Proof. exact fixed_constant. Qed.
Print Assumptions C66_constant.

(** and each process starts with a fresh one. *)
Theorem C66_fresh_per_process : forall h mid t a b,
  (forall o, In o mid -> match o with New _ _ | Use _ _ _ => False | _ => True end) ->
  exists o, snd (fixed_run fixed_new (h ++ Restart :: mid ++ [Use t a b])) = o ++ [OId a].
Proof. exact fixed_new_process. Qed.
Print Assumptions C66_fresh_per_process.

Example C66_history :
  snd (fixed_run fixed_new [Use 0 "a" ""; Use 1 "b" ""; New 2 "c"; Use 9999 "d" ""; Restart; Use 3 "e" ""])
  = [OId "a"; OId "a"; OId "c"; OId "c"; ORestart; OId "e"].
Proof. vm_compute. reflexivity. Qed.
