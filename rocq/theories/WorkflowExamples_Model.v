(** Concrete workflows and logs for the examples and refutations about the workflows engine. They are inputs, given as messages of the
    configuration and parsed by the model of [WorkflowsConfiguration::new] (config.rs lines 56-64). *)
From Verif Require Import Base Str_Base Version_Model Log_Model LogMatcher_Model Workflow_Model Workflow_Spec WorkflowEngine_Model WorkflowEngine_Spec.
Local Open Scope string_scope. Local Open Scope list_scope. Local Open Scope Z_scope.

(** External functions. *)
Definition xm (a b : string) : bool := String.eqb a b.
(** An external function, for the examples. *)
Definition xi (s : string) : option Z := None.
(** An external function, for the examples. *)
Definition xh (s : string) : string := s.
(** An external function, for the examples. *)
Definition xf (s : string) : option Z := None.
(** A matcher for logs with the given message; a transition on [n] such logs. *)
Definition on (s : string) (n : N) (acts : list action_proto) (target : string) : transition_proto :=
  mkTransitionP target (Some (PLogMatch (CBase (Some (MessageMatch (Some OpEq) s))) n)) (map Some acts) [].
(** A log with a message, for the examples. *)
Definition xlog (s session : string) (t : Z) : log := mkLog 0 0 (VStr s) [] [] session t.
(** A log operation, for the examples. *)
Definition L (s : string) : op := Log (xlog s "S" 0) ["trigger"].
(** A metric action (config.rs lines 539-606), for the examples. *)
Definition count_metric (id : string) : action_proto := PMetric id [] (Some (IncFixed 1)) (Some MCounter).
(** [WorkflowsConfiguration::new], config.rs lines 56-64. *)
Definition parse (l : list workflow_proto) : list config := configs_new (fun _ => true) l.
(** engine.rs lines 876-897 with two trigger buffers, for the examples. *)
Definition engine_with (l : list workflow_proto) : engine_cfg := mkEngineCfg (parse l) ["trigger"; "other"] ["cont"].

(** Fork on "A" to two traversals, and on "B" again; at most five matches. *)
Definition fork : workflow_proto :=
  mkWorkflowP "fork" [mkStateP "0" [on "A" 1 [] "1"; on "A" 1 [] "1"]; mkStateP "1" [on "B" 1 [] "2"; on "B" 1 [] "2"]; mkStateP "2" [on "C" 1 [] "3"]; mkStateP "3" []] (Some Exclusive) None (Some 5%N).
(** Fork on "A" to two traversals that both end on "B"; at most three matches. *)
Definition leak : workflow_proto :=
  mkWorkflowP "leak" [mkStateP "0" [on "A" 1 [] "1"; on "A" 1 [] "1"]; mkStateP "1" [on "B" 1 [] "2"]; mkStateP "2" []] (Some Exclusive) None (Some 3%N).
(** Each "P" starts a run that waits for "Q". *)
Definition many (e : execution) : workflow_proto :=
  mkWorkflowP "many" [mkStateP "0" [on "P" 1 [] "1"]; mkStateP "1" [on "Q" 1 [count_metric "m"] "2"]; mkStateP "2" []] (Some e) None None.
(** Fires at the [n]-th "A". *)
Definition nth_A (n : N) : workflow_proto := mkWorkflowP "nth" [mkStateP "0" [on "A" n [count_metric "a"] "1"]; mkStateP "1" []] (Some Exclusive) None None.
(** A flush on "F" of the buffer "trigger", with streaming to "cont" of at most [n] logs. *)
Definition flush (id : string) (n : N) : workflow_proto :=
  mkWorkflowP ("w" ++ id) [mkStateP "0" [on "F" 1 [PFlush id ["trigger"] (Some (["cont"], [Some n]))] "1"]; mkStateP "1" []] (Some Exclusive) None None.
(** The negotiation of one action, answered by the server, up to the flush request. *)
Definition approve : list op := [Negotiate Upload; RunOnce; TakeFlush].
(** Two flush actions with the same id, and one flush of two buffers. *)
Definition two_flushes : workflow_proto :=
  mkWorkflowP "t" [mkStateP "0" [on "F" 1 [PFlush "f" ["trigger"] None; PFlush "f" ["other"] None] "1"]; mkStateP "1" []] (Some Exclusive) None None.
(** A flush of two buffers, for the examples. *)
Definition wide_flush : workflow_proto := mkWorkflowP "w" [mkStateP "0" [on "F" 1 [PFlush "f" ["trigger"; "other"] None] "1"]; mkStateP "1" []] (Some Exclusive) None None.
(** Eleven flush actions on one log. *)
Definition eleven : workflow_proto :=
  mkWorkflowP "e" [mkStateP "0" [on "F" 1 (map (fun i => PFlush i ["trigger"] None) ["a"; "b"; "c"; "d"; "e"; "f"; "g"; "h"; "i"; "j"; "k"]) "1"]; mkStateP "1" []] (Some Exclusive) None None.
(** A diagram of at most one node, with values that do not count. *)
Definition uncounted : workflow_proto :=
  mkWorkflowP "s" [mkStateP "0" [mkTransitionP "1" (Some (PLogMatch (CBase (Some (MessageMatch (Some OpEq) "A"))) 1)) [] [Some (mkExtensionP "d" (Some (TFixed "x")) false); Some (mkExtensionP "d" (Some (TFixed "y")) false)] ];
                   mkStateP "1" [on "B" 1 [PSankey "d" 1 []] "2"]; mkStateP "2" []] (Some Exclusive) None None.
(** A diagram of at most two nodes: a loop over "A" that ends with "B". *)
Definition counted_path : workflow_proto :=
  mkWorkflowP "p" [mkStateP "0" [mkTransitionP "1" (Some (PLogMatch (CBase (Some (MessageMatch (Some OpEq) "A"))) 1)) [] [Some (mkExtensionP "d" (Some (TExtract "_message")) true)] ];
                   mkStateP "1" [mkTransitionP "1" (Some (PLogMatch (CBase (Some (MessageMatch (Some OpEq) "C"))) 1)) [] [Some (mkExtensionP "d" (Some (TFixed "c")) true)];
                                 mkTransitionP "2" (Some (PLogMatch (CBase (Some (MessageMatch (Some OpEq) "B"))) 1)) [Some (PSankey "d" 2 [])] [Some (mkExtensionP "d" (Some (TFixed "b")) true)] ];
                   mkStateP "2" []] (Some Exclusive) None None.
(** A run that returns to the first state with a path. *)
Definition returning : workflow_proto :=
  mkWorkflowP "r" [mkStateP "0" [mkTransitionP "0" (Some (PLogMatch (CBase (Some (MessageMatch (Some OpEq) "A"))) 1)) [] [Some (mkExtensionP "d" (Some (TFixed "x")) true)];
                                 mkTransitionP "1" (Some (PLogMatch (CBase (Some (MessageMatch (Some OpEq) "B"))) 1)) [Some (PSankey "d" 5 [])] [Some (mkExtensionP "d" (Some (TFixed "y")) true)] ];
                   mkStateP "1" []] (Some Exclusive) None None.
(** The same id with one state less. *)
Definition shorter : workflow_proto := mkWorkflowP "many" [mkStateP "0" [on "P" 1 [] "0"] ] (Some Parallel) None None.
