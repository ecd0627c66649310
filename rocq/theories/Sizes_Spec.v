(** What a message holds (C151): its content, and the memory on the heap that belongs to it. *)
From Verif Require Import Base Sizes_Model.
Local Open Scope N_scope.

(** The bytes of texts and binary data. *)
Definition value_content (v : value) : N := match v with VString x | VBytes x => x_len x end.
Definition field_content (f : field) : N := x_len (f_key f) + value_content (f_value f).
Definition fields_content (v : fields) : N := fold_right (fun f n => field_content f + n) 0 (v_items v).
Definition hint_content (o : option text) : N := match o with Some x => x_len x | None => 0 end.
Definition message_content (m : message) : N :=
  match m with
  | EmitLog l => value_content (l_message l) + fields_content (l_fields l) + fields_content (l_matching l) + hint_content (l_hint l)
  | AddLogField f => field_content f
  | RemoveLogField x => x_len x
  | FlushState => 0
  end.
Definition log_content (g : log) : N := value_content (g_message g) + fields_content (g_fields g) + fields_content (g_matching g) + x_len (g_session g).
(** The session id that a log line overrides its session with. *)
Definition message_hint (m : message) : N := match m with EmitLog l => hint_content (l_hint l) | _ => 0 end.
(** All that the messages of a list hold. *)
Definition held {A} (f : A -> N) (l : list A) : N := fold_right (fun m n => f m + n) 0 l.

(** The memory on the heap: the capacities of texts, and the places of a vector, of [place] bytes each. *)
Definition value_heap (v : value) : N := match v with VString x | VBytes x => x_cap x end.
Definition field_heap (f : field) : N := x_cap (f_key f) + value_heap (f_value f).
Definition fields_heap (place : N) (v : fields) : N := fold_right (fun f n => place + field_heap f + n) 0 (v_items v) + v_spare v * place.
Definition log_heap (z : layout) (g : log) : N := value_heap (g_message g) + fields_heap (z_field z) (g_fields g) + fields_heap (z_field z) (g_matching g) + x_cap (g_session g).
Definition hint_heap (o : option text) : N := match o with Some x => x_cap x | None => 0 end.
Definition message_heap (z : layout) (m : message) : N :=
  match m with
  | EmitLog l => value_heap (l_message l) + fields_heap (z_annotated z) (l_fields l) + fields_heap (z_annotated z) (l_matching l) + hint_heap (l_hint l)
  | AddLogField f => field_heap f
  | RemoveLogField x => x_cap x
  | FlushState => 0
  end.

(** No text has spare bytes. *)
Definition tight (x : text) : Prop := x_spare x = 0.
Definition tight_value (v : value) : Prop := match v with VString x => tight x | VBytes _ => True end.
Definition tight_field (f : field) : Prop := tight (f_key f) /\ tight_value (f_value f).
Definition tight_fields (v : fields) : Prop := Forall tight_field (v_items v).
Definition tight_log (g : log) : Prop := tight_value (g_message g) /\ tight_fields (g_fields g) /\ tight_fields (g_matching g) /\ tight (g_session g).
(** Nor has a vector of a log line more spare places than elements, nor is there an override. *)
Definition tight_message (m : message) : Prop :=
  match m with
  | EmitLog l => l_hint l = None /\ tight_value (l_message l) /\ (tight_fields (l_fields l) /\ v_spare (l_fields l) <= N.of_nat (length (v_items (l_fields l)))) /\
                 (tight_fields (l_matching l) /\ v_spare (l_matching l) <= N.of_nat (length (v_items (l_matching l))))
  | AddLogField f => tight_field f
  | RemoveLogField x => tight x
  | FlushState => True
  end.
(** The pair is laid out as a field; an annotated field is not larger than a pair and a field together. *)
Definition sound (z : layout) : Prop := z_pair z = z_field z /\ z_annotated z <= z_pair z + z_field z.
