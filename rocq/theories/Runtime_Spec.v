(** Specification of C35 and C36. *)
From Verif Require Import Base Str_Base Runtime_Model.

(** The values most recently applied; none at first. *)
Fixpoint current (os : list op) (d : values) : values :=
  match os with
  | [] => d
  | Update m :: os => current os m
  | _ :: os => current os d
  end.

(** The value of a key in a configuration (keys are unique). *)
Definition has (m : values) (k : string) (v : value) : Prop :=
  exists a b, m = a ++ (k, v) :: b /\ ~ In k (map fst a).

(** The value of a flag of the kind of [d], if [v] has the right type. *)
Definition typed (d : datum) (v : value) (x : datum) : Prop :=
  match d, v with
  | DInt _, VUint n => x = DInt n
  | DBool _, VBool b => x = DBool b
  | DDuration _, VUint n => x = DDuration n
  | _, _ => False
  end.
Definition kind (d : datum) : nat := match d with DInt _ => 0 | DBool _ => 1 | DDuration _ => 2 end.

(** All flags registered under the path agree with [d] on the type; on the type
    and the default. *)
Definition path_kind (os : list op) (p : string) (d : datum) : Prop :=
  forall d', In (Register p d') os -> kind d' = kind d.
Definition path_default (os : list op) (p : string) (d : datum) : Prop :=
  forall d', In (Register p d') os -> d' = d.

(** The retry count is a u32. *)
Definition valid (c : cache) : Prop :=
  match c_retry c with RCount n => (0 <= n < 4294967296)%Z | _ => True end.

(** A start that loads the cache to the end, where removing the directory works if
    it is tried. *)
Definition complete (c : cache) (x : io * nat) : Prop :=
  let (i, cut) := x in
  io_reset i = true /\ (List.length (boot c i) <= cut)%nat.
Fixpoint all_complete (c : cache) (l : list (io * nat)) : Prop :=
  match l with
  | [] => True
  | x :: l => complete c x /\ all_complete (fst (start c (fst x) (snd x))) l
  end.
