(** When two messages are the same, and which messages are flat. *)
From Verif Require Import Base Str_Base ProtoHash_Model.
Local Open Scope string_scope.
Local Open Scope list_scope.
Local Open Scope Z_scope.

(** The same values; the entries of maps in any order, at any depth. *)
Inductive same : pval -> pval -> Prop :=
| same_refl v : same v v
| same_msg m m' : same_fields m m' -> same (VMsg m) (VMsg m')
with same_fields : list pfield -> list pfield -> Prop :=
| sf_nil : same_fields [] []
| sf_unset n m m' : same_fields m m' -> same_fields (FOptional n None :: m) (FOptional n None :: m')
| sf_set n v v' m m' : same v v' -> same_fields m m' -> same_fields (FOptional n (Some v) :: m) (FOptional n (Some v') :: m')
| sf_repeated l l' m m' : same_list l l' -> same_fields m m' -> same_fields (FRepeated l :: m) (FRepeated l' :: m')
| sf_map l l' l'' m m' : same_entries l l'' -> Permutation l'' l' -> same_fields m m' -> same_fields (FMap l :: m) (FMap l' :: m')
with same_list : list pval -> list pval -> Prop :=
| sl_nil : same_list [] []
| sl_cons v v' l l' : same v v' -> same_list l l' -> same_list (v :: l) (v' :: l')
with same_entries : list (pval * pval) -> list (pval * pval) -> Prop :=
| se_nil : same_entries [] []
| se_cons k v v' l l' : same v v' -> same_entries l l' -> same_entries ((k, v) :: l) ((k, v') :: l').

(** The keys of each map are different and all of one scalar type. *)
Inductive key_type := KInt | KBool | KStr.
Definition has_type (ty : key_type) (k : pval) : Prop :=
  match ty, k with
  | KInt, (VU32 z | VU64 z | VI32 z | VI64 z) => True
  | KBool, VBool _ => True
  | KStr, VStr _ => True
  | _, _ => False
  end.
Definition key_int (k : pval) : Z := match k with VU32 z | VU64 z | VI32 z | VI64 z => z | _ => 0 end.
Fixpoint well (v : pval) : Prop :=
  match v with VMsg m => fold_right (fun f p => well_field f /\ p) True m | _ => True end
with well_field (f : pfield) : Prop :=
  match f with
  | FOptional _ None => True
  | FOptional _ (Some v) => well v
  | FRepeated l => fold_right (fun v p => well v /\ p) True l
  | FMap l =>
      (exists ty, (forall k v, In (k, v) l -> has_type ty k) /\ (ty = KInt -> NoDup (map (fun e => key_int (fst e)) l)) /\ NoDup (map fst l)) /\
      fold_right (fun e p => well (snd e) /\ p) True l
  end.

(** A message without lists, maps, texts and messages inside. A field of kind [k] is a number of that width. *)
Inductive kind := K32 | K64 | S32 | S64 | B1.
Definition of_kind (k : kind) (v : pval) : Prop :=
  match k, v with
  | K32, VU32 z => 0 <= z < 2 ^ 32
  | K64, VU64 z => 0 <= z < 2 ^ 64
  | S32, (VI32 z) => - 2 ^ 31 <= z < 2 ^ 31
  | S64, VI64 z => - 2 ^ 63 <= z < 2 ^ 63
  | B1, VBool _ => True
  | _, _ => False
  end.
Definition flat_field (d : Z * kind) (f : pfield) : Prop :=
  exists v, f = FOptional (fst d) v /\ match v with None => True | Some v => of_kind (snd d) v end.
Definition flat (ds : list (Z * kind)) (m : list pfield) : Prop := Forall2 flat_field ds m.
