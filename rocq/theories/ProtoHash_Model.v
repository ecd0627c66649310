(** Model of bd-proto-util/src/proto.rs ("proto" below): the bytes a message feeds to the hasher.
    A message is the list of its fields in the order of the descriptor, as reflection shows them (the crate protobuf is not modelled);
    a map is the list of its entries in the iteration order of the hash map, which is arbitrary. Floats are given by their bits. *)
From Verif Require Import Base Str_Base.
Local Open Scope string_scope.
Local Open Scope list_scope.
Local Open Scope Z_scope.

(** [protobuf::reflect::ReflectValueRef] and [ReflectFieldRef]. *)
Inductive pval :=
| VU32 (z : Z) | VU64 (z : Z) | VI32 (z : Z) | VI64 (z : Z) | VF32 (bits : Z) | VF64 (bits : Z) | VBool (b : bool)
| VStr (s : string) | VBytes (s : string) | VEnum (z : Z) | VMsg (m : list pfield)
with pfield := FOptional (number : Z) (v : option pval) | FRepeated (l : list pval) | FMap (l : list (pval * pval)).

(** [to_le_bytes]: two's complement, the lowest byte first. *)
Fixpoint le (n : nat) (z : Z) : string := match n with O => "" | S n => String (ascii_of_N (Z.to_N (z mod 256))) (le n (z / 256)) end.

(** [k.to_string()] of a map key (keys are integers, booleans or strings). *)
Definition int_string (z : Z) : string := if z <? 0 then String.append "-" (dec_string (Z.to_N (- z))) else dec_string (Z.to_N z).
(** proto:90-131: [to_string] of a map key. *)
Definition show (k : pval) : string :=
  match k with
  | VU32 z | VU64 z | VI32 z | VI64 z => int_string z
  | VBool b => if b then "true" else "false"
  | VStr s => s
  | _ => ""
  end.

(** [sorted_by_key]: stable. *)
Fixpoint insert (x : string * string) (l : list (string * string)) : list (string * string) :=
  match l with [] => [x] | y :: l => if str_lt (fst y) (fst x) then y :: insert x l else x :: y :: l end.
(** proto:90-131: [sorted_by_key]. *)
Definition sorted (l : list (string * string)) : list (string * string) := fold_right insert [] l.
(** Concatenation of what is fed to the hasher, proto:72-88. *)
Definition cat (l : list string) : string := fold_right String.append "" l.

(** proto:133-145 [hash_value] and proto:90-131 [hash_message]. *)
Fixpoint hash_value (v : pval) : string :=
  match v with
  | VU32 z => le 4 z
  | VU64 z | VI64 z => le 8 z
  | VF32 z => le 4 z
  | VF64 z => le 8 z
  | VBool b => if b then le 1 1 else le 1 0
  | VStr s | VBytes s => s
  | VI32 z | VEnum z => le 4 z
  | VMsg m => cat (map hash_field m)
  end
with hash_field (f : pfield) : string :=
  match f with
  | FOptional _ None => ""
  | FOptional number (Some v) => String.append (le 4 number) (hash_value v)
  | FRepeated [] => ""
  | FRepeated l => String.append (le 8 (Z.of_nat (List.length l))) (cat (map hash_value l))
  | FMap l => cat (map snd (sorted (map (fun e => match e with (k, v) => (show k, String.append (hash_value k) (hash_value v)) end) l)))
  end.
(** proto:90-131. *)
Definition hash_message (m : list pfield) : string := hash_value (VMsg m).
