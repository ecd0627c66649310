(** Vocabulary for the theorems on the key-value store and the app version. *)
From Verif Require Import Base KeyValue_Model.
From Coq Require Import String.
Open Scope Z_scope.

Section Store.
Variable V : Type.
(** The operation may change what is stored for [k]: a [set] that took effect, or somebody else's change. *)
Definition writes (k : string) (o : kop V) : Prop :=
  match o with KSet _ k' _ (Some false) => False | KSet _ k' _ _ => k' = k | KForeign _ k' _ => k' = k | KGet _ _ _ _ => False end.
(** A read of [k] that the storage fails to answer. *)
Definition unreadable (k : string) (o : kop V) : Prop := match o with KGet _ k' rf _ => k' = k /\ rf = true | _ => False end.
End Store.

(** Bytes, and versions that exist in Rust: valid UTF-8, 64-bit lengths and numbers. *)
Definition byte (b : Z) : Prop := 0 <= b < 256.
Definition text_ok (utf8 : list Z -> bool) (s : list Z) : Prop := Forall byte s /\ utf8 s = true /\ Z.of_nat (List.length s) < 18446744073709551616.
Definition version_ok (utf8 : list Z -> bool) (v : version) : Prop :=
  text_ok utf8 (av_version v) /\
  match av_extra v with VersionCode z => -9223372036854775808 <= z < 9223372036854775808 | BuildNumber s => text_ok utf8 s end.

Definition version_of (o : aop) : version := match o with HasChanged v _ _ _ => v | Record_ v _ _ _ => v end.
(** The storage works. *)
Definition faultless (o : aop) : Prop := match o with HasChanged _ rf _ sf | Record_ _ rf _ sf => rf = false /\ sf = None end.
(** The version on record: the one recorded last, or the first one asked about. *)
Definition on_record (l : list aop) : option version :=
  fold_left (fun r o => match o, r with Record_ v _ _ _, _ => Some v | HasChanged v _ _ _, None => Some v | _, _ => r end) l None.
