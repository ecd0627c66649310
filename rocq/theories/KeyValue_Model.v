(** Model of bd-key-value/src/lib.rs ("kv" below) and bd-logger/src/app_version.rs ("app").

    - The platform's [Storage] (kv:36-41) is a map from keys to strings. Every call of it may fail; a failing [set_string] or [delete] may
      have taken effect all the same.
    - Text and bytes are lists of numbers below 256. The two formats used are those of the crates base64 (engine STANDARD) and bincode (fixed
      size integers, little-endian), taken from their documentation.
    - [utf8] decides whether bytes are valid UTF-8; Rust strings always are. *)
From Verif Require Import Base.
From Coq Require Import String.
Open Scope Z_scope.
Local Open Scope list_scope.

(** * base64, engine STANDARD: canonical padding, no stray bits (used at kv:96, 110) *)
Definition b64_char (n : Z) : Z :=
  if n <? 26 then n + 65 else if n <? 52 then n + 71 else if n <? 62 then n - 4 else if n =? 62 then 43 else 47.
(** crate base64, used at kv:96 and 110: the value of a character. *)
Definition b64_val (c : Z) : option Z :=
  if (65 <=? c) && (c <=? 90) then Some (c - 65)
  else if (97 <=? c) && (c <=? 122) then Some (c - 71)
  else if (48 <=? c) && (c <=? 57) then Some (c + 4)
  else if c =? 43 then Some 62
  else if c =? 47 then Some 63
  else None.
(** crate base64, used at kv:96 and 110: encoding. *)
Fixpoint b64_encode (l : list Z) : list Z :=
  match l with
  | [] => []
  | [a] => [b64_char (a / 4); b64_char (a mod 4 * 16); 61; 61]
  | [a; b] => [b64_char (a / 4); b64_char (a mod 4 * 16 + b / 16); b64_char (b mod 16 * 4); 61]
  | a :: b :: c :: r => b64_char (a / 4) :: b64_char (a mod 4 * 16 + b / 16) :: b64_char (b mod 16 * 4 + c / 64) :: b64_char (c mod 64) :: b64_encode r
  end.
(** crate base64, used at kv:96 and 110: decoding of the last group, with padding. *)
Definition b64_last (a b c d : Z) : option (list Z) :=
  match b64_val a, b64_val b with
  | Some x, Some y =>
      if (c =? 61) && (d =? 61) then if y mod 16 =? 0 then Some [x * 4 + y / 16] else None
      else match b64_val c with
           | None => None
           | Some z =>
               if d =? 61 then if z mod 4 =? 0 then Some [x * 4 + y / 16; y mod 16 * 16 + z / 4] else None
               else match b64_val d with
                    | None => None
                    | Some w => Some [x * 4 + y / 16; y mod 16 * 16 + z / 4; z mod 4 * 64 + w]
                    end
           end
  | _, _ => None
  end.
(** crate base64, used at kv:96 and 110: decoding. *)
Fixpoint b64_decode (l : list Z) : option (list Z) :=
  match l with
  | [] => Some []
  | a :: b :: c :: d :: r =>
      match r with
      | [] => b64_last a b c d
      | _ :: _ =>
          match b64_val a, b64_val b, b64_val c, b64_val d, b64_decode r with
          | Some x, Some y, Some z, Some w, Some t => Some (x * 4 + y / 16 :: y mod 16 * 16 + z / 4 :: z mod 4 * 64 + w :: t)
          | _, _, _, _, _ => None
          end
      end
  | _ => None
  end.

(** * bincode (used at kv:92, 113) *)
Fixpoint le_bytes (n : nat) (z : Z) : list Z := match n with O => [] | S n => z mod 256 :: le_bytes n (z / 256) end.
(** crate bincode, used at kv:92 and 113: a little-endian number. *)
Fixpoint le_value (n : nat) (l : list Z) : option (Z * list Z) :=
  match n with
  | O => Some (0, l)
  | S n => match l with
           | [] => None
           | b :: r => match le_value n r with Some (z, r) => Some (b + 256 * z, r) | None => None end
           end
  end.
(** crate bincode, used at kv:92: a string with its length. *)
Definition put_string (s : list Z) : list Z := le_bytes 8 (Z.of_nat (List.length s)) ++ s.
(** crate bincode, used at kv:113: a string with its length. *)
Definition get_string (utf8 : list Z -> bool) (l : list Z) : option (list Z * list Z) :=
  match le_value 8 l with
  | None => None
  | Some (n, r) =>
      if (Z.of_nat (List.length r) <? n) || negb (utf8 (firstn (Z.to_nat n) r)) then None
      else Some (firstn (Z.to_nat n) r, skipn (Z.to_nat n) r)
  end.

(** * The store *)
(** [Some true]: the call fails, but took effect; [Some false]: it fails without effect. *)
Definition fault := option bool.
(** kv:34-39 [Storage]. *)
Definition storage := string -> option (list Z).

(** kv:36-41. *)
Definition set_string (s : storage) (k : string) (x : list Z) (f : fault) : storage :=
  match f with Some false => s | _ => fun k' => if String.eqb k' k then Some x else s k' end.
(** kv:34-39 [Storage::delete]. *)
Definition delete (s : storage) (k : string) (f : fault) : storage :=
  match f with Some false => s | _ => fun k' => if String.eqb k' k then None else s k' end.

Section Store.
Variable V : Type.
(** The serialization of the type of a key's values (kv:25-27 [Storable]). *)
Variable ser : string -> V -> list Z.
Variable de : string -> list Z -> option V.

(** kv:57-66 [Store::set], kv:91-104 [set_internal] (failures are logged only). *)
Definition kv_set (s : storage) (k : string) (v : V) (f : fault) : storage := set_string s k (b64_encode (ser k v)) f.

(** kv:106-124 [get_internal]; [None] is an error. [rf]: reading the storage fails. *)
Definition kv_get_internal (s : storage) (k : string) (rf : bool) : option (option V) :=
  if rf then None
  else match s k with
       | None => Some None
       | Some x => match b64_decode x with None => None | Some b => match de k b with Some v => Some (Some v) | None => None end end
       end.

(** kv:68-89 [Store::get]: after an error the key is deleted; [df]: deleting fails. *)
Definition kv_get (s : storage) (k : string) (rf : bool) (df : fault) : storage * option V :=
  match kv_get_internal s k rf with
  | Some r => (s, r)
  | None => (delete s k df, None)
  end.

(** Histories. [KForeign]: something else changes what is stored for a key. *)
Inductive kop := KSet (k : string) (v : V) (f : fault) | KGet (k : string) (rf : bool) (df : fault) | KForeign (k : string) (x : option (list Z)).
(** One call of the store, kv:57-126. *)
Definition kv_step (s : storage) (o : kop) : storage * option V :=
  match o with
  | KSet k v f => (kv_set s k v f, None)
  | KGet k rf df => kv_get s k rf df
  | KForeign k x => (fun k' => if String.eqb k' k then x else s k', None)
  end.
(** A history of calls of the store, kv:57-126. *)
Definition kv_run (s : storage) (l : list kop) : storage := fold_left (fun s o => fst (kv_step s o)) l s.
End Store.

(** * App versions *)
(** app:22-35 [AppVersion], [AppVersionExtra]. *)
Inductive extra := VersionCode (z : Z) | BuildNumber (s : list Z).
(** app:22-26 [AppVersion]. *)
Record version := mkVersion { av_version : list Z; av_extra : extra }.

Section Version.
Variable utf8 : list Z -> bool.

(** The values stored: strings (kv:29) and versions (app:27); app:16-17 the key of the latter. *)
Inductive value := VText (s : list Z) | VVersion (v : version).
(** app:16-17. *)
Definition version_key : string := "app_version.state.1"%string.

(** serde's derived encoding of [AppVersion] (app:22-35) in bincode; integers are 64 bits wide. *)
Definition put_version (v : version) : list Z :=
  put_string (av_version v) ++
  match av_extra v with
  | VersionCode z => le_bytes 4 0 ++ le_bytes 8 (z mod 18446744073709551616)
  | BuildNumber s => le_bytes 4 1 ++ put_string s
  end.
(** serde and bincode of [AppVersion] (app:22-35): decoding. *)
Definition get_version (l : list Z) : option version :=
  match get_string utf8 l with
  | None => None
  | Some (s, l) =>
      match le_value 4 l with
      | Some (0, l) =>
          match le_value 8 l with
          | Some (z, _) => Some (mkVersion s (VersionCode (if z <? 9223372036854775808 then z else z - 18446744073709551616)))
          | None => None
          end
      | Some (1, l) => match get_string utf8 l with Some (b, _) => Some (mkVersion s (BuildNumber b)) | None => None end
      | _ => None
      end
  end.
(** [Storable] (kv:24-28, app:27): encoding of what is stored for a key. *)
Definition value_ser (k : string) (v : value) : list Z := match v with VText s => put_string s | VVersion v => put_version v end.
(** [Storable] (kv:24-28, app:27): decoding of what is stored for a key. *)
Definition value_de (k : string) (l : list Z) : option value :=
  if String.eqb k version_key then option_map VVersion (get_version l)
  else match get_string utf8 l with Some (s, _) => Some (VText s) | None => None end.

(** The derived equality of strings, app:22-35. *)
Fixpoint bytes_eqb (a b : list Z) : bool :=
  match a, b with [], [] => true | x :: a, y :: b => (x =? y) && bytes_eqb a b | _, _ => false end.
(** app:22, 30: derived equality. *)
Definition version_eqb (a b : version) : bool :=
  bytes_eqb (av_version a) (av_version b) &&
  match av_extra a, av_extra b with
  | VersionCode x, VersionCode y => x =? y
  | BuildNumber x, BuildNumber y => bytes_eqb x y
  | _, _ => false
  end.

(** [self.store.get(&APP_VERSION_KEY)] *)
Definition stored_version (s : storage) (rf : bool) (df : fault) : storage * option version :=
  match kv_get value value_de s version_key rf df with
  | (s, Some (VVersion v)) => (s, Some v)
  | (s, _) => (s, None)
  end.

(** app:66-77 [Repository::has_changed]. [rf], [df], [sf]: faults of the storage. *)
Definition has_changed (s : storage) (v : version) (rf : bool) (df sf : fault) : storage * bool :=
  match stored_version s rf df with
  | (s, None) => (kv_set value value_ser s version_key (VVersion v) sf, false)
  | (s, Some p) => (s, negb (version_eqb v p))
  end.

(** app:80-99 [Repository::set]. *)
Definition record (s : storage) (v : version) (rf : bool) (df sf : fault) : storage * option version :=
  match stored_version s rf df with
  | (s, None) => (kv_set value value_ser s version_key (VVersion v) sf, None)
  | (s, Some p) => if version_eqb v p then (s, None) else (kv_set value value_ser s version_key (VVersion v) sf, Some p)
  end.

(** The calls of app:66-99. *)
Inductive aop := HasChanged (v : version) (rf : bool) (df sf : fault) | Record_ (v : version) (rf : bool) (df sf : fault).
(** Their results, app:66-99. *)
Inductive aout := Changed (b : bool) | Updated (p : option version).
(** One call: app:66-99. *)
Definition a_step (s : storage) (o : aop) : storage * aout :=
  match o with
  | HasChanged v rf df sf => let (s, b) := has_changed s v rf df sf in (s, Changed b)
  | Record_ v rf df sf => let (s, p) := record s v rf df sf in (s, Updated p)
  end.
(** A history of calls: app:66-99. *)
Fixpoint a_run (s : storage) (l : list aop) : storage * list aout :=
  match l with [] => (s, []) | o :: l => let (s, x) := a_step s o in let (s, xs) := a_run s l in (s, x :: xs) end.
End Version.
