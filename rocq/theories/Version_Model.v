(** Model of bd-log-matcher/src/version.rs: version matchers. The regex crate is a parameter. *)
From Verif Require Import Base Str_Base.
Local Open Scope string_scope.

(** Lines 31-35. *)
Inductive segment := SInt (n : N) | SStr (s : string).

(** Lines 38-41. *)
Definition segment_of (s : string) : segment := match parse_u32 s with Some n => SInt n | None => SStr s end.

(** Lines 54-61. *)
Definition segment_cmp (a b : segment) : comparison :=
  match a, b with
  | SInt x, SInt y => N.compare x y
  | SStr x, SStr y => str_cmp x y
  | SStr x, SInt y => str_cmp x (dec_string y)
  | SInt x, SStr y => str_cmp (dec_string x) y
  end.

(** Lines 64-75. *)
Definition segment_string (a : segment) : string := match a with SInt n => dec_string n | SStr s => s end.

(** Lines 91-95. *)
Record version := mkVersion { v_segments : list segment; v_revision : option string; v_build : option string }.

(** Lines 98-137. *)
Definition version_new (s : string) : version :=
  let (s, revision) := match split_once "-" s with Some (s, suffix) => (s, Some suffix) | None => (s, None) end in
  let (s, build) := match split_once "+" s with Some (s, suffix) => (s, Some suffix) | None => (s, None) end in
  mkVersion (map segment_of (split "." s)) revision build.

(** Line 142, [zip_longest] of itertools. *)
Fixpoint zip_longest {A} (a b : list A) : list (option A * option A) :=
  match a, b with
  | [], [] => []
  | x :: a', [] => (Some x, None) :: zip_longest a' []
  | [], y :: b' => (None, Some y) :: (fix zr (l : list A) := match l with [] => [] | z :: l' => (None, Some z) :: zr l' end) b'
  | x :: a', y :: b' => (Some x, Some y) :: zip_longest a' b'
  end.
(** Lines 143-147. *)
Definition or_zero (a : option segment) : segment := match a with Some a => a | None => SInt 0 end.
(** Lines 142-155. *)
Fixpoint cmp_pairs (l : list (option segment * option segment)) : comparison :=
  match l with
  | [] => Eq
  | (a, b) :: l' => match segment_cmp (or_zero a) (or_zero b) with Eq => cmp_pairs l' | o => o end
  end.
(** Lines 139-156. *)
Definition version_cmp (a b : version) : comparison := cmp_pairs (zip_longest (v_segments a) (v_segments b)).

(** Lines 159-182. *)
Definition version_string (v : version) : string :=
  join "." (map segment_string (v_segments v)) ++
  match v_revision v with Some s => "-" ++ s | None => "" end ++
  match v_build v with Some s => "+" ++ s | None => "" end.

(** The protobuf enum [Operator]. *)
Inductive operator := OpUnspecified | OpLt | OpLe | OpEq | OpGt | OpGe | OpNe | OpRegex.
(** Lines 192-199. *)
Inductive comparator := CLt | CLe | CGt | CGe | CNe | CEq.
(** Lines 202-212. *)
Definition comparator_of (o : operator) : option comparator :=
  match o with
  | OpLt => Some CLt | OpLe => Some CLe | OpGt => Some CGt | OpGe => Some CGe | OpNe => Some CNe | OpEq => Some CEq
  | OpUnspecified | OpRegex => None
  end.
(** Lines 214-225. *)
Definition compare_with (c : comparator) (a b : version) : bool :=
  match c, version_cmp a b with
  | CLt, Lt => true
  | CLe, (Lt | Eq) => true
  | CGt, Gt => true
  | CGe, (Gt | Eq) => true
  | CNe, (Lt | Gt) => true
  | CEq, Eq => true
  | _, _ => false
  end.

(** Lines 230-233; a compiled regex is represented by its source. *)
Inductive version_match := VRegex (r : string) | VComparator (c : comparator) (v : version).

Section Regex.
(** [Regex::new] succeeds / [Regex::is_match]. *)
Variables (re_ok : string -> bool) (re_match : string -> string -> bool).

(** Lines 255-267. *)
Definition version_match_new (o : operator) (value : string) : option version_match :=
  match o with
  | OpUnspecified => None
  | OpRegex => if re_ok value then Some (VRegex value) else None
  | _ => match comparator_of o with Some c => Some (VComparator c (version_new value)) | None => None end
  end.

(** Lines 269-274. *)
Definition version_evaluate (m : version_match) (candidate : string) : bool :=
  match m with
  | VRegex r => re_match r candidate
  | VComparator c v => compare_with c (version_new candidate) v
  end.
End Regex.

(** Derived [PartialEq] of [SimpleComparator], line 191. *)
Definition comparator_eqb (a b : comparator) : bool :=
  match a, b with CLt, CLt | CLe, CLe | CGt, CGt | CGe, CGe | CNe, CNe | CEq, CEq => true | _, _ => false end.
(** Lines 238-250. *)
Definition version_match_eqb (a b : version_match) : bool :=
  match a, b with
  | VRegex a, VRegex b => String.eqb a b
  | VComparator ca va, VComparator cb vb => comparator_eqb ca cb && String.eqb (version_string va) (version_string vb)
  | _, _ => false
  end.
