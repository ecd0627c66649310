(** What is expected of the handle of the logger, in terms of the calls made. *)
From Verif Require Import Base Str_Base Log_Model Metadata_Model LogBuffer_Model Handle_Model KeyValue_Spec.
From Verif Require KeyValue_Model.
Local Open Scope string_scope. Local Open Scope list_scope.

(** Is thread [t] inside its guard after these steps? *)
Definition inside (t : nat) (l : list label) : bool :=
  fold_left (fun b x => match x with Enter u => if Nat.eqb u t then true else b | Leave u => if Nat.eqb u t then false else b | Api _ _ _ => b end) l false.

(** The questions about and the records of application versions. *)
Definition version_calls (l : list label) : list KeyValue_Model.aop :=
  flat_map (fun x => match x with
                     | Api _ (AShould v x) _ => [KeyValue_Model.HasChanged v (x_read x) (x_delete x) (x_set x)]
                     | Api _ (AUpdate v _ _ _ x) _ => [KeyValue_Model.Record_ v (x_read x) (x_delete x) (x_set x)]
                     | _ => []
                     end) l.
(** The storage works and the versions can be stored. *)
Definition sound (utf8 : list Z -> bool) (l : list label) : Prop :=
  Forall faultless (version_calls l) /\ Forall (fun o => version_ok utf8 (version_of o)) (version_calls l).

(** The logs the SDK writes: level, type and message. *)
Definition header (a : api) : option (N * N * string) :=
  match a with
  | AResource _ _ => Some (1, 3, "")%N
  | AScreen _ _ => Some (2, 1, "Screen captured")%N
  | AScreenshot _ _ => Some (2, 1, "Screenshot captured")%N
  | ASdkStart _ _ => Some (2, 2, "SDKConfigured")%N
  | AUpdate _ _ _ _ _ => Some (2, 2, "AppUpdated")%N
  | _ => None
  end.
(** The caller's fields. *)
Definition given (a : api) : list annotated :=
  match a with AResource fs _ | AScreen fs _ | AScreenshot fs _ | ASdkStart fs _ | AUpdate _ _ fs _ _ => fs | ALog l _ => ln_fields l | _ => [] end.
(** What the SDK has to say in them, by the name of the field; [p]: the version on record before. *)
Inductive measured (show_ms : Z -> string) (sdk : string) (p : option KeyValue_Model.version) : api -> string -> string -> Prop :=
| m_resource fs d : measured show_ms sdk p (AResource fs d) "_duration_ms" (show_ms d)
| m_screen fs d : measured show_ms sdk p (AScreen fs d) "_duration_ms" (show_ms d)
| m_shot fs d : measured show_ms sdk p (AScreenshot fs d) "_duration_ms" (show_ms d)
| m_start fs d : measured show_ms sdk p (ASdkStart fs d) "_duration_ms" (show_ms d)
| m_sdk fs d : measured show_ms sdk p (ASdkStart fs d) "_sdk_version" sdk
| m_update v n fs d x : measured show_ms sdk p (AUpdate v n fs d x) "_duration_ms" (show_ms d)
| m_size v n fs d x : measured show_ms sdk p (AUpdate v (Some n) fs d x) "_app_install_size_bytes" (dec_string n)
| m_previous v n fs d x q : p = Some q -> measured show_ms sdk p (AUpdate v n fs d x) "_previous_app_version" (text (KeyValue_Model.av_version q))
| m_code v n fs d x q z : p = Some q -> KeyValue_Model.av_extra q = KeyValue_Model.VersionCode z ->
    measured show_ms sdk p (AUpdate v n fs d x) "_previous_app_version_code" (DecimalString.NilZero.string_of_int (Z.to_int z))
| m_build v n fs d x q b : p = Some q -> KeyValue_Model.av_extra q = KeyValue_Model.BuildNumber b ->
    measured show_ms sdk p (AUpdate v n fs d x) "_previous_build_number" (text b).

(** No out-of-the-box field of this name is among these. *)
Definition free (k : string) (l : list annotated) : Prop := forall f, In (mkAnnotated f Ootb) l -> f_key f <> k.

(** Does this call, after those steps, offer a message to the channel? *)
Definition offers (l : list label) (x : label) : option family :=
  match x with
  | Api t (AFlush _) _ => Some FFlush
  | Api t a _ =>
      if inside t l then None
      else match a with
           | ALog _ _ | AResource _ _ | AScreen _ _ | AScreenshot _ _ | ASdkStart _ _ => Some FLog
           | AAdd _ => Some FAdd
           | ARemove _ => Some FRemove
           | AUpdate v _ _ _ _ =>
               match on_record (version_calls l) with
               | Some p => if KeyValue_Model.version_eqb v p then None else Some FLog
               | None => None
               end
           | _ => None
           end
  | _ => None
  end.
(** The calls of a history that offer such a message and get this answer; [pre]: what came before. *)
Fixpoint offered (f : family) (r : answer) (pre l : list label) : N :=
  match l with
  | [] => 0
  | x :: l =>
      (match offers pre x, x with
       | Some g, Api _ _ q => if family_eqb g f && answer_eqb q r then 1 else 0
       | _, _ => 0
       end + offered f r (pre ++ [x]) l)%N
  end.
(** The captures of screens, in order. *)
Definition captures (l : list label) : list Z :=
  flat_map (fun x => match x with Api _ (AScreen _ d) _ | Api _ (AScreenshot _ d) _ => [d] | _ => [] end) l.
(** The session after starting anew at each call outside the guard. *)
Fixpoint session_after (s : strategy) (pre l : list label) : strategy :=
  match l with
  | [] => s
  | x :: l => session_after (match x with Api t (ANewSession k) _ => if inside t pre then s else start_new_session s k | _ => s end) (pre ++ [x]) l
  end.
