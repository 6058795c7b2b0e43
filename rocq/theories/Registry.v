(** Model of src/library/base/EventRegistry.{h,cpp} and of the event types of
    include/licensecc/datatypes.h. *)
From Verif Require Import Base.

(** datatypes.h 30-46 LCC_EVENT_TYPE *)
Inductive event_type :=
| LICENSE_OK | LICENSE_FILE_NOT_FOUND | LICENSE_SERVER_NOT_FOUND
| ENVIRONMENT_VARIABLE_NOT_DEFINED | FILE_FORMAT_NOT_RECOGNIZED | LICENSE_MALFORMED
| PRODUCT_NOT_LICENSED | PRODUCT_EXPIRED | LICENSE_CORRUPTED | IDENTIFIERS_MISMATCH
| LICENSE_SPECIFIED | LICENSE_FOUND | PRODUCT_FOUND | SIGNATURE_VERIFIED.

(** comparison of LCC_EVENT_TYPE values (datatypes.h 30-46) *)
Definition event_eq_dec : forall a b : event_type, {a = b} + {a <> b}.
Proof. decide equality. Defined.
Definition event_eqb (a b : event_type) : bool := if event_eq_dec a b then true else false.

(** datatypes.h 53 LCC_SEVERITY *)
Inductive severity := SVRT_INFO | SVRT_WARN | SVRT_ERROR.

(** datatypes.h 55-63 AuditEvent. [ev_ref]: the characters strncpy stored in
    license_reference[MAX_PATH] (MAX_PATH = 1024 on unix); when there are 1024 of
    them the array holds no terminator. [ev_param2]: likewise, at most 255. *)
Record event := { ev_sev : severity; ev_type : event_type; ev_ref : bytes; ev_param2 : bytes }.

(** datatypes.h 20-22 *)
Definition MAX_PATH : nat := 1024.

(** EventRegistry.h: logs, current_validation_step, and
    mostAdvancedLogIdx_by_LicenseId *)
Record registry := { logs : list event; step : Z; adv : smap nat }.

(** EventRegistry.cpp 24 *)
Definition reg_empty : registry := {| logs := []; step := (-1)%Z; adv := [] |}.

(** EventRegistry.cpp 21-22 PROGRESS_BY_EVENT_TYPE *)
Definition progress (e : event_type) : option Z :=
  match e with
  | LICENSE_SPECIFIED => Some 0%Z
  | LICENSE_FOUND => Some 1%Z
  | PRODUCT_FOUND => Some 2%Z
  | SIGNATURE_VERIFIED => Some 3%Z
  | LICENSE_OK => Some 4%Z
  | _ => None
  end.

(** std::string(audit.license_reference): needs a terminator inside the array *)
Definition ref_string (r : bytes) : res bytes :=
  if Nat.ltb (length r) MAX_PATH then Ok r else Undef UbRead.

(** EventRegistry.cpp 87-118. [id = None] is a null licenseLocationId, [info =
    None] a null info; C strings are cut at their first NUL. *)
Definition add_event (e : event_type) (id info : option bytes) (r : registry) : res registry :=
  let ref := match id with None => bs "UNDEF" | Some s => firstn MAX_PATH (cstr s) end in
  let p2 := match info with None => [] | Some s => firstn 255 (cstr s) end in
  let audit := {| ev_sev := match progress e with Some _ => SVRT_INFO | None => SVRT_WARN end;
                  ev_type := e; ev_ref := ref; ev_param2 := p2 |} in
  let logs' := logs r ++ [audit] in
  let idx := length logs' - 1 in
  match progress e with
  | Some st =>
      let '(step', adv') := if Z.ltb (step r) st then (st, []) else (step r, adv r) in
      if Z.eqb st step' then
        key <-- ref_string ref ;;
        Ok {| logs := logs'; step := step'; adv := sm_set key idx adv' |}
      else Ok {| logs := logs'; step := step'; adv := adv' |}
  | None =>
      key <-- ref_string ref ;;
      Ok {| logs := logs'; step := step r;
            adv := if sm_mem key (adv r) then sm_set key idx (adv r) else adv r |}
  end.

(** EventRegistry.cpp 126, 134, 146: assignment to severity *)
Definition set_sev (s : severity) (e : event) : event :=
  {| ev_sev := s; ev_type := ev_type e; ev_ref := ev_ref e; ev_param2 := ev_param2 e |}.

(** EventRegistry.cpp 64, 74, 125, 133, 145: tests of severity *)
Definition is_error (e : event) : bool := match ev_sev e with SVRT_ERROR => true | _ => false end.
Definition is_warn (e : event) : bool := match ev_sev e with SVRT_WARN => true | _ => false end.

(** logs[i] = x (in bounds) *)
Fixpoint list_upd {A} (i : nat) (x : A) (l : list A) : list A :=
  match i, l with
  | _, [] => []
  | 0, _ :: r => x :: r
  | S i', y :: r => y :: list_upd i' x r
  end.

(** EventRegistry.cpp 123-129: the loop over the most advanced licenses *)
Fixpoint raise_adv (m : smap nat) (l : list event) (found : bool) : res (list event * bool) :=
  match m with
  | [] => Ok (l, found)
  | (_, i) :: m' =>
      match nth_error l i with
      | None => Undef UbRead
      | Some e => if is_warn e || is_error e
                  then raise_adv m' (list_upd i (set_sev SVRT_ERROR e) l) true
                  else raise_adv m' l found
      end
  end.

(** EventRegistry.cpp 120-140 *)
Definition turn_warnings_into_errors (r : registry) : res (registry * bool) :=
  '(l, found) <-- raise_adv (adv r) (logs r) false ;;
  if found : bool then Ok ({| logs := l; step := step r; adv := adv r |}, true)
  else
    let l' := map (fun e => if is_warn e then set_sev SVRT_ERROR e else e) l in
    Ok ({| logs := l'; step := step r; adv := adv r |}, existsb is_warn l).

(** EventRegistry.cpp 142-151 *)
Definition turn_errors_into_warnings (r : registry) : registry * bool :=
  ({| logs := map (fun e => if is_error e then set_sev SVRT_WARN e else e) (logs r);
      step := step r; adv := adv r |},
   existsb is_error (logs r)).

(** EventRegistry.cpp 62-68 *)
Fixpoint find_adv_error (m : smap nat) (l : list event) : res (option event) :=
  match m with
  | [] => Ok None
  | (_, i) :: m' =>
      match nth_error l i with
      | None => Undef UbRead
      | Some e => if is_error e then Ok (Some e) else find_adv_error m' l
      end
  end.

(** EventRegistry.cpp 71-78: last ERROR of the log *)
Fixpoint last_error (l : list event) : option event :=
  match l with
  | [] => None
  | e :: r => match last_error r with
              | Some x => Some x
              | None => if is_error e then Some e else None
              end
  end.

(** EventRegistry.cpp 55-81 *)
Definition get_last_failure (r : registry) : res (option event) :=
  match logs r with
  | [] => Ok None
  | _ =>
      o <-- find_adv_error (adv r) (logs r) ;;
      match o with
      | Some e => Ok (Some e)
      | None => Ok (last_error (logs r))
      end
  end.

(** EventRegistry.cpp 158 *)
Definition is_good (r : registry) : res bool :=
  o <-- get_last_failure r ;; Ok (match o with None => true | Some _ => false end).

(** EventRegistry.cpp 26-29 and 51-53 *)
Definition append_event (e : event) (r : registry) : registry :=
  {| logs := logs r ++ [e]; step := step r; adv := adv r |}.
(** EventRegistry.cpp 31-34 and 51-53: only the logs are appended *)
Definition append_registry (r other : registry) : registry :=
  {| logs := logs r ++ logs other; step := step r; adv := adv r |}.

(** EventRegistry.cpp 153-156: the events copied to the caller's array of
    [nlogs] entries (the remaining entries are left untouched). *)
Definition export_last_events (r : registry) (nlogs : nat) : list event :=
  let size_to_copy := Nat.min nlogs (length (logs r)) in
  skipn (length (logs r) - size_to_copy) (logs r).
