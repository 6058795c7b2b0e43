(** Model of src/library/LicenseReader.cpp, limits/license_verifier.cpp,
    os/openssl/signature_verifier.cpp and licensecc.cpp. *)
From Verif Require Import Base CTypes StringUtils Dates Doubles Base64 HwId Registry Ini Network Disks
     ExecEnv Strategies Locate.

(** base/base.h: license file parameters *)
Definition PARAM_EXPIRY_DATE : bytes := bs "valid-to".
Definition PARAM_BEGIN_DATE : bytes := bs "valid-from".
Definition PARAM_CLIENT_SIGNATURE : bytes := bs "client-signature".
Definition PARAM_EXTRA_DATA : bytes := bs "extra-data".
Definition LICENSE_SIGNATURE : bytes := bs "sig".
Definition LICENSE_VERSION : bytes := bs "lic_ver".

(** LicenseReader.hpp FullLicenseInfo *)
Record full_license := {
  fl_source : bytes; fl_project : bytes; fl_signature : bytes; fl_magic : N;
  fl_limits : smap bytes
}.

(** LicenseReader.cpp 90-95 *)
Definition read_limits (d : ini) (product : bytes) : smap bytes :=
  fold_left (fun m k => match get_value d product k with
                        | Some v => sm_set k v m
                        | None => m
                        end) (get_all_keys d product) [].

(** LicenseReader.cpp 63-100, one location. *)
Definition read_location (w : world) (loc : locator) (product loc_id : bytes)
           (acc : registry * list full_license) : M (registry * list full_license) :=
  let '(r, out) := acc in
  let product_up := toupper_copy product in
  content <~ retrieve_license_content w loc (cstr loc_id) ;;
  d <~ mlift (ini_load content) ;;
  if Z.leb (get_section_size d product_up) 0 then
    r <~ mlift (add_event PRODUCT_NOT_LICENSED (Some loc_id) None r) ;; mret (r, out)
  else
    r <~ mlift (add_event PRODUCT_FOUND (Some loc_id) None r) ;;
    match get_value d product_up LICENSE_SIGNATURE with
    | Some sig =>
        if Z.eqb (get_long_value d product_up LICENSE_VERSION (-1)) 200 then
          mret (r, out ++ [{| fl_source := loc_id; fl_project := product; fl_signature := sig;
                              fl_magic := 0%N; fl_limits := read_limits d product_up |}])
        else r <~ mlift (add_event LICENSE_MALFORMED (Some loc_id) None r) ;; mret (r, out)
    | None => r <~ mlift (add_event LICENSE_MALFORMED (Some loc_id) None r) ;; mret (r, out)
    end.

(** LicenseReader.cpp 63-101: the loop over the locations of one locator *)
Fixpoint read_all (w : world) (loc : locator) (product : bytes) (ids : list bytes)
         (acc : registry * list full_license) : M (registry * list full_license) :=
  match ids with
  | [] => mret acc
  | i :: r => acc <~ read_location w loc product i acc ;; read_all w loc product r acc
  end.

(** LicenseReader.cpp 57-102 *)
Fixpoint read_locators (w : world) (ls : list locator) (product : bytes)
         (acc : registry * list full_license) : M (registry * list full_license) :=
  match ls with
  | [] => mret acc
  | l :: rest =>
      let '(r, out) := acc in
      '(ids, r) <~ license_locations w l r ;;
      acc <~ read_all w l product ids (r, out) ;;
      read_locators w rest product acc
  end.

(** LicenseReader.cpp 44-107 *)
Definition read_licenses (w : world) (hint : option location) (product : bytes)
  : M (registry * list full_license) :=
  match get_active_strategies w hint with
  | [] =>
      r <~ mlift (add_event LICENSE_FILE_NOT_FOUND None None reg_empty) ;;
      '(r, _) <~ mlift (turn_warnings_into_errors r) ;;
      mret (r, [])
  | ls =>
      '(r, out) <~ read_locators w ls product (reg_empty, []) ;;
      match out with
      | [] => '(r, _) <~ mlift (turn_warnings_into_errors r) ;; mret (r, [])
      | _ => mret (r, out)
      end
  end.

(** LicenseReader.cpp 111-124 *)
Definition print_for_sign (l : full_license) : bytes :=
  toupper_copy (trim_copy (fl_project l)) ++
  concat (map (fun '(k, v) => if beqb k LICENSE_SIGNATURE then [] else trim_copy k ++ trim_copy v)
              (fl_limits l)).

(** os/openssl/signature_verifier.cpp 44-106. The base64 decoder writes its
    result into buffer[512]; its return value is then used, as an unsigned int,
    to store a terminator. Failures of the EVP calls are folded in [w_verify]. *)
Definition os_verify_signature (w : world) (text sigB64 : bytes) : res bool :=
  if negb (w_key_ok w) then Ok false
  else
    let '(ret, data) := w_bio w sigB64 in
    if Z.ltb ret 0 || Z.leb 512 ret then Undef UbWrite
    else Ok (w_verify w text (firstn (Z.to_nat ret) data)).

(** license_verifier.cpp 23-34 *)
Definition verify_signature (w : world) (l : full_license) (r : registry) : res (bool * registry) :=
  ok <-- os_verify_signature w (print_for_sign l) (fl_signature l) ;;
  r <-- add_event (if ok : bool then SIGNATURE_VERIFIED else LICENSE_CORRUPTED) (Some (fl_source l)) None r ;;
  Ok (ok, r).

(** license_verifier.cpp 37-65 *)
Definition verify_limits (w : world) (l : full_license) (r : registry) : M (bool * registry) :=
  let src := Some (fl_source l) in
  let magic_ok := N.eqb (fl_magic l) (w_magic w) in
  r <~ (if magic_ok then mret r else mlift (add_event LICENSE_CORRUPTED src None r)) ;;
  now <~ m_now w ;;
  '(valid, r) <~
    match magic_ok, sm_get PARAM_EXPIRY_DATE (fl_limits l) with
    | true, Some d =>
        secs <~ mlift (seconds_from_epoch (w_mktime w) d) ;;
        if Z.ltb secs now then
          r <~ mlift (add_event PRODUCT_EXPIRED src (Some (bs "Expired " ++ d)) r) ;; mret (false, r)
        else mret (true, r)
    | v, _ => mret (v, r)
    end ;;
  '(valid, r) <~
    match valid, sm_get PARAM_BEGIN_DATE (fl_limits l) with
    | true, Some d =>
        secs <~ mlift (seconds_from_epoch (w_mktime w) d) ;;
        if Z.ltb now secs then
          r <~ mlift (add_event PRODUCT_EXPIRED src (Some (bs "Valid from " ++ d)) r) ;; mret (false, r)
        else mret (true, r)
    | v, _ => mret (v, r)
    end ;;
  match valid, sm_get PARAM_CLIENT_SIGNATURE (fl_limits l) with
  | true, Some code =>
      m <~ m_machine w ;;
      e <~ mlift (validate_pc_signature m code) ;;
      r <~ mlift (add_event e src None r) ;;
      mret (event_eqb e LICENSE_OK, r)
  | v, _ => mret (v, r)
  end.

(** LicenseInfo as computed by toLicenseInfo: the fields it writes; the field
    proprietary_data may remain unwritten (None); status and license_version are
    never written by it. *)
Record linfo := { li_expiry_date : bytes; li_days_left : Z; li_has_expiry : bool;
                  li_linked_to_pc : bool; li_proprietary : option bytes }.

(** license_verifier.cpp 67-95. difftime converts the difference of its arguments to
    double; the quotient and round() are double arithmetic (Doubles.v), and the
    conversion to int is undefined out of range. *)
Definition to_license_info (w : world) (l : full_license) : M linfo :=
  let linked := match sm_get PARAM_CLIENT_SIGNATURE (fl_limits l) with Some _ => true | None => false end in
  let prop := option_map (fun v => firstn 16 (cstr v)) (sm_get PARAM_EXTRA_DATA (fl_limits l)) in
  match sm_get PARAM_EXPIRY_DATE (fl_limits l) with
  | Some d =>
      at_midnight <~ mlift (seconds_from_epoch (w_mktime w) d) ;;
      now <~ m_now w ;;
      let secs := double_of (at_midnight - now) in
      days <~ mlift (double_to_int (double_round (double_div secs (double_of (60 * 60 * 24))))) ;;
      mret {| li_expiry_date := firstn 10 (cstr d); li_days_left := Z.max days 0;
              li_has_expiry := true; li_linked_to_pc := linked; li_proprietary := prop |}
  | None => mret {| li_expiry_date := []; li_days_left := 9999; li_has_expiry := false;
                    li_linked_to_pc := linked; li_proprietary := prop |}
  end.

(** The caller's LicenseInfo; None = whatever it contained / indeterminate.
    [o_status] has LCC_API_AUDIT_EVENT_NUM = 5 entries. *)
Record out_info := {
  o_status : list (option event); o_expiry_date : option bytes; o_days_left : option Z;
  o_has_expiry : option bool; o_linked_to_pc : option bool; o_proprietary : option bytes
}.
(** licensecc_properties.h.in 51 *)
Definition AUDIT_EVENT_NUM : nat := 5.

(** *license_out = *it: status is copied too, but was never written in *it *)
Definition out_of_linfo (i : linfo) : out_info :=
  {| o_status := repeat None AUDIT_EVENT_NUM; o_expiry_date := Some (li_expiry_date i);
     o_days_left := Some (li_days_left i); o_has_expiry := Some (li_has_expiry i);
     o_linked_to_pc := Some (li_linked_to_pc i); o_proprietary := li_proprietary i |}.

(** licensecc.cpp 58-72, the license copied to license_out (if any) *)
Fixpoint merge_licenses (ls : list linfo) (best : option linfo) (days_left : Z) : option linfo :=
  match ls with
  | [] => best
  | i :: r =>
      if negb (li_has_expiry i) then Some i
      else if Z.ltb days_left (li_days_left i) then merge_licenses r (Some i) (li_days_left i)
      else merge_licenses r best days_left
  end.

(** er.exportLastEvents(license_out->status, 5): the first entries are written,
    the others keep their content *)
Definition export_status (r : registry) (o : out_info) : out_info :=
  let evs := map Some (export_last_events r AUDIT_EVENT_NUM) in
  {| o_status := evs ++ skipn (length evs) (o_status o);
     o_expiry_date := o_expiry_date o; o_days_left := o_days_left o;
     o_has_expiry := o_has_expiry o; o_linked_to_pc := o_linked_to_pc o;
     o_proprietary := o_proprietary o |}.

(** CallerInformations, datatypes.h 96-119 *)
Record caller := { ci_feature : bytes (* char[16] *); ci_magic : N }.

(** licensecc.cpp 92-107 *)
Fixpoint verify_all (w : world) (magic : option N) (ls : list full_license) (r : registry)
         (ok bad : list linfo) : M (registry * list linfo * list linfo) :=
  match ls with
  | [] => mret (r, ok, bad)
  | l :: rest =>
      let l := match magic with
               | Some m => {| fl_source := fl_source l; fl_project := fl_project l;
                              fl_signature := fl_signature l; fl_magic := m;
                              fl_limits := fl_limits l |}
               | None => l
               end in
      '(sig_ok, r) <~ mlift (verify_signature w l r) ;;
      info <~ to_license_info w l ;;
      if sig_ok : bool then
        '(lim_ok, r) <~ verify_limits w l r ;;
        if lim_ok : bool then verify_all w magic rest r (ok ++ [info]) bad
        else verify_all w magic rest r ok (bad ++ [info])
      else verify_all w magic rest r ok (bad ++ [info])
  end.

(** er.getLastFailure()->event_type *)
Definition failure_code (r : registry) : res event_type :=
  o <-- get_last_failure r ;;
  match o with Some e => Ok (ev_type e) | None => Undef UbNull end.

(** licensecc.cpp 78-85: the requested feature *)
Definition requested_feature (w : world) (c : option caller) : res bytes :=
  match c with
  | None => Ok (w_project w)
  | Some c =>
      n <-- mstrnlen_s (ci_feature c) (length (ci_feature c)) ;;
      if Nat.ltb 0 n then Ok (firstn n (ci_feature c)) else Ok (w_project w)
  end.

(** licensecc.cpp 74-135. [out = None]: license_out is null. *)
Definition acquire_license (w : world) (c : option caller) (hint : option location)
           (out : option out_info) : M (event_type * option out_info) :=
  project <~ mlift (requested_feature w c) ;;
  '(er, licenses) <~ read_licenses w hint project ;;
  match licenses with
  | [] =>
      '(er, _) <~ mlift (turn_warnings_into_errors er) ;;
      result <~ mlift (failure_code er) ;;
      let out' := option_map (fun o => export_status er
                    {| o_status := o_status o; o_expiry_date := o_expiry_date o;
                       o_days_left := Some 0%Z; o_has_expiry := o_has_expiry o;
                       o_linked_to_pc := Some false; o_proprietary := Some [] |}) out in
      mret (result, out')
  | _ =>
      '(er, ok, bad) <~ verify_all w (option_map ci_magic c) licenses er [] [] ;;
      let copy ls o := match merge_licenses ls None INT_MIN with
                       | Some i => out_of_linfo i
                       | None => o
                       end in
      match ok with
      | _ :: _ =>
          let '(er, _) := turn_errors_into_warnings er in
          mret (LICENSE_OK, option_map (fun o => export_status er (copy ok o)) out)
      | [] =>
          '(er, _) <~ mlift (turn_warnings_into_errors er) ;;
          result <~ mlift (failure_code er) ;;
          mret (result, option_map (fun o => export_status er (copy bad o)) out)
      end
  end.

(** licensecc.cpp 32-56. [buf = None]: chbuffer is null; the array and *bufSize
    are given separately. Result: return value, new buffer, new *bufSize, and the
    execution environment info when requested. *)
Definition PC_IDENTIFIER_SIZE : nat := 19.
(** datatypes.h 163-167 *)
Record exec_info := { xi_cloud : cloud; xi_virt : virt_summary; xi_detail : virt_detail }.
(** licensecc.cpp 33-47: the identifier *)
Definition identify_buffer (env : option bytes) (m : machine) (method : Z) (buf : option bytes)
           (buf_size : nat) : res (bool * option bytes * nat) :=
  match buf with
  | Some b =>
      if Nat.ltb PC_IDENTIFIER_SIZE buf_size then
        match generate_user_pc_signature env m method with
        | Ok pc_id => '(b', _) <-- mstrlcpy b (c_str pc_id) buf_size ;; Ok (true, Some b', buf_size)
        | Throw _ => Ok (false, buf, buf_size)
        | Undef u => Undef u
        | OutOfFuel => OutOfFuel
        end
      else Ok (false, buf, PC_IDENTIFIER_SIZE + 1)
  | None => Ok (false, buf, PC_IDENTIFIER_SIZE + 1)
  end.
(** licensecc.cpp 32-56, one call. [st]: the static exec_env, [None] before its
    constructor has run; the second component is its value afterwards. *)
Definition identify_call (st : option exec_env) (env : option bytes) (m : machine) (method : Z) (buf : option bytes)
           (buf_size : nat) (want_info : bool)
  : res (bool * option bytes * nat * option exec_info * exec_env) :=
  '(result, buf', size') <-- identify_buffer env m method buf buf_size ;;
  e <-- match st with Some e => Ok e | None => make_exec_env (hw_exec m) end ;;
  Ok (result, buf', size',
      if want_info : bool then Some {| xi_cloud := cloud_provider e; xi_virt := virtualization e;
                                       xi_detail := virtualization_detail e |} else None, e).
(** licensecc.cpp 32-56: the first call of a process *)
Definition identify_pc (env : option bytes) (m : machine) (method : Z) (buf : option bytes)
           (buf_size : nat) (want_info : bool)
  : res (bool * option bytes * nat * option exec_info) :=
  '(r, _) <-- identify_call None env m method buf buf_size want_info ;; Ok r.

(** The calls of one process (licensecc.cpp 32-56), with the surroundings of each. *)
Record id_call := { ic_env : option bytes; ic_machine : machine; ic_method : Z; ic_buf : option bytes; ic_size : nat; ic_info : bool }.
Fixpoint identify_calls (st : option exec_env) (l : list id_call) : res (list (bool * option bytes * nat * option exec_info)) :=
  match l with
  | [] => Ok []
  | c :: l =>
      '(r, e) <-- identify_call st (ic_env c) (ic_machine c) (ic_method c) (ic_buf c) (ic_size c) (ic_info c) ;;
      rs <-- identify_calls (Some e) l ;;
      Ok (r :: rs)
  end.

(** licensecc.cpp 137-139 *)
Definition confirm_license : event_type := LICENSE_OK.
Definition release_license : event_type := LICENSE_OK.
