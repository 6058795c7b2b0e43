(** acquire_license once more, as a program that makes its accesses to the surroundings
    (files, clock, hardware) one by one, so that they can be listed, and interleaved with
    those of other calls. The functions are those of Locate.v and Licensecc.v, with their
    citations; P_Io.v proves that running the program alone is Licensecc.acquire_license. Of
    the surroundings [w] the program itself uses only what is fixed (the build, the
    variables, the name of the executable, the key): P_Io.io_fixed. *)
From Verif Require Import Base CTypes StringUtils Dates Doubles Base64 HwId Registry Ini Network Disks
     ExecEnv Strategies Locate Licensecc.

(** A computation that ends, or makes an access and goes on with the answer. *)
Inductive io (A : Type) :=
| Done (r : res A)
| LookFor (path : bytes) (k : bool -> io A)             (* file_utils.cpp 25-26, ApplicationFolder.cpp 37-38 *)
| ReadFile (path : bytes) (k : option file -> io A)     (* file_utils.cpp 37-50 *)
| AskTime (k : Z -> io A)                               (* license_verifier.cpp 44, 84 *)
| AskMachine (k : machine -> io A).                     (* license_verifier.cpp 58 *)
Arguments Done {A} r. Arguments LookFor {A} path k. Arguments ReadFile {A} path k. Arguments AskTime {A} k. Arguments AskMachine {A} k.
Definition ilift {A} (r : res A) : io A := Done r.
Definition iret {A} (a : A) : io A := Done (Ok a).
Fixpoint ibind {A B} (m : io A) (k : A -> io B) : io B :=
  match m with
  | Done (Ok a) => k a
  | Done (Throw e) => Done (Throw e)
  | Done (Undef u) => Done (Undef u)
  | Done OutOfFuel => Done OutOfFuel
  | LookFor p c => LookFor p (fun b => ibind (c b) k)
  | ReadFile p c => ReadFile p (fun f => ibind (c f) k)
  | AskTime c => AskTime (fun z => ibind (c z) k)
  | AskMachine c => AskMachine (fun x => ibind (c x) k)
  end.
Notation "x <-$ m ;; k" := (ibind m (fun x => k))
  (at level 61, m at next level, right associativity).
Notation "' p <-$ m ;; k" := (ibind m (fun x => match x with p => k end))
  (at level 61, p pattern, m at next level, right associativity).
Definition look_for (path : bytes) : io bool := LookFor (cstr path) iret.
Definition read_file (path : bytes) : io (option file) := ReadFile (cstr path) iret.
Definition ask_time : io Z := AskTime iret.
Definition ask_machine : io machine := AskMachine iret.

(** Alone, from the instant [t] on: every access takes one instant. *)
Fixpoint io_run {A} (w : world) (m : io A) (t : nat) : res (A * nat) :=
  match m with
  | Done r => a <-- r ;; Ok (a, t)
  | LookFor p k => io_run w (k (w_good w t p)) (S t)
  | ReadFile p k => io_run w (k (w_file w t p)) (S t)
  | AskTime k => io_run w (k (w_clock w t)) (S t)
  | AskMachine k => io_run w (k (w_machine w t)) (S t)
  end.
(** the accesses made *)
Inductive access := Looked (path : bytes) | Read (path : bytes) | Time | Hardware.
Fixpoint io_accesses {A} (w : world) (m : io A) (t : nat) : list access :=
  match m with
  | Done _ => []
  | LookFor p k => Looked p :: io_accesses w (k (w_good w t p)) (S t)
  | ReadFile p k => Read p :: io_accesses w (k (w_file w t p)) (S t)
  | AskTime k => Time :: io_accesses w (k (w_clock w t)) (S t)
  | AskMachine k => Hardware :: io_accesses w (k (w_machine w t)) (S t)
  end.

(** ** The program *)
(** file_utils.cpp 20-35 *)
Fixpoint io_filter_existing_files (l : list bytes) (extra : bytes) (r : registry)
  : io (list bytes * registry) :=
  match l with
  | [] => iret ([], r)
  | f :: rest =>
      r <-$ ilift (add_event LICENSE_SPECIFIED (Some f) (Some extra) r) ;;
      g <-$ look_for f ;;
      r <-$ ilift (add_event (if g then LICENSE_FOUND else LICENSE_FILE_NOT_FOUND)
                            (Some f) (Some extra) r) ;;
      '(fs, r) <-$ io_filter_existing_files rest extra r ;;
      iret (if g : bool then f :: fs else fs, r)
  end.

(** license_locations of each strategy *)
Definition io_license_locations (w : world) (l : locator) (r : registry) : io (list bytes * registry) :=
  match l with
  | LocApplicationFolder =>                    (* ApplicationFolder.cpp 30-49 *)
      match get_module_name w with
      | None => iret ([], r)
      | Some fname =>
          let p := module_license fname in
          g <-$ look_for p ;;
          if g : bool then r <-$ ilift (add_event LICENSE_FOUND (Some p) None r) ;; iret ([p], r)
          else r <-$ ilift (add_event LICENSE_FILE_NOT_FOUND (Some p) None r) ;; iret ([], r)
      end
  | LocEnvVarLocation =>                       (* EnvironmentVarLocation.cpp 22-38 *)
      match env_set w LICENSE_LOCATION_VAR with
      | Some v => io_filter_existing_files (split_string v ";"%char) LICENSE_LOCATION_VAR r
      | None => r <-$ ilift (add_event ENVIRONMENT_VARIABLE_NOT_DEFINED None None r) ;; iret ([], r)
      end
  | LocEnvVarData =>                           (* EnvironmentVarData.cpp 30-46 *)
      match env_set w LICENSE_DATA_VAR with
      | Some v =>
          r <-$ ilift (add_event LICENSE_SPECIFIED (Some LICENSE_LOCATION_VAR) None r) ;;
          match identify_format v with
          | FmtUnknown =>
              r <-$ ilift (add_event LICENSE_MALFORMED (Some LICENSE_LOCATION_VAR) None r) ;; iret ([], r)
          | _ => iret ([LICENSE_LOCATION_VAR], r)
          end
      | None =>
          r <-$ ilift (add_event ENVIRONMENT_VARIABLE_NOT_DEFINED (Some LICENSE_LOCATION_VAR) None r) ;;
          iret ([], r)
      end
  | LocExternal loc =>                         (* ExternalDefinition.cpp 31-51 *)
      match loc_data loc with
      | [] => ilift (Undef UbRead)
      | c :: _ =>
          if Ascii.eqb c NUL then iret ([], r)
          else
            r <-$ ilift (add_event LICENSE_SPECIFIED (Some EXTERNAL_NAME) None r) ;;
            if Z.eqb (loc_type loc) 0 then
              licData <-$ ilift (string_of_array (loc_data loc) MAX_LICENSE_DATA) ;;
              io_filter_existing_files (split_string licData ";"%char) EXTERNAL_NAME r
            else if Z.eqb (loc_type loc) 1 || Z.eqb (loc_type loc) 2 then iret ([EXTERNAL_NAME], r)
            else ilift (Throw ExLogic)
      end
  end.

(** retrieve_license_content of each strategy *)
Definition io_license_content (w : world) (l : locator) (loc_id : bytes) : io bytes :=
  let from_file :=                             (* LocatorStrategy.cpp 17-19 *)
    f <-$ read_file loc_id ;; ilift (get_file_contents f MAX_LICENSE_DATA) in
  match l with
  | LocApplicationFolder | LocEnvVarLocation => from_file
  | LocEnvVarData =>                           (* EnvironmentVarData.cpp 48-56 *)
      match w_getenv w LICENSE_LOCATION_VAR with
      | None => ilift (Undef UbNull)
      | Some env_val =>
          match env_set w LICENSE_DATA_VAR with
          | Some v =>
              match identify_format v with
              | FmtBase64 => ilift (data <-- unbase64 env_val ;; string_of_vector data)
              | _ => iret env_val
              end
          | None => iret env_val
          end
      end
  | LocExternal loc =>                         (* ExternalDefinition.cpp 53-67 *)
      if beqb loc_id EXTERNAL_NAME then
        licData <-$ ilift (string_of_array (loc_data loc) MAX_LICENSE_DATA) ;;
        if Z.eqb (loc_type loc) 2 then
          ilift (raw <-- unbase64 licData ;; string_of_vector raw)
        else iret licData
      else from_file
  end.

(** LicenseReader.cpp 63-100, one location. *)
Definition io_read_location (w : world) (loc : locator) (product loc_id : bytes)
           (acc : registry * list full_license) : io (registry * list full_license) :=
  let '(r, out) := acc in
  let product_up := toupper_copy product in
  content <-$ io_license_content w loc (cstr loc_id) ;;
  d <-$ ilift (ini_load content) ;;
  if Z.leb (get_section_size d product_up) 0 then
    r <-$ ilift (add_event PRODUCT_NOT_LICENSED (Some loc_id) None r) ;; iret (r, out)
  else
    r <-$ ilift (add_event PRODUCT_FOUND (Some loc_id) None r) ;;
    match get_value d product_up LICENSE_SIGNATURE with
    | Some sig =>
        if Z.eqb (get_long_value d product_up LICENSE_VERSION (-1)) 200 then
          iret (r, out ++ [{| fl_source := loc_id; fl_project := product; fl_signature := sig;
                              fl_magic := 0%N; fl_limits := read_limits d product_up |}])
        else r <-$ ilift (add_event LICENSE_MALFORMED (Some loc_id) None r) ;; iret (r, out)
    | None => r <-$ ilift (add_event LICENSE_MALFORMED (Some loc_id) None r) ;; iret (r, out)
    end.

(** LicenseReader.cpp 63-101: the loop over the locations of one locator *)
Definition io_read_all (w : world) (loc : locator) (product : bytes) :
  list bytes -> registry * list full_license -> io (registry * list full_license) :=
  fix all ids acc :=
  match ids with
  | [] => iret acc
  | i :: r => acc <-$ io_read_location w loc product i acc ;; all r acc
  end.

(** LicenseReader.cpp 57-102 *)
Definition io_read_locators (w : world) (product : bytes) :
  list locator -> registry * list full_license -> io (registry * list full_license) :=
  fix all ls acc :=
  match ls with
  | [] => iret acc
  | l :: rest =>
      let '(r, out) := acc in
      '(ids, r) <-$ io_license_locations w l r ;;
      acc <-$ io_read_all w l product ids (r, out) ;;
      all rest acc
  end.

(** LicenseReader.cpp 44-107 *)
Definition io_read_licenses (w : world) (hint : option location) (product : bytes)
  : io (registry * list full_license) :=
  match get_active_strategies w hint with
  | [] =>
      r <-$ ilift (add_event LICENSE_FILE_NOT_FOUND None None reg_empty) ;;
      '(r, _) <-$ ilift (turn_warnings_into_errors r) ;;
      iret (r, [])
  | ls =>
      '(r, out) <-$ io_read_locators w product ls (reg_empty, []) ;;
      match out with
      | [] => '(r, _) <-$ ilift (turn_warnings_into_errors r) ;; iret (r, [])
      | _ => iret (r, out)
      end
  end.

(** license_verifier.cpp 37-65 *)
Definition io_verify_limits (w : world) (l : full_license) (r : registry) : io (bool * registry) :=
  let src := Some (fl_source l) in
  let magic_ok := N.eqb (fl_magic l) (w_magic w) in
  r <-$ (if magic_ok then iret r else ilift (add_event LICENSE_CORRUPTED src None r)) ;;
  now <-$ ask_time ;;
  '(valid, r) <-$
    match magic_ok, sm_get PARAM_EXPIRY_DATE (fl_limits l) with
    | true, Some d =>
        secs <-$ ilift (seconds_from_epoch (w_mktime w) d) ;;
        if Z.ltb secs now then
          r <-$ ilift (add_event PRODUCT_EXPIRED src (Some (bs "Expired " ++ d)) r) ;; iret (false, r)
        else iret (true, r)
    | v, _ => iret (v, r)
    end ;;
  '(valid, r) <-$
    match valid, sm_get PARAM_BEGIN_DATE (fl_limits l) with
    | true, Some d =>
        secs <-$ ilift (seconds_from_epoch (w_mktime w) d) ;;
        if Z.ltb now secs then
          r <-$ ilift (add_event PRODUCT_EXPIRED src (Some (bs "Valid from " ++ d)) r) ;; iret (false, r)
        else iret (true, r)
    | v, _ => iret (v, r)
    end ;;
  match valid, sm_get PARAM_CLIENT_SIGNATURE (fl_limits l) with
  | true, Some code =>
      m <-$ ask_machine ;;
      e <-$ ilift (validate_pc_signature m code) ;;
      r <-$ ilift (add_event e src None r) ;;
      iret (event_eqb e LICENSE_OK, r)
  | v, _ => iret (v, r)
  end.

(** license_verifier.cpp 67-95 *)
Definition io_license_info (w : world) (l : full_license) : io linfo :=
  let linked := match sm_get PARAM_CLIENT_SIGNATURE (fl_limits l) with Some _ => true | None => false end in
  let prop := option_map (fun v => firstn 16 (cstr v)) (sm_get PARAM_EXTRA_DATA (fl_limits l)) in
  match sm_get PARAM_EXPIRY_DATE (fl_limits l) with
  | Some d =>
      at_midnight <-$ ilift (seconds_from_epoch (w_mktime w) d) ;;
      now <-$ ask_time ;;
      let secs := double_of (at_midnight - now) in
      days <-$ ilift (double_to_int (double_round (double_div secs (double_of (60 * 60 * 24))))) ;;
      iret {| li_expiry_date := firstn 10 (cstr d); li_days_left := Z.max days 0;
              li_has_expiry := true; li_linked_to_pc := linked; li_proprietary := prop |}
  | None => iret {| li_expiry_date := []; li_days_left := 9999; li_has_expiry := false;
                    li_linked_to_pc := linked; li_proprietary := prop |}
  end.

(** licensecc.cpp 92-107 *)
Definition io_verify_all (w : world) (magic : option N) :
  list full_license -> registry -> list linfo -> list linfo -> io (registry * list linfo * list linfo) :=
  fix all ls r ok bad :=
  match ls with
  | [] => iret (r, ok, bad)
  | l :: rest =>
      let l := match magic with
               | Some m => {| fl_source := fl_source l; fl_project := fl_project l;
                              fl_signature := fl_signature l; fl_magic := m;
                              fl_limits := fl_limits l |}
               | None => l
               end in
      '(sig_ok, r) <-$ ilift (verify_signature w l r) ;;
      info <-$ io_license_info w l ;;
      if sig_ok : bool then
        '(lim_ok, r) <-$ io_verify_limits w l r ;;
        if lim_ok : bool then all rest r (ok ++ [info]) bad
        else all rest r ok (bad ++ [info])
      else all rest r ok (bad ++ [info])
  end.

(** licensecc.cpp 74-135. [out = None]: license_out is null. *)
Definition io_acquire_license (w : world) (c : option caller) (hint : option location)
           (out : option out_info) : io (event_type * option out_info) :=
  project <-$ ilift (requested_feature w c) ;;
  '(er, licenses) <-$ io_read_licenses w hint project ;;
  match licenses with
  | [] =>
      '(er, _) <-$ ilift (turn_warnings_into_errors er) ;;
      result <-$ ilift (failure_code er) ;;
      let out' := option_map (fun o => export_status er
                    {| o_status := o_status o; o_expiry_date := o_expiry_date o;
                       o_days_left := Some 0%Z; o_has_expiry := o_has_expiry o;
                       o_linked_to_pc := Some false; o_proprietary := Some [] |}) out in
      iret (result, out')
  | _ =>
      '(er, ok, bad) <-$ io_verify_all w (option_map ci_magic c) licenses er [] [] ;;
      let copy ls o := match merge_licenses ls None INT_MIN with
                       | Some i => out_of_linfo i
                       | None => o
                       end in
      match ok with
      | _ :: _ =>
          let '(er, _) := turn_errors_into_warnings er in
          iret (LICENSE_OK, option_map (fun o => export_status er (copy ok o)) out)
      | [] =>
          '(er, _) <-$ ilift (turn_warnings_into_errors er) ;;
          result <-$ ilift (failure_code er) ;;
          iret (result, option_map (fun o => export_status er (copy bad o)) out)
      end
  end.

