(** acquire_license for any platform: the parts of Registry.v, Locate.v and Licensecc.v that
    depend on the size of a license reference, on the signature verifier or on the
    hardware, as functions of these three. Prop_WinAcquire.v proves that with those of
    Linux it is Licensecc.acquire_license, and instantiates it with those of Windows. *)
From Verif Require Import Base CTypes StringUtils Dates Doubles Base64 HwId Registry Ini Network Disks
     ExecEnv Strategies Locate Licensecc Shared Trace WinSignature WinMachine.

(** What differs between the platforms. *)
Record backend := {
  bk_ref : nat;                              (* MAX_PATH: sizeof license_reference, datatypes.h 61 *)
  bk_verify : bytes -> bytes -> res bool;    (* os::verify_signature(text, signature) == FUNC_RET_OK *)
  bk_validate : nat -> bytes -> res event_type (* HwIdentifierFacade::validate_pc_signature, at an instant *)
}.

(** EventRegistry.cpp 87-118 *)
Definition g_ref_string (n : nat) (r : bytes) : res bytes := if Nat.ltb (length r) n then Ok r else Undef UbRead.
Definition g_add_event (bk : backend) (e : event_type) (id info : option bytes) (r : registry) : res registry :=
  let ref := match id with None => bs "UNDEF" | Some s => firstn (bk_ref bk) (cstr s) end in
  let p2 := match info with None => [] | Some s => firstn 255 (cstr s) end in
  let audit := {| ev_sev := match progress e with Some _ => SVRT_INFO | None => SVRT_WARN end;
                  ev_type := e; ev_ref := ref; ev_param2 := p2 |} in
  let logs' := logs r ++ [audit] in
  let idx := length logs' - 1 in
  match progress e with
  | Some st =>
      let '(step', adv') := if Z.ltb (step r) st then (st, []) else (step r, adv r) in
      if Z.eqb st step' then
        key <-- g_ref_string (bk_ref bk) ref ;;
        Ok {| logs := logs'; step := step'; adv := sm_set key idx adv' |}
      else Ok {| logs := logs'; step := step'; adv := adv' |}
  | None =>
      key <-- g_ref_string (bk_ref bk) ref ;;
      Ok {| logs := logs'; step := step r;
            adv := if sm_mem key (adv r) then sm_set key idx (adv r) else adv r |}
  end.

(** file_utils.cpp 20-35 *)
Fixpoint g_filter_existing_files (w : world) (bk : backend) (l : list bytes) (extra : bytes) (r : registry)
  : M (list bytes * registry) :=
  match l with
  | [] => mret ([], r)
  | f :: rest =>
      r <~ mlift (g_add_event bk LICENSE_SPECIFIED (Some f) (Some extra) r) ;;
      g <~ m_good w f ;;
      r <~ mlift (g_add_event bk (if g then LICENSE_FOUND else LICENSE_FILE_NOT_FOUND)
                            (Some f) (Some extra) r) ;;
      '(fs, r) <~ g_filter_existing_files w bk rest extra r ;;
      mret (if g : bool then f :: fs else fs, r)
  end.

(** license_locations of each strategy *)
Definition g_license_locations (w : world) (bk : backend) (l : locator) (r : registry) : M (list bytes * registry) :=
  match l with
  | LocApplicationFolder =>                    (* ApplicationFolder.cpp 30-49 *)
      match get_module_name w with
      | None => mret ([], r)
      | Some fname =>
          let p := module_license fname in
          g <~ m_good w p ;;
          if g : bool then r <~ mlift (g_add_event bk LICENSE_FOUND (Some p) None r) ;; mret ([p], r)
          else r <~ mlift (g_add_event bk LICENSE_FILE_NOT_FOUND (Some p) None r) ;; mret ([], r)
      end
  | LocEnvVarLocation =>                       (* EnvironmentVarLocation.cpp 22-38 *)
      match env_set w LICENSE_LOCATION_VAR with
      | Some v => g_filter_existing_files w bk (split_string v ";"%char) LICENSE_LOCATION_VAR r
      | None => r <~ mlift (g_add_event bk ENVIRONMENT_VARIABLE_NOT_DEFINED None None r) ;; mret ([], r)
      end
  | LocEnvVarData =>                           (* EnvironmentVarData.cpp 30-46 *)
      match env_set w LICENSE_DATA_VAR with
      | Some v =>
          r <~ mlift (g_add_event bk LICENSE_SPECIFIED (Some LICENSE_LOCATION_VAR) None r) ;;
          match identify_format v with
          | FmtUnknown =>
              r <~ mlift (g_add_event bk LICENSE_MALFORMED (Some LICENSE_LOCATION_VAR) None r) ;; mret ([], r)
          | _ => mret ([LICENSE_LOCATION_VAR], r)
          end
      | None =>
          r <~ mlift (g_add_event bk ENVIRONMENT_VARIABLE_NOT_DEFINED (Some LICENSE_LOCATION_VAR) None r) ;;
          mret ([], r)
      end
  | LocExternal loc =>                         (* ExternalDefinition.cpp 31-51 *)
      match loc_data loc with
      | [] => mlift (Undef UbRead)
      | c :: _ =>
          if Ascii.eqb c NUL then mret ([], r)
          else
            r <~ mlift (g_add_event bk LICENSE_SPECIFIED (Some EXTERNAL_NAME) None r) ;;
            if Z.eqb (loc_type loc) 0 then
              licData <~ mlift (string_of_array (loc_data loc) MAX_LICENSE_DATA) ;;
              g_filter_existing_files w bk (split_string licData ";"%char) EXTERNAL_NAME r
            else if Z.eqb (loc_type loc) 1 || Z.eqb (loc_type loc) 2 then mret ([EXTERNAL_NAME], r)
            else mlift (Throw ExLogic)
      end
  end.

(** LicenseReader.cpp 63-100, one location. *)
Definition g_read_location (w : world) (bk : backend) (loc : locator) (product loc_id : bytes)
           (acc : registry * list full_license) : M (registry * list full_license) :=
  let '(r, out) := acc in
  let product_up := toupper_copy product in
  content <~ retrieve_license_content w loc (cstr loc_id) ;;
  d <~ mlift (ini_load content) ;;
  if Z.leb (get_section_size d product_up) 0 then
    r <~ mlift (g_add_event bk PRODUCT_NOT_LICENSED (Some loc_id) None r) ;; mret (r, out)
  else
    r <~ mlift (g_add_event bk PRODUCT_FOUND (Some loc_id) None r) ;;
    match get_value d product_up LICENSE_SIGNATURE with
    | Some sig =>
        if Z.eqb (get_long_value d product_up LICENSE_VERSION (-1)) 200 then
          mret (r, out ++ [{| fl_source := loc_id; fl_project := product; fl_signature := sig;
                              fl_magic := 0%N; fl_limits := read_limits d product_up |}])
        else r <~ mlift (g_add_event bk LICENSE_MALFORMED (Some loc_id) None r) ;; mret (r, out)
    | None => r <~ mlift (g_add_event bk LICENSE_MALFORMED (Some loc_id) None r) ;; mret (r, out)
    end.

(** LicenseReader.cpp 63-101: the loop over the locations of one locator *)
Fixpoint g_read_all (w : world) (bk : backend) (loc : locator) (product : bytes) (ids : list bytes)
         (acc : registry * list full_license) : M (registry * list full_license) :=
  match ids with
  | [] => mret acc
  | i :: r => acc <~ g_read_location w bk loc product i acc ;; g_read_all w bk loc product r acc
  end.

(** LicenseReader.cpp 57-102 *)
Fixpoint g_read_locators (w : world) (bk : backend) (ls : list locator) (product : bytes)
         (acc : registry * list full_license) : M (registry * list full_license) :=
  match ls with
  | [] => mret acc
  | l :: rest =>
      let '(r, out) := acc in
      '(ids, r) <~ g_license_locations w bk l r ;;
      acc <~ g_read_all w bk l product ids (r, out) ;;
      g_read_locators w bk rest product acc
  end.

(** LicenseReader.cpp 44-107 *)
Definition g_read_licenses (w : world) (bk : backend) (hint : option location) (product : bytes)
  : M (registry * list full_license) :=
  match get_active_strategies w hint with
  | [] =>
      r <~ mlift (g_add_event bk LICENSE_FILE_NOT_FOUND None None reg_empty) ;;
      '(r, _) <~ mlift (turn_warnings_into_errors r) ;;
      mret (r, [])
  | ls =>
      '(r, out) <~ g_read_locators w bk ls product (reg_empty, []) ;;
      match out with
      | [] => '(r, _) <~ mlift (turn_warnings_into_errors r) ;; mret (r, [])
      | _ => mret (r, out)
      end
  end.

(** license_verifier.cpp 23-34 *)
Definition g_verify_signature (w : world) (bk : backend) (l : full_license) (r : registry) : res (bool * registry) :=
  ok <-- bk_verify bk (print_for_sign l) (fl_signature l) ;;
  r <-- g_add_event bk (if ok : bool then SIGNATURE_VERIFIED else LICENSE_CORRUPTED) (Some (fl_source l)) None r ;;
  Ok (ok, r).

(** license_verifier.cpp 58: the call of validate_pc_signature, one instant *)
Definition m_validate (bk : backend) (code : bytes) : M event_type := fun t => e <-- bk_validate bk t code ;; Ok (e, S t).
(** license_verifier.cpp 37-65 *)
Definition g_verify_limits (w : world) (bk : backend) (l : full_license) (r : registry) : M (bool * registry) :=
  let src := Some (fl_source l) in
  let magic_ok := N.eqb (fl_magic l) (w_magic w) in
  r <~ (if magic_ok then mret r else mlift (g_add_event bk LICENSE_CORRUPTED src None r)) ;;
  now <~ m_now w ;;
  '(valid, r) <~
    match magic_ok, sm_get PARAM_EXPIRY_DATE (fl_limits l) with
    | true, Some d =>
        secs <~ mlift (seconds_from_epoch (w_mktime w) d) ;;
        if Z.ltb secs now then
          r <~ mlift (g_add_event bk PRODUCT_EXPIRED src (Some (bs "Expired " ++ d)) r) ;; mret (false, r)
        else mret (true, r)
    | v, _ => mret (v, r)
    end ;;
  '(valid, r) <~
    match valid, sm_get PARAM_BEGIN_DATE (fl_limits l) with
    | true, Some d =>
        secs <~ mlift (seconds_from_epoch (w_mktime w) d) ;;
        if Z.ltb now secs then
          r <~ mlift (g_add_event bk PRODUCT_EXPIRED src (Some (bs "Valid from " ++ d)) r) ;; mret (false, r)
        else mret (true, r)
    | v, _ => mret (v, r)
    end ;;
  match valid, sm_get PARAM_CLIENT_SIGNATURE (fl_limits l) with
  | true, Some code =>
      e <~ m_validate bk code ;;
      r <~ mlift (g_add_event bk e src None r) ;;
      mret (event_eqb e LICENSE_OK, r)
  | v, _ => mret (v, r)
  end.

(** licensecc.cpp 92-107 *)
Fixpoint g_verify_all (w : world) (bk : backend) (magic : option N) (ls : list full_license) (r : registry)
         (ok bad : list linfo) : M (registry * list linfo * list linfo) :=
  match ls with
  | [] => mret (r, ok, bad)
  | l :: rest =>
      let l := match magic with
               | Some m => {| fl_source := fl_source l; fl_project := fl_project l;
                              fl_signature := fl_signature l; fl_magic := m;
                              fl_limits := fl_limits l |}
               | None => l
               end in
      '(sig_ok, r) <~ mlift (g_verify_signature w bk l r) ;;
      info <~ to_license_info w l ;;
      if sig_ok : bool then
        '(lim_ok, r) <~ g_verify_limits w bk l r ;;
        if lim_ok : bool then g_verify_all w bk magic rest r (ok ++ [info]) bad
        else g_verify_all w bk magic rest r ok (bad ++ [info])
      else g_verify_all w bk magic rest r ok (bad ++ [info])
  end.

(** licensecc.cpp 74-135. [out = None]: license_out is null. *)
Definition g_acquire_license (w : world) (bk : backend) (c : option caller) (hint : option location)
           (out : option out_info) : M (event_type * option out_info) :=
  project <~ mlift (requested_feature w c) ;;
  '(er, licenses) <~ g_read_licenses w bk hint project ;;
  match licenses with
  | [] =>
      '(er, _) <~ mlift (turn_warnings_into_errors er) ;;
      result <~ mlift (failure_code er) ;;
      let out' := option_map (fun o => export_status er
                    {| o_status := o_status o; o_expiry_date := o_expiry_date o;
                       o_days_left := Some 0%Z; o_has_expiry := o_has_expiry o;
                       o_linked_to_pc := Some false; o_proprietary := Some [] |}) out in
      mret (result, out')
  | _ =>
      '(er, ok, bad) <~ g_verify_all w bk (option_map ci_magic c) licenses er [] [] ;;
      let copy ls o := match merge_licenses ls None INT_MIN with
                       | Some i => out_of_linfo i
                       | None => o
                       end in
      match ok with
      | _ :: _ =>
          let '(er, _) := turn_errors_into_warnings er in
          mret (LICENSE_OK, option_map (fun o => export_status er (copy ok o)) out)
      | [] =>
          '(er, _) <~ mlift (turn_warnings_into_errors er) ;;
          result <~ mlift (failure_code er) ;;
          mret (result, option_map (fun o => export_status er (copy bad o)) out)
      end
  end.

(** ** The two platforms *)
(** Linux: datatypes.h 20-22, os/openssl/signature_verifier.cpp, hw_identifier_facade.cpp 22-41 *)
Definition linux_backend (w : world) : backend :=
  {| bk_ref := MAX_PATH; bk_verify := os_verify_signature w; bk_validate := fun i code => validate_pc_signature (w_machine w i) code |}.

(** What acquire_license finds on Windows: as in [world], with the name GetModuleFileName
    gives ([None]: it fails), the cryptography provider, the public key and what follows it
    in memory, and the hardware at each instant. *)
Record win_world := {
  ww_project : bytes; ww_magic : N; ww_near_module : bool; ww_with_env : bool;
  ww_module : option bytes;
  ww_getenv : bytes -> option bytes;
  ww_good : nat -> bytes -> bool;
  ww_file : nat -> bytes -> option file;
  ww_clock : nat -> Z;
  ww_mktime : Z -> Z -> Z -> Z;
  ww_provider : provider;
  ww_key : bytes;
  ww_machine : nat -> win_machine
}.
(** a placeholder: no function of this file reads [w_machine] *)
Definition no_machine : machine :=
  {| hw_ifaddrs := None; hw_order := fun l => l;
     hw_disks := {| de_by_uuid := None; de_by_label := None; de_by_partlabel := None; de_blkid := []; de_fstab := None |};
     hw_exec := {| xf_cgroup := None; xf_systemd := None; xf_sys_vendor := None; xf_modalias := None;
                   xf_cpu := fun _ => {| CpuInfo.r_eax := 0; CpuInfo.r_ebx := 0; CpuInfo.r_ecx := 0; CpuInfo.r_edx := 0 |};
                   xf_vendor_order := fun l => l; xf_cpu_order := fun l => l |} |}.
(** MAX_PATH of windows.h *)
Definition WIN_MAX_PATH : nat := 260.
(** The surroundings as far as they do not depend on the platform. os_win.cpp 84-91:
    GetModuleFileName stores at most MAX_PATH - 1 characters (since Windows Vista). The
    last four fields are not used by [g_acquire_license]. *)
Definition places (ww : win_world) : world :=
  {| w_project := ww_project ww; w_magic := ww_magic ww; w_near_module := ww_near_module ww; w_with_env := ww_with_env ww;
     w_module := option_map (firstn (WIN_MAX_PATH - 1)) (ww_module ww); w_getenv := ww_getenv ww; w_good := ww_good ww;
     w_file := ww_file ww; w_clock := ww_clock ww; w_mktime := ww_mktime ww;
     w_bio := fun _ => (0%Z, []); w_key_ok := false; w_verify := fun _ _ => false; w_machine := fun _ => no_machine |}.
(** os/windows/signature_verifier.cpp 182-244; hw_identifier_facade.cpp 22-41 *)
Definition win_backend (ww : win_world) : backend :=
  {| bk_ref := WIN_MAX_PATH;
     bk_verify := fun text sig => ret <-- fst (win_verify_signature (ww_provider ww) (ww_key ww) text sig) ;; Ok (is_ok ret);
     bk_validate := fun i code => s_validate_pc_signature (win_readings (ww_machine ww i)) code |}.
(** licensecc.cpp 74-135 on Windows *)
Definition win_acquire_license (ww : win_world) : option caller -> option location -> option out_info -> M (event_type * option out_info) :=
  g_acquire_license (places ww) (win_backend ww).
