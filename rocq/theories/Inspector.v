(** Model of src/inspector/inspector.cpp: the verification of a license file (54-82) and
    the description tables (22-52). The rest of main prints what identify_pc,
    getAdapterInfos, CpuInfo and DmiInfo deliver, modelled elsewhere. *)
From Verif Require Import Base CTypes StringUtils Dates Base64 HwId Registry Ini Network Disks ExecEnv Strategies Locate Licensecc.

(** 42-52 stringByEventType.find(result)->second; [None]: find returns end() *)
Definition event_description (e : event_type) : option bytes :=
  match e with
  | LICENSE_OK => Some (bs "OK ")
  | LICENSE_FILE_NOT_FOUND => Some (bs "license file not found ")
  | LICENSE_SERVER_NOT_FOUND => Some (bs "license server can't be contacted ")
  | ENVIRONMENT_VARIABLE_NOT_DEFINED => Some (bs "environment variable not defined ")
  | FILE_FORMAT_NOT_RECOGNIZED => Some (bs "license file has invalid format (not .ini file) ")
  | LICENSE_MALFORMED => Some (bs "some mandatory field are missing, or data can't be fully read. ")
  | PRODUCT_NOT_LICENSED => Some (bs "this product was not licensed ")
  | PRODUCT_EXPIRED => Some (bs "license expired ")
  | LICENSE_CORRUPTED => Some (bs "license signature didn't match with current license ")
  | IDENTIFIERS_MISMATCH => Some (bs "Calculated identifier and the one provided in license didn't match")
  | _ => None
  end.
(** What the memory of the local variable callerInformation (68) holds before it is
    written, as far as acquire_license reads it, and what follows a section name in
    SimpleIni's buffer after its terminator. *)
Record leftovers := { lo_last : ascii (* feature_name[15] *); lo_magic : N; lo_after : bytes -> bytes }.

(** one line of the report: about the default project (None) or a section; OK or a description *)
Inductive verdict := Fine | Problem (text : bytes).
Definition line := (option bytes * verdict)%type.
(** 59-63, 74-78 *)
Definition line_for (about : option bytes) (e : event_type) : res line :=
  match e with
  | LICENSE_OK => Ok (about, Fine)
  | _ => match event_description e with Some d => Ok (about, Problem d) | None => Undef UbRead end
  end.
(** 55: LicenseInfo licenseInfo, not initialised *)
Definition unwritten_info : out_info :=
  {| o_status := repeat None AUDIT_EVENT_NUM; o_expiry_date := None; o_days_left := None; o_has_expiry := None; o_linked_to_pc := None; o_proprietary := None |}.

(** GetAllSections, SimpleIni.h 2269-2278: m_data is a std::map ordered by SI_GenericNoCase.
    A section whose header has no ']' is not in the model of SimpleIni. *)
Fixpoint insert_name (n : bytes) (l : list bytes) : list bytes :=
  match l with
  | [] => [n]
  | m :: r => if nocase_less n m then n :: l else m :: insert_name n r
  end.
Definition get_all_sections (d : ini) : list bytes := fold_right insert_name [] (map fst d).
(** SimpleIni.h 1282-1290, 1342-1379: LoadFile of a new CSimpleIniA; nothing is loaded
    when the file cannot be opened, is empty, or is shorter than its size *)
Definition load_file (f : option file) : res ini :=
  match f with
  | None => Ok []
  | Some f =>
      if N.eqb (f_size f) 0 then Ok []
      else if N.ltb (N.of_nat (length (f_data f))) (f_size f) then Ok []
      else ini_load (firstn (N.to_nat (f_size f)) (f_data f))
  end.

(** 57: the path copied to char[4096], the rest zero *)
Definition path_location (fname : bytes) : res location :=
  if Nat.leb (length fname) MAX_LICENSE_DATA
  then Ok {| loc_type := 0; loc_data := fname ++ repeat NUL (MAX_LICENSE_DATA - length fname) |}
  else Undef UbWrite.
(** 70: string(section.pItem, 15) *)
Definition section_prefix (g : leftovers) (name : bytes) : res bytes :=
  let m := name ++ NUL :: lo_after g name in
  if Nat.ltb (length m) 15 then Undef UbRead else Ok (firstn 15 m).
(** 69-80 *)
Fixpoint inspect_sections (w : world) (g : leftovers) (loc : location) (names : list bytes) (info : option out_info) : M (list line) :=
  match names with
  | [] => mret []
  | n :: rest =>
      section_name <~ mlift (section_prefix g n) ;;
      if beqb section_name (w_project w) then inspect_sections w g loc rest info
      else
        '(result, info) <~ acquire_license w (Some {| ci_feature := section_name ++ [lo_last g]; ci_magic := lo_magic g |}) (Some loc) info ;;
        l <~ mlift (line_for (Some n) result) ;;
        ls <~ inspect_sections w g loc rest info ;;
        mret (l :: ls)
  end.
(** 54-82 verifyLicense; [fname] is a C string (argv, getenv) *)
Definition inspect (w : world) (g : leftovers) (fname : bytes) : M (event_type * list line) :=
  loc <~ mlift (path_location fname) ;;
  '(result, info) <~ acquire_license w None (Some loc) (Some unwritten_info) ;;
  l <~ mlift (line_for None result) ;;
  f <~ m_file w fname ;;
  d <~ mlift (load_file f) ;;
  ls <~ inspect_sections w g loc (get_all_sections d) info ;;
  mret (result, l :: ls).

