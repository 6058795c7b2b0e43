(** Model of src/library/locate and src/library/base/file_utils.cpp, and of the
    world (oracles) acquire_license runs in. *)
From Verif Require Import Base CTypes StringUtils Base64 Registry ExecEnv Strategies.

(** The environment of one call. Functions of [nat] depend on the instant of the
    access (number of accesses made so far): files and clock may change between
    any two accesses. *)
Record world := {
  w_project : bytes;                        (* LCC_PROJECT_NAME *)
  w_magic : N;                              (* LCC_PROJECT_MAGIC_NUM *)
  w_near_module : bool;                     (* FIND_LICENSE_NEAR_MODULE *)
  w_with_env : bool;                        (* FIND_LICENSE_WITH_ENV_VAR *)
  w_module : option bytes;                  (* readlink(/proc/<pid>/exe) *)
  w_getenv : bytes -> option bytes;         (* C strings, no NUL inside *)
  w_good : nat -> bytes -> bool;            (* ifstream(path).good() *)
  w_file : nat -> bytes -> option file;     (* ifstream(path, binary) *)
  w_clock : nat -> Z;                       (* time(nullptr) *)
  w_mktime : Z -> Z -> Z -> Z;              (* mktime of local midnight *)
  w_bio : bytes -> Z * bytes;               (* base64 BIO: BIO_read result and data *)
  w_key_ok : bool;                          (* d2i_RSAPublicKey_bio succeeds *)
  w_verify : bytes -> bytes -> bool;        (* EVP_DigestVerify*(text, signature) = 1 *)
  w_machine : nat -> machine                (* hardware, may change too *)
}.

(** licensecc_properties.h.in 38-46 *)
Definition LICENSE_LOCATION_VAR : bytes := bs "LICENSE_LOCATION".
Definition LICENSE_DATA_VAR : bytes := bs "LICENSE_DATA".
Definition LICENSE_EXT : bytes := bs ".lic".
Definition MAX_LICENSE_DATA : nat := 4096.

(** LicenseLocation, datatypes.h 88-91; LICENSE_PATH = 0, LICENSE_PLAIN_DATA = 1,
    LICENSE_ENCODED = 2 *)
Record location := { loc_type : Z; loc_data : bytes (* char[4096] *) }.

(** file_utils.cpp 25-26: ifstream f(path); f.good() *)
Definition m_good (w : world) (path : bytes) : M bool :=
  fun t => Ok (w_good w t (cstr path), S t).
(** file_utils.cpp 37-50: opening a file and reading it (one instant) *)
Definition m_file (w : world) (path : bytes) : M (option file) :=
  fun t => Ok (w_file w t (cstr path), S t).
(** time(NULL) (license_verifier.cpp) *)
Definition m_now (w : world) : M Z := fun t => Ok (w_clock w t, S t).
(** the hardware as seen by one validate_pc_signature *)
Definition m_machine (w : world) : M machine := fun t => Ok (w_machine w t, S t).

(** file_utils.cpp 20-35 *)
Fixpoint filter_existing_files (w : world) (l : list bytes) (extra : bytes) (r : registry)
  : M (list bytes * registry) :=
  match l with
  | [] => mret ([], r)
  | f :: rest =>
      r <~ mlift (add_event LICENSE_SPECIFIED (Some f) (Some extra) r) ;;
      g <~ m_good w f ;;
      r <~ mlift (add_event (if g then LICENSE_FOUND else LICENSE_FILE_NOT_FOUND)
                            (Some f) (Some extra) r) ;;
      '(fs, r) <~ filter_existing_files w rest extra r ;;
      mret (if g : bool then f :: fs else fs, r)
  end.

(** The strategies of LocatorFactory.cpp 21-38, in order *)
Inductive locator := LocApplicationFolder | LocEnvVarLocation | LocEnvVarData | LocExternal (l : location).

(** LocatorFactory.cpp 19-38; an empty list is FUNC_RET_NOT_AVAIL *)
Definition get_active_strategies (w : world) (hint : option location) : list locator :=
  (if w_near_module w then [LocApplicationFolder] else []) ++
  (if w_with_env w then [LocEnvVarLocation; LocEnvVarData] else []) ++
  (match hint with Some l => [LocExternal l] | None => [] end).

(** ExternalDefinition.cpp 27: the name of the strategy, used as location id *)
Definition EXTERNAL_NAME : bytes := bs "ExternalDefinition".

(** os_linux.cpp 360-378 getModuleName into a zeroed char[1024] *)
Definition get_module_name (w : world) : option bytes :=
  match w_module w with
  | None => None
  | Some link => Some (cstr (firstn (MAX_PATH - 1) link))
  end.

(** ApplicationFolder.cpp 35-36 *)
Definition module_license (fname : bytes) : bytes := remove_extension fname ++ LICENSE_EXT.

(** getenv(v) that is non-null and non-empty *)
Definition env_set (w : world) (v : bytes) : option bytes :=
  match w_getenv w v with
  | Some (c :: r) => Some (c :: r)
  | _ => None
  end.

(** license_locations of each strategy *)
Definition license_locations (w : world) (l : locator) (r : registry) : M (list bytes * registry) :=
  match l with
  | LocApplicationFolder =>                    (* ApplicationFolder.cpp 30-49 *)
      match get_module_name w with
      | None => mret ([], r)
      | Some fname =>
          let p := module_license fname in
          g <~ m_good w p ;;
          if g : bool then r <~ mlift (add_event LICENSE_FOUND (Some p) None r) ;; mret ([p], r)
          else r <~ mlift (add_event LICENSE_FILE_NOT_FOUND (Some p) None r) ;; mret ([], r)
      end
  | LocEnvVarLocation =>                       (* EnvironmentVarLocation.cpp 22-38 *)
      match env_set w LICENSE_LOCATION_VAR with
      | Some v => filter_existing_files w (split_string v ";"%char) LICENSE_LOCATION_VAR r
      | None => r <~ mlift (add_event ENVIRONMENT_VARIABLE_NOT_DEFINED None None r) ;; mret ([], r)
      end
  | LocEnvVarData =>                           (* EnvironmentVarData.cpp 30-46 *)
      match env_set w LICENSE_DATA_VAR with
      | Some v =>
          r <~ mlift (add_event LICENSE_SPECIFIED (Some LICENSE_LOCATION_VAR) None r) ;;
          match identify_format v with
          | FmtUnknown =>
              r <~ mlift (add_event LICENSE_MALFORMED (Some LICENSE_LOCATION_VAR) None r) ;; mret ([], r)
          | _ => mret ([LICENSE_LOCATION_VAR], r)
          end
      | None =>
          r <~ mlift (add_event ENVIRONMENT_VARIABLE_NOT_DEFINED (Some LICENSE_LOCATION_VAR) None r) ;;
          mret ([], r)
      end
  | LocExternal loc =>                         (* ExternalDefinition.cpp 31-51 *)
      match loc_data loc with
      | [] => mlift (Undef UbRead)
      | c :: _ =>
          if Ascii.eqb c NUL then mret ([], r)
          else
            r <~ mlift (add_event LICENSE_SPECIFIED (Some EXTERNAL_NAME) None r) ;;
            if Z.eqb (loc_type loc) 0 then
              licData <~ mlift (string_of_array (loc_data loc) MAX_LICENSE_DATA) ;;
              filter_existing_files w (split_string licData ";"%char) EXTERNAL_NAME r
            else if Z.eqb (loc_type loc) 1 || Z.eqb (loc_type loc) 2 then mret ([EXTERNAL_NAME], r)
            else mlift (Throw ExLogic)
      end
  end.

(** std::string(reinterpret_cast<char*>(v.data())) of a byte vector: reads up to
    the first NUL; without one, reads past the end. *)
Definition string_of_vector (v : bytes) : res bytes :=
  if existsb (fun c => Ascii.eqb c NUL) v then Ok (cstr v) else Undef UbRead.

(** retrieve_license_content of each strategy *)
Definition retrieve_license_content (w : world) (l : locator) (loc_id : bytes) : M bytes :=
  let from_file :=                             (* LocatorStrategy.cpp 17-19 *)
    f <~ m_file w loc_id ;; mlift (get_file_contents f MAX_LICENSE_DATA) in
  match l with
  | LocApplicationFolder | LocEnvVarLocation => from_file
  | LocEnvVarData =>                           (* EnvironmentVarData.cpp 48-56 *)
      match w_getenv w LICENSE_LOCATION_VAR with
      | None => mlift (Undef UbNull)
      | Some env_val =>
          match env_set w LICENSE_DATA_VAR with
          | Some v =>
              match identify_format v with
              | FmtBase64 => mlift (data <-- unbase64 env_val ;; string_of_vector data)
              | _ => mret env_val
              end
          | None => mret env_val
          end
      end
  | LocExternal loc =>                         (* ExternalDefinition.cpp 53-67 *)
      if beqb loc_id EXTERNAL_NAME then
        licData <~ mlift (string_of_array (loc_data loc) MAX_LICENSE_DATA) ;;
        if Z.eqb (loc_type loc) 2 then
          mlift (raw <-- unbase64 licData ;; string_of_vector raw)
        else mret licData
      else from_file
  end.
