(** The part of the hardware identification that is the same on every platform
    (src/library/hw_identifier/*.cpp, os/execution_environment_common.cpp), as a function
    of what the platform's own code reads. Strategies.v and ExecEnv.v contain the same
    code specialised to Linux; P_Shared.v proves that they agree. *)
From Verif Require Import Base CTypes StringUtils HwId Registry Network Disks ExecEnv Strategies Licensecc.

(** ExecutionEnvironment after construction (execution_environment.hpp 30-35): the
    container, the DMI texts, the CPU information; and the iteration orders of the two tables *)
Record platform := {
  pl_container : container;
  pl_bios_vendor : bytes; pl_bios_description : bytes; pl_sys_vendor : bytes;
  pl_cpu_vendor : bytes; pl_cpu_brand : bytes; pl_hypervisor : bool;
  pl_vendor_order : list (bytes * virt_detail) -> list (bytes * virt_detail);
  pl_cpu_order : list (bytes * virt_detail) -> list (bytes * virt_detail)
}.
(** What the library gets from the platform: os::getAdapterInfos, getDiskInfos and the
    constructor of ExecutionEnvironment. *)
Record readings := {
  rd_adapters : res (func_ret * list adapter);
  rd_disks : res (func_ret * list disk);
  rd_platform : res platform
}.

(** execution_environment_common.cpp 86-107 *)
Definition s_cloud_provider (p : platform) : cloud :=
  let bd := pl_bios_description p in let bv := pl_bios_vendor p in let sv := pl_sys_vendor p in
  if Nat.ltb 0 (length bd) || Nat.ltb 0 (length bv) || Nat.ltb 0 (length sv) then
    if contains (bs "SEABIOS") bv || contains (bs "ALIBABA") bd || contains (bs "ALIBABA") sv then ALI_CLOUD
    else if contains (bs "GOOGLE") sv || contains (bs "GOOGLECOMPUTEENGINE") bd then GOOGLE_CLOUD
    else if contains (bs "AWS") bv || contains (bs "AMAZON") bd || contains (bs "AWS") sv then AWS
    else if contains (bs "HP-COMPAQ") bd || contains (bs "ASUS") bd || contains (bs "DELL") bd then ON_PREMISE
    else PROV_UNKNOWN
  else PROV_UNKNOWN.
(** 80-83 *)
Definition s_is_cloud (p : platform) : bool := match s_cloud_provider p with ON_PREMISE | PROV_UNKNOWN => false | _ => true end.
(** 58-78 *)
Definition s_virtualization_detail (p : platform) : virt_detail :=
  let vendors := pl_vendor_order p vm_vendors in
  let cpus := pl_cpu_order p virtual_cpu_names in
  let try (m : list (bytes * virt_detail)) d (k : virt_detail) :=
    match find_in_map m d with BARE_TO_METAL => k | r => r end in
  let r := try vendors (pl_bios_description p)
          (try vendors (pl_bios_vendor p)
          (try vendors (pl_sys_vendor p)
          (try cpus (pl_cpu_vendor p)
          (find_in_map cpus (pl_cpu_brand p))))) in
  match r with
  | BARE_TO_METAL => if pl_hypervisor p || s_is_cloud p then V_OTHER else BARE_TO_METAL
  | _ => r
  end.
(** 45-56 *)
Definition s_virtualization (p : platform) : virt_summary :=
  match pl_container p with
  | CT_NONE => if negb (detail_eqb (s_virtualization_detail p) BARE_TO_METAL) || s_is_cloud p then VS_VM else VS_NONE
  | _ => VS_CONTAINER
  end.

(** ethernet.cpp 22-59 *)
Definition s_ethernet (use_ip : bool) (r : readings) : res (func_ret * list data7) :=
  '(c, ads) <-- rd_adapters r ;;
  Ok (match c, ads with
      | FUNC_RET_OK, [] => (FUNC_RET_NOT_AVAIL, [])
      | FUNC_RET_OK, _ => (FUNC_RET_OK, filter_map (adapter_data use_ip) ads)
      | _, _ => (c, [])
      end).
(** disk_strategy.cpp 30-57 *)
Definition s_disk (r : readings) : res (func_ret * list data7) :=
  '(c, disks) <-- rd_disks r ;;
  match c with
  | FUNC_RET_OK =>
      match disks with
      | [] => Ok (FUNC_RET_NOT_AVAIL, [])
      | _ =>
          pref <-- disks_data (filter dk_preferred disks) ;;
          others <-- disks_data (filter (fun d => negb (dk_preferred d)) disks) ;;
          let v := pref ++ others in
          Ok (match v with [] => FUNC_RET_NOT_AVAIL | _ => FUNC_RET_OK end, v)
      end
  | _ => Ok (c, [])
  end.
(** ethernet.cpp 69-83, disk_strategy.cpp 65-79 *)
Definition s_alternative_ids (s : strategy) (r : readings) : res (list hwid) :=
  '(c, data) <-- match s with StDefault => Undef UbRead | StEthernet use_ip => s_ethernet use_ip r | StDisk => s_disk r end ;;
  match c with FUNC_RET_OK => make_ids (identification_strategy s) data | _ => Ok [] end.
(** identification_strategy.cpp 10-23; default_strategy.cpp 74-77 *)
Definition s_validate_identifier (s : strategy) (r : readings) (id : hwid) : res event_type :=
  match s with
  | StDefault => Ok IDENTIFIERS_MISMATCH
  | _ =>
      if Z.eqb (get_identification_strategy id) (identification_strategy s) then
        ids <-- s_alternative_ids s r ;;
        Ok (if existsb (fun x => hw_eqb x id) ids then LICENSE_OK else IDENTIFIERS_MISMATCH)
      else Ok IDENTIFIERS_MISMATCH
  end.
(** identification_strategy.cpp 25-33 *)
Definition s_generate_concrete (s : strategy) (r : readings) : res (option hwid) := ids <-- s_alternative_ids s r ;; Ok (hd_error ids).
(** default_strategy.cpp 16-36 *)
Definition s_available_strategies (r : readings) : res (list Z) :=
  p <-- rd_platform r ;;
  Ok (match s_virtualization p with
      | VS_CONTAINER => match pl_container p with CT_DOCKER => LCC_DOCKER_STRATEGIES | _ => LCC_LXC_STRATEGIES end
      | VS_VM => if s_is_cloud p then LCC_CLOUD_STRATEGIES else LCC_VM_STRATEGIES
      | VS_NONE => LCC_BARE_TO_METAL_STRATEGIES
      end).
(** default_strategy.cpp 47-54 *)
Fixpoint s_try_strategies (l : list Z) (r : readings) : res (option hwid) :=
  match l with
  | [] => Ok None
  | s :: rest =>
      st <-- get_strategy s ;;
      o <-- match st with StDefault => Undef UbRead | _ => s_generate_concrete st r end ;;
      match o with Some h => Ok (Some h) | None => s_try_strategies rest r end
  end.
(** default_strategy.cpp 44-56, identification_strategy.cpp 25 *)
Definition s_generate_pc_id (s : strategy) (r : readings) : res (option hwid) :=
  match s with
  | StDefault => l <-- s_available_strategies r ;; s_try_strategies l r
  | _ => s_generate_concrete s r
  end.
(** hw_identifier_facade.cpp 23-35 *)
Definition s_validate_pc_signature (r : readings) (str_code : bytes) : res event_type :=
  let body :=
    pc_id <-- hw_of_string str_code ;;
    st <-- get_strategy (get_identification_strategy pc_id) ;;
    s_validate_identifier st r pc_id in
  match body with
  | Throw e => if is_logic_error e then Ok IDENTIFIERS_MISMATCH else Throw e
  | x => x
  end.
(** hw_identifier_facade.cpp 37-61 *)
Definition s_generate_user_pc_signature (env : option bytes) (r : readings) (strategy : Z) : res bytes :=
  let '(strategy, use_env_var) :=
    if Z.eqb strategy STRATEGY_DEFAULT then
      match env with
      | Some (c :: l) =>
          let v := atoi (c :: l) in
          if Z.ltb v 0 || Z.ltb 3 v then (strategy, false) else (v, true)
      | _ => (strategy, false)
      end
    else (strategy, false) in
  st <-- get_strategy strategy ;;
  o <-- s_generate_pc_id st r ;;
  match o with
  | None => Throw ExLogic
  | Some h => hw_print (set_use_environment_var use_env_var h)
  end.
(** licensecc.cpp 33-47 *)
Definition s_identify_buffer (env : option bytes) (r : readings) (method : Z) (buf : option bytes) (buf_size : nat) : res (bool * option bytes * nat) :=
  match buf with
  | Some b =>
      if Nat.ltb PC_IDENTIFIER_SIZE buf_size then
        match s_generate_user_pc_signature env r method with
        | Ok pc_id => '(b', _) <-- mstrlcpy b (c_str pc_id) buf_size ;; Ok (true, Some b', buf_size)
        | Throw _ => Ok (false, buf, buf_size)
        | Undef u => Undef u
        | OutOfFuel => OutOfFuel
        end
      else Ok (false, buf, PC_IDENTIFIER_SIZE + 1)
  | None => Ok (false, buf, PC_IDENTIFIER_SIZE + 1)
  end.
(** licensecc.cpp 32-56: the first call of a process *)
Definition s_identify_pc (env : option bytes) (r : readings) (method : Z) (buf : option bytes) (buf_size : nat) (want_info : bool)
  : res (bool * option bytes * nat * option exec_info) :=
  '(result, buf', size') <-- s_identify_buffer env r method buf buf_size ;;
  p <-- rd_platform r ;;
  Ok (result, buf', size',
      if want_info : bool then Some {| xi_cloud := s_cloud_provider p; xi_virt := s_virtualization p;
                                       xi_detail := s_virtualization_detail p |} else None).

(** The readings of Linux: network.cpp, os_linux.cpp, cpu_info.cpp, dmi_info.cpp and
    execution_environment.cpp of os/linux *)
Definition linux_platform (x : exec_files) : res platform :=
  e <-- make_exec_env x ;;
  Ok {| pl_container := xe_container e; pl_bios_vendor := dmi_bios_vendor (xe_dmi e);
        pl_bios_description := dmi_bios_description (xe_dmi e); pl_sys_vendor := dmi_sys_vendor (xe_dmi e);
        pl_cpu_vendor := xf_cpu_vendor x; pl_cpu_brand := xf_cpu_brand x; pl_hypervisor := xf_hypervisor x;
        pl_vendor_order := xf_vendor_order x; pl_cpu_order := xf_cpu_order x |}.
Definition linux_readings (m : machine) : readings :=
  {| rd_adapters := Ok (get_adapter_infos (hw_order m) (hw_ifaddrs m)); rd_disks := get_disk_infos (hw_disks m); rd_platform := linux_platform (hw_exec m) |}.
