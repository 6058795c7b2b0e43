(** Model of main of src/inspector/inspector.cpp (84-162): what is printed, as values. The
    texts are in InspectorOut.v. *)
From Verif Require Import Base CTypes StringUtils Dates Base64 HwId Registry Ini Network Disks CpuInfo ExecEnv Strategies Locate Licensecc Inspector.

(** 31-33 descByVirt *)
Definition virt_text (v : virt_summary) : option bytes :=
  match v with VS_NONE => Some (bs "No virtualization") | VS_VM => Some (bs "Virtual machine") | VS_CONTAINER => Some (bs "Container") end.
(** 22-29 descByVirtDetail *)
Definition detail_text (v : virt_detail) : option bytes :=
  match v with
  | BARE_TO_METAL => Some (bs "No virtualization") | VMWARE => Some (bs "Vmware") | VIRTUALBOX => Some (bs "Virtualbox") | V_XEN => Some (bs "XEN")
  | KVM => Some (bs "KVM") | HV => Some (bs "Microsoft Hypervisor") | PARALLELS => Some (bs "Parallels Desktop") | V_OTHER => Some (bs "Other type of vm")
  end.
(** 35-40 descByCloudProvider *)
Definition cloud_text (c : cloud) : option bytes :=
  match c with
  | PROV_UNKNOWN => Some (bs "Provider unknown") | ON_PREMISE => Some (bs "On premise hardware (no cloud)") | GOOGLE_CLOUD => Some (bs "Google Cloud")
  | AZURE_CLOUD => Some (bs "Microsoft Azure") | AWS => Some (bs "Amazon AWS") | ALI_CLOUD => Some (bs "Alibaba Cloud (Chinese cloud provider)")
  end.

(** What is printed, line group by line group *)
Inductive item :=
| IdLine (strategy : bytes) (id : option bytes)       (* 91-93; None: NA *)
| EnvLines (virt detail provider : bytes)             (* 96-98 *)
| AdapterLines (id : N) (description : bytes) (ip mac : list N) (* 104-116 *)
| NoAdapters (ret : func_ret)                         (* 119 *)
| CpuLines (vendor brand : bytes) (hypervisor : bool) (model : N) (* 123-126 *)
| DmiLines (bios_vendor bios_description sys_vendor cpu_manufacturer : bytes) (cpu_cores : N) (* 128-132 *)
| Separator                                           (* 133 *)
| LicenseLines (ls : list line)                       (* verifyLicense *)
| FileNotFound (path : bytes)
| VarValue (v : bytes)                                (* 147 *)
| VarUndefined.                                       (* 159 *)

(** 19-20 stringByStrategyId, a std::map ordered by number *)
Definition id_strategies : list (Z * bytes) := [(-1, bs "DEFAULT"); (0, bs "MAC"); (1, bs "IP"); (2, bs "Disk")]%Z.
(** LCC_IDENTIFICATION_STRATEGY_ENV_VAR *)
Definition STRATEGY_VAR : bytes := bs "IDENTIFICATION_STRATEGY".
(** 88-95. [st]: the static variable of identify_pc; [info]: exec_env_info *)
Fixpoint id_lines (w : world) (st : option exec_env) (buf : bytes) (size : nat) (info : option exec_info) (l : list (Z * bytes))
  : M (list item * option exec_info) :=
  match l with
  | [] => mret ([], info)
  | (z, name) :: rest =>
      m <~ m_machine w ;;
      '(found, buf', size', info', e) <~ mlift (identify_call st (w_getenv w STRATEGY_VAR) m z (Some buf) size true) ;;
      let buf' := match buf' with Some b => b | None => buf end in
      '(ls, last) <~ id_lines w (Some e) buf' size' info' rest ;;
      mret (IdLine name (if found : bool then Some (cstr buf') else None) :: ls, last)
  end.
(** 96-98; an uninitialised exec_env_info or a failed lookup is undefined *)
Definition env_lines (info : option exec_info) : res item :=
  match info with
  | None => Undef UbUninit
  | Some i =>
      match virt_text (xi_virt i), detail_text (xi_detail i), cloud_text (xi_cloud i) with
      | Some v, Some d, Some c => Ok (EnvLines v d c)
      | _, _, _ => Undef UbRead
      end
  end.
(** 104-116. linux/network.cpp 69-71: the number is 0; the description is the name, cut by
    mstrlcpy to 1024 characters. [name] is the key of the adapter in adapterByName. *)
Definition adapter_lines (name : bytes) (a : adapter) : item :=
  let 'Ip i0 i1 i2 i3 := ad_ip a in
  let 'Mac m0 m1 m2 m3 m4 m5 := ad_mac a in
  AdapterLines 0 (fit 1025 name) (map code [i3; i2; i1; i0]) (map code [m0; m1; m2; m3; m4; m5]).
(** 100-120, with the names that Network.get_adapter_infos leaves out: the adapters come in
    the order of the unordered_map (linux/network.cpp 108-112) *)
Definition adapters_report (m : machine) : list item :=
  match get_adapter_infos (hw_order m) (hw_ifaddrs m), hw_ifaddrs m with
  | (FUNC_RET_OK, _), Some l => map (fun p => adapter_lines (fst p) (snd p)) (hw_order m (collect_adapters l))
  | (r, _), _ => [NoAdapters r]
  end.
(** 122-126 *)
Definition cpu_report (c : cpu) : item := CpuLines (get_cpu_vendor c) (get_cpu_brand c) (is_hypervisor_set c) (cpu_model c).
(** 127-132; dmi_info.hpp 20-21: the last two are never written on Linux *)
Definition dmi_report (x : exec_files) : res item :=
  d <-- read_dmi x ;; Ok (DmiLines (dmi_bios_vendor d) (dmi_bios_description d) (dmi_sys_vendor d) [] 0).
(** 136-141, 151-156 *)
Definition file_report (w : world) (g : leftovers) (fname : bytes) : M item :=
  good <~ m_good w fname ;;
  if good : bool then '(_, ls) <~ inspect w g fname ;; mret (LicenseLines ls) else mret (FileNotFound fname).
(** 150-157; every file finds its own leftovers *)
Fixpoint files_report (w : world) (g : nat -> leftovers) (k : nat) (l : list bytes) : M (list item) :=
  match l with
  | [] => mret []
  | p :: rest => i <~ file_report w (g k) p ;; is <~ files_report w g (S k) rest ;; mret (i :: is)
  end.
(** 84-162. [args]: argv[1..]; [buf]: hw_identifier before it is written (20 bytes) *)
Definition inspector_main (w : world) (g : nat -> leftovers) (buf : bytes) (args : list bytes) : M (list item) :=
  '(ids, info) <~ id_lines w None buf (PC_IDENTIFIER_SIZE + 1) None id_strategies ;;
  env <~ mlift (env_lines info) ;;
  m <~ m_machine w ;;
  m' <~ m_machine w ;;
  dmi <~ mlift (dmi_report (hw_exec m')) ;;
  of_arg <~ match args with [fname] => i <~ file_report w (g 0) fname ;; mret [i] | _ => mret [] end ;;
  of_env <~ (if w_with_env w then
               match env_set w LICENSE_LOCATION_VAR with
               | Some v => is <~ files_report w g 1 (split_string v ";"%char) ;; mret (VarValue v :: is)
               | None => mret [VarUndefined]
               end
             else mret []) ;;
  mret (ids ++ env :: adapters_report m ++ cpu_report (xf_cpu (hw_exec m')) :: dmi :: Separator :: of_arg ++ of_env).
