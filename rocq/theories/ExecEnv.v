(** Model of src/library/os/execution_environment_common.cpp,
    os/linux/execution_environment.cpp and os/linux/dmi_info.cpp. *)
From Verif Require Import Base CTypes StringUtils Disks CpuInfo.

(** A readable file: the size reported by seekg/tellg and the bytes delivered. *)
Record file := { f_size : N; f_data : bytes }.

(** base/file_utils.cpp 37-51: resize to min(size, max) (zero filled), then read. *)
Definition get_file_contents (f : option file) (max_size : nat) : res bytes :=
  match f with
  | None => Throw ExRuntime
  | Some f =>
      let limited := N.to_nat (N.min (f_size f) (N.of_nat max_size)) in
      let got := firstn limited (f_data f) in
      Ok (got ++ repeat NUL (limited - length got))
  end.

(** os/execution_environment.hpp CONTAINER_TYPE *)
Inductive container := CT_NONE | CT_DOCKER | CT_LXC.
(** datatypes.h 144-161 *)
Inductive virt_detail := BARE_TO_METAL | VMWARE | VIRTUALBOX | V_XEN | KVM | HV | PARALLELS | V_OTHER.
(** datatypes.h 146-159 *)
Inductive cloud := PROV_UNKNOWN | ON_PREMISE | GOOGLE_CLOUD | AZURE_CLOUD | AWS | ALI_CLOUD.
(** datatypes.h 161 *)
Inductive virt_summary := VS_NONE | VS_CONTAINER | VS_VM.

(** comparison of LCC_API_VIRTUALIZATION_DETAIL values (datatypes.h 144) *)
Definition detail_eqb (a b : virt_detail) : bool :=
  match a, b with
  | BARE_TO_METAL, BARE_TO_METAL | VMWARE, VMWARE | VIRTUALBOX, VIRTUALBOX | V_XEN, V_XEN
  | KVM, KVM | HV, HV | PARALLELS, PARALLELS | V_OTHER, V_OTHER => true
  | _, _ => false
  end.

(** What the constructors read. [xf_*_order] are the iteration orders of the two
    unordered_maps. *)
Record exec_files := {
  xf_cgroup : option (list bytes);      (* lines of /proc/self/cgroup *)
  xf_systemd : option (list bytes);     (* lines of /var/run/systemd/container *)
  xf_sys_vendor : option file;          (* /sys/class/dmi/id/sys_vendor *)
  xf_modalias : option file;            (* /sys/class/dmi/id/modalias *)
  xf_cpu : cpu;                         (* the cpuid instruction *)
  xf_vendor_order : list (bytes * virt_detail) -> list (bytes * virt_detail);
  xf_cpu_order : list (bytes * virt_detail) -> list (bytes * virt_detail)
}.

(** cpu_info.hpp: CpuInfo::vendor, brand, is_hypervisor_set. The first two are read by
    the constructor, the third at each call; the processor always answers the same. *)
Definition xf_cpu_vendor (x : exec_files) : bytes := get_cpu_vendor (xf_cpu x).
Definition xf_cpu_brand (x : exec_files) : bytes := get_cpu_brand (xf_cpu x).
Definition xf_hypervisor (x : exec_files) : bool := is_hypervisor_set (xf_cpu x).

(** linux/execution_environment.cpp 44-52: lxc wins over docker on one line;
    stops after the first line that decides. *)
Fixpoint cgroup_loop (lines : list bytes) : container :=
  match lines with
  | [] => CT_NONE
  | l :: r =>
      let l := cstr l in
      let res := if contains (bs "docker") l then CT_DOCKER else CT_NONE in
      let res := if contains (bs "lxc") l then CT_LXC else res in
      match res with CT_NONE => cgroup_loop r | _ => res end
  end.
(** 67-75 *)
Fixpoint systemd_loop (lines : list bytes) : container :=
  match lines with
  | [] => CT_DOCKER
  | l :: r => if contains (bs "docker") l then CT_DOCKER
              else if contains (bs "lxc") l then CT_LXC
              else systemd_loop r
  end.
(** linux/execution_environment.cpp 29-86 *)
Definition get_container_type (x : exec_files) : container :=
  let c := match xf_cgroup x with None => CT_NONE | Some ls => cgroup_loop ls end in
  match c with
  | CT_NONE => match xf_systemd x with None => CT_NONE | Some ls => systemd_loop ls end
  | _ => c
  end.

(** std::string operator[] at a size_t index computed as length - k *)
Definition at_back (s : bytes) (k : nat) : res ascii :=
  if Nat.ltb (length s) k then Undef UbRead
  else match nth_error s (length s - k) with Some c => Ok c | None => Ok NUL end.

(** dmi_info.cpp 20, 30 *)
Definition is_crlf (c : ascii) : bool := Ascii.eqb c CR || Ascii.eqb c LF.

(** catch (std::exception): an exception leaves the empty string *)
Definition or_empty (r : res bytes) : res bytes :=
  match r with Throw _ => Ok [] | _ => r end.

(** linux/dmi_info.cpp 10-37: bios_vendor, bios_description, sys_vendor *)
Record dmi := { dmi_bios_vendor : bytes; dmi_bios_description : bytes; dmi_sys_vendor : bytes }.
(** dmi_info.cpp 10-37 *)
Definition read_dmi (x : exec_files) : res dmi :=
  bv <-- or_empty (c <-- get_file_contents (xf_sys_vendor x) 256 ;; Ok (toupper_copy (trim_copy c))) ;;
  bd <-- or_empty (c <-- get_file_contents (xf_modalias x) 256 ;;
                   let s := toupper_copy (trim_copy c) in
                   lc <-- at_back s 1 ;;
                   Ok (if is_crlf lc then removelast s else s)) ;;
  sv <-- or_empty (s <-- get_file_contents (xf_sys_vendor x) 256 ;;
                   lc <-- at_back s 2 ;;
                   Ok (if is_crlf lc then removelast s else s)) ;;
  Ok {| dmi_bios_vendor := bv; dmi_bios_description := bd; dmi_sys_vendor := sv |}.

(** execution_environment_common.cpp 21-33 (table contents verbatim) *)
Definition virtual_cpu_names : list (bytes * virt_detail) :=
  [(bs "bhyve bhyve ", V_OTHER); (bs "KVM", KVM); (bs "MICROSOFT", HV); (bs " lrpepyh vr", HV);
   (bs "prl hyperv  ", PARALLELS); (bs "VMWARE", VMWARE); (bs "XenVMMXenVMM", V_XEN);
   (bs "ACRNACRNACRN", V_OTHER); (bs "VBOX", VIRTUALBOX)].
(** execution_environment_common.cpp 26-33 *)
Definition vm_vendors : list (bytes * virt_detail) :=
  [(bs "VMWARE", VMWARE); (bs "MICROSOFT", HV); (bs "PARALLELS", PARALLELS);
   (bs "VITRUAL MACHINE", V_OTHER); (bs "INNOTEK GMBH", VIRTUALBOX); (bs "POWERVM", V_OTHER);
   (bs "BOCHS", V_OTHER); (bs "KVM", KVM)].

(** 35-43 *)
Fixpoint find_in_map (m : list (bytes * virt_detail)) (data : bytes) : virt_detail :=
  match m with
  | [] => BARE_TO_METAL
  | (k, v) :: r => if contains k data then v else find_in_map r data
  end.

(** ExecutionEnvironment after construction *)
Record exec_env := { xe_container : container; xe_dmi : dmi; xe_files : exec_files }.
(** execution_environment.cpp 88 and the members it constructs *)
Definition make_exec_env (x : exec_files) : res exec_env :=
  d <-- read_dmi x ;;
  Ok {| xe_container := get_container_type x; xe_dmi := d; xe_files := x |}.

(** 86-107 *)
Definition cloud_provider (e : exec_env) : cloud :=
  let bd := dmi_bios_description (xe_dmi e) in
  let bv := dmi_bios_vendor (xe_dmi e) in
  let sv := dmi_sys_vendor (xe_dmi e) in
  if Nat.ltb 0 (length bd) || Nat.ltb 0 (length bv) || Nat.ltb 0 (length sv) then
    if contains (bs "SEABIOS") bv || contains (bs "ALIBABA") bd || contains (bs "ALIBABA") sv then ALI_CLOUD
    else if contains (bs "GOOGLE") sv || contains (bs "GOOGLECOMPUTEENGINE") bd then GOOGLE_CLOUD
    else if contains (bs "AWS") bv || contains (bs "AMAZON") bd || contains (bs "AWS") sv then AWS
    else if contains (bs "HP-COMPAQ") bd || contains (bs "ASUS") bd || contains (bs "DELL") bd then ON_PREMISE
    else PROV_UNKNOWN
  else PROV_UNKNOWN.

(** 80-83 *)
Definition is_cloud (e : exec_env) : bool :=
  match cloud_provider e with ON_PREMISE | PROV_UNKNOWN => false | _ => true end.

(** 58-78 *)
Definition virtualization_detail (e : exec_env) : virt_detail :=
  let x := xe_files e in
  let vendors := xf_vendor_order x vm_vendors in
  let cpus := xf_cpu_order x virtual_cpu_names in
  let try (m : list (bytes * virt_detail)) d (k : virt_detail) :=
    match find_in_map m d with BARE_TO_METAL => k | r => r end in
  let r := try vendors (dmi_bios_description (xe_dmi e))
          (try vendors (dmi_bios_vendor (xe_dmi e))
          (try vendors (dmi_sys_vendor (xe_dmi e))
          (try cpus (xf_cpu_vendor x)
          (find_in_map cpus (xf_cpu_brand x))))) in
  match r with
  | BARE_TO_METAL => if xf_hypervisor x || is_cloud e then V_OTHER else BARE_TO_METAL
  | _ => r
  end.

(** execution_environment.hpp is_docker / is_container *)
Definition is_docker (e : exec_env) : bool := match xe_container e with CT_DOCKER => true | _ => false end.
Definition is_container (e : exec_env) : bool := match xe_container e with CT_NONE => false | _ => true end.

(** 45-56 *)
Definition virtualization (e : exec_env) : virt_summary :=
  if is_container e then VS_CONTAINER
  else if negb (detail_eqb (virtualization_detail e) BARE_TO_METAL) || is_cloud e then VS_VM
  else VS_NONE.
