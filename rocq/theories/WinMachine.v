(** Model of src/library/os/windows/os_win.cpp (getDiskInfos), cpu_info.cpp and
    execution_environment.cpp; with WinNetwork.v and WinSmbios.v the readings of a
    Windows machine. *)
From Verif Require Import Base CTypes StringUtils HwId Network Disks CpuInfo ExecEnv Strategies Shared WinNetwork WinSmbios.

(** One drive of GetLogicalDriveStrings: its root such as C:\ (a non-empty C string), is it
    DRIVE_FIXED, and what GetVolumeInformation says (None: it fails): the volume name, the
    32 bit serial number, the name of the file system. *)
Record volume := { vo_name : bytes; vo_serial : N; vo_file_system : bytes }.
Record drive := { dr_root : bytes; dr_fixed : bool; dr_volume : option volume }.

(** os_win.cpp 54-61 *)
Definition disk_of_volume (ndrives : nat) (d : drive) (v : volume) : disk :=
  {| dk_id := Z.of_nat ndrives;
     dk_device := fit 260 (vo_name v);
     dk_sn := u32_bytes (vo_serial v) ++ repeat NUL 4;
     dk_sn_init := true;
     dk_label := Some (fit 255 (vo_file_system v));
     dk_label_init := true;
     dk_preferred := match dr_root d with c :: _ => Ascii.eqb c "C"%char | [] => false end |}.
(** os_win.cpp 44-72; [scanned]: drives_scanned *)
Fixpoint scan_drives (l : list drive) (scanned ndrives : nat) : list disk :=
  match l with
  | [] => []
  | d :: r =>
      if Nat.ltb scanned 40 then
        match (if dr_fixed d then dr_volume d else None) with
        | Some v => disk_of_volume ndrives d v :: scan_drives r (S scanned) (S ndrives)
        | None => scan_drives r (S scanned) ndrives
        end
      else []
  end.
(** os_win.cpp 29-82, called with an empty vector (disk_strategy.cpp 31-32). [None]:
    GetLogicalDriveStrings returns 0. *)
Definition win_disk_infos (drives : option (list drive)) : func_ret * list disk :=
  match match drives with Some l => scan_drives l 0 0 | None => [] end with
  | [] => (FUNC_RET_NOT_AVAIL, [])
  | ds => (FUNC_RET_OK, ds)
  end.

(** windows/cpu_info.cpp 18-29: get_cpu_vendor *)
Definition win_cpu_vendor (c : cpu) : bytes := let r := c 0%N in u32_bytes (r_ebx r) ++ u32_bytes (r_edx r) ++ u32_bytes (r_ecx r).
(** 42-44: one row of the brand *)
Definition win_brand_row (c : cpu) (leaf : N) : bytes :=
  let r := c leaf in u32_bytes (r_eax r) ++ u32_bytes (r_ebx r) ++ u32_bytes (r_ecx r) ++ u32_bytes (r_edx r).
(** windows/cpu_info.cpp 31-51: get_cpu_brand; the comparison is one of unsigned numbers,
    the buffer has 65 bytes *)
Definition win_cpu_brand (c : cpu) : bytes :=
  if N.leb 2147483652 (r_eax (c 2147483648%N))
  then cstr (win_brand_row c 2147483650 ++ win_brand_row c 2147483651 ++ win_brand_row c 2147483652 ++ repeat NUL 17)
  else bs "NA".
(** windows/cpu_info.cpp 60-65 *)
Definition win_hypervisor (c : cpu) : bool := N.eqb (N.land (N.shiftr (r_ecx (c 1%N)) 31) 1) 1.
(** windows/cpu_info.cpp 67-74 *)
Definition win_cpu_model (c : cpu) : N :=
  let r := c 1%N in
  N.lor (N.lor (N.land (r_eax r) 16383) (N.shiftr (N.land (r_eax r) 67076096) 2)) (N.shiftl (N.land (r_ebx r) 255) 24).

(** Everything the library reads on Windows. *)
Record win_machine := {
  wm_net : win_net;
  wm_sort : list os_adapter -> list os_adapter;
  wm_drives : option (list drive);
  wm_firmware : firmware;
  wm_cpu : cpu;
  wm_vendor_order : list (bytes * virt_detail) -> list (bytes * virt_detail);
  wm_cpu_order : list (bytes * virt_detail) -> list (bytes * virt_detail)
}.
(** windows/execution_environment.cpp 23: no container is ever reported (wine_container
    has no caller); the members are constructed from the CPU and the firmware table *)
Definition win_platform (m : win_machine) : res platform :=
  d <-- windows_dmi (wm_firmware m) ;;
  Ok {| pl_container := CT_NONE; pl_bios_vendor := dm_bios_vendor d; pl_bios_description := dm_bios_description d;
        pl_sys_vendor := dm_sys_vendor d; pl_cpu_vendor := win_cpu_vendor (wm_cpu m); pl_cpu_brand := win_cpu_brand (wm_cpu m);
        pl_hypervisor := win_hypervisor (wm_cpu m); pl_vendor_order := wm_vendor_order m; pl_cpu_order := wm_cpu_order m |}.
(** the readings of a Windows machine: os/windows/network.cpp 83-163, os_win.cpp 29-82,
    execution_environment.cpp 23 *)
Definition win_readings (m : win_machine) : readings :=
  {| rd_adapters := '(c, l) <-- win_adapter_infos (wm_sort m) (wm_net m) ;; Ok (c, map oa_adapter l);
     rd_disks := Ok (win_disk_infos (wm_drives m));
     rd_platform := win_platform m |}.

(** windows/execution_environment.cpp 25-64: wine_container, which nothing calls. [drives]:
    None if GetLogicalDriveStrings returns 0 or too much; with each drive the lines of
    var/run/systemd/container on it, if readable. *)
Fixpoint wine_file (lines : list bytes) : container :=
  match lines with
  | [] => CT_DOCKER
  | l :: r => if contains (bs "docker") l then CT_DOCKER else if contains (bs "lxc") l then CT_LXC else wine_file r
  end.
Fixpoint wine_scan (l : list (drive * option (list bytes))) (ndrives : nat) (result : container) : container :=
  match l with
  | [] => result
  | (d, f) :: r =>
      if Nat.ltb ndrives 20 then
        wine_scan r (S ndrives) (if dr_fixed d then match f with Some ls => wine_file ls | None => result end else result)
      else result
  end.
Definition wine_container (drives : option (list (drive * option (list bytes)))) : container :=
  match drives with Some l => wine_scan l 0 CT_NONE | None => CT_NONE end.
