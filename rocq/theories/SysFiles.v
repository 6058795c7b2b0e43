(** The machine as a file system: which paths the identification of the hardware reads
    (src/library/os/linux/os_linux.cpp, os/linux/execution_environment.cpp,
    os/linux/dmi_info.cpp), and how the readings of Disks.v and ExecEnv.v come from them.
    Simplified: the system does not change while it is read; the entries of a mount table
    are those getmntent(3) delivers. *)
From Verif Require Import Base CTypes StringUtils HwId Registry Network Disks CpuInfo ExecEnv Strategies.

Record system := {
  sy_dir : bytes -> option (list bytes);     (* opendir, readdir: the names *)
  sy_inode : bytes -> option Z;              (* stat: st_ino *)
  sy_link : bytes -> option bytes;           (* readlink *)
  sy_file : bytes -> option file;            (* fopen, std::ifstream *)
  sy_mounts : bytes -> option (list bytes);  (* setmntent, getmntent: mnt_fsname *)
  sy_ifaddrs : option (list ifaddr);         (* getifaddrs *)
  sy_cpu : cpu;                              (* cpuid *)
  (* the iteration orders of the unordered_maps *)
  sy_order : list (bytes * adapter) -> list (bytes * adapter);
  sy_vendor_order : list (bytes * virt_detail) -> list (bytes * virt_detail);
  sy_cpu_order : list (bytes * virt_detail) -> list (bytes * virt_detail)
}.

(** os_linux.cpp 168-169, 208-209, 212: path + "/" + d_name *)
Definition entry_at (s : system) (dir name : bytes) : dirent :=
  let p := dir ++ bs "/" ++ name in {| de_name := name; de_ino := sy_inode s p; de_link := sy_link s p |}.
Definition listing (s : system) (dir : bytes) : option (list dirent) := option_map (map (entry_at s dir)) (sy_dir s dir).

(** getline(3): the lines with their line feeds; std::getline: without. [cur]: what has been
    read of the current line, backwards. *)
Fixpoint lines_loop (keep : bool) (cur s : bytes) : list bytes :=
  match s with
  | [] => match cur with [] => [] | _ => [rev cur] end
  | c :: r => if Ascii.eqb c LF then rev (if keep then c :: cur else cur) :: lines_loop keep [] r else lines_loop keep (c :: cur) r
  end.
Definition text_lines (keep : bool) (s : bytes) : list bytes := lines_loop keep [] s.
(** what a stream delivers of a file *)
Definition content (f : file) : bytes := f_data f.

(** os_linux.cpp 24-30 (ID_FOLDER), 127 (BLKID_LOCATIONS), 157-161, 260 *)
Definition disks_at (s : system) : disk_env :=
  {| de_by_uuid := listing s (bs "/dev/disk/by-uuid");
     de_by_label := listing s (bs "/dev/disk/by-label");
     de_by_partlabel := listing s (bs "/dev/disk/by-partlabel");
     de_blkid := [option_map content (sy_file s (bs "/run/blkid/blkid.tab")); option_map content (sy_file s (bs "/etc/blkid.tab"))];
     de_fstab := sy_mounts s (bs "/etc/fstab") |}.
(** linux/execution_environment.cpp 39, 63; linux/dmi_info.cpp 12, 18, 28 *)
Definition exec_at (s : system) : exec_files :=
  {| xf_cgroup := option_map (fun f => text_lines true (content f)) (sy_file s (bs "/proc/self/cgroup"));
     xf_systemd := option_map (fun f => text_lines false (content f)) (sy_file s (bs "/var/run/systemd/container"));
     xf_sys_vendor := sy_file s (bs "/sys/class/dmi/id/sys_vendor");
     xf_modalias := sy_file s (bs "/sys/class/dmi/id/modalias");
     xf_cpu := sy_cpu s; xf_vendor_order := sy_vendor_order s; xf_cpu_order := sy_cpu_order s |}.
Definition machine_at (s : system) : machine :=
  {| hw_ifaddrs := sy_ifaddrs s; hw_order := sy_order s; hw_disks := disks_at s; hw_exec := exec_at s |}.
