(** What the identification of the hardware depends on (C96). *)
From Verif Require Import Base Network Disks CpuInfo ExecEnv SysFiles Spec_Exec Spec_Choice.

(** "dir/name" *)
Definition under (dir : string) (name : bytes) : bytes := bs dir ++ bs "/" ++ name.
(** an entry of /dev/disk/by-uuid that counts: not "." or "..", not beginning with "usb" *)
Definition disk_name (name : bytes) : Prop := name <> bs "." /\ name <> bs ".." /\ ~ (exists r, name = bs "usb" ++ r).
Definition entry_name (name : bytes) : Prop := name <> bs "." /\ name <> bs "..".
(** a disk is found there *)
Definition some_disk (s : system) : Prop :=
  exists names n, sy_dir s (bs "/dev/disk/by-uuid") = Some names /\ In n names /\ disk_name n /\
    sy_inode s (under "/dev/disk/by-uuid" n) <> None /\ sy_link s (under "/dev/disk/by-uuid" n) <> None.

(** the two systems agree on a directory: the names in it and the inodes behind those that count *)
Definition same_labels (s s' : system) (dir : string) : Prop :=
  sy_dir s' (bs dir) = sy_dir s (bs dir) /\
  forall names n, sy_dir s (bs dir) = Some names -> In n names -> entry_name n -> sy_inode s' (under dir n) = sy_inode s (under dir n).
(** they agree on the contents of a file *)
Definition same_content (s s' : system) (path : string) : Prop := option_map f_data (sy_file s' (bs path)) = option_map f_data (sy_file s (bs path)).
(** ... on its first 256 bytes *)
Definition same_first256 (s s' : system) (path : string) : Prop := first256 (sy_file s' (bs path)) = first256 (sy_file s (bs path)).

(** the disks *)
Definition same_disks (s s' : system) : Prop :=
  sy_dir s' (bs "/dev/disk/by-uuid") = sy_dir s (bs "/dev/disk/by-uuid") /\
  (forall names n, sy_dir s (bs "/dev/disk/by-uuid") = Some names -> In n names -> disk_name n ->
     sy_inode s' (under "/dev/disk/by-uuid" n) = sy_inode s (under "/dev/disk/by-uuid" n) /\ sy_link s' (under "/dev/disk/by-uuid" n) = sy_link s (under "/dev/disk/by-uuid" n)) /\
  (* the labels only if there is a disk; the second directory only without the first one *)
  (some_disk s -> same_labels s s' "/dev/disk/by-label") /\
  (some_disk s -> sy_dir s (bs "/dev/disk/by-label") = None -> same_labels s s' "/dev/disk/by-partlabel") /\
  (* the cache of blkid only if there is none; the second one only without the first one *)
  (~ some_disk s -> same_content s s' "/run/blkid/blkid.tab") /\
  (~ some_disk s -> sy_file s (bs "/run/blkid/blkid.tab") = None -> same_content s s' "/etc/blkid.tab") /\
  sy_mounts s' (bs "/etc/fstab") = sy_mounts s (bs "/etc/fstab").
(** the kind of machine *)
Definition same_kind (s s' : system) : Prop :=
  same_content s s' "/proc/self/cgroup" /\ same_content s s' "/var/run/systemd/container" /\
  same_first256 s s' "/sys/class/dmi/id/sys_vendor" /\ same_first256 s s' "/sys/class/dmi/id/modalias" /\
  sy_cpu s' = sy_cpu s /\ sy_vendor_order s' = sy_vendor_order s /\ sy_cpu_order s' = sy_cpu_order s.
Definition same_network (s s' : system) : Prop := sy_ifaddrs s' = sy_ifaddrs s /\ sy_order s' = sy_order s.

(** the strategy in force: the one asked for, or for the default (-1) the one in the
    environment variable, if that stands for a number from 0 to 3 *)
Definition in_environment (env : option bytes) (z : Z) : Prop := exists t, env = Some t /\ t <> [] /\ stands_for t z /\ (0 <= z <= 3)%Z.
Definition in_force (env : option bytes) (asked z : Z) : Prop :=
  (asked <> -1 /\ z = asked)%Z \/ (asked = (-1)%Z /\ in_environment env z) \/ (asked = (-1)%Z /\ z = (-1)%Z /\ forall v, ~ in_environment env v).
(** what the identifier of a strategy is made of: 0, 1: the network, 2: the disks, -1: either *)
Definition same_origin (z : Z) (s s' : system) : Prop :=
  (z = 0 \/ z = 1 \/ z = -1 -> same_network s s')%Z /\ (z = 2 \/ z = -1 -> same_disks s s')%Z.
