(** Which disks come first: the fstab, and the identifiers of a disk. *)
From Verif Require Import Base CTypes HwId Network Disks.

(** the first disk of the list with a property, by position *)
Definition first_with (p : disk -> Prop) (l : list disk) (k : nat) : Prop :=
  exists d, nth_error l k = Some d /\ p d /\ forall j d', j < k -> nth_error l j = Some d' -> ~ p d'.

(** an fstab entry names the [k]th disk: by the UUID of a directory entry with its
    inode ([ids u] = that inode), or by its label *)
Definition names (ids : bytes -> option Z) (fsname : bytes) (l : list disk) (k : nat) : Prop :=
  (exists u id, fsname = bs "UUID=" ++ u /\ ids u = Some id /\ first_with (fun d => dk_id d = id) l k) \/
  (exists lab, fsname = bs "LABEL=" ++ lab /\ first_with (fun d => dk_label d = Some lab) l k).

(** the disk apart from the preference *)
Definition same_but_preferred (d d' : disk) : Prop :=
  dk_id d' = dk_id d /\ dk_device d' = dk_device d /\ dk_sn d' = dk_sn d /\ dk_sn_init d' = dk_sn_init d /\
  dk_label d' = dk_label d /\ dk_label_init d' = dk_label_init d.

(** identifiers of one disk: the serial, then the label *)
Definition serial_data (sn : bytes) : data7 := let b i := nth i sn NUL in D7 (b 0) (b 1) (b 2) (b 3) (b 4) (b 5) (b 6).
Definition label_data (lab : bytes) : data7 := let b i := nth i (cstr lab) NUL in D7 (b 0) (b 1) (b 2) (b 3) (b 4) (b 5) NUL.
Definition disk_idents (d : disk) : list data7 :=
  (if dk_sn_init d then [serial_data (dk_sn d)] else []) ++
  match dk_label d with Some lab => if dk_label_init d then [label_data lab] else [] | None => [] end.

(** directory entries that can be used *)
Definition usable (e : dirent) (id : Z) : Prop :=
  de_name e <> bs "." /\ de_name e <> bs ".." /\ (forall r, de_name e <> bs "usb" ++ r) /\
  (exists ino, de_ino e = Some ino /\ id = wrap_int ino) /\ de_link e <> None.
