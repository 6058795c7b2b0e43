(** Model of the disk part of src/library/os/linux/os_linux.cpp. *)
From Verif Require Import Base CTypes StringUtils Network.

Definition MAX_PATH_UNIX : nat := 1024.   (* datatypes.h 20-22 *)

(** os/os.h DiskInfo; [dk_label = None]: the array was never written. *)
Record disk := { dk_id : Z; dk_device : bytes; dk_sn : bytes (* 8 bytes *); dk_sn_init : bool;
                 dk_label : option bytes; dk_label_init : bool; dk_preferred : bool }.

(** os_linux.cpp 277, 290: disk_info.preferred = true *)
Definition set_preferred (d : disk) : disk :=
  {| dk_id := dk_id d; dk_device := dk_device d; dk_sn := dk_sn d; dk_sn_init := dk_sn_init d;
     dk_label := dk_label d; dk_label_init := dk_label_init d; dk_preferred := true |}.
(** os_linux.cpp 173-174: the label and its flag *)
Definition set_label (lab : bytes) (d : disk) : disk :=
  {| dk_id := dk_id d; dk_device := dk_device d; dk_sn := dk_sn d; dk_sn_init := dk_sn_init d;
     dk_label := Some lab; dk_label_init := true; dk_preferred := dk_preferred d |}.

(** mstrlcpy of a C string into a fresh array of n bytes, read back as a C string *)
Definition fit (n : nat) (s : bytes) : bytes := firstn (n - 1) (cstr s).

(** sscanf "%2hhx" (os_linux.cpp 67): the value of a digit *)
Definition hex_val (c : ascii) : N := match digit_val c with Some d => d | None => 0%N end.

(** os_linux.cpp 66-69: sscanf "%2hhx" on each pair of digits *)
Fixpoint hex_bytes (h : bytes) : bytes :=
  match h with
  | a :: b :: r => ascii_of_N (hex_val a * 16 + hex_val b) :: hex_bytes r
  | _ => []
  end.

(** os_linux.cpp 68: ^ on unsigned char *)
Definition xor_byte (a b : ascii) : ascii := ascii_of_N (N.lxor (code a) (code b)).

(** os_linux.cpp 68: buffer_out[i] ^= b *)
Fixpoint xor_at (i : nat) (b : ascii) (buf : bytes) : bytes :=
  match i, buf with
  | _, [] => []
  | 0, x :: r => xor_byte x b :: r
  | S i', x :: r => x :: xor_at i' b r
  end.

(** os_linux.cpp 66-69: buffer_out[i % out_size] ^= byte i *)
Fixpoint xor_fold (i : nat) (l : bytes) (buf : bytes) : bytes :=
  match l with
  | [] => buf
  | b :: r => xor_fold (S i) r (xor_at (i mod length buf) b buf)
  end.

(** os_linux.cpp 43-72 with out_size = 8. The scratch buffer has strlen(uuid)
    bytes; index j (after padding) receives the terminator. *)
Definition parse_uuid (uuid : bytes) : res bytes :=
  let uuid := cstr uuid in
  let len := length uuid in
  let hex := filter isxdigit uuid in
  let j := length hex in
  let hex' := if Nat.eqb (j mod 2) 1 then hex ++ ["0"%char] else hex in
  if Nat.leb len (length hex') then Undef UbWrite
  else Ok (xor_fold 0 (hex_bytes hex') (repeat NUL 8)).

(** std::string::find(needle, from); None = npos *)
Fixpoint is_prefix (p s : bytes) : bool :=
  match p, s with
  | [], _ => true
  | _, [] => false
  | a :: p', b :: s' => Ascii.eqb a b && is_prefix p' s'
  end.
(** std::string::find from the start *)
Fixpoint find_here (needle s : bytes) : option nat :=
  if is_prefix needle s then Some 0
  else match s with
       | [] => None
       | _ :: r => option_map S (find_here needle r)
       end.
(** std::string::find(needle, from) *)
Definition str_find (needle s : bytes) (from : nat) : option nat :=
  if Nat.ltb (length s) from then None
  else option_map (fun i => from + i) (find_here needle (skipn from s)).
(** std::string::find(needle) != npos *)
Definition contains (needle s : bytes) : bool :=
  match find_here needle s with Some _ => true | None => false end.

(** std::string::substr(pos, n) *)
Definition substr (s : bytes) (pos n : nat) : res bytes :=
  if Nat.ltb (length s) pos then Throw ExOutOfRange else Ok (firstn n (skipn pos s)).

(** os_linux.cpp 94-99: find() = npos makes startpos wrap to size - 1; an absent
    closing quote makes the length huge (rest of the string). *)
Definition get_attribute (source attr : bytes) : res bytes :=
  let full := attr ++ bs "=""" in
  let startpos := match str_find full source 0 with
                  | Some i => i + length full
                  | None => length full - 1
                  end in
  match str_find (bs """") source startpos with
  | Some endpos => substr source startpos (endpos - startpos)
  | None => substr source startpos (length source)
  end.

(** disk_by_uuid.insert: keeps an existing entry *)
Definition map_insert (k : bytes) (v : Z) (m : list (bytes * Z)) : list (bytes * Z) :=
  if existsb (fun p => beqb (fst p) k) m then m else m ++ [(k, v)].
(** unordered_map::find (os_linux.cpp 273) *)
Fixpoint map_find (k : bytes) (m : list (bytes * Z)) : option Z :=
  match m with
  | [] => None
  | (k', v) :: r => if beqb k' k then Some v else map_find k r
  end.

(** os_linux.cpp 101-126; fuel: number of characters + 1 *)
Fixpoint parse_blkid_loop (fuel : nat) (content : bytes) (oldpos : nat) (num : Z)
         (out : list disk) (by_uuid : list (bytes * Z)) : res (list disk * list (bytes * Z)) :=
  match str_find (bs "</device>") content oldpos with
  | None => Ok (out, by_uuid)
  | Some pos =>
      match fuel with
      | 0 => OutOfFuel
      | S f =>
          cur_dev <-- substr content oldpos pos ;;
          device <-- substr cur_dev (match find_last (fun c => Ascii.eqb c ">"%char) cur_dev with
                                     | Some i => i + 1 | None => 0 end) (length cur_dev) ;;
          label <-- get_attribute cur_dev (bs "PARTLABEL") ;;
          disk_sn <-- get_attribute cur_dev (bs "UUID") ;;
          sn <-- parse_uuid disk_sn ;;
          disk_type <-- get_attribute cur_dev (bs "TYPE") ;;
          let d := {| dk_id := num; dk_device := fit MAX_PATH_UNIX device; dk_sn := sn;
                      dk_sn_init := true; dk_label := Some (fit 255 label);
                      dk_label_init := true; dk_preferred := beqb disk_type (bs "swap") |} in
          parse_blkid_loop f content (pos + 1) (num + 1)%Z (out ++ [d])
                           (map_insert disk_sn num by_uuid)
      end
  end.
(** os_linux.cpp 101-126 *)
Definition parse_blkid (content : bytes) : res (list disk * list (bytes * Z)) :=
  parse_blkid_loop (S (length content)) content 0 0%Z [] [].

(** A directory entry of /dev/disk/by-uuid or by-label: name, stat() inode of the
    target, readlink() result. *)
Record dirent := { de_name : bytes; de_ino : option Z; de_link : option bytes }.

(** What the functions below read from the system. *)
Record disk_env := {
  de_by_uuid : option (list dirent);       (* /dev/disk/by-uuid, None: opendir fails *)
  de_by_label : option (list dirent);
  de_by_partlabel : option (list dirent);
  de_blkid : list (option bytes);          (* contents of the two blkid.tab locations *)
  de_fstab : option (list bytes)           (* mnt_fsname of each /etc/fstab entry *)
}.

(** os_linux.cpp 151 *)
Definition MAX_UNITS : nat := 40.
(** os_linux.cpp 165, 203: strcmp with "." and ".." *)
Definition is_dots (n : bytes) : bool := beqb n (bs ".") || beqb n (bs "..").
(** os_linux.cpp 216-219 and 297-300: what follows the last "/" *)
Definition base_name (s : bytes) : bytes :=
  match find_last (fun c => Ascii.eqb c "/"%char) s with
  | Some i => skipn (i + 1) s
  | None => s
  end.

(** os_linux.cpp 202-244 *)
Fixpoint dev_loop (es : list dirent) (infos : list disk) (by_uuid : list (bytes * Z))
  : res (list disk * list (bytes * Z)) :=
  match es with
  | [] => Ok (infos, by_uuid)
  | e :: r =>
      if Nat.leb MAX_UNITS (length infos) then Ok (infos, by_uuid)
      else if is_dots (de_name e) || is_prefix (bs "usb") (de_name e) then dev_loop r infos by_uuid
      else match de_ino e, de_link e with
           | Some ino, Some link =>
               sn <-- parse_uuid (de_name e) ;;
               let id := wrap_int ino in
               let d := {| dk_id := id;
                           dk_device := fit MAX_PATH_UNIX (base_name (firstn (MAX_PATH_UNIX - 1) link));
                           dk_sn := sn; dk_sn_init := true; dk_label := None;
                           dk_label_init := false; dk_preferred := false |} in
               let found := existsb (fun x => Z.eqb (dk_id x) id) infos in
               let by_uuid' := map_insert (de_name e) id by_uuid in
               dev_loop r (if found then infos else infos ++ [d]) by_uuid'
           | _, _ => dev_loop r infos by_uuid
           end
  end.

(** apply [f] to the first disk satisfying [p] (a range-for with break) *)
Fixpoint update_first (p : disk -> bool) (f : disk -> disk) (l : list disk) : list disk :=
  match l with
  | [] => []
  | d :: r => if p d then f d :: r else d :: update_first p f r
  end.

(** os_linux.cpp 153-188 *)
Definition read_disk_labels (env : disk_env) (infos : list disk) : list disk :=
  let dir := match de_by_label env with Some l => Some l | None => de_by_partlabel env end in
  match dir with
  | None => infos
  | Some es =>
      fold_left (fun acc e =>
        if is_dots (de_name e) then acc
        else match de_ino e with
             | None => acc
             | Some ino => update_first (fun d => Z.eqb (wrap_int ino) (dk_id d))
                                        (set_label (fit 255 (de_name e))) acc
             end) es infos
  end.

(** os_linux.cpp 190-251 *)
Definition get_disk_infos_dev (env : disk_env) : res (func_ret * list disk * list (bytes * Z)) :=
  '(infos, by_uuid) <-- match de_by_uuid env with
                        | None => Ok ([], [])
                        | Some es => dev_loop es [] []
                        end ;;
  let result := match infos with [] => FUNC_RET_NOT_AVAIL | _ => FUNC_RET_OK end in
  Ok (result, read_disk_labels env infos, by_uuid).

(** os_linux.cpp 288-294: comparing with an unwritten label array is undefined *)
Fixpoint prefer_by_label (name : bytes) (l : list disk) : res (list disk) :=
  match l with
  | [] => Ok []
  | d :: r =>
      match dk_label d with
      | None => Undef UbUninit
      | Some lab => if beqb name lab then Ok (set_preferred d :: r)
                    else r' <-- prefer_by_label name r ;; Ok (d :: r')
      end
  end.

(** os_linux.cpp 266-310, one fstab entry. The last branch iterates over copies
    ("for (auto disk_info : diskInfos)"), so it changes nothing. *)
Definition prefer_entry (by_uuid : list (bytes * Z)) (fsname : bytes) (l : list disk) : res (list disk) :=
  if is_prefix (bs "UUID=") fsname then
    match map_find (skipn 5 fsname) by_uuid with
    | Some id => Ok (update_first (fun d => Z.eqb id (dk_id d)) set_preferred l)
    | None => Ok l
    end
  else if is_prefix (bs "LABEL=") fsname then prefer_by_label (skipn 6 fsname) l
  else Ok l.

(** os_linux.cpp 266-310: the entries of fstab in order *)
Fixpoint prefer_entries (by_uuid : list (bytes * Z)) (es : list bytes) (l : list disk) : res (list disk) :=
  match es with
  | [] => Ok l
  | e :: r => l' <-- prefer_entry by_uuid e l ;; prefer_entries by_uuid r l'
  end.

(** os_linux.cpp 259-313 *)
Definition set_preferred_disks (env : disk_env) (by_uuid : list (bytes * Z)) (l : list disk) : res (list disk) :=
  match de_fstab env with
  | None => Ok l
  | Some es => prefer_entries by_uuid es l
  end.

(** os_linux.cpp 130-149: the first readable location *)
Fixpoint first_some (l : list (option bytes)) : option bytes :=
  match l with
  | [] => None
  | Some x :: _ => Some x
  | None :: r => first_some r
  end.

(** os_linux.cpp 322-334 *)
Definition get_disk_infos (env : disk_env) : res (func_ret * list disk) :=
  '(result, infos, by_uuid) <-- get_disk_infos_dev env ;;
  match result with
  | FUNC_RET_OK =>
      infos' <-- set_preferred_disks env by_uuid infos ;; Ok (FUNC_RET_OK, infos')
  | _ =>
      match first_some (de_blkid env) with
      | None => Ok (FUNC_RET_NOT_AVAIL, infos)
      | Some content =>
          '(infos', by_uuid') <-- parse_blkid content ;;
          infos'' <-- set_preferred_disks env by_uuid' infos' ;;
          Ok (FUNC_RET_OK, infos'')
      end
  end.
