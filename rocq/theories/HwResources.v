(** The directories, streams and memory blocks that the enumeration of the hardware
    acquires and releases through plain pointers: src/library/os/linux/os_linux.cpp,
    os/linux/network.cpp, os/linux/execution_environment.cpp, os/windows/network.cpp.
    What the functions compute is in Disks.v, Network.v, ExecEnv.v and WinNetwork.v.
    Simplified: streams of the C++ library (std::ifstream) close themselves and are left
    out; allocation on Linux does not fail. *)
From Verif Require Import Base CTypes StringUtils Network Disks ExecEnv WinNetwork Trace.

(** what is acquired, by its argument *)
Inductive hw_resource :=
| HDir (path : bytes)        (* opendir / closedir *)
| HStream (path : bytes)     (* fopen / fclose, setmntent / endmntent *)
| HScratch                   (* malloc / free in parseUUID *)
| HLine                      (* the buffer of getline *)
| HInterfaces                (* getifaddrs / freeifaddrs *)
| HBlock (second : bool).    (* HeapAlloc / HeapFree, first and second allocation *)

(** os_linux.cpp 43-72: malloc 49, free 71 *)
Definition parse_uuid_t (uuid : bytes) : T hw_resource bytes :=
  _ <<- tlog (Acquired HScratch) ;;
  sn <<- tlift (parse_uuid uuid) ;;
  _ <<- tlog (Released HScratch) ;;
  tret sn.

(** os_linux.cpp 202-244 *)
Fixpoint dev_loop_t (es : list dirent) (infos : list disk) (by_uuid : list (bytes * Z))
  : T hw_resource (list disk * list (bytes * Z)) :=
  match es with
  | [] => tret (infos, by_uuid)
  | e :: r =>
      if Nat.leb MAX_UNITS (length infos) then tret (infos, by_uuid)
      else if is_dots (de_name e) || is_prefix (bs "usb") (de_name e) then dev_loop_t r infos by_uuid
      else match de_ino e, de_link e with
           | Some ino, Some link =>
               sn <<- parse_uuid_t (de_name e) ;;
               let id := wrap_int ino in
               let d := {| dk_id := id;
                           dk_device := fit MAX_PATH_UNIX (base_name (firstn (MAX_PATH_UNIX - 1) link));
                           dk_sn := sn; dk_sn_init := true; dk_label := None;
                           dk_label_init := false; dk_preferred := false |} in
               let found := existsb (fun x => Z.eqb (dk_id x) id) infos in
               let by_uuid' := map_insert (de_name e) id by_uuid in
               dev_loop_t r (if found then infos else infos ++ [d]) by_uuid'
           | _, _ => dev_loop_t r infos by_uuid
           end
  end.

(** os_linux.cpp 24-30, 157-161 *)
Definition BY_UUID : bytes := bs "/dev/disk/by-uuid".
Definition BY_LABEL : bytes := bs "/dev/disk/by-label".
Definition BY_PARTLABEL : bytes := bs "/dev/disk/by-partlabel".
Definition FSTAB : bytes := bs "/etc/fstab".
Definition CGROUP : bytes := bs "/proc/self/cgroup".

(** os_linux.cpp 153-188: opendir 158, 161, closedir 184. The loop 164-183 does not leave
    the function. *)
Definition read_disk_labels_t (env : disk_env) (infos : list disk) : T hw_resource (list disk) :=
  match de_by_label env with
  | Some _ =>
      _ <<- tlog (Acquired (HDir BY_LABEL)) ;;
      _ <<- tlog (Released (HDir BY_LABEL)) ;;
      tret (read_disk_labels env infos)
  | None =>
      match de_by_partlabel env with
      | Some _ =>
          _ <<- tlog (Acquired (HDir BY_PARTLABEL)) ;;
          _ <<- tlog (Released (HDir BY_PARTLABEL)) ;;
          tret (read_disk_labels env infos)
      | None => tret (read_disk_labels env infos)
      end
  end.

(** os_linux.cpp 190-251: opendir 197, closedir 245 *)
Definition get_disk_infos_dev_t (env : disk_env) : T hw_resource (func_ret * list disk * list (bytes * Z)) :=
  x <<- match de_by_uuid env with
                        | None => tret ([], [])
                        | Some es =>
                            _ <<- tlog (Acquired (HDir BY_UUID)) ;;
                            x <<- dev_loop_t es [] [] ;;
                            _ <<- tlog (Released (HDir BY_UUID)) ;;
                            tret x
                        end ;;
  let '(infos, by_uuid) := x in
  let result := match infos with [] => FUNC_RET_NOT_AVAIL | _ => FUNC_RET_OK end in
  infos' <<- read_disk_labels_t env infos ;;
  tret (result, infos', by_uuid).

(** os_linux.cpp 101-126 *)
Fixpoint parse_blkid_loop_t (fuel : nat) (content : bytes) (oldpos : nat) (num : Z)
         (out : list disk) (by_uuid : list (bytes * Z)) : T hw_resource (list disk * list (bytes * Z)) :=
  match str_find (bs "</device>") content oldpos with
  | None => tret (out, by_uuid)
  | Some pos =>
      match fuel with
      | 0 => tlift OutOfFuel
      | S f =>
          cur_dev <<- tlift (substr content oldpos pos) ;;
          device <<- tlift (substr cur_dev (match find_last (fun c => Ascii.eqb c ">"%char) cur_dev with
                                     | Some i => i + 1 | None => 0 end) (length cur_dev)) ;;
          label <<- tlift (get_attribute cur_dev (bs "PARTLABEL")) ;;
          disk_sn <<- tlift (get_attribute cur_dev (bs "UUID")) ;;
          sn <<- parse_uuid_t disk_sn ;;
          disk_type <<- tlift (get_attribute cur_dev (bs "TYPE")) ;;
          let d := {| dk_id := num; dk_device := fit MAX_PATH_UNIX device; dk_sn := sn;
                      dk_sn_init := true; dk_label := Some (fit 255 label);
                      dk_label_init := true; dk_preferred := beqb disk_type (bs "swap") |} in
          parse_blkid_loop_t f content (pos + 1) (num + 1)%Z (out ++ [d])
                           (map_insert disk_sn num by_uuid)
      end
  end.
(** os_linux.cpp 101-126 *)
Definition parse_blkid_t (content : bytes) : T hw_resource (list disk * list (bytes * Z)) :=
  parse_blkid_loop_t (S (length content)) content 0 0%Z [] [].

(** os_linux.cpp 259-313: setmntent 260, endmntent 311 *)
Definition set_preferred_disks_t (env : disk_env) (by_uuid : list (bytes * Z)) (l : list disk) : T hw_resource (list disk) :=
  match de_fstab env with
  | None => tret l
  | Some es =>
      _ <<- tlog (Acquired (HStream FSTAB)) ;;
      l' <<- tlift (prefer_entries by_uuid es l) ;;
      _ <<- tlog (Released (HStream FSTAB)) ;;
      tret l'
  end.

(** os_linux.cpp 322-334 *)
Definition get_disk_infos_t (env : disk_env) : T hw_resource (func_ret * list disk) :=
  x <<- get_disk_infos_dev_t env ;;
  let '(result, infos, by_uuid) := x in
  match result with
  | FUNC_RET_OK =>
      infos' <<- set_preferred_disks_t env by_uuid infos ;; tret (FUNC_RET_OK, infos')
  | _ =>
      match first_some (de_blkid env) with
      | None => tret (FUNC_RET_NOT_AVAIL, infos)
      | Some content =>
          y <<- parse_blkid_t content ;;
          let '(infos', by_uuid') := y in
          infos'' <<- set_preferred_disks_t env by_uuid' infos' ;;
          tret (FUNC_RET_OK, infos'')
      end
  end.

(** linux/execution_environment.cpp 44-52. The first call of getline allocates the buffer,
    also at the end of the file; later calls may enlarge it, which is not recorded. *)
Definition cgroup_loop_t (lines : list bytes) : T hw_resource container :=
  _ <<- tlog (Acquired HLine) ;;
  tret (cgroup_loop lines).
(** linux/execution_environment.cpp 29-59: fopen 39, free 55, fclose 57 *)
Definition check_container_proc_t (x : exec_files) : T hw_resource container :=
  match xf_cgroup x with
  | None => tret CT_NONE
  | Some ls =>
      _ <<- tlog (Acquired (HStream CGROUP)) ;;
      c <<- cgroup_loop_t ls ;;
      _ <<- tlog (Released HLine) ;;
      _ <<- tlog (Released (HStream CGROUP)) ;;
      tret c
  end.
(** linux/execution_environment.cpp 80-86 *)
Definition get_container_type_t (x : exec_files) : T hw_resource container :=
  c <<- check_container_proc_t x ;;
  tret (match c with
        | CT_NONE => match xf_systemd x with None => CT_NONE | Some ls => systemd_loop ls end
        | _ => c
        end).

(** linux/network.cpp 46-115: getifaddrs 54, freeifaddrs 102 *)
Definition get_adapter_infos_t (order : list (bytes * adapter) -> list (bytes * adapter))
           (ifs : option (list ifaddr)) : T hw_resource (func_ret * list adapter) :=
  match ifs with
  | None => tret (FUNC_RET_ERROR, [])
  | Some l =>
      _ <<- tlog (Acquired HInterfaces) ;;
      let m := collect_adapters l in
      _ <<- tlog (Released HInterfaces) ;;
      tret (match m with
            | [] => (FUNC_RET_NOT_AVAIL, [])
            | m => (FUNC_RET_OK, map snd (order m))
            end)
  end.

(** windows/network.cpp 129-162: the walk, FREE 153, the end *)
Definition adapters_found_t (block : bool) (sort : list os_adapter -> list os_adapter) (l : list win_adapter)
  : T hw_resource (func_ret * list os_adapter) :=
  t <<- tlift (walk_adapters l) ;;
  _ <<- tlog (Released (HBlock block)) ;;
  tret (match t with
        | [] => (FUNC_RET_NOT_AVAIL, [])
        | _ => (FUNC_RET_OK, sort t)
        end).
(** windows/network.cpp 83-163: MALLOC 89, 103, FREE 102, 120, 124, 153 *)
Definition win_adapter_infos_t (sort : list os_adapter -> list os_adapter) (w : win_net)
  : T hw_resource (func_ret * list os_adapter) :=
  if wn_alloc1 w then
    _ <<- tlog (Acquired (HBlock false)) ;;
    match wn_first w with
    | GaOk a r => adapters_found_t false sort (a :: r)
    | GaError => tlift (Undef UbUninit)
    | GaOverflow =>
        _ <<- tlog (Released (HBlock false)) ;;
        if wn_alloc2 w then
          _ <<- tlog (Acquired (HBlock true)) ;;
          match wn_second w with
          | GaOk a r => adapters_found_t true sort (a :: r)
          | GaOverflow => _ <<- tlog (Released (HBlock true)) ;; tret (FUNC_RET_BUFFER_TOO_SMALL, [])
          | GaError => _ <<- tlog (Released (HBlock true)) ;; tret (FUNC_RET_ERROR, [])
          end
        else tret (FUNC_RET_BUFFER_TOO_SMALL, [])
    end
  else tret (FUNC_RET_ERROR, []).
