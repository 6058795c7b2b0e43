(** getDiskInfos in several threads (os/linux/os_linux.cpp 259-334): getmntent(3) delivers an entry
    of /etc/fstab in an object that belongs to the C library and that all threads share; the
    function reads it up to three times before it asks for the next. Threads interleave at these
    accesses. Everything else (by-uuid, labels, blkid.tab) is in objects of each call. *)
From Verif Require Import Base CTypes StringUtils HwId Network Disks Strategies.

(** Where a call is: at the test of the loop (line 266), at the copy of ent->mnt_fsname (268), at
    the strncmp with "UUID=" (270), at the strncmp with "LABEL=" (284), or done. [rest]: what its
    stream still has; [m]: disk_by_uuid; [l]: the disks so far. The messages for debugging
    (269, 282) read the entry once more, to no effect, and are left out. *)
Inductive mnt_call :=
| MNext (rest : list bytes) (m : list (bytes * Z)) (l : list disk)
| MCopy (rest : list bytes) (m : list (bytes * Z)) (l : list disk)
| MUuid (name : bytes) (rest : list bytes) (m : list (bytes * Z)) (l : list disk)
| MLabel (name : bytes) (rest : list bytes) (m : list (bytes * Z)) (l : list disk)
| MDone (r : res (func_ret * list disk)).

(** os_linux.cpp 260-264: setmntent *)
Definition mnt_open (env : disk_env) (m : list (bytes * Z)) (l : list disk) : mnt_call :=
  match de_fstab env with
  | None => MDone (Ok (FUNC_RET_OK, l))
  | Some es => MNext es m l
  end.
(** os_linux.cpp 322-331: up to the call of set_preferred_disks *)
Definition mnt_start (env : disk_env) : mnt_call :=
  match get_disk_infos_dev env with
  | Ok (FUNC_RET_OK, infos, m) => mnt_open env m infos
  | Ok (_, infos, _) =>
      match first_some (de_blkid env) with
      | None => MDone (Ok (FUNC_RET_NOT_AVAIL, infos))
      | Some content =>
          match parse_blkid content with
          | Ok (infos', m') => mnt_open env m' infos'
          | Throw e => MDone (Throw e)
          | Undef u => MDone (Undef u)
          | OutOfFuel => MDone OutOfFuel
          end
      end
  | Throw e => MDone (Throw e)
  | Undef u => MDone (Undef u)
  | OutOfFuel => MDone OutOfFuel
  end.
(** back to line 266 with the disks that an entry left *)
Definition mnt_next (rest : list bytes) (m : list (bytes * Z)) (r : res (list disk)) : mnt_call :=
  match r with
  | Ok l => MNext rest m l
  | Throw e => MDone (Throw e)
  | Undef u => MDone (Undef u)
  | OutOfFuel => MDone OutOfFuel
  end.
(** One access. [shared]: the mnt_fsname in the object of the C library. [left]: what is there
    when getmntent finds no further entry (it has read comments and empty lines into it). *)
Definition mnt_step (left_ shared : bytes) (c : mnt_call) : bytes * mnt_call :=
  match c with
  | MNext [] m l => (left_, MDone (Ok (FUNC_RET_OK, l)))                  (* 266, 311 *)
  | MNext (e :: rest) m l => (e, MCopy rest m l)                          (* 266 *)
  | MCopy rest m l => (shared, MUuid shared rest m l)                     (* 268 *)
  | MUuid name rest m l =>
      (shared,
       if is_prefix (bs "UUID=") shared then                              (* 270 *)
         mnt_next rest m
           (u <-- substr name 5 (length name) ;;                          (* 272 *)
            match map_find u m with                                       (* 273-283 *)
            | Some id => Ok (update_first (fun d => Z.eqb id (dk_id d)) set_preferred l)
            | None => Ok l
            end)
       else MLabel name rest m l)
  | MLabel name rest m l =>
      (shared,
       if is_prefix (bs "LABEL=") shared then                             (* 284 *)
         mnt_next rest m
           (u <-- substr name 6 (length name) ;; prefer_by_label u l)     (* 286-293 *)
       else MNext rest m l)                                               (* 294-307: to no effect *)
  | MDone r => (shared, MDone r)
  end.

(** Threads scheduled in any order: which one, and what getmntent leaves at the end of a file. *)
Fixpoint mnt_put (pool : list mnt_call) (i : nat) (c : mnt_call) : list mnt_call :=
  match pool, i with
  | [], _ => []
  | _ :: r, 0 => c :: r
  | a :: r, S i => a :: mnt_put r i c
  end.
Fixpoint mnt_run (schedule : list (nat * bytes)) (shared : bytes) (pool : list mnt_call) : bytes * list mnt_call :=
  match schedule with
  | [] => (shared, pool)
  | (i, left_) :: rest =>
      match nth_error pool i with
      | None => mnt_run rest shared pool
      | Some c => let '(shared', c') := mnt_step left_ shared c in mnt_run rest shared' (mnt_put pool i c')
      end
  end.

(** disk_strategy.cpp 30-57: the identifiers, from what getDiskInfos returned
    ([generate_disk_pc_id] of Strategies.v after its first line) *)
Definition pc_id_of_disks (infos : res (func_ret * list disk)) : res (func_ret * list data7) :=
  '(r, disks) <-- infos ;;
  match r with
  | FUNC_RET_OK =>
      match disks with
      | [] => Ok (FUNC_RET_NOT_AVAIL, [])
      | _ =>
          pref <-- disks_data (filter dk_preferred disks) ;;
          others <-- disks_data (filter (fun d => negb (dk_preferred d)) disks) ;;
          let v := pref ++ others in
          Ok (match v with [] => FUNC_RET_NOT_AVAIL | _ => FUNC_RET_OK end, v)
      end
  | _ => Ok (r, [])
  end.
