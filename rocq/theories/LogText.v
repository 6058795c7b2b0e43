(** What the library writes to its log, expansion of the format strings included: vfprintf
    (logger.cpp 60) for the conversions that the format strings of the library use, the macros
    of base/logger.h, and every place from which they are called. *)
From Verif Require Import Base CTypes StringUtils Dates Base64 HwId Registry Ini Network Disks CpuInfo ExecEnv Strategies Locate Licensecc Inspector InspectorMain InspectorOut Logger.

(** An argument as it is passed: an integer of 32 or of 64 bits, or a pointer to characters (the
    string ends at the first NUL). int, unsigned int and, on Windows, long have 32 bits; ino_t has 64. *)
Inductive arg := AInt (n : Z) | ALong (n : Z) | AStr (s : bytes).

(** ** vfprintf *)
(** after '%': the flags - and 0, then the width *)
Fixpoint read_width (s : bytes) (w : nat) : nat * bytes :=
  match s with
  | c :: r => if isdigit c then read_width r (10 * w + (N.to_nat (N_of_ascii c) - 48)) else (w, s)
  | [] => (w, s)
  end.
Fixpoint read_flags (s : bytes) (minus zero : bool) : bool * bool * bytes :=
  match s with
  | "-"%char :: r => read_flags r true zero
  | "0"%char :: r => read_flags r minus true
  | _ => (minus, zero, s)
  end.
(** filled up to the width: with blanks, or with zeros after the sign *)
Definition pad_text (minus zero : bool) (w : nat) (t : bytes) : bytes :=
  if minus then t ++ repeat SP (w - length t) else repeat (if zero then "0"%char else SP) (w - length t) ++ t.
Definition pad_number (minus zero : bool) (w : nat) (neg : bool) (t : bytes) : bytes :=
  let sign := if neg then bs "-" else [] in
  if zero && negb minus then sign ++ pad_text false true (w - length sign) t
  else pad_text minus false w (sign ++ t).
(** One conversion. What C leaves undefined is Undef: an unknown conversion, no argument minus, an
    argument of another size. *)
Definition convert (minus zero : bool) (w : nat) (c : ascii) (args : list arg) : res (bytes * list arg) :=
  if Ascii.eqb c "%" then if minus || zero || negb (Nat.eqb w 0) then Undef UbRead else Ok (bs "%", args)
  else if Ascii.eqb c "s" then
    if zero then Undef UbRead else match args with AStr s :: r => Ok (pad_text minus false w (cstr s), r) | _ => Undef UbRead end
  else if Ascii.eqb c "d" then
    match args with AInt n :: r => Ok (pad_number minus zero w (Z.ltb n 0) (print_num 10 (Z.abs_N n)), r) | _ => Undef UbRead end
  else if Ascii.eqb c "x" then
    match args with AInt n :: r => Ok (pad_number minus zero w false (print_num 16 (Z.to_N (n mod 4294967296))), r) | _ => Undef UbRead end
  else Undef UbRead.
Fixpoint print_format (fuel : nat) (f : bytes) (args : list arg) : res bytes :=
  match fuel with
  | 0 => OutOfFuel
  | S fuel =>
      match f with
      | [] => Ok []
      | "%"%char :: r =>
          let '(minus, zero, r) := read_flags r false false in
          let '(w, r) := read_width r 0 in
          match r with
          | [] => Undef UbRead
          | c :: r =>
              '(t, args) <-- convert minus zero w c args ;;
              o <-- print_format fuel r args ;;
              Ok (t ++ o)
          end
      | c :: r => o <-- print_format fuel r args ;; Ok (c :: o)
      end
  end.
(** [format]: a C string *)
Definition vfprintf (format : bytes) (args : list arg) : res bytes := print_format (S (length (cstr format))) (cstr format) args.

(** ** The macros, logger.h 14-21 *)
Inductive level := DEBUG | WARN | ERROR.
(** A place in the code: its level, file and line, the format given to the macro, and the kinds of
    the arguments. *)
Inductive kind := KInt | KLong | KStr.
Record site := { st_level : level; st_file : bytes; st_line : Z; st_format : bytes; st_kinds : list kind }.
Definition kind_of (a : arg) : kind := match a with AInt _ => KInt | ALong _ => KLong | AStr _ => KStr end.
Definition full_format (s : site) : bytes :=
  match st_level s with
  | DEBUG => bs "[DEBUG] (%s:%d) " | WARN => bs "[WARN] (%s:%d: errno: %s) " | ERROR => bs "[ERROR] (%s:%d: errno: %s) "
  end ++ st_format s ++ [LF].
(** [errno]: clean_errno() *)
Definition full_args (s : site) (errno : bytes) (args : list arg) : list arg :=
  AStr (st_file s) :: AInt (st_line s) :: match st_level s with DEBUG => args | _ => AStr errno :: args end.
(** LOG_DEBUG(...), LOG_WARN(...), LOG_ERROR(...). [debug]: built without NDEBUG. [file]: logFile;
    the result: logFile, and what is appended to which file. *)
Definition log_at (debug : bool) (tmpdir : option bytes) (opens : bytes -> bool) (now : option bytes) (s : site) (errno : bytes) (args : list arg)
    (file : option bytes) : res (option bytes * option (bytes * bytes)) :=
  match st_level s, debug with
  | DEBUG, false => Ok (file, None)
  | _, _ =>
      '(file, line) <-- log_message tmpdir opens now (full_format s) file ;;
      match line with
      | None => Ok (file, None)
      | Some (p, buffer) => text <-- vfprintf buffer (full_args s errno args) ;; Ok (file, Some (p, text))
      end
  end.

(** ** The places (__FILE__ relative to src/library) *)
Definition at_ (l : level) (f : string) (n : Z) (m : bytes) (k : list kind) : site :=
  {| st_level := l; st_file := bs f; st_line := n; st_format := m; st_kinds := k |}.
Definition common_sites : list site :=
  [ at_ ERROR "licensecc.cpp" 41 (bs "Error calculating hw_identifier: %s") [KStr];
    at_ DEBUG "licensecc.cpp" 128 (bs "License status %s") [KStr];
    at_ ERROR "hw_identifier/hw_identifier_facade.cpp" 31 (bs "Error validating identifier %s: %s") [KStr; KStr];
    at_ WARN "hw_identifier/hw_identifier_facade.cpp" 45 (bs "unknown IDENTIFICATION_STRATEGY %s") [KStr];
    at_ WARN "locate/ApplicationFolder.cpp" 46 (bs "Error determining module name.") [] ].
Definition linux_sites : list site :=
  common_sites ++
  [ at_ WARN "os/linux/network.cpp" 55 (bs "getifaddrs failed == -1") [];
    at_ DEBUG "os/linux/network.cpp" 78 (bs "%-8s %s (%d)" ++ [LF]) [KStr; KStr; KInt];
    at_ DEBUG "os/linux/network.cpp" 97 (bs "%02x:") [KInt];
    at_ DEBUG "os/linux/network.cpp" 99 (TAB :: bs " %s" ++ [LF]) [KStr];
    at_ DEBUG "os/linux/os_linux.cpp" 175 (bs "Label for disk ino %d device %s, set to %s") [KLong; KStr; KStr];
    at_ DEBUG "os/linux/os_linux.cpp" 181 (bs "Stat %s for fail:F %s") [KStr; KStr];
    at_ DEBUG "os/linux/os_linux.cpp" 186 (bs "Open %s for reading disk labels fail: %s") [KStr; KStr];
    at_ DEBUG "os/linux/os_linux.cpp" 199 (bs "Open /dev/disk/by-uuid fail: %s") [KStr];
    at_ DEBUG "os/linux/os_linux.cpp" 234 (bs "Found disk inode %d device %s, sn %s") [KLong; KStr; KStr];
    at_ DEBUG "os/linux/os_linux.cpp" 239 (bs "Error %s during readlink of %s") [KStr; KStr];
    at_ DEBUG "os/linux/os_linux.cpp" 242 (bs "Error %s during stat of %s") [KStr; KStr];
    at_ DEBUG "os/linux/os_linux.cpp" 262 (bs "/etc/fstab not accessible") [];
    at_ DEBUG "os/linux/os_linux.cpp" 269 (bs "found fstab entry %s ") [KStr];
    at_ DEBUG "os/linux/os_linux.cpp" 278 (bs "Disk %d device %s set as preferred") [KInt; KStr];
    at_ DEBUG "os/linux/os_linux.cpp" 283 (bs "fstab device %s found, but no corresponding diskInfo") [KStr];
    at_ DEBUG "os/linux/os_linux.cpp" 291 (bs "Disk %d device %s set as preferred") [KInt; KStr];
    at_ DEBUG "os/linux/os_linux.cpp" 305 (bs "Disk %d device %s set as preferred") [KInt; KStr];
    at_ DEBUG "os/linux/dmi_info.cpp" 15 (bs "Can not read sys_vendor %s") [KStr];
    at_ DEBUG "os/linux/dmi_info.cpp" 25 (bs "Can not read bios_description %s") [KStr];
    at_ DEBUG "os/linux/dmi_info.cpp" 35 (bs "Can not read bios_description %s") [KStr];
    at_ ERROR "os/openssl/signature_verifier.cpp" 54 (bs "Error reading public key") [];
    at_ ERROR "os/openssl/signature_verifier.cpp" 82 (bs "Error creating context") [];
    at_ ERROR "os/openssl/signature_verifier.cpp" 86 (bs "Error initializing digest") [];
    at_ ERROR "os/openssl/signature_verifier.cpp" 93 (bs "Error verifying digest %d") [KInt];
    at_ ERROR "os/openssl/signature_verifier.cpp" 100 (bs "Error verifying digest %d") [KInt] ].
Definition windows_sites : list site :=
  common_sites ++
  [ at_ DEBUG "os/windows/network.cpp" 133 (bs "Ethernet found %s, %s, mac_l: %d") [KStr; KStr; KInt];
    at_ DEBUG "os/windows/signature_verifier.cpp" 36 (bs "error %s : %s %h") [KStr; KStr; KInt];
    at_ DEBUG "os/windows/signature_verifier.cpp" 160 (bs "Error reading public key") [];
    at_ DEBUG "os/windows/signature_verifier.cpp" 222 (bs "Error allocating memory") [];
    at_ DEBUG "os/windows/os_win.cpp" 52 (bs "drive: %s,volume Name: %s, Volume Serial: 0x%x,Filesystem: %s") [KStr; KStr; KInt; KStr];
    at_ DEBUG "os/windows/os_win.cpp" 65 (bs "Unable to retrieve information of '%s'") [KStr];
    at_ DEBUG "os/windows/os_win.cpp" 68 (bs "This volume is not fixed : %s, type: %d") [KStr];
    at_ DEBUG "os/windows/os_win.cpp" 78 (bs "No fixed drive were detected") [] ].
