(** Model of src/library/os/windows/smbios.hpp (class parser) and
    os/windows/dmi_info.cpp: the firmware table of a Windows machine. *)
From Verif Require Import Base.

(** reading one byte of the array [d] *)
Definition byte_at (d : bytes) (i : nat) : res ascii :=
  match nth_error d i with Some c => Ok c | None => Undef UbRead end.
(** strlen of the characters at position [i] of the array [d], with the characters:
    undefined if no NUL follows *)
Fixpoint string_here (d : bytes) : res bytes :=
  match d with
  | [] => Undef UbRead
  | c :: r => if Ascii.eqb c NUL then Ok [] else s <-- string_here r ;; Ok (c :: s)
  end.
Definition string_at (d : bytes) (i : nat) : res bytes := string_here (skipn i d).

(** smbios.hpp 341-346 and 359-370: the loop over the strings from [ptr]; the position
    behind them and the strings pushed. *)
Fixpoint string_loop (fuel : nat) (d : bytes) (ptr : nat) : res (nat * list bytes) :=
  match fuel with
  | 0 => OutOfFuel
  | S f =>
      s <-- string_at d ptr ;;
      let ptr := ptr + length s + 1 in
      match s with
      | [] => Ok (ptr, [])
      | _ => '(p, l) <-- string_loop f d ptr ;; Ok (p, s :: l)
      end
  end.
(** smbios.hpp 351-373: extract_strings of the header at [x]; the strings are those
    pushed after the null pointer at index 0 *)
Definition extract_strings (d : bytes) (x : nat) : res (nat * list bytes) :=
  len <-- byte_at d (x + 1) ;;
  let ptr := x + N.to_nat (code len) in
  c <-- byte_at d ptr ;;
  if Ascii.eqb c NUL then Ok (ptr + 2, []) else string_loop (S (length d)) d ptr.
(** smbios.hpp 336-349: skip, the same walk without the strings *)
Definition skip (d : bytes) (x : nat) : res nat := '(p, _) <-- extract_strings d x ;; Ok p.

(** smbios.hpp 385-388: the loop of feed; the headers are positions in the array *)
Fixpoint feed_loop (fuel : nat) (d : bytes) (x : nat) : res (list nat) :=
  match fuel with
  | 0 => OutOfFuel
  | S f => if Nat.ltb x (length d) then p <-- skip d x ;; hs <-- feed_loop f d p ;; Ok (x :: hs) else Ok []
  end.
(** smbios.hpp 375-389: feed copies [size] bytes from the array [raw], then walks *)
Definition feed (raw : bytes) (size : nat) : res (bytes * list nat) :=
  if Nat.ltb (length raw) size then Undef UbRead
  else let d := firstn size raw in hs <-- feed_loop (S size) d 0 ;; Ok (d, hs).

(** dmi_info.hpp 16-20: the members of DmiInfo *)
Record dmi := { dm_sys_vendor : bytes; dm_bios_vendor : bytes; dm_bios_description : bytes; dm_cpu_manufacturer : bytes; dm_cpu_cores : N }.
Definition no_dmi : dmi := {| dm_sys_vendor := []; dm_bios_vendor := []; dm_bios_description := []; dm_cpu_manufacturer := []; dm_cpu_cores := 0 |}.

(** strings[i]; index 0 is the null pointer (a std::string of it throws) *)
Definition string_no (strings : list bytes) (i : ascii) : res bytes :=
  match N.to_nat (code i) with
  | 0 => Throw ExLogic
  | S k => match nth_error strings k with Some s => Ok s | None => Undef UbRead end
  end.
(** the test i > 0 && i < length of dmi_info.cpp 59, 67, 76, 86 *)
Definition in_length (i len : ascii) : bool := N.ltb 0 (code i) && N.ltb (code i) (code len).

(** windows/dmi_info.cpp 50-93: one header. The offsets are those of the packed
    structs of smbios.hpp 114-220. *)
Definition dmi_header (d : bytes) (x : nat) (m : dmi) : res dmi :=
  '(_, strings) <-- extract_strings d x ;;
  type <-- byte_at d x ;;
  len <-- byte_at d (x + 1) ;;
  if N.eqb (code len) 0 then Ok m else
  match code type with
  | 2%N => (* baseboard_info *)
      i <-- byte_at d (x + 4) ;;
      if in_length i len then
        s <-- string_no strings i ;;
        Ok {| dm_sys_vendor := s; dm_bios_vendor := dm_bios_vendor m; dm_bios_description := dm_bios_description m; dm_cpu_manufacturer := dm_cpu_manufacturer m; dm_cpu_cores := dm_cpu_cores m |}
      else Ok m
  | 0%N => (* bios_info *)
      i <-- byte_at d (x + 4) ;;
      if in_length i len then
        s <-- string_no strings i ;;
        Ok {| dm_sys_vendor := dm_sys_vendor m; dm_bios_vendor := s; dm_bios_description := dm_bios_description m; dm_cpu_manufacturer := dm_cpu_manufacturer m; dm_cpu_cores := dm_cpu_cores m |}
      else Ok m
  | 4%N => (* processor_info *)
      i <-- byte_at d (x + 7) ;;
      s <-- (if in_length i len then string_no strings i else Ok (dm_cpu_manufacturer m)) ;;
      cores <-- byte_at d (x + 35) ;;
      Ok {| dm_sys_vendor := dm_sys_vendor m; dm_bios_vendor := dm_bios_vendor m; dm_bios_description := dm_bios_description m; dm_cpu_manufacturer := s; dm_cpu_cores := code cores |}
  | 1%N => (* system_info *)
      i <-- byte_at d (x + 4) ;;
      if in_length i len then
        j <-- byte_at d (x + 5) ;;
        if in_length j len then
          s <-- string_no strings i ;;
          t <-- string_no strings j ;;
          Ok {| dm_sys_vendor := dm_sys_vendor m; dm_bios_vendor := dm_bios_vendor m; dm_bios_description := s ++ t; dm_cpu_manufacturer := dm_cpu_manufacturer m; dm_cpu_cores := dm_cpu_cores m |}
        else Ok m
      else Ok m
  | _ => Ok m
  end.
Fixpoint dmi_headers (d : bytes) (hs : list nat) (m : dmi) : res dmi :=
  match hs with [] => Ok m | x :: r => m <-- dmi_header d x m ;; dmi_headers d r m end.

(** What the firmware answers: the size reported to the first GetSystemFirmwareTable
    call, and to the second either failure or the bytes it writes. *)
Record firmware := { fw_size : nat; fw_table : option bytes }.
(** windows/dmi_info.cpp 27-39: readSMBIOS. resize zero fills; the firmware never
    writes more than the size it is told. *)
Definition read_smbios (f : firmware) : option bytes :=
  if Nat.eqb (fw_size f) 0 then None
  else match fw_table f with
       | Some t => Some (firstn (fw_size f) t ++ repeat NUL (fw_size f - length t))
       | None => None
       end.
(** windows/dmi_info.cpp 18-25, 45-46: rawData->Length, a DWORD at offset 4, little endian *)
Definition table_length (b : bytes) : res nat :=
  c0 <-- byte_at b 4 ;; c1 <-- byte_at b 5 ;; c2 <-- byte_at b 6 ;; c3 <-- byte_at b 7 ;;
  Ok (N.to_nat (code c0 + 256 * (code c1 + 256 * (code c2 + 256 * code c3)))).
(** windows/dmi_info.cpp 41-100: the constructor *)
Definition windows_dmi (f : firmware) : res dmi :=
  match read_smbios f with
  | None => Ok no_dmi
  | Some b =>
      n <-- table_length b ;;
      '(d, hs) <-- feed (skipn 8 b) n ;;
      dmi_headers d hs no_dmi
  end.

(** The life of a parser object (smbios.hpp 308-334, 375-395). [p_raw]: the pointer
    raw_data_ is null, valid, or dangling (deleted but not reset). *)
Inductive raw_ptr := RawNull | RawLive | RawDangling.
Inductive parser_op := OpFeed | OpClear.
(** smbios.hpp 391-395: clear deletes without resetting; deleting a dangling pointer is a
    double free (None) *)
Definition parser_clear (p : raw_ptr) : option raw_ptr :=
  match p with RawNull => Some RawNull | RawLive => Some RawDangling | RawDangling => None end.
Definition parser_step (p : raw_ptr) (o : parser_op) : option raw_ptr :=
  match o with OpClear => parser_clear p | OpFeed => match parser_clear p with Some _ => Some RawLive | None => None end end.
Fixpoint parser_run (p : raw_ptr) (os : list parser_op) : option raw_ptr :=
  match os with [] => Some p | o :: r => match parser_step p o with Some q => parser_run q r | None => None end end.
(** construction, the operations, destruction (which clears once more) *)
Definition parser_life (os : list parser_op) : option raw_ptr :=
  match parser_run RawNull os with Some p => parser_clear p | None => None end.
