(** Model of src/library/os/linux/cpu_info.cpp and of gcc's <cpuid.h>. *)
From Verif Require Import Base.

(** The four registers after a cpuid instruction, each 32 bits wide, and the
    instruction itself: an answer for every leaf. *)
Record regs := { r_eax : N; r_ebx : N; r_ecx : N; r_edx : N }.
Definition cpu := N -> regs.

(** <cpuid.h> __get_cpuid_max(ext, NULL): executes cpuid for [ext] and returns eax *)
Definition cpuid_max (c : cpu) (ext : N) : N := r_eax (c ext).
(** <cpuid.h> __get_cpuid: the outputs keep their values when the leaf is not
    supported. The callers ignore the result. *)
Definition get_cpuid (c : cpu) (leaf : N) (old : regs) : regs :=
  let m := cpuid_max c (N.land leaf 2147483648) in
  if N.eqb m 0 || N.ltb m leaf then old else c leaf.

(** the bytes of a uint32_t in memory (little endian) *)
Definition u32_bytes (n : N) : bytes :=
  map ascii_of_N [n mod 256; (n / 256) mod 256; (n / 65536) mod 256; (n / 16777216) mod 256]%N.
Definition no_regs : regs := {| r_eax := 0; r_ebx := 0; r_ecx := 0; r_edx := 0 |}.

(** linux/cpu_info.cpp 18-32: get_cpu_vendor, CPUVendorID::toString *)
Definition get_cpu_vendor (c : cpu) : bytes :=
  let r := get_cpuid c 0 no_regs in
  u32_bytes (r_ebx r) ++ u32_bytes (r_edx r) ++ u32_bytes (r_ecx r).

(** one row of the brand buffer, 44-46 *)
Definition brand_row (c : cpu) (leaf : N) : bytes :=
  let r := get_cpuid c leaf no_regs in
  u32_bytes (r_eax r) ++ u32_bytes (r_ebx r) ++ u32_bytes (r_ecx r) ++ u32_bytes (r_edx r).

(** linux/cpu_info.cpp 35-50: get_cpu_brand. The buffer has 16 words, the last four
    stay zero. *)
Definition get_cpu_brand (c : cpu) : bytes :=
  if N.eqb (cpuid_max c 2147483652) 0 then bs "NA"
  else cstr (brand_row c 2147483650 ++ brand_row c 2147483651 ++ brand_row c 2147483652 ++ repeat NUL 16).

(** linux/cpu_info.cpp 58-64: is_hypervisor_set *)
Definition is_hypervisor_set (c : cpu) : bool :=
  let r := get_cpuid c 1 no_regs in N.eqb (N.land (N.shiftr (r_ecx r) 31) 1) 1.

(** linux/cpu_info.cpp 66-73: model *)
Definition cpu_model (c : cpu) : N :=
  let r := get_cpuid c 1 no_regs in
  N.lor (N.lor (N.land (r_eax r) 16383) (N.shiftr (N.land (r_eax r) 67076096) 2))
        (N.shiftl (N.land (r_ebx r) 255) 24).
