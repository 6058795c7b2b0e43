(** Model of src/library/hw_identifier/hw_identifier.{hpp,cpp}. *)
From Verif Require Import Base CTypes Base64.

(** src/templates/licensecc_properties.h.in, enum
    LCC_API_HW_IDENTIFICATION_STRATEGY: C enum values are integers. *)
Definition STRATEGY_DEFAULT : Z := (-1)%Z.
Definition STRATEGY_ETHERNET : Z := 0%Z.
Definition STRATEGY_IP_ADDRESS : Z := 1%Z.
Definition STRATEGY_DISK : Z := 2%Z.
Definition STRATEGY_CPU_SIZE : Z := 3%Z.
Definition STRATEGY_HOST_NAME : Z := 4%Z.
Definition STRATEGY_NONE : Z := (-2)%Z.

(** hw_identifier.hpp: std::array<uint8_t, HW_IDENTIFIER_PROPRIETARY_DATA + 1>
    m_data = {}  (8 bytes), and the 7 byte array accepted by set_data. *)
Inductive hwid := HwId (m0 m1 m2 m3 m4 m5 m6 m7 : ascii).
(** hw_identifier.hpp 23: std::array<uint8_t, HW_IDENTIFIER_PROPRIETARY_DATA> *)
Inductive data7 := D7 (d0 d1 d2 d3 d4 d5 d6 : ascii).

(** hw_identifier.hpp 38: m_data as a sequence of bytes *)
Definition hw_bytes (h : hwid) : bytes :=
  let '(HwId a b c d e f g i) := h in [a; b; c; d; e; f; g; i].

(** hw_identifier.cpp 23-27: copy_n of exactly 8 bytes *)
Definition hw_of_bytes (l : bytes) : option hwid :=
  match l with
  | [a; b; c; d; e; f; g; i] => Some (HwId a b c d e f g i)
  | _ => None
  end.

(** hw_identifier.cpp 17: default constructor, all bytes zero *)
Definition hw_empty : hwid := HwId NUL NUL NUL NUL NUL NUL NUL NUL.

(** hw_identifier.cpp 19-28 *)
Definition hw_of_string (param : bytes) : res hwid :=
  let tmp := map (fun c => if Ascii.eqb c "-"%char then LF else c) param in
  decoded <-- unbase64 tmp ;;
  match hw_of_bytes decoded with
  | Some h => Ok h
  | None => Throw ExLogic
  end.

(** hw_identifier.cpp 34-40; the value is stored in a uint8_t *)
Definition set_identification_strategy (strategy : Z) (h : hwid) : res hwid :=
  if Z.eqb strategy STRATEGY_NONE || Z.eqb strategy STRATEGY_DEFAULT then Throw ExLogic
  else
    let stratMov := Z.to_N ((strategy * 32) mod 256)%Z in
    let '(HwId m0 m1 m2 m3 m4 m5 m6 m7) := h in
    Ok (HwId m0 (ascii_of_N (N.lor (N.land (code m1) 31) stratMov)) m2 m3 m4 m5 m6 m7).

(** hw_identifier.cpp 42-48 *)
Definition set_use_environment_var (use_env_var : bool) (h : hwid) : hwid :=
  let '(HwId m0 m1 m2 m3 m4 m5 m6 m7) := h in
  let m0' := if use_env_var then ascii_of_N (N.lor (code m0) 64)
             else ascii_of_N (N.land (code m0) 191) in
  HwId m0' m1 m2 m3 m4 m5 m6 m7.

(** hw_identifier.cpp 50-55 *)
Definition set_data (data : data7) (h : hwid) : hwid :=
  let '(HwId m0 m1 _ _ _ _ _ _) := h in
  let '(D7 d0 d1 d2 d3 d4 d5 d6) := data in
  HwId m0 (ascii_of_N (N.lor (N.land (code m1) 224) (N.land (code d0) 31)))
       d1 d2 d3 d4 d5 d6.

(** hw_identifier.cpp 57-61 *)
Definition hw_print (h : hwid) : res bytes :=
  result <-- base64 (hw_bytes h) 5 ;;
  let result := map (fun c => if Ascii.eqb c LF then "-"%char else c) result in
  Ok (firstn (length result - 1) result).

(** hw_identifier.cpp 63-66 *)
Definition get_identification_strategy (h : hwid) : Z :=
  let '(HwId _ m1 _ _ _ _ _ _) := h in Z.of_N (N.shiftr (code m1) 5).

(** hw_identifier.cpp 71 and 79: (a & 0x1f) == (b & 0x1f) *)
Definition low5_eq (a b : ascii) : bool := N.eqb (N.land (code a) 31) (N.land (code b) 31).

(** hw_identifier.cpp 68-74 *)
Definition data_match (data : data7) (h : hwid) : bool :=
  let '(HwId _ m1 m2 m3 m4 m5 m6 m7) := h in
  let '(D7 d0 d1 d2 d3 d4 d5 d6) := data in
  low5_eq d0 m1 && Ascii.eqb d1 m2 && Ascii.eqb d2 m3 && Ascii.eqb d3 m4
  && Ascii.eqb d4 m5 && Ascii.eqb d5 m6 && Ascii.eqb d6 m7.

(** hw_identifier.cpp 76-83 *)
Definition hw_eqb (l r : hwid) : bool :=
  let '(HwId _ l1 l2 l3 l4 l5 l6 l7) := l in
  let '(HwId _ r1 r2 r3 r4 r5 r6 r7) := r in
  Z.eqb (get_identification_strategy l) (get_identification_strategy r)
  && low5_eq r1 l1 && Ascii.eqb l2 r2 && Ascii.eqb l3 r3 && Ascii.eqb l4 r4
  && Ascii.eqb l5 r5 && Ascii.eqb l6 r6 && Ascii.eqb l7 r7.
