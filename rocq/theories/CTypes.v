(** <cctype> in the "C" locale of glibc, as used through [char] arguments.
    For negative [char] values (bytes >= 128) the C standard leaves isspace /
    toupper / isxdigit undefined; glibc's tables answer false / identity, which
    is what the model does (trusted base). *)
From Verif Require Import Base.

(** isspace: ' ', \t \n \v \f \r *)
Definition isspace (c : ascii) : bool :=
  let n := code c in N.eqb n 32 || (N.leb 9 n && N.leb n 13).

(** <cctype> isdigit, isupper, islower (C locale) *)
Definition isdigit (c : ascii) : bool := let n := code c in N.leb 48 n && N.leb n 57.
Definition isupper (c : ascii) : bool := let n := code c in N.leb 65 n && N.leb n 90.
Definition islower (c : ascii) : bool := let n := code c in N.leb 97 n && N.leb n 122.

(** <cctype> isxdigit (C locale) *)
Definition isxdigit (c : ascii) : bool :=
  let n := code c in
  isdigit c || (N.leb 65 n && N.leb n 70) || (N.leb 97 n && N.leb n 102).

(** <cctype> toupper (C locale) *)
Definition toupper (c : ascii) : ascii :=
  if islower c then ascii_of_N (code c - 32) else c.

(** numeric value of a digit in bases up to 16 *)
Definition digit_val (c : ascii) : option N :=
  let n := code c in
  if isdigit c then Some (n - 48)%N
  else if N.leb 65 n && N.leb n 70 then Some (n - 55)%N
  else if N.leb 97 n && N.leb n 102 then Some (n - 87)%N
  else None.

(** The run of base-[base] digits at the head of [s] and its value. *)
Fixpoint digits (base : N) (s : bytes) (acc : N) : N * bytes :=
  match s with
  | [] => (acc, [])
  | c :: r =>
      match digit_val c with
      | Some d => if N.ltb d base then digits base r (acc * base + d)%N else (acc, s)
      | None => (acc, s)
      end
  end.

(** the digits strtol accepts in a base *)
Definition is_base_digit (base : N) (c : ascii) : bool :=
  match digit_val c with Some d => N.ltb d base | None => false end.

(** <climits>, 64-bit long; strtol answers the nearest bound out of range *)
Definition LONG_MAX : Z := 9223372036854775807%Z.
Definition LONG_MIN : Z := (-9223372036854775808)%Z.
Definition clamp_long (z : Z) : Z :=
  if Z.ltb LONG_MAX z then LONG_MAX else if Z.ltb z LONG_MIN then LONG_MIN else z.

(** strtol(s, &end, base) for base 10 or 16 (64-bit long): value and remaining
    text. When nothing can be converted the result is 0 and [end = s]. *)
Definition strtol (base : N) (s : bytes) : Z * bytes :=
  let s1 := drop_while isspace s in
  let '(neg, s2) :=
    match s1 with
    | c :: r => if Ascii.eqb c "-"%char then (true, r)
                else if Ascii.eqb c "+"%char then (false, r) else (false, s1)
    | [] => (false, s1)
    end in
  (* a "0x" prefix is part of the number only when a hex digit follows *)
  let s3 :=
    match s2 with
    | z :: x :: d :: r =>
        if N.eqb base 16 && Ascii.eqb z "0"%char
           && (Ascii.eqb x "x"%char || Ascii.eqb x "X"%char) && is_base_digit 16 d
        then d :: r else s2
    | _ => s2
    end in
  match s3 with
  | c :: _ =>
      if is_base_digit base c then
        let '(v, rest) := digits base s3 0%N in
        (clamp_long (if neg then - Z.of_N v else Z.of_N v)%Z, rest)
      else (0%Z, s)
  | [] => (0%Z, s)
  end.

(** atoi(s) = (int) strtol(s, NULL, 10): the value converted to a 32-bit int
    (modulo 2^32, the behaviour of gcc on the supported platforms). *)
Definition wrap_int (z : Z) : Z :=
  let m := (z mod 4294967296)%Z in
  if Z.ltb m 2147483648 then m else (m - 4294967296)%Z.
Definition atoi (s : bytes) : Z := wrap_int (fst (strtol 10 s)).
