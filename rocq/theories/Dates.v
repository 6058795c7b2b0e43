(** Model of seconds_from_epoch, src/library/base/string_utils.cpp 43-72. *)
From Verif Require Import Base CTypes.

(** up to [w] decimal digits at the head of [s]: value, how many, remaining text *)
Fixpoint take_digits (w : nat) (s : bytes) (acc : Z) : Z * nat * bytes :=
  match w, s with
  | S w', c :: r =>
      if isdigit c then
        let '(v, k, rest) := take_digits w' r (acc * 10 + Z.of_N (code c - 48))%Z in
        (v, S k, rest)
      else (acc, 0, s)
  | _, _ => (acc, 0, s)
  end.

(** one sscanf "%<w>d" conversion (glibc): skip isspace, optional sign (counts in
    the width), at least one digit. *)
Definition scan_int (w : nat) (s : bytes) : option (Z * bytes) :=
  let s1 := drop_while isspace s in
  let '(neg, w', s2) :=
    match s1 with
    | c :: r => if Ascii.eqb c "-"%char then (true, w - 1, r)
                else if Ascii.eqb c "+"%char then (false, w - 1, r)
                else (false, w, s1)
    | [] => (false, w, s1)
    end in
  let '(v, k, rest) := take_digits w' s2 0%Z in
  if Nat.eqb k 0 then None else Some ((if neg then - v else v)%Z, rest).

(** a literal character in a scanf format *)
Definition scan_lit (c : ascii) (s : bytes) : option bytes :=
  match s with
  | x :: r => if Ascii.eqb x c then Some r else None
  | [] => None
  end.

(** sscanf stops at the first conversion that fails (no code) *)
Definition obind {A B} (o : option A) (k : A -> option B) : option B :=
  match o with Some a => k a | None => None end.

(** sscanf(s, "%4d%2d%2d") delivering 3 fields *)
Definition scan_plain (s : bytes) : option (Z * Z * Z) :=
  obind (scan_int 4 s) (fun '(y, s) =>
  obind (scan_int 2 s) (fun '(m, s) =>
  obind (scan_int 2 s) (fun '(d, _) => Some (y, m, d)))).

(** sscanf(s, "%4d<sep>%2d<sep>%2d") delivering 3 fields *)
Definition scan_sep (sep : ascii) (s : bytes) : option (Z * Z * Z) :=
  obind (scan_int 4 s) (fun '(y, s) =>
  obind (scan_lit sep s) (fun s =>
  obind (scan_int 2 s) (fun '(m, s) =>
  obind (scan_lit sep s) (fun s =>
  obind (scan_int 2 s) (fun '(d, _) => Some (y, m, d)))))).

(** string_utils.cpp 44-61: the year, month and day, or invalid_argument *)
Definition parse_date (s : bytes) : res (Z * Z * Z) :=
  if Nat.eqb (length s) 8 then
    match scan_plain (cstr s) with Some d => Ok d | None => Throw ExInvalidArg end
  else if Nat.eqb (length s) 10 then
    match scan_sep "-"%char (cstr s) with
    | Some d => Ok d
    | None => match scan_sep "/"%char (cstr s) with
              | Some d => Ok d
              | None => Throw ExInvalidArg
              end
    end
  else Throw ExInvalidArg.

(** string_utils.cpp 43-72. [mktime y m d] is the oracle for mktime() on local
    midnight of that (possibly denormalised) date with tm_isdst = -1. *)
Definition seconds_from_epoch (mktime : Z -> Z -> Z -> Z) (s : bytes) : res Z :=
  '(y, m, d) <-- parse_date s ;; Ok (mktime y m d).

(** An executable mktime: UTC, proleptic Gregorian, with month/day
    normalisation. Used for examples and for the monotonicity theorem. *)
Definition days_from_civil (y m d : Z) : Z :=
  let y' := if Z.leb m 2 then (y - 1)%Z else y in
  let mp := ((m + 9) mod 12)%Z in
  let doy := ((153 * mp + 2) / 5)%Z in
  (365 * y' + y' / 4 - y' / 100 + y' / 400 + doy + d - 1 - 719468)%Z.
Definition mktime_utc (y m d : Z) : Z :=
  let m0 := (m - 1)%Z in
  (86400 * (days_from_civil (y + m0 / 12) (m0 mod 12 + 1) 1 + (d - 1)))%Z.
