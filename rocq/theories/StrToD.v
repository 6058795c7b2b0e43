(** GetDoubleValue of SimpleIni.h, with the strtod of the C library (glibc, C locale). *)
From Verif Require Import Base CTypes StringUtils Ini IniEdit.

(** what strtod answers *)
Inductive number := Num (x : double) | Infinite (neg : bool) | NotANumber (neg : bool).

(** the double nearest to [n] / [d] (its significand, and its exponent counted from -1074),
    ties to the even significand; [None] beyond the greatest double (strtod, round to nearest) *)
Definition nearest_double (n d : N) : option (N * N) :=
  (let a := n * 2 ^ 1074 in
   let s := N.log2 (a / d) - 52 in
   let b := d * 2 ^ s in
   let m0 := a / b in
   let r := a mod b in
   let m := if N.ltb b (2 * r) || (N.eqb (2 * r) b && N.odd m0) then m0 + 1 else m0 in
   let '(m, s) := if N.eqb m (2 ^ 53) then (2 ^ 52, s + 1) else (m, s) in
   if N.ltb 2045 s then None else Some (m, s))%N.

(** the characters at the head of [s] with a property, and what follows them (no code of its own) *)
Fixpoint span (p : ascii -> bool) (s : bytes) : bytes * bytes :=
  match s with
  | [] => ([], [])
  | c :: r => if p c then let '(a, t) := span p r in (c :: a, t) else ([], s)
  end.
Definition digits_value (b : N) (s : bytes) : N := fst (digits b s 0%N).
(** strtod: an optional sign *)
Definition take_sign (s : bytes) : bool * bytes :=
  match s with
  | c :: r => if Ascii.eqb c "-" then (true, r) else if Ascii.eqb c "+" then (false, r) else (false, s)
  | [] => (false, s)
  end.
(** strtod: digits, with a point among them or after them *)
Definition take_mantissa (b : N) (s : bytes) : option (bytes * bytes * bytes) :=
  let '(whole, r) := span (is_base_digit b) s in
  let '(frac, r) :=
    match r with
    | c :: t => if Ascii.eqb c "." then span (is_base_digit b) t else ([], r)
    | [] => ([], r)
    end in
  match whole, frac with
  | [], [] => None
  | _, _ => Some (whole, frac, r)
  end.
(** strtod: the exponent, a letter, a sign and decimal digits; without digits it is not part of the number *)
Definition take_exponent (letter : ascii) (s : bytes) : Z * bytes :=
  match s with
  | c :: t =>
      if Ascii.eqb (toupper c) letter then
        let '(neg, t) := take_sign t in
        let '(ds, r) := span (is_base_digit 10) t in
        match ds with
        | [] => (0%Z, s)
        | _ => (if neg then - Z.of_N (digits_value 10 ds) else Z.of_N (digits_value 10 ds), r)%Z
        end
      else (0%Z, s)
  | [] => (0%Z, s)
  end.
(** the number [v] * [radix] ^ [e], rounded *)
Definition round_number (neg : bool) (radix v : N) (e : Z) : number :=
  match nearest_double (v * radix ^ Z.to_N e) (radix ^ Z.to_N (- e)) with
  | Some (m, s) => Num {| db_neg := neg; db_m := m; db_e := Z.of_N s - 1074 |}
  | None => Infinite neg
  end.
(** strtod: a number in base 10, or in base 16 after "0x" *)
Definition take_decimal (neg : bool) (s : bytes) : option (number * bytes) :=
  match take_mantissa 10 s with
  | None => None
  | Some (whole, frac, r) =>
      let '(x, r) := take_exponent "E" r in
      Some (round_number neg 10 (digits_value 10 (whole ++ frac)) (x - Z.of_nat (length frac)), r)
  end.
Definition take_hex (neg : bool) (s : bytes) : option (number * bytes) :=
  match s with
  | z :: x :: t =>
      if Ascii.eqb z "0" && Ascii.eqb (toupper x) "X" then
        match take_mantissa 16 t with
        | None => None
        | Some (whole, frac, r) =>
            let '(x, r) := take_exponent "P" r in
            Some (round_number neg 2 (digits_value 16 (whole ++ frac)) (x - 4 * Z.of_nat (length frac)), r)
        end
      else None
  | _ => None
  end.
(** [s] begins with [word], in any mixture of upper and lower case: what follows *)
Fixpoint take_word (word s : bytes) : option bytes :=
  match word, s with
  | [], _ => Some s
  | w :: ws, c :: r => if Ascii.eqb (toupper c) w then take_word ws r else None
  | _, [] => None
  end.
(** strtod: "nan" may be followed by letters, digits and underscores in parentheses *)
Definition nan_char (c : ascii) : bool := isdigit c || isupper c || islower c || Ascii.eqb c "_".
Definition take_payload (s : bytes) : bytes :=
  match s with
  | c :: t =>
      if Ascii.eqb c "(" then
        match span nan_char t with
        | (_, d :: r) => if Ascii.eqb d ")" then r else s
        | _ => s
        end
      else s
  | [] => s
  end.
(** strtod(s, &end): the number, if there is one, and the text at [end] *)
Definition strtod (s : bytes) : option number * bytes :=
  let '(neg, t) := take_sign (drop_while isspace s) in
  match take_word (bs "INFINITY") t with
  | Some r => (Some (Infinite neg), r)
  | None =>
  match take_word (bs "INF") t with
  | Some r => (Some (Infinite neg), r)
  | None =>
  match take_word (bs "NAN") t with
  | Some r => (Some (NotANumber neg), take_payload r)
  | None =>
  match take_hex neg t with
  | Some (x, r) => (Some x, r)
  | None =>
  match take_decimal neg t with
  | Some (x, r) => (Some x, r)
  | None => (None, s)
  end end end end end.

(** GetDoubleValue 2061-2088, the text found by GetValue given: ConvertToStore into char[64], and
    only blanks are no number (strtod leaves them all) *)
Definition double_of (s : bytes) (def : number) : number :=
  match s with
  | [] => def
  | _ =>
      if Nat.ltb 64 (length s + 1) then def
      else match strtod s with
           | (Some x, []) => x
           | _ => def
           end
  end.
(** GetDoubleValue 2061-2088 *)
Definition get_double_at (sec key : option ptr) (def : number) (st : store) : res number :=
  '(v, _) <-- get_value_at sec key None st ;;
  match v with
  | None => Ok def
  | Some p => s <-- deref st p ;; Ok (double_of s def)
  end.
