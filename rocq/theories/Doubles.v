(** C doubles: IEEE 754 binary64, as specified by Coq's SpecFloat (precision 53,
    largest exponent 1024, rounding to nearest, ties to even). *)
From Coq Require Import ZArith Floats.SpecFloat.
From Verif Require Import Base.
Local Open Scope Z_scope.

(** conversion of an integer to double *)
Definition double_of (z : Z) : spec_float := binary_normalize 53 1024 z 0 false.
(** the / of two doubles *)
Definition double_div (x y : spec_float) : spec_float := SFdiv 53 1024 x y.
(** <cmath> round() of a finite double, halves away from zero; the infinities and
    NaN have no integer value *)
Definition double_round (x : spec_float) : option Z :=
  match x with
  | S754_zero _ => Some 0
  | S754_finite s m e =>
      let q := if 0 <=? e then Zpos m * 2 ^ e else (2 * Zpos m + 2 ^ (- e)) / (2 * 2 ^ (- e)) in
      Some (if s then - q else q)
  | S754_infinity _ | S754_nan => None
  end.
(** <climits>, 32-bit int *)
Definition INT_MAX : Z := 2147483647.
Definition INT_MIN : Z := (-2147483648).
(** (int)x for x with the integer value [r]: undefined out of range *)
Definition double_to_int (r : option Z) : res Z :=
  match r with
  | Some z => if (INT_MAX <? z) || (z <? INT_MIN) then Undef UbOverflow else Ok z
  | None => Undef UbOverflow
  end.
