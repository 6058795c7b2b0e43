(** How a number is read from an environment variable. *)
From Verif Require Import Base Spec_Strings Spec_Dates Spec_Listing.
Local Open Scope Z_scope.

(** the nearest 64 bit integer *)
Definition nearest64 (z : Z) : Z := Z.max (- 9223372036854775808) (Z.min z 9223372036854775807).
(** [t] begins with a decimal number: blanks, a sign, digits, then no more digits *)
Definition begins_with_number (t : bytes) (n : Z) : Prop :=
  exists ws sign factor ds rest, In (sign, factor) [([], 1); (bs "+", 1); (bs "-", -1)] /\ t = ws ++ sign ++ ds ++ rest /\
    Forall blank ws /\ all_digits ds /\ ds <> [] /\ no_digit_first rest /\ n = factor * decimal ds.
(** the int a text stands for: the number it begins with, brought to 64 and then to 32
    bits, and 0 if it begins with none *)
Definition stands_for (t : bytes) (v : Z) : Prop :=
  (exists n, begins_with_number t n /\ v = int_of (nearest64 n)) \/ ((forall n, ~ begins_with_number t n) /\ v = 0).
