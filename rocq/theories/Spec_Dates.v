(** Dates: decimal numerals and the Gregorian calendar. *)
From Verif Require Import Base CTypes Spec_Strings.
Local Open Scope Z_scope.

Fixpoint decimal_from (acc : Z) (s : bytes) : Z :=
  match s with [] => acc | c :: r => decimal_from (10 * acc + (Z.of_N (N_of_ascii c) - 48)) r end.
Definition decimal (s : bytes) : Z := decimal_from 0 s.
Definition all_digits (s : bytes) : Prop := Forall (fun c => 48 <= Z.of_N (N_of_ascii c) <= 57) s.

(** the calendar *)
Definition leap (y : Z) : Prop := y mod 4 = 0 /\ (y mod 100 <> 0 \/ y mod 400 = 0).
Inductive month_length : Z -> Z -> Z -> Prop :=
| ml_31 y m : In m [1; 3; 5; 7; 8; 10; 12] -> month_length y m 31
| ml_30 y m : In m [4; 6; 9; 11] -> month_length y m 30
| ml_29 y : leap y -> month_length y 2 29
| ml_28 y : ~ leap y -> month_length y 2 28.
Definition valid_date (y m d : Z) : Prop := exists n, month_length y m n /\ 1 <= d <= n.
Definition earlier (a b : Z * Z * Z) : Prop :=
  let '(y, m, d) := a in let '(y', m', d') := b in y < y' \/ y = y' /\ (m < m' \/ m = m' /\ d < d').
Inductive next_day : Z * Z * Z -> Z * Z * Z -> Prop :=
| nd_same y m d n : month_length y m n -> 1 <= d < n -> next_day (y, m, d) (y, m, d + 1)
| nd_month y m n : month_length y m n -> m < 12 -> next_day (y, m, n) (y, m + 1, 1)
| nd_year y : next_day (y, 12, 31) (y + 1, 1, 1).

(** ** What date texts are accepted *)
(** [numeral w s v rest]: a number of at most [w] characters (sign included) at the
    head of [s], after any blanks; [rest] is what follows. The number is as long as
    possible. *)
Definition no_digit_first (s : bytes) : Prop := forall c r, s = c :: r -> ~ 48 <= Z.of_N (N_of_ascii c) <= 57.
Inductive numeral (w : nat) : bytes -> Z -> bytes -> Prop :=
| num_in sign factor ws ds rest : In (sign, factor) [([], 1); (bs "+", 1); (bs "-", -1)] ->
    Forall blank ws -> all_digits ds -> ds <> [] ->
    (length (sign ++ ds) = w \/ (length (sign ++ ds) < w)%nat /\ no_digit_first rest) ->
    numeral w (ws ++ sign ++ ds ++ rest) (factor * decimal ds) rest.
(** [date_text s y m d]: eight characters holding three numbers of (up to) 4, 2 and 2
    characters, or ten with '-' or '/' between them *)
Inductive date_text (s : bytes) (y m d : Z) : Prop :=
| dt_plain s1 s2 s3 : length s = 8%nat -> numeral 4 (cstr s) y s1 -> numeral 2 s1 m s2 -> numeral 2 s2 d s3 -> date_text s y m d
| dt_sep sep s1 s2 s3 : length s = 10%nat -> In sep ["-"%char; "/"%char] ->
    numeral 4 (cstr s) y (sep :: s1) -> numeral 2 s1 m (sep :: s2) -> numeral 2 s2 d s3 -> date_text s y m d.
