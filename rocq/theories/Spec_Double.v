(** Doubles, the texts of numbers, and which double a text stands for (C110). *)
From Coq Require Import QArith Qabs.
From Verif Require Import Base IniEdit StrToD.
Local Open Scope Q_scope.

(** the absolute value of a finite double *)
Definition magnitude (x : double) : Q := inject_Z (Z.of_N (db_m x)) * 2 ^ db_e x.
Definition value (x : double) : Q := if db_neg x then - magnitude x else magnitude x.
(** an IEEE double: 53 bits, exponents from -1074 to 971 *)
Definition is_double (x : double) : Prop := (db_m x < 2 ^ 53)%N /\ (-1074 <= db_e x <= 971)%Z.
(** written as a processor holds it: with the leading bit, except for the smallest *)
Definition normal_form (x : double) : Prop := (2 ^ 52 <= db_m x)%N \/ db_e x = (-1074)%Z.
(** no double is nearer to [q], and of two equally near ones [x] is the even one *)
Definition rounded (q : Q) (x : double) : Prop :=
  is_double x /\ normal_form x /\
  forall y, is_double y -> Qabs (q - magnitude x) <= Qabs (q - magnitude y) /\
    (Qabs (q - magnitude x) == Qabs (q - magnitude y) -> magnitude y == magnitude x \/ N.odd (db_m x) = false).
(** the number of sign [neg] and absolute value [q], as a double: it is infinite from half a unit
    beyond the greatest double on *)
Definition stands_for (neg : bool) (q : Q) (x : number) : Prop :=
  match x with
  | Num x => q < (2 ^ 53 - (1 # 2)) * 2 ^ 971 /\ db_neg x = neg /\ rounded q x
  | Infinite n => (2 ^ 53 - (1 # 2)) * 2 ^ 971 <= q /\ n = neg
  | NotANumber _ => False
  end.

(** [s] is written with the figures [ds] of the base [b] *)
Definition figures (b : N) (s : bytes) (ds : list N) : Prop :=
  Forall2 (fun (c : ascii) d => (d < b)%N /\ (nth_error (bs "0123456789abcdef") (N.to_nat d) = Some c \/ nth_error (bs "0123456789ABCDEF") (N.to_nat d) = Some c)) s ds.
Definition in_base (b : N) (ds : list N) : N := fold_left (fun a d => a * b + d)%N ds 0%N.
Definition sign_text (neg : bool) (s : bytes) : Prop := if neg then s = bs "-" else s = [] \/ s = bs "+".
(** an exponent: nothing, or one of [letters] with a whole number *)
Inductive exponent_text (letters : bytes) : Z -> bytes -> Prop :=
| ex_none : exponent_text letters 0%Z []
| ex_some c neg sign s ds : In c letters -> sign_text neg sign -> figures 10 s ds -> ds <> [] ->
    exponent_text letters (if neg then - Z.of_N (in_base 10 ds) else Z.of_N (in_base 10 ds))%Z (c :: sign ++ s).
(** figures with or without a point: the number they make, and how many stand behind the point *)
Inductive figures_text (b : N) : N -> nat -> bytes -> Prop :=
| ft_whole s ds : figures b s ds -> ds <> [] -> figures_text b (in_base b ds) 0%nat s
| ft_point s ds t es : figures b s ds -> figures b t es -> ds ++ es <> [] ->
    figures_text b (in_base b (ds ++ es)) (length es) (s ++ bs "." ++ t).
(** the texts of the numbers of absolute value [q], in decimal and in hexadecimal *)
Inductive unsigned_text : Q -> bytes -> Prop :=
| ut_decimal v k s x e : figures_text 10 v k s -> exponent_text (bs "eE") x e ->
    unsigned_text (inject_Z (Z.of_N v) * 10 ^ (x - Z.of_nat k)) (s ++ e)
| ut_hex v k s x e p : figures_text 16 v k s -> exponent_text (bs "pP") x e -> In p [bs "0x"; bs "0X"] ->
    unsigned_text (inject_Z (Z.of_N v) * 2 ^ (x - 4 * Z.of_nat k)) (p ++ s ++ e).
(** a word in any mixture of upper and lower case *)
Definition word_text (upper lower : string) (s : bytes) : Prop :=
  Forall2 (fun c p => c = fst p \/ c = snd p) s (combine (bs upper) (bs lower)).
Definition word_char (c : ascii) : Prop := In c (bs "0123456789abcdefghijklmnopqrstuvwxyzABCDEFGHIJKLMNOPQRSTUVWXYZ_").
Definition white (c : ascii) : Prop := In c [" "; "009"; "010"; "011"; "012"; "013"]%char.
(** [s] is the text of the number [x]: blanks, a sign, and digits or a word *)
Inductive number_text : number -> bytes -> Prop :=
| nt_number ws neg sign q s x : Forall white ws -> sign_text neg sign -> unsigned_text q s -> stands_for neg q x ->
    number_text x (ws ++ sign ++ s)
| nt_infinite ws neg sign s : Forall white ws -> sign_text neg sign -> word_text "INF" "inf" s \/ word_text "INFINITY" "infinity" s ->
    number_text (Infinite neg) (ws ++ sign ++ s)
| nt_nan ws neg sign s t : Forall white ws -> sign_text neg sign -> word_text "NAN" "nan" s ->
    t = [] \/ (exists u, Forall word_char u /\ t = bs "(" ++ u ++ bs ")") ->
    number_text (NotANumber neg) (ws ++ sign ++ s ++ t).
