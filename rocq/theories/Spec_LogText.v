(** What a format string stands for (C standard, 7.21.6.1, for %s, %d and %x with the flags - and
    0 and a width), and what a line of the log should be. *)
From Verif Require Import Base CTypes StringUtils Spec_Report LogText.

(** [t] is [s] filled with blanks up to [w] characters, after it or before it *)
Definition filled (after : bool) (w : nat) (s t : bytes) : Prop :=
  exists n, (if after then t = s ++ repeat SP n else t = repeat SP n ++ s) /\ length t = Nat.max w (length s).
(** a number: the sign, and the digits [ds]; with zeros in between up to [w] characters if wanted *)
Definition number (minus zero : bool) (w : nat) (sign ds t : bytes) : Prop :=
  if zero && negb minus then exists n, t = sign ++ repeat "0"%char n ++ ds /\ length t = Nat.max w (length sign + length ds)
  else filled minus w (sign ++ ds) t.
(** how one argument appears *)
Inductive shows (minus zero : bool) (w : nat) : ascii -> arg -> bytes -> Prop :=
| sh_string s t : zero = false -> filled minus w (cstr s) t -> shows minus zero w "s" (AStr s) t
| sh_decimal n ds t : numeral 10 (Z.abs_N n) ds -> number minus zero w (if Z.ltb n 0 then bs "-" else []) ds t -> shows minus zero w "d" (AInt n) t
| sh_hex n ds t : numeral 16 (Z.to_N (n mod 4294967296)) ds -> number minus zero w [] ds t -> shows minus zero w "x" (AInt n) t.
(** the number written with these digits *)
Definition width_of (ds : bytes) : nat := fold_left (fun a c => 10 * a + (N.to_nat (N_of_ascii c) - 48)) ds 0.
Definition flag (c : ascii) : bool := Ascii.eqb c "-" || Ascii.eqb c "0".
(** [prints f args o]: the format [f] with these arguments stands for [o]; more arguments do not matter *)
Inductive prints : bytes -> list arg -> bytes -> Prop :=
| pr_end args : prints [] args []
| pr_char c f args o : c <> "%"%char -> prints f args o -> prints (c :: f) args (c :: o)
| pr_percent f args o : prints f args o -> prints ("%"%char :: "%"%char :: f) args ("%"%char :: o)
| pr_argument flags width c f a args t o :
    forallb flag flags = true -> forallb isdigit width = true -> hd "1"%char width <> "0"%char -> flag c = false -> isdigit c = false ->
    shows (existsb (Ascii.eqb "-") flags) (existsb (Ascii.eqb "0") flags) (width_of width) c a t ->
    prints f args o ->
    prints ("%"%char :: flags ++ width ++ c :: f) (a :: args) (t ++ o).

(** An argument of the kind; no C string has a NUL *)
Definition fitting (s : site) (args : list arg) : Prop := map kind_of args = st_kinds s.
(** the beginning of a line: time, level, where, and errno *)
Definition heading (now : bytes) (s : site) (line errno : bytes) : bytes :=
  match st_level s with
  | DEBUG => now ++ bs "[DEBUG] (" ++ st_file s ++ bs ":" ++ line ++ bs ") "
  | WARN => now ++ bs "[WARN] (" ++ st_file s ++ bs ":" ++ line ++ bs ": errno: " ++ errno ++ bs ") "
  | ERROR => now ++ bs "[ERROR] (" ++ st_file s ++ bs ":" ++ line ++ bs ": errno: " ++ errno ++ bs ") "
  end.
