(** What base64 text means (RFC 4648), as bit strings. *)
From Verif Require Import Base Spec_Strings.

(** the [k] bits of n, most significant first *)
Fixpoint bits_of (k : nat) (n : N) : list bool :=
  match k with
  | 0 => []
  | S k' => N.testbit n (N.of_nat k') :: bits_of k' n
  end.
Definition bits8 (c : ascii) : list bool := bits_of 8 (N_of_ascii c).

(** [alpha_index c i]: c is the i-th character of the base64 alphabet *)
Definition alpha_index (c : ascii) (i : nat) : Prop :=
  nth_error (bs "ABCDEFGHIJKLMNOPQRSTUVWXYZabcdefghijklmnopqrstuvwxyz0123456789+/") i = Some c.

(** [encodes text data]: [text] = alphabet characters followed by '=' padding to a
    multiple of 4; the 6-bit values of the characters spell the bits of [data]
    followed by fewer than 6 zero bits. *)
Definition encodes (text data : bytes) : Prop :=
  exists chars idx zeros,
    text = chars ++ repeat "="%char ((4 - length chars mod 4) mod 4) /\
    Forall2 alpha_index chars idx /\
    concat (map (fun i => bits_of 6 (N.of_nat i)) idx) = concat (map bits8 data) ++ repeat false zeros /\
    zeros < 6.

(** text without its line feeds, and its number of trailing '=' among the last two *)
Definition strip_lf (s : bytes) : bytes := filter (fun c => negb (Ascii.eqb c "010"%char)) s.
Definition eq_sign_at (s : bytes) (i : nat) : nat :=
  match nth_error s i with Some c => if Ascii.eqb c "="%char then 1 else 0 | None => 0 end.
Definition pad_count (s : bytes) : nat := eq_sign_at s (length s - 1) + eq_sign_at s (length s - 2).

(** ** What any text decodes to. A character outside the alphabet counts as 'A'; the
    bits of the characters, cut into bytes, missing ones being zero. As many bytes as
    there are complete groups of four characters (the padding aside) call for, and
    those of a padded last group. *)
Fixpoint position (x : ascii) (l : bytes) : option nat :=
  match l with
  | [] => None
  | c :: r => if Ascii.eqb c x then Some 0 else option_map S (position x r)
  end.
Definition sextet (c : ascii) : N :=
  match position c (bs "ABCDEFGHIJKLMNOPQRSTUVWXYZabcdefghijklmnopqrstuvwxyz0123456789+/") with
  | Some i => N.of_nat i
  | None => 0%N
  end.
Fixpoint number (acc : N) (bits : list bool) : N :=
  match bits with [] => acc | b :: r => number (2 * acc + if b then 1 else 0)%N r end.
Fixpoint octets (k : nat) (bits : list bool) : bytes :=
  match k with
  | 0 => []
  | S k => ascii_of_N (number 0 (firstn 8 (bits ++ repeat false 8))) :: octets k (skipn 8 bits)
  end.
Definition decoded (text : bytes) : bytes :=
  let s := strip_lf text in
  if length s <? 2 then []
  else octets (3 * ((length s - pad_count s) / 4) + match pad_count s with 1 => 2 | 2 => 1 | _ => 0 end)
              (concat (map (fun c => bits_of 6 (sextet c)) s)).
(** texts the decoder reads beyond, and those it decodes *)
Definition over_read (text : bytes) : Prop :=
  let s := strip_lf text in
  2 <= length s /\ s <> bs "==" /\ (length s < 4 + pad_count s \/ (pad_count s = 1 /\ length s mod 4 = 1)).
Definition decodable (text : bytes) : Prop := ~ over_read text /\ strip_lf text <> bs "==".
