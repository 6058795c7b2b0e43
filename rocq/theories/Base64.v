(** Model of src/library/base/base64.cpp. *)
From Verif Require Import Base CTypes.

(** base64.cpp 9 *)
Definition b64_alphabet : bytes :=
  bs "ABCDEFGHIJKLMNOPQRSTUVWXYZabcdefghijklmnopqrstuvwxyz0123456789+/".

(** b64[i]; the index is always below 64 in the code below (6-bit values), the
    default is never used. *)
Definition b64_at (i : N) : ascii := nth (N.to_nat i) b64_alphabet NUL.

(** base64.cpp 12-39, the 256 entry table unb64: every byte outside the base64
    alphabet maps to 0. *)
Definition unb64 (c : ascii) : N :=
  let n := code c in
  if (N.leb 65 n && N.leb n 90)%N then (n - 65)%N
  else if (N.leb 97 n && N.leb n 122)%N then (n - 71)%N
  else if (N.leb 48 n && N.leb n 57)%N then (n + 4)%N
  else if N.eqb n 43 then 62%N
  else if N.eqb n 47 then 63%N
  else 0%N.

(** base64.cpp 42-46; the buffer is kept as it is in memory order. *)
Definition add_CR_if_needed (buf : bytes) (line : Z) : bytes :=
  if (Z.ltb 0 line && Z.eqb ((Z.of_nat (length buf) + 1) mod line) 0)%bool
  then buf ++ [LF] else buf.

(** one "add_CR_if_needed(buf, line); buf += c;" *)
Definition put (line : Z) (buf : bytes) (c : ascii) : bytes :=
  add_CR_if_needed buf line ++ [c].

(** base64.cpp 72-78: the four characters of a group of three bytes *)
Definition enc0 (b0 : ascii) : ascii := b64_at (N.shiftr (code b0) 2).
Definition enc1 (b0 b1 : ascii) : ascii :=
  b64_at (N.shiftl (N.land 3 (code b0)) 4 + N.shiftr (code b1) 4).
Definition enc2 (b1 b2 : ascii) : ascii :=
  b64_at (N.shiftl (N.land 15 (code b1)) 2 + N.shiftr (code b2) 6).
Definition enc3 (b2 : ascii) : ascii := b64_at (N.land 63 (code b2)).

(** base64.cpp 66-99: three bytes per round while three are left, then the
    padded tail of 0, 1 or 2 bytes. *)
Fixpoint enc_loop (line : Z) (buf : bytes) (bin : bytes) : bytes :=
  match bin with
  | b0 :: b1 :: b2 :: r =>
      let buf := put line buf (enc0 b0) in
      let buf := put line buf (enc1 b0 b1) in
      let buf := put line buf (enc2 b1 b2) in
      let buf := put line buf (enc3 b2) in
      enc_loop line buf r
  | [b0; b1] =>
      let buf := put line buf (enc0 b0) in
      let buf := put line buf (enc1 b0 b1) in
      let buf := put line buf (b64_at (N.shiftl (N.land 15 (code b1)) 2)) in
      put line buf "="%char
  | [b0] =>
      let buf := put line buf (enc0 b0) in
      let buf := put line buf (b64_at (N.shiftl (N.land 3 (code b0)) 4)) in
      let buf := put line buf "="%char in
      put line buf "="%char
  | [] => buf
  end.

(** base64.cpp 48-104. [len - 3] is computed in size_t: for len < 3 it wraps to
    more than 2^63, so the first round already reads bin[2] out of bounds. (The
    32-bit counter byteNo never wraps for inputs below 4 GiB.) *)
Definition base64 (bin : bytes) (line : Z) : res bytes :=
  if Nat.ltb (length bin) 3 then Undef UbRead
  else
    let buf := enc_loop line [] bin in
    Ok (if (negb (Z.eqb line 0) && negb (Ascii.eqb (last buf NUL) LF))%bool
        then buf ++ [LF] else buf).

Definition SIZE_MAX1 : N := 18446744073709551616%N.  (* 2^64 *)
(** a - b in size_t *)
Definition size_sub (a b : N) : N :=
  if N.leb b a then (a - b)%N else (SIZE_MAX1 + a - b)%N.

(** s.c_str()[i]: the terminator may be read, nothing beyond it. *)
Definition str_at (s : bytes) (i : nat) : res ascii :=
  match nth_error s i with
  | Some c => Ok c
  | None => if Nat.eqb i (length s) then Ok NUL else Undef UbRead
  end.

(** the stores into the uint8_t vector, base64.cpp 133-135 *)
Definition dec0 (A B : N) : ascii := ascii_of_N (N.lor (N.shiftl A 2) (N.shiftr B 4)).
Definition dec1 (B C : N) : ascii := ascii_of_N (N.lor (N.shiftl B 4) (N.shiftr C 2)).
Definition dec2 (C D : N) : ascii := ascii_of_N (N.lor (N.shiftl C 6) D).

(** base64.cpp 127-136 *)
Fixpoint dec_loop (fuel : nat) (s : bytes) (charNo : nat) (bound : N) (out : bytes)
  : res (nat * bytes) :=
  if N.leb (N.of_nat charNo) bound then
    match fuel with
    | 0 => OutOfFuel
    | S f =>
        a <-- str_at s charNo ;;
        b <-- str_at s (charNo + 1) ;;
        c <-- str_at s (charNo + 2) ;;
        d <-- str_at s (charNo + 3) ;;
        let A := unb64 a in let B := unb64 b in let C := unb64 c in let D := unb64 d in
        dec_loop f s (charNo + 4) bound (out ++ [dec0 A B; dec1 B C; dec2 C D])
    end
  else Ok (charNo, out).

(** base64.cpp 106-151 *)
Definition unbase64 (base64_data : bytes) : res bytes :=
  let s := filter (fun c => negb (Ascii.eqb c LF)) base64_data in
  let len := length s in
  if Nat.ltb len 2 then Ok []
  else
    let isPad i := match nth_error s i with Some c => Ascii.eqb c "="%char | None => false end in
    let pad := (if isPad (len - 1) then 1 else 0) + (if isPad (len - 2) then 1 else 0) in
    (* bin.reserve(3 * len / 4 - pad): std::length_error when it wraps *)
    if Nat.ltb (3 * len / 4) pad then Throw ExLength
    else
      let bound := size_sub (size_sub (N.of_nat len) 4) (N.of_nat pad) in
      '(charNo, out) <-- dec_loop (S len) s 0 bound [] ;;
      if Nat.eqb pad 1 then
        a <-- str_at s charNo ;;
        b <-- str_at s (charNo + 1) ;;
        c <-- str_at s (charNo + 2) ;;
        Ok (out ++ [dec0 (unb64 a) (unb64 b); dec1 (unb64 b) (unb64 c)])
      else if Nat.eqb pad 2 then
        a <-- str_at s charNo ;;
        b <-- str_at s (charNo + 1) ;;
        Ok (out ++ [dec0 (unb64 a) (unb64 b)])
      else Ok out.
