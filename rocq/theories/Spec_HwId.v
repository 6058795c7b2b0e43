(** The three fields of a hardware identifier: byte 0 (bit 6 is the "environment
    variable" flag), the strategy in the top 3 bits of byte 1 (read back by
    get_identification_strategy), and 53 bits of data: the low 5 bits of byte 1
    and bytes 2..7. *)
From Verif Require Import Base HwId Spec_Strings Spec_Base64.

Definition byte0 (h : hwid) : ascii := let '(HwId m0 _ _ _ _ _ _ _) := h in m0.
Definition data53 (h : hwid) : N * bytes :=
  let '(HwId _ m1 m2 m3 m4 m5 m6 m7) := h in ((N_of_ascii m1 mod 32)%N, [m2; m3; m4; m5; m6; m7]).
Definition strategy_bits (h : hwid) : Z :=
  let '(HwId _ m1 _ _ _ _ _ _) := h in Z.of_N (N_of_ascii m1 / 32).
(** the 53 bits of a 7 byte datum that an identifier keeps *)
Definition d7_53 (d : data7) : N * bytes :=
  let '(D7 d0 d1 d2 d3 d4 d5 d6) := d in ((N_of_ascii d0 mod 32)%N, [d1; d2; d3; d4; d5; d6]).

(** the text of an identifier: base64, '-' being a line break, of its eight bytes *)
Definition eight_bytes (h : hwid) : bytes := let '(HwId m0 m1 m2 m3 m4 m5 m6 m7) := h in [m0; m1; m2; m3; m4; m5; m6; m7].
Definition undashed (text : bytes) : bytes := map (fun c => if Ascii.eqb c "-"%char then "010"%char else c) text.
Definition denotes (text : bytes) (h : hwid) : Prop := decodable (undashed text) /\ decoded (undashed text) = eight_bytes h.
