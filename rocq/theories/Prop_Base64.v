(** Properties C23, C24: base64. *)
From Verif Require Import Base Base64 P_Base Spec_Strings Spec_Base64 P_Base64 P_Decode.

(** C23: decoding an encoding gives the data back, for every line length. *)
Theorem C23_base64_round_trip : forall (d : bytes) (line : Z),
  3 <= length d -> exists text, base64 d line = Ok text /\ unbase64 text = Ok d.
Proof. exact base64_round_trip. Qed.
Print Assumptions C23_base64_round_trip.

(** The text without its line feeds is the RFC 4648 encoding of the data. *)
Theorem C23_base64_is_rfc4648 : forall (d : bytes) (line : Z) (out : bytes),
  base64 d line = Ok out -> encodes (strip_lf out) d.
Proof. exact base64_rfc. Qed.
Print Assumptions C23_base64_is_rfc4648.

(** For a line length of at least 2, every line including its terminating line
    feed has exactly that many characters, except the last one, which is
    terminated too. *)
Theorem C23_base64_lines : forall (d : bytes) (line : Z) (out : bytes),
  (2 <= line)%Z -> base64 d line = Ok out ->
  forall i c, nth_error out i = Some c ->
  (c = LF <-> ((Z.of_nat i + 1) mod line = 0)%Z \/ i = length out - 1).
Proof. exact base64_lines. Qed.
Print Assumptions C23_base64_lines.

Example C23_case : base64 (bs "ABCD") 3 = Ok (bs "QU" ++ LF :: bs "JD" ++ LF :: bs "RA" ++ LF :: bs "==" ++ [LF])
  /\ unbase64 (bs "QU" ++ LF :: bs "JDRA==") = Ok (bs "ABCD").
Proof. split; reflexivity. Qed.

(** C24: encoding reads out of bounds exactly for fewer than three bytes. *)
Theorem C24_base64_out_of_bounds : forall (d : bytes) (line : Z),
  base64 d line = Undef UbRead <-> length d < 3.
Proof. exact base64_ub. Qed.
Print Assumptions C24_base64_out_of_bounds.

(** What decoding gives, for every text: [decoded], defined from the bits of the
    characters, unless the decoder reads beyond the text. *)
Theorem C24_unbase64_decoded : forall text : bytes,
  (over_read text /\ unbase64 text = Undef UbRead) \/
  (strip_lf text = bs "==" /\ unbase64 text = Throw ExLength) \/
  (decodable text /\ unbase64 text = Ok (decoded text)).
Proof. exact unbase64_outcome. Qed.
Print Assumptions C24_unbase64_decoded.
Example C24_decoded_case : decoded (bs "TWFu") = bs "Man" /\ decoded (bs "TWFuTWE=") = bs "ManMa" /\ decoded (bs "TW" ++ [LF] ++ bs "FuTQ==") = bs "ManM" /\
  decodable (bs "TWFu") /\ over_read (bs "TQ==").
Proof. split; [reflexivity|]. split; [reflexivity|]. split; [reflexivity|]. split; [split; [|discriminate]; unfold over_read; cbn; lia|unfold over_read; cbn; repeat split; [lia|discriminate|lia]]. Qed.

(** Decoding: the exact outcome for every text, s being the text without line
    feeds. It never reads out of bounds except for texts shorter than 4 + (number of
    '=' among the last two characters), or having one such '=' and a length of 1
    modulo 4. *)
Theorem C24_unbase64_outcomes : forall text : bytes,
  let s := strip_lf text in
  (length s < 2 /\ unbase64 text = Ok []) \/
  (s = bs "==" /\ unbase64 text = Throw ExLength) \/
  (2 <= length s /\ s <> bs "==" /\
   ((length s < 4 + pad_count s \/ (pad_count s = 1 /\ length s mod 4 = 1)) /\ unbase64 text = Undef UbRead
   \/ ~ (length s < 4 + pad_count s \/ (pad_count s = 1 /\ length s mod 4 = 1)) /\ exists out, unbase64 text = Ok out)).
Proof.
  exact (fun text => eq_ind_r (fun r => let s := strip_lf text in
  (length s < 2 /\ r = Ok []) \/
  (s = bs "==" /\ r = Throw ExLength) \/
  (2 <= length s /\ s <> bs "==" /\
   ((length s < 4 + pad_count s \/ (pad_count s = 1 /\ length s mod 4 = 1)) /\ r = Undef UbRead
   \/ ~ (length s < 4 + pad_count s \/ (pad_count s = 1 /\ length s mod 4 = 1)) /\ exists out, r = Ok out)))
   (unbase64_cases (strip_lf text)) (unbase64_strip text)).
Qed.
Print Assumptions C24_unbase64_outcomes.

(** In particular the RFC 4648 encodings of one and of two bytes make the decoder
    read out of bounds. *)
Theorem C24_memory_safety_refuted :
  encodes (bs "QQ==") (bs "A") /\ unbase64 (bs "QQ==") = Undef UbRead /\
  encodes (bs "QUI=") (bs "AB") /\ unbase64 (bs "QUI=") = Undef UbRead /\
  base64 (bs "AB") 0 = Undef UbRead.
Proof. exact (conj (enc_plain_encodes (bs "A")) (conj eq_refl (conj (enc_plain_encodes (bs "AB")) (conj eq_refl eq_refl)))). Qed.
Print Assumptions C24_memory_safety_refuted.
