(** DER (X.690) as far as an RSA public key needs it: RSAPublicKey of PKCS #1 is a
    SEQUENCE of two INTEGERs, the modulus and the public exponent. *)
From Verif Require Import Base.
Local Open Scope N_scope.

(** the number whose octets, most significant first, are given *)
Fixpoint be_value_from (acc : N) (l : bytes) : N :=
  match l with [] => acc | b :: r => be_value_from (256 * acc + N_of_ascii b) r end.
Definition be_value (l : bytes) : N := be_value_from 0 l.

(** length octets, definite form, as short as possible *)
Definition der_length (n : N) (l : bytes) : Prop :=
  (n < 128 /\ l = [ascii_of_N n]) \/
  (128 <= n /\ exists octets b r, l = ascii_of_N (128 + N.of_nat (length octets)) :: octets /\
     octets = b :: r /\ N_of_ascii b <> 0 /\ (length octets < 127)%nat /\ be_value octets = n).

(** content of a non-negative INTEGER: its octets, the top bit clear, no superfluous zero octet *)
Definition der_content (n : N) (l : bytes) : Prop :=
  be_value l = n /\
  exists b r, l = b :: r /\ N_of_ascii b < 128 /\
    (N_of_ascii b = 0 -> r = [] \/ exists b' r', r = b' :: r' /\ 128 <= N_of_ascii b').

Definition der_integer (n : N) (l : bytes) : Prop :=
  exists len content, l = "002"%char :: len ++ content /\ der_length (N.of_nat (length content)) len /\ der_content n content.

Definition der_public_key (n e : N) (l : bytes) : Prop :=
  exists len a b, l = "048"%char :: len ++ a ++ b /\ der_integer n a /\ der_integer e b /\
                  der_length (N.of_nat (length (a ++ b))) len.
