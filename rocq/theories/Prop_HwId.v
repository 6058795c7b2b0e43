(** Properties C25 - C28: hardware identifiers as values. *)
From Verif Require Import Base HwId P_Base Spec_Strings Spec_HwId P_HwId.

(** C25 *)
Theorem C25_print_parse : forall h : hwid, exists s, hw_print h = Ok s /\ hw_of_string s = Ok h.
Proof. exact hw_round_trip. Qed.
Print Assumptions C25_print_parse.

Theorem C25_print_injective : forall h1 h2 : hwid, hw_print h1 = hw_print h2 -> h1 = h2.
Proof. exact hw_print_inj. Qed.
Print Assumptions C25_print_injective.

Example C25_case : hw_print (HwId "001" "002" "003" "004" "005" "006" "007" "008") = Ok (bs "AQID-BAUG-Bwg=").
Proof. reflexivity. Qed.

(** C26: XXXX-XXXX-XXX= over the base64 alphabet, 14 characters *)
Theorem C26_print_format : forall (h : hwid) (s : bytes), hw_print h = Ok s ->
  exists a b c, s = a ++ "-"%char :: b ++ "-"%char :: c ++ ["="%char] /\
    length a = 4 /\ length b = 4 /\ length c = 3 /\ Forall b64_alpha (a ++ b ++ c).
Proof. exact hw_print_format. Qed.
Print Assumptions C26_print_format.

Theorem C26_print_length : forall (h : hwid) (s : bytes), hw_print h = Ok s -> length s = 14.
Proof. exact hw_print_len. Qed.
Print Assumptions C26_print_length.

(** C27: after setting data, environment flag and a strategy in 0..7 in any of
    these orders, each field reads back as set, the other bits of byte 0 are
    unchanged and setting the data again changes nothing. *)
Theorem C27_setters : forall (h : hwid) (d : data7) (z : Z) (b : bool),
  (0 <= z < 8)%Z ->
  exists h', set_identification_strategy z (set_use_environment_var b (set_data d h)) = Ok h' /\
    get_identification_strategy h' = z /\ data53 h' = d7_53 d /\ N.testbit (N_of_ascii (byte0 h')) 6 = b /\
    (forall k, (k < 8)%N -> k <> 6%N ->
       N.testbit (N_of_ascii (byte0 h')) k = N.testbit (N_of_ascii (byte0 h)) k) /\
    (exists h1, set_identification_strategy z h = Ok h1 /\ h' = set_use_environment_var b (set_data d h1)) /\
    (exists h2, set_identification_strategy z (set_data d h) = Ok h2 /\ h' = set_use_environment_var b h2) /\
    h' = set_data d h'.
Proof. exact hw_setters. Qed.
Print Assumptions C27_setters.

(** Each setter alone leaves the fields it is not about untouched. *)
Theorem C27_set_strategy : forall (z : Z) (h h' : hwid), set_identification_strategy z h = Ok h' ->
  byte0 h' = byte0 h /\ data53 h' = data53 h /\ get_identification_strategy h' = (z mod 8)%Z.
Proof. exact set_strategy_fields. Qed.
Print Assumptions C27_set_strategy.

Theorem C27_set_strategy_throws : forall (z : Z) (h : hwid),
  set_identification_strategy z h = Throw ExLogic <-> z = (-2)%Z \/ z = (-1)%Z.
Proof. exact set_strategy_throws. Qed.
Print Assumptions C27_set_strategy_throws.

Theorem C27_set_data : forall (d : data7) (h : hwid),
  byte0 (set_data d h) = byte0 h /\ data53 (set_data d h) = d7_53 d /\
  get_identification_strategy (set_data d h) = get_identification_strategy h.
Proof. exact (fun d h => conj (set_data_byte0 d h) (conj (set_data_53 d h) (set_data_strategy d h))). Qed.
Print Assumptions C27_set_data.

Theorem C27_set_environment_flag : forall (b : bool) (h : hwid),
  tl (hw_bytes (set_use_environment_var b h)) = tl (hw_bytes h) /\
  N.testbit (N_of_ascii (byte0 (set_use_environment_var b h))) 6 = b.
Proof. exact (fun b h => conj (set_env_rest b h) (proj1 (set_env_bit b h))). Qed.
Print Assumptions C27_set_environment_flag.

Theorem C27_data_match : forall (d : data7) (h : hwid), data_match d h = true <-> d7_53 d = data53 h.
Proof. exact data_match_spec. Qed.
Print Assumptions C27_data_match.

Theorem C27_strategy_bits : forall h : hwid, get_identification_strategy h = strategy_bits h.
Proof. exact strategy_bits_eq. Qed.
Print Assumptions C27_strategy_bits.

(** C28: operator== compares exactly bytes 1..7, i.e. strategy and data, and is
    an equivalence. *)
Theorem C28_equality : forall l r : hwid,
  (hw_eqb l r = true <-> tl (hw_bytes l) = tl (hw_bytes r)) /\
  (hw_eqb l r = true <-> get_identification_strategy l = get_identification_strategy r /\ data53 l = data53 r).
Proof. exact (fun l r => conj (hw_eqb_spec l r) (hw_eqb_fields l r)). Qed.
Print Assumptions C28_equality.

Theorem C28_equivalence :
  (forall h, hw_eqb h h = true) /\ (forall a b, hw_eqb a b = true -> hw_eqb b a = true)
  /\ (forall a b c, hw_eqb a b = true -> hw_eqb b c = true -> hw_eqb a c = true).
Proof. exact hw_eqb_equiv. Qed.
Print Assumptions C28_equivalence.

Example C28_case : hw_eqb (HwId "000" "001" "002" "003" "004" "005" "006" "007")
                          (HwId "064" "001" "002" "003" "004" "005" "006" "007") = true
  /\ hw_eqb (HwId "000" "001" "002" "003" "004" "005" "006" "007")
            (HwId "000" "033" "002" "003" "004" "005" "006" "007") = false.
Proof. split; reflexivity. Qed.
