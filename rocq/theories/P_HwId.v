(** Proofs about HwId.v. *)
From Verif Require Import Base CTypes Base64 HwId P_Base Spec_Strings Spec_Base64 P_Base64 Spec_HwId.

Definition dash : ascii := "-"%char.
Lemma b64_at_not_dash i : (i < 64)%N -> Ascii.eqb (b64_at i) "-"%char = false.
Proof.
  intros H. apply negb_true_iff. revert i H. apply (nsweep 64 (fun i => negb (Ascii.eqb (b64_at i) "-"%char))). vm_compute. reflexivity.
Qed.

Lemma put_plain line buf c : ((Z.of_nat (length buf) + 1) mod line <> 0)%Z -> put line buf c = buf ++ [c].
Proof. intros H. unfold put, add_CR_if_needed. destruct (Z.eqb_spec ((Z.of_nat (length buf) + 1) mod line) 0); [contradiction|]. rewrite andb_false_r. reflexivity. Qed.
Lemma put_lf line buf c : (0 < line)%Z -> ((Z.of_nat (length buf) + 1) mod line = 0)%Z -> put line buf c = buf ++ [LF; c].
Proof.
  intros H1 H. unfold put, add_CR_if_needed. destruct (Z.eqb_spec ((Z.of_nat (length buf) + 1) mod line) 0); [|contradiction].
  apply Z.ltb_lt in H1. rewrite H1. cbn [andb]. rewrite <- app_assoc. reflexivity.
Qed.

Definition print_text (a b c d e f g i : ascii) : bytes :=
  [enc0 a; enc1 a b; enc2 b c; enc3 c; "-"%char; enc0 d; enc1 d e; enc2 e f; enc3 f; "-"%char;
   enc0 g; enc1 g i; b64_at (i2' i); "="%char].

Lemma base64_8_5 a b c d e f g i : base64 [a; b; c; d; e; f; g; i] 5 =
  Ok [enc0 a; enc1 a b; enc2 b c; enc3 c; LF; enc0 d; enc1 d e; enc2 e f; enc3 f; LF;
      enc0 g; enc1 g i; b64_at (i2' i); "="%char; LF].
Proof.
  reflexivity.
Qed.

Lemma hw_print_text a b c d e f g i : hw_print (HwId a b c d e f g i) = Ok (print_text a b c d e f g i).
Proof.
  unfold hw_print. cbn [hw_bytes]. rewrite base64_8_5. cbn [rbind map]. unfold print_text.
  rewrite ?enc0_i, ?enc1_i, ?enc2_i, ?enc3_i, !b64_at_not_lf by auto using i0_lt, i1_lt, i2_lt, i3_lt, i2'_lt.
  reflexivity.
Qed.

Lemma hw_of_print a b c d e f g i : hw_of_string (print_text a b c d e f g i) = Ok (HwId a b c d e f g i).
Proof.
  unfold hw_of_string, print_text. cbn [map].
  rewrite ?enc0_i, ?enc1_i, ?enc2_i, ?enc3_i, !b64_at_not_dash by auto using i0_lt, i1_lt, i2_lt, i3_lt, i2'_lt.
  change (if ("-" =? "-")%char then LF else "-"%char) with LF.
  change (if ("=" =? "-")%char then LF else "="%char) with "="%char.
  rewrite unbase64_strip. unfold strip_lf. change "010"%char with LF. cbn [filter].
  rewrite ?b64_at_not_lf by auto using i0_lt, i1_lt, i2_lt, i3_lt, i2'_lt. cbn [negb Ascii.eqb Bool.eqb].
  change (b64_at (i0 a) :: _) with (enc_plain [a; b; c; d; e; f; g; i]).
  rewrite unbase64_core_enc by (cbn; lia). reflexivity.
Qed.

Lemma hw_round_trip h : exists s, hw_print h = Ok s /\ hw_of_string s = Ok h.
Proof. destruct h as [a b c d e f g i]. eexists. split; [apply hw_print_text|apply hw_of_print]. Qed.

Lemma hw_print_inj h1 h2 : hw_print h1 = hw_print h2 -> h1 = h2.
Proof.
  intros E. destruct (hw_round_trip h1) as [s1 [P1 Q1]], (hw_round_trip h2) as [s2 [P2 Q2]]. congruence.
Qed.

Lemma b64_at_alpha i : (i < 64)%N -> b64_alpha (b64_at i).
Proof. intros H. unfold b64_alpha, b64_at. apply nth_In. change (length _) with 64. lia. Qed.

Lemma hw_print_format h s : hw_print h = Ok s ->
  exists a b c, s = a ++ "-"%char :: b ++ "-"%char :: c ++ ["="%char] /\ length a = 4 /\ length b = 4 /\ length c = 3
  /\ Forall b64_alpha (a ++ b ++ c).
Proof.
  destruct h as [a b c d e f g i]. rewrite hw_print_text. intros [= <-].
  exists [enc0 a; enc1 a b; enc2 b c; enc3 c], [enc0 d; enc1 d e; enc2 e f; enc3 f], [enc0 g; enc1 g i; b64_at (i2' i)].
  repeat split. cbn [app].
  repeat (constructor; [rewrite ?enc0_i, ?enc1_i, ?enc2_i, ?enc3_i; apply b64_at_alpha; auto using i0_lt, i1_lt, i2_lt, i3_lt, i2'_lt|]).
  constructor.
Qed.

(** ** fields *)
Lemma strat_byte z m : (0 <= z < 8)%Z ->
  Z.of_N (N.shiftr (code (ascii_of_N (N.lor (N.land (code m) 31) (Z.to_N ((z * 32) mod 256))))) 5) = z /\
  N.land (code (ascii_of_N (N.lor (N.land (code m) 31) (Z.to_N ((z * 32) mod 256))))) 31 = N.land (code m) 31.
Proof.
  intros Hz.
  assert (H : forall m, forallb (fun n => Z.eqb (Z.of_N (N.shiftr (code (ascii_of_N (N.lor (N.land (code m) 31) (Z.to_N ((Z.of_N n * 32) mod 256))))) 5)) (Z.of_N n)
    && N.eqb (N.land (code (ascii_of_N (N.lor (N.land (code m) 31) (Z.to_N ((Z.of_N n * 32) mod 256))))) 31) (N.land (code m) 31)) (nrange 8) = true)
    by (apply byte_sweep; vm_compute; reflexivity).
  specialize (H m). rewrite forallb_forall in H. specialize (H (Z.to_N z) (nrange_in 8 (Z.to_N z) ltac:(lia))).
  rewrite Z2N.id in H by lia. apply andb_true_iff in H as [H1 H2]. apply Z.eqb_eq in H1. apply N.eqb_eq in H2. auto.
Qed.

Lemma strat_mod z : ((z mod 8 * 32) mod 256 = (z * 32) mod 256)%Z.
Proof.
  rewrite (Z.div_mod z 8) at 2 by lia. replace ((8 * (z / 8) + z mod 8) * 32)%Z with (z mod 8 * 32 + (z / 8) * 256)%Z by ring.
  rewrite Z.mod_add by lia. reflexivity.
Qed.

(** effect of set_identification_strategy on every value *)
Lemma set_strategy_spec z m0 m1 m2 m3 m4 m5 m6 m7 :
  z <> STRATEGY_NONE -> z <> STRATEGY_DEFAULT ->
  exists m1', set_identification_strategy z (HwId m0 m1 m2 m3 m4 m5 m6 m7) = Ok (HwId m0 m1' m2 m3 m4 m5 m6 m7)
   /\ Z.of_N (N.shiftr (code m1') 5) = (z mod 8)%Z /\ N.land (code m1') 31 = N.land (code m1) 31.
Proof.
  intros H1 H2. unfold set_identification_strategy. apply Z.eqb_neq in H1, H2. rewrite H1, H2. cbn [orb].
  eexists. split; [reflexivity|]. rewrite <- strat_mod. apply strat_byte. apply Z.mod_pos_bound. lia.
Qed.

Lemma set_strategy_throws z h : set_identification_strategy z h = Throw ExLogic <-> z = STRATEGY_NONE \/ z = STRATEGY_DEFAULT.
Proof.
  unfold set_identification_strategy. destruct (Z.eqb_spec z STRATEGY_NONE); [split; auto|].
  destruct (Z.eqb_spec z STRATEGY_DEFAULT); [split; auto|]. destruct h. split; [discriminate|tauto].
Qed.

Lemma data_byte m d : N.shiftr (code (ascii_of_N (N.lor (N.land (code m) 224) (N.land (code d) 31)))) 5 = N.shiftr (code m) 5 /\
  N.land (code (ascii_of_N (N.lor (N.land (code m) 224) (N.land (code d) 31)))) 31 = N.land (code d) 31.
Proof.
  assert (H : forall m d, (N.eqb (N.shiftr (code (ascii_of_N (N.lor (N.land (code m) 224) (N.land (code d) 31)))) 5) (N.shiftr (code m) 5)
    && N.eqb (N.land (code (ascii_of_N (N.lor (N.land (code m) 224) (N.land (code d) 31)))) 31) (N.land (code d) 31))%bool = true)
    by (apply byte_sweep2; vm_compute; reflexivity).
  specialize (H m d). apply andb_true_iff in H as [H1 H2]. apply N.eqb_eq in H1, H2. auto.
Qed.

Lemma land31 c : N.land (code c) 31 = (N_of_ascii c mod 32)%N.
Proof. change 31%N with (N.ones 5). rewrite N.land_ones. reflexivity. Qed.
Lemma shr5 c : N.shiftr (code c) 5 = (N_of_ascii c / 32)%N.
Proof. rewrite N.shiftr_div_pow2. reflexivity. Qed.
Lemma strategy_bits_eq h : get_identification_strategy h = strategy_bits h.
Proof. destruct h. cbn [get_identification_strategy strategy_bits]. rewrite shr5. reflexivity. Qed.

Lemma data_match_spec d h : data_match d h = true <-> d7_53 d = data53 h.
Proof.
  destruct d as [d0 d1 d2 d3 d4 d5 d6], h as [m0 m1 m2 m3 m4 m5 m6 m7]. cbn [data_match d7_53 data53]. unfold low5_eq.
  rewrite !andb_true_iff, N.eqb_eq, !Ascii.eqb_eq, !land31. split.
  - intros [[[[[[E0 ->] ->] ->] ->] ->] ->]. rewrite E0. reflexivity.
  - intros [= E0 -> -> -> -> -> ->]. tauto.
Qed.

Lemma set_data_53 d h : data53 (set_data d h) = d7_53 d.
Proof. destruct d as [d0 d1 d2 d3 d4 d5 d6], h as [m0 m1 m2 m3 m4 m5 m6 m7]. cbn [set_data data53 d7_53]. rewrite <- !land31. f_equal. apply data_byte. Qed.
Lemma set_data_strategy d h : get_identification_strategy (set_data d h) = get_identification_strategy h.
Proof. destruct d as [d0 d1 d2 d3 d4 d5 d6], h as [m0 m1 m2 m3 m4 m5 m6 m7]. cbn [set_data get_identification_strategy]. f_equal. apply data_byte. Qed.
Lemma set_data_byte0 d h : byte0 (set_data d h) = byte0 h.
Proof. destruct d, h. reflexivity. Qed.
Lemma set_env_rest b h : tl (hw_bytes (set_use_environment_var b h)) = tl (hw_bytes h).
Proof. destruct h. reflexivity. Qed.
Lemma set_env_bit b h : N.testbit (code (byte0 (set_use_environment_var b h))) 6 = b /\
  forall k, (k < 8)%N -> k <> 6%N -> N.testbit (code (byte0 (set_use_environment_var b h))) k = N.testbit (code (byte0 h)) k.
Proof.
  destruct h as [m0 m1 m2 m3 m4 m5 m6 m7]. cbn [set_use_environment_var byte0].
  assert (H : forall m, forallb (fun b : bool => let x := code (if b then ascii_of_N (N.lor (code m) 64) else ascii_of_N (N.land (code m) 191)) in
     Bool.eqb (N.testbit x 6) b && forallb (fun k => N.eqb k 6 || Bool.eqb (N.testbit x k) (N.testbit (code m) k)) (nrange 8)) [true; false] = true)
    by (apply byte_sweep; vm_compute; reflexivity).
  specialize (H m0). rewrite forallb_forall in H. specialize (H b ltac:(destruct b; cbn; tauto)). cbv zeta in H.
  apply andb_true_iff in H as [H1 H2]. apply eqb_prop in H1. split; [exact H1|]. intros k Hk Hn.
  rewrite forallb_forall in H2. specialize (H2 k (nrange_in 8 k Hk)). apply orb_true_iff in H2 as [H2|H2].
  - apply N.eqb_eq in H2. contradiction.
  - apply eqb_prop in H2. exact H2.
Qed.

Lemma set_strategy_fields z h h' : set_identification_strategy z h = Ok h' ->
  byte0 h' = byte0 h /\ data53 h' = data53 h /\ get_identification_strategy h' = (z mod 8)%Z.
Proof.
  intros H. destruct h as [m0 m1 m2 m3 m4 m5 m6 m7].
  assert (N1 : z <> STRATEGY_NONE /\ z <> STRATEGY_DEFAULT).
  { split; intros ->; discriminate. }
  destruct (set_strategy_spec z m0 m1 m2 m3 m4 m5 m6 m7) as [m1' [E [S D]]]; [tauto..|].
  rewrite E in H. injection H as <-. cbn [byte0 data53 get_identification_strategy]. rewrite <- !land31, S, D. auto.
Qed.

(** an identifier is determined by its three fields *)
Lemma hw_fields_inj h1 h2 : byte0 h1 = byte0 h2 -> data53 h1 = data53 h2 ->
  get_identification_strategy h1 = get_identification_strategy h2 -> h1 = h2.
Proof.
  destruct h1 as [m0 m1 m2 m3 m4 m5 m6 m7], h2 as [n0 n1 n2 n3 n4 n5 n6 n7]. cbn [byte0 data53 get_identification_strategy].
  intros -> [= E -> -> -> -> -> ->] S. f_equal. apply N2Z.inj in S.
  apply code_inj. rewrite !shr5 in S. unfold code.
  rewrite (N.div_mod (N_of_ascii m1) 32), (N.div_mod (N_of_ascii n1) 32), S, E by lia. reflexivity.
Qed.

Lemma set_data_strategy_comm d z h h' : set_identification_strategy z h = Ok h' ->
  set_identification_strategy z (set_data d h) = Ok (set_data d h').
Proof.
  intros H. assert (N1 : z <> STRATEGY_NONE /\ z <> STRATEGY_DEFAULT).
  { split; intros ->; destruct h; discriminate. }
  destruct (set_strategy_fields _ _ _ H) as [B [D S]].
  destruct (set_data d h) as [m0 m1 m2 m3 m4 m5 m6 m7] eqn:E.
  destruct (set_strategy_spec z m0 m1 m2 m3 m4 m5 m6 m7) as [m1' [E2 [S2 D2]]]; [tauto..|].
  rewrite E2. f_equal. apply hw_fields_inj.
  - rewrite set_data_byte0, B, <- (set_data_byte0 d h), E. reflexivity.
  - rewrite set_data_53, <- (set_data_53 d h), E. cbn [data53]. rewrite <- !land31, D2. reflexivity.
  - rewrite set_data_strategy, S. exact S2.
Qed.

(** ** equality *)
Lemma hw_eqb_spec l r : hw_eqb l r = true <-> tl (hw_bytes l) = tl (hw_bytes r).
Proof.
  destruct l as [m0 m1 m2 m3 m4 m5 m6 m7], r as [n0 n1 n2 n3 n4 n5 n6 n7].
  cbn [hw_eqb hw_bytes tl get_identification_strategy]. unfold low5_eq.
  rewrite !andb_true_iff, Z.eqb_eq, N.eqb_eq, !Ascii.eqb_eq, !land31. split.
  - intros [[[[[[[S E] ->] ->] ->] ->] ->] ->]. f_equal.
    assert (H : HwId NUL m1 NUL NUL NUL NUL NUL NUL = HwId NUL n1 NUL NUL NUL NUL NUL NUL).
    { apply hw_fields_inj; [reflexivity|cbn [data53]; rewrite E; reflexivity|exact S]. }
    congruence.
  - intros [= -> -> -> -> -> -> ->]. tauto.
Qed.

Lemma hw_eqb_fields l r : hw_eqb l r = true <->
  get_identification_strategy l = get_identification_strategy r /\ data53 l = data53 r.
Proof.
  rewrite hw_eqb_spec. destruct l as [m0 m1 m2 m3 m4 m5 m6 m7], r as [n0 n1 n2 n3 n4 n5 n6 n7]. split.
  - cbn. intros [= -> -> -> -> -> -> ->]. auto.
  - intros [S D]. assert (H : HwId NUL m1 m2 m3 m4 m5 m6 m7 = HwId NUL n1 n2 n3 n4 n5 n6 n7)
      by (apply hw_fields_inj; [reflexivity|exact D|exact S]). cbn. congruence.
Qed.

Lemma hw_eqb_equiv : (forall h, hw_eqb h h = true) /\ (forall a b, hw_eqb a b = true -> hw_eqb b a = true)
  /\ (forall a b c, hw_eqb a b = true -> hw_eqb b c = true -> hw_eqb a c = true).
Proof.
  repeat split; intros *; rewrite ?hw_eqb_spec; congruence.
Qed.

Lemma hw_print_len h s : hw_print h = Ok s -> length s = 14.
Proof.
  intros H. destruct (hw_print_format _ _ H) as [a [b [c [-> [A [B [C _]]]]]]].
  repeat (rewrite app_length; cbn [length]). lia.
Qed.

(** the three setters, from any identifier *)
Lemma hw_setters h d z b :
  (0 <= z < 8)%Z ->
  exists h', set_identification_strategy z (set_use_environment_var b (set_data d h)) = Ok h' /\
    get_identification_strategy h' = z /\ data53 h' = d7_53 d /\ N.testbit (code (byte0 h')) 6 = b /\
    (forall k, (k < 8)%N -> k <> 6%N -> N.testbit (code (byte0 h')) k = N.testbit (code (byte0 h)) k) /\
    (exists h1, set_identification_strategy z h = Ok h1 /\ h' = set_use_environment_var b (set_data d h1)) /\
    (exists h2, set_identification_strategy z (set_data d h) = Ok h2 /\ h' = set_use_environment_var b h2) /\
    h' = set_data d h'.
Proof.
  intros Hz.
  assert (N1 : z <> STRATEGY_NONE /\ z <> STRATEGY_DEFAULT).
  { unfold STRATEGY_NONE, STRATEGY_DEFAULT. lia. }
  assert (T : forall h, exists h', set_identification_strategy z h = Ok h').
  { intros [m0 m1 m2 m3 m4 m5 m6 m7]. destruct (set_strategy_spec z m0 m1 m2 m3 m4 m5 m6 m7) as [m1' [E _]]; [tauto..|]. eauto. }
  destruct (T (set_use_environment_var b (set_data d h))) as [h' E]. exists h'.
  destruct (set_strategy_fields _ _ _ E) as [B [D S]]. rewrite Z.mod_small in S by lia.
  assert (ED : forall b h, data53 (set_use_environment_var b h) = data53 h) by (intros ? []; reflexivity).
  assert (EG : forall b h, get_identification_strategy (set_use_environment_var b h) = get_identification_strategy h) by (intros ? []; reflexivity).
  destruct (set_env_bit b (set_data d h)) as [EB1 EB2].
  split; [exact E|]. split; [exact S|]. split; [rewrite D, ED, set_data_53; reflexivity|].
  split; [rewrite B; exact EB1|]. split; [intros k Hk Hn; rewrite B, EB2, set_data_byte0 by assumption; reflexivity|].
  assert (EE : forall b h h', byte0 h = byte0 h' -> byte0 (set_use_environment_var b h) = byte0 (set_use_environment_var b h')).
  { intros ? [] []; cbn. intros ->. reflexivity. }
  split; [|split].
  - destruct (T h) as [h1 E1]. exists h1. split; [exact E1|]. destruct (set_strategy_fields _ _ _ E1) as [B1 [D1 S1]].
    rewrite Z.mod_small in S1 by lia. apply hw_fields_inj.
    + rewrite B. apply EE. rewrite !set_data_byte0. congruence.
    + rewrite D, !ED, !set_data_53. reflexivity.
    + rewrite EG, set_data_strategy. congruence.
  - destruct (T (set_data d h)) as [h2 E2]. exists h2. split; [exact E2|]. destruct (set_strategy_fields _ _ _ E2) as [B2 [D2 S2]].
    rewrite Z.mod_small in S2 by lia. apply hw_fields_inj.
    + rewrite B. apply EE. congruence.
    + rewrite D, !ED. congruence.
    + rewrite EG. congruence.
  - apply hw_fields_inj; [rewrite set_data_byte0; reflexivity| |rewrite set_data_strategy; reflexivity].
    rewrite set_data_53, D, ED, set_data_53. reflexivity.
Qed.
