(** C104: numbers and flags stored in and read from an INI object. *)
From Coq Require Import Lia.
From Verif Require Import Base P_Base CTypes StringUtils Ini P_Ini Spec_Ini IniEdit Spec_IniEdit IniCalls InspectorOut Spec_Report Prop_Report
  P_IniEdit P_IniEdit3 P_IniEdit10 P_IniEdit11 P_IniDoc P_IniMem P_IniNum Prop_IniEdit Prop_IniMem.

(** a text given to a key is the text found, under any spelling of the names *)
Lemma text_found multi multiline h st sec key v comment force sec' key' :
  reached multi multiline h st -> st_multi st = false \/ force = true -> same_name sec sec' -> same_name key key' ->
  exists code st' p, set_value (Some (Given sec)) (Some (Given key)) (Some (Given v)) (given comment) force st = Ok (code, st')
    /\ get_value_at (Some (Given sec')) (Some (Given key')) None st' = Ok (Some p, false) /\ deref st' p = Ok v.
Proof.
  intros R MF HS HK. pose proof (reached_doc _ _ _ _ R) as D. set (d := snd _) in D. clearbody d.
  destruct (perform_ok (CSet sec (Some key) (Some v) comment force) st d D) as (st' & E & D'). cbn [perform given option_map] in E. apply ebind_inv in E.
  destruct E as (code & st1 & E1 & E2). injection E2 as _ <-. cbn [expect both snd] in D'.
  destruct (perform_ok (CGet (Some sec') (Some key')) st1 _ D') as (st2 & G & _). cbn [perform given option_map] in G. cbn [expect both fst] in G.
  apply ebind_inv in G. destruct G as ([p more] & st3 & G1 & G2). apply ask_is in G1. destruct G1 as [-> G1]. apply ebind_inv in G2. destruct G2 as (s & st4 & G2 & G3). apply ask_is in G2. destruct G2 as [-> G2].
  injection G3 as G3 _. rewrite <- (values_congr sec sec' key key' _ HS HK) in G3.
  assert (V : exists l, values_of sec key (set_doc sec (Some (key, v)) comment force d) = [l] /\ l_value l = v).
  { rewrite values_at, set_multi_same, lines_set_same, give_same. rewrite (sd_multi _ _ D). destruct (filter (of_key key) (lines_at sec d)) as [|a r].
    - eexists. split; [destruct (st_multi st); reflexivity|reflexivity].
    - destruct MF as [M|F].
      + rewrite M. eexists. split; reflexivity.
      + rewrite F. destruct (st_multi st); eexists; split; reflexivity. }
  destruct V as (l & V & LV). unfold set_doc in V. rewrite V, LV in G3. injection G3 as -> ->.
  destruct p as [p|]; [|discriminate]. cbn in G2. destruct (deref st1 p) as [t| | |] eqn:T; try discriminate. cbn in G2. injection G2 as ->.
  exists code, st1, p. auto.
Qed.

(** *** every long written in decimal is read back *)
Theorem C104_long : forall multi multiline h st sec key z comment force sec' key' def,
  reached multi multiline h st -> st_multi st = false \/ force = true -> same_name sec sec' -> same_name key key' ->
  (-9223372036854775808 <= z <= 9223372036854775807)%Z ->
  exists code st', set_long_value (Some (Given sec)) (Some (Given key)) z (given comment) false force st = Ok (code, st')
    /\ get_long_at (Some (Given sec')) (Some (Given key')) def st' = Ok z.
Proof.
  intros m ml h st sec key z c f s' k' def R MF HS HK Z. destruct (long_round z def Z) as [L V].
  destruct (text_found m ml h st sec key (print_long z) c f s' k' R MF HS HK) as (code & st' & p & E & G & T). exists code, st'.
  unfold set_long_value. destruct (Nat.ltb_spec 64 (length (print_long z) + 1)); [lia|]. split; [exact E|]. unfold get_long_at. rewrite G. cbn [rbind]. rewrite T. cbn [rbind]. rewrite V. reflexivity.
Qed.
(** *** written in hexadecimal, the negative ones are not: they are read as the greatest long *)
Theorem C104_hex : forall multi multiline h st sec key z comment force sec' key' def,
  reached multi multiline h st -> st_multi st = false \/ force = true -> same_name sec sec' -> same_name key key' ->
  (-9223372036854775808 <= z <= 9223372036854775807)%Z ->
  exists code st', set_long_value (Some (Given sec)) (Some (Given key)) z (given comment) true force st = Ok (code, st')
    /\ get_long_at (Some (Given sec')) (Some (Given key')) def st' = Ok (if Z.ltb z 0 then 9223372036854775807%Z else z).
Proof.
  intros m ml h st sec key z c f s' k' def R MF HS HK Z. destruct (hex_round z def) as [L V].
  destruct (text_found m ml h st sec key (print_hex z) c f s' k' R MF HS HK) as (code & st' & p & E & G & T). exists code, st'.
  unfold set_long_value. destruct (Nat.ltb_spec 64 (length (print_hex z) + 1)); [lia|]. split; [exact E|]. unfold get_long_at. rewrite G. cbn [rbind]. rewrite T. cbn [rbind]. rewrite V.
  f_equal. unfold clamp_long, LONG_MAX, LONG_MIN. destruct (Z.ltb_spec z 0).
  - replace (z mod 18446744073709551616)%Z with (z + 18446744073709551616)%Z by (symmetry; rewrite <- (Z.mod_add z 1) by lia; apply Z.mod_small; lia).
    destruct (Z.ltb_spec 9223372036854775807 (z + 18446744073709551616)); [reflexivity|lia].
  - rewrite Z.mod_small by lia. destruct (Z.ltb_spec 9223372036854775807 z); [lia|]. destruct (Z.ltb_spec z (-9223372036854775808)); [lia|reflexivity].
Qed.
(** *** a flag is read back whatever the default *)
Theorem C104_bool : forall multi multiline h st sec key b comment force sec' key' def,
  reached multi multiline h st -> st_multi st = false \/ force = true -> same_name sec sec' -> same_name key key' ->
  exists code st', set_bool_value (Some (Given sec)) (Some (Given key)) b (given comment) force st = Ok (code, st')
    /\ get_bool_at (Some (Given sec')) (Some (Given key')) def st' = Ok b.
Proof.
  intros m ml h st sec key b c f s' k' def R MF HS HK.
  destruct (text_found m ml h st sec key (if b then bs "true" else bs "false") c f s' k' R MF HS HK) as (code & st' & p & E & G & T). exists code, st'.
  split; [exact E|]. unfold get_bool_at. rewrite G. cbn [rbind]. rewrite T. cbn [rbind]. destruct b; reflexivity.
Qed.
(** The texts of a flag: by the first character, for "on" and "off" by the first two *)
Definition flag_text (s : bytes) (b : bool) : Prop :=
  exists head rest, s = head ++ rest /\
    In head (if b then [bs "t"; bs "T"; bs "y"; bs "Y"; bs "1"; bs "on"; bs "oN"; bs "On"; bs "ON"]
                  else [bs "f"; bs "F"; bs "n"; bs "N"; bs "0"; bs "of"; bs "oF"; bs "Of"; bs "OF"]).
Lemma eqb_in c l : existsb (Ascii.eqb c) l = true <-> In c l.
Proof. rewrite existsb_exists. split; [intros (x & H & E); apply Ascii.eqb_eq in E; subst; exact H|intros H; exists c; split; [exact H|apply Ascii.eqb_refl]]. Qed.
Theorem C104_flag : forall s b, bool_of s true = b /\ bool_of s false = b <-> flag_text s b.
Proof.
  intros s b. split.
  - intros [A B]. unfold flag_text. destruct s as [|c r]; [cbn in A, B; congruence|]. cbn [bool_of] in A, B.
    destruct (existsb (Ascii.eqb c) (bs "tTyY1")) eqn:E1.
    { apply eqb_in in E1. subst b. exists [c], r. split; [reflexivity|]. cbn in E1. repeat (destruct E1 as [<-|E1]; [cbn; tauto|]). destruct E1. }
    destruct (existsb (Ascii.eqb c) (bs "fFnN0")) eqn:E2.
    { apply eqb_in in E2. subst b. exists [c], r. split; [reflexivity|]. cbn in E2. repeat (destruct E2 as [<-|E2]; [cbn; tauto|]). destruct E2. }
    destruct (existsb (Ascii.eqb c) (bs "oO")) eqn:E3; [|congruence]. destruct r as [|d r]; [congruence|].
    apply eqb_in in E3. exists [c; d], r. split; [reflexivity|].
    destruct (existsb (Ascii.eqb d) (bs "nN")) eqn:E4.
    { apply eqb_in in E4. subst b. cbn in E3, E4. destruct E3 as [<-|[<-|[]]]; destruct E4 as [<-|[<-|[]]]; cbn; tauto. }
    destruct (existsb (Ascii.eqb d) (bs "fF")) eqn:E5; [|congruence].
    apply eqb_in in E5. subst b. cbn in E3, E5. destruct E3 as [<-|[<-|[]]]; destruct E5 as [<-|[<-|[]]]; cbn; tauto.
  - intros (hd & r & -> & H). destruct b; cbn in H; repeat (destruct H as [<-|H]; [split; reflexivity|]); destruct H.
Qed.

(** *** doubles *)
(** the absolute value of the double is at least / at most [n] *)
Definition at_least (x : double) (n : N) : Prop :=
  (if Z.leb 0 (db_e x) then n <= db_m x * 2 ^ Z.to_N (db_e x) else n * 2 ^ Z.to_N (- db_e x) <= db_m x)%N.
Definition at_most (x : double) (n : N) : Prop :=
  (if Z.leb 0 (db_e x) then db_m x * 2 ^ Z.to_N (db_e x) <= n else db_m x <= n * 2 ^ Z.to_N (- db_e x))%N.
(** SetDoubleValue of any number from 10^56 on writes past its buffer of 64 characters *)
Theorem C104_double_overflow : forall x sec key comment force st,
  at_least x (10 ^ 56) -> set_double_value (Some sec) (Some key) x comment force st = Undef UbWrite.
Proof.
  intros x sec key c f st H. unfold set_double_value. rewrite double_length.
  assert (M : (10 ^ 56 <= millionths x / 1000000)%N).
  { apply N.div_le_lower_bound; [lia|]. unfold at_least in H. destruct (Z.leb_spec 0 (db_e x)) as [E|E].
    - unfold millionths. destruct (Z.leb_spec 0 (db_e x)); [|lia]. rewrite N.mul_comm. apply N.mul_le_mono_r. exact H.
    - destruct (millionths_near x E) as [A _]. set (d := (2 ^ Z.to_N (- db_e x))%N) in *. assert (D : (0 < d)%N) by (assert (d <> 0)%N by (apply N.pow_nonzero; lia); lia).
      clearbody d. set (p := (10 ^ 56)%N) in *. clearbody p. set (k := millionths x) in *. clearbody k.
      assert (B : (2 * (p * d * 1000000) <= 2 * (k * d) + d)%N) by (eapply N.le_trans; [|exact A]; apply N.mul_le_mono_l, N.mul_le_mono_r; exact H).
      nia. }
  assert (L : ~ length (print_num 10 (millionths x / 1000000)) <= 56).
  { intros L. apply (numeral_length 10 _ _ 56 ltac:(lia) (print_numeral 10 _ ltac:(lia)) ltac:(lia)) in L. change (N.of_nat 56) with 56%N in L. lia. }
  destruct (Nat.ltb_spec 64 ((if db_neg x then 1 else 0) + length (print_num 10 (millionths x / 1000000)) + 7 + 1)); [reflexivity|]. destruct (db_neg x); lia.
Qed.
(** Up to 10^54 it fits: what is stored is the decimal number of six places nearest to the double *)
Definition nearest (x : double) (r : N) : Prop :=
  if Z.leb 0 (db_e x) then r = (db_m x * 2 ^ Z.to_N (db_e x) * 1000000)%N
  else (2 * (db_m x * 1000000) <= 2 * (r * 2 ^ Z.to_N (- db_e x)) + 2 ^ Z.to_N (- db_e x) /\ 2 * (r * 2 ^ Z.to_N (- db_e x)) <= 2 * (db_m x * 1000000) + 2 ^ Z.to_N (- db_e x))%N /\
    (* of two equally near the even one *)
    ((2 * (db_m x * 1000000) = 2 * (r * 2 ^ Z.to_N (- db_e x)) + 2 ^ Z.to_N (- db_e x) \/ 2 * (r * 2 ^ Z.to_N (- db_e x)) = 2 * (db_m x * 1000000) + 2 ^ Z.to_N (- db_e x))%N -> N.odd r = false).
Theorem C104_double_fits : forall multi multiline h st sec key x comment force sec' key',
  reached multi multiline h st -> st_multi st = false \/ force = true -> same_name sec sec' -> same_name key key' -> at_most x (10 ^ 54) ->
  exists code st' p i f t, set_double_value (Some (Given sec)) (Some (Given key)) x (given comment) force st = Ok (code, st')
    /\ get_value_at (Some (Given sec')) (Some (Given key')) None st' = Ok (Some p, false)
    /\ deref st' p = Ok ((if db_neg x then bs "-" else []) ++ t ++ bs "." ++ six_digits f)
    /\ numeral 10 i t /\ (f < 1000000)%N /\ nearest x (i * 1000000 + f)%N.
Proof.
  intros m ml h st sec key x c fo s' k' R MF HS HK H.
  assert (M : (millionths x / 1000000 < 10 ^ 55)%N).
  { apply N.div_lt_upper_bound; [lia|]. unfold at_most in H. replace (10 ^ 55)%N with (10 * 10 ^ 54)%N by (apply N.eqb_eq; vm_compute; reflexivity). set (p := (10 ^ 54)%N) in *. assert (P : (1 <= p)%N) by (apply N.leb_le; reflexivity). clearbody p. destruct (Z.leb_spec 0 (db_e x)) as [E|E].
    - unfold millionths. destruct (Z.leb_spec 0 (db_e x)); [|lia]. set (q := (db_m x * 2 ^ Z.to_N (db_e x))%N) in *. clearbody q. lia.
    - destruct (millionths_near x E) as [_ A]. set (d := (2 ^ Z.to_N (- db_e x))%N) in *. assert (D : (0 < d)%N) by (assert (d <> 0)%N by (apply N.pow_nonzero; lia); lia).
      clearbody d. set (k := millionths x) in *. clearbody k. nia. }
  destruct (text_found m ml h st sec key (print_double x) c fo s' k' R MF HS HK) as (code & st' & p & E & G & T).
  exists code, st', p, (millionths x / 1000000)%N, (millionths x mod 1000000)%N, (print_num 10 (millionths x / 1000000)).
  assert (L : length (print_num 10 (millionths x / 1000000)) <= 55).
  { apply (numeral_length 10 _ _ 55 ltac:(lia) (print_numeral 10 _ ltac:(lia)) ltac:(lia)). exact M. }
  split; [unfold set_double_value; rewrite double_length; destruct (Nat.ltb_spec 64 ((if db_neg x then 1 else 0) + length (print_num 10 (millionths x / 1000000)) + 7 + 1)); [destruct (db_neg x); lia|exact E]|].
  split; [exact G|]. split; [exact T|]. split; [apply print_numeral; lia|]. split; [apply N.mod_lt; lia|].
  rewrite N.mul_comm, <- N.div_mod by lia. unfold nearest. destruct (Z.leb_spec 0 (db_e x)) as [EX|EX].
  - unfold millionths. destruct (Z.leb_spec 0 (db_e x)); [reflexivity|lia].
  - split; [apply millionths_near; exact EX|apply millionths_even; exact EX].
Qed.

(** concrete values: -42, the least long, -1 in hexadecimal, 0.3 as a double, and 10^60 *)
Definition sec_a : option ptr := Some (Given (bs "a")).
Definition key_k : option ptr := Some (Given (bs "k")).
Example C104_example : exists st1 st2 st3,
  set_long_value sec_a key_k (-42) None false true (new_store false false) = Ok (SI_INSERTED, st1) /\ get_long_at sec_a key_k 0 st1 = Ok (-42)%Z /\
  set_long_value sec_a key_k (-1) None true true st1 = Ok (SI_UPDATED, st2) /\ get_long_at sec_a key_k 0 st2 = Ok 9223372036854775807%Z /\
  set_double_value sec_a key_k {| db_neg := true; db_m := 5404319552844595; db_e := -54 |} None true st2 = Ok (SI_UPDATED, st3) /\
  perform (CGet (Some (bs "A")) (Some (bs "K"))) st3 = Ok (Value (Some (bs "-0.300000")) false, st3).
Proof. eexists _, _, _. do 5 (refine (conj _ _); [vm_compute; reflexivity|]). vm_compute. reflexivity. Qed.
Example C104_example_big : at_least {| db_neg := false; db_m := 5608405476235337; db_e := 147 |} (10 ^ 60)%N /\
  set_double_value sec_a key_k {| db_neg := false; db_m := 5608405476235337; db_e := 147 |} None true (new_store false false) = Undef UbWrite.
Proof. split; [apply N.leb_le; vm_compute; reflexivity|vm_compute; reflexivity]. Qed.
