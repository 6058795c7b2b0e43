(** Numbers written by SetLongValue and SetDoubleValue and read by GetLongValue. *)
From Coq Require Import Lia.
From Verif Require Import Base P_Base CTypes StringUtils Ini InspectorOut Spec_Report Prop_Report P_Acquire1 IniEdit.

Lemma figure_val d : (d < 16)%N -> digit_val (figure d) = Some d.
Proof. intros H. destruct d as [|[[[[|[]|]|[[]|[]|]|]|[[[]|[]|]|[[]|[]|]|]|]|[[[[]|[]|]|[[]|[]|]|]|[[[]|[]|]|[[]|[]|]|]|]|]]; try reflexivity; lia. Qed.
Lemma figure_plain d : (d < 16)%N -> isspace (figure d) = false /\ Ascii.eqb (figure d) "-" = false /\ Ascii.eqb (figure d) "+" = false /\ Ascii.eqb (figure d) "x" = false /\ Ascii.eqb (figure d) "X" = false.
Proof. intros H. destruct d as [|[[[[|[]|]|[[]|[]|]|]|[[[]|[]|]|[[]|[]|]|]|]|[[[[]|[]|]|[[]|[]|]|]|[[[]|[]|]|[[]|[]|]|]|]|]]; try (repeat split; reflexivity); lia. Qed.
Lemma digits_figures b ds : (b <= 16)%N -> Forall (fun d => d < b)%N ds -> forall acc, digits b (map figure ds) acc = (fold_left (fun a d => a * b + d)%N ds acc, []).
Proof.
  intros B. induction 1 as [|d ds H _ IH]; intros acc; [reflexivity|]. cbn [map digits]. rewrite figure_val by lia. destruct (N.ltb_spec d b); [|lia]. apply IH.
Qed.
Definition sign_part (s : bytes) : bool * bytes :=
  match s with
  | c :: r => if Ascii.eqb c "-"%char then (true, r) else if Ascii.eqb c "+"%char then (false, r) else (false, s)
  | [] => (false, s)
  end.
Definition number_part (base : N) (neg : bool) (s3 s : bytes) : Z * bytes :=
  match s3 with
  | c :: _ => if is_base_digit base c then let '(v, rest) := digits base s3 0%N in (clamp_long (if neg then - Z.of_N v else Z.of_N v)%Z, rest) else (0%Z, s)
  | [] => (0%Z, s)
  end.
Lemma strtol_parts b s : strtol b s = number_part b (fst (sign_part (drop_while isspace s))) (num_part b (snd (sign_part (drop_while isspace s)))) s.
Proof. unfold strtol. cbv zeta. fold (sign_part (drop_while isspace s)). destruct (sign_part (drop_while isspace s)) as [neg s2]. reflexivity. Qed.
(** strtol on a numeral, with or without a minus *)
Lemma strtol_numeral b n s (neg : bool) : (2 <= b <= 16)%N -> numeral b n s ->
  strtol b ((if neg then bs "-" else []) ++ s) = (clamp_long (if neg then - Z.of_N n else Z.of_N n)%Z, []).
Proof.
  intros B (ds & NE & F & _ & E & ->). change (map (fun d => nth (N.to_nat d) (bs "0123456789abcdef") NUL) ds) with (map figure ds).
  destruct ds as [|d ds]; [congruence|]. pose proof (Forall_inv F) as Hd. cbv beta in Hd. destruct (figure_plain d ltac:(lia)) as (P1 & P2 & P3 & _).
  assert (S3 : num_part b (map figure (d :: ds)) = map figure (d :: ds)).
  { destruct ds as [|x ds]; [reflexivity|]. destruct ds as [|y ds]; [reflexivity|]. cbn [map num_part]. pose proof (Forall_inv (Forall_inv_tail F)) as Hx. cbv beta in Hx.
    destruct (figure_plain x ltac:(lia)) as (_ & _ & _ & -> & ->). rewrite andb_false_r. reflexivity. }
  assert (BD : is_base_digit b (figure d) = true).
  { unfold is_base_digit. rewrite figure_val by lia. apply N.ltb_lt. exact Hd. }
  assert (D0 := digits_figures b (d :: ds) ltac:(lia) F 0%N). rewrite E in D0.
  assert (SG : sign_part (drop_while isspace ((if neg then bs "-" else []) ++ map figure (d :: ds))) = (neg, map figure (d :: ds))).
  { destruct neg; [reflexivity|]. cbn [app map drop_while]. rewrite P1. cbn [sign_part]. rewrite P2, P3. reflexivity. }
  rewrite strtol_parts, SG. cbn [fst snd]. rewrite S3. unfold number_part. cbn [map] in D0 |- *. rewrite BD, D0. reflexivity.
Qed.
(** length of a numeral *)
Lemma fold_ge b ds : (2 <= b)%N -> forall acc, (acc * b ^ N.of_nat (length ds) <= fold_left (fun a d => a * b + d)%N ds acc)%N.
Proof.
  intros B. induction ds as [|d ds IH]; intros acc; [cbn; lia|]. cbn [fold_left length]. specialize (IH (acc * b + d)%N).
  replace (N.of_nat (S (length ds))) with (N.succ (N.of_nat (length ds))) by lia. rewrite N.pow_succ_r'. nia.
Qed.
Lemma fold_lt b ds : (2 <= b)%N -> Forall (fun d => d < b)%N ds -> forall acc, (fold_left (fun a d => a * b + d)%N ds acc < (acc + 1) * b ^ N.of_nat (length ds))%N.
Proof.
  intros B. induction 1 as [|d ds H _ IH]; intros acc; [cbn; lia|]. cbn [fold_left length]. specialize (IH (acc * b + d)%N).
  replace (N.of_nat (S (length ds))) with (N.succ (N.of_nat (length ds))) by lia. rewrite N.pow_succ_r'.
  eapply N.lt_le_trans; [exact IH|]. replace ((acc + 1) * (b * b ^ N.of_nat (length ds)))%N with (((acc + 1) * b) * b ^ N.of_nat (length ds))%N by lia.
  apply N.mul_le_mono_r. lia.
Qed.
Lemma numeral_length b n s k : (2 <= b)%N -> numeral b n s -> k <> 0 -> length s <= k <-> (n < b ^ N.of_nat k)%N.
Proof.
  intros B (ds & NE & F & H0 & E & ->) K. rewrite map_length. split.
  - intros L. subst n. eapply N.lt_le_trans; [apply fold_lt; assumption|]. rewrite N.mul_1_l. apply N.pow_le_mono_r; lia.
  - intros L. destruct (Nat.le_gt_cases (length ds) k) as [G|G]; [exact G|]. exfalso. destruct ds as [|d ds]; [cbn in G; lia|]. cbn [fold_left length] in *.
    destruct (N.eq_dec d 0) as [->|ND]; [pose proof (H0 eq_refl) as X; injection X as ->; cbn in G; lia|].
    pose proof (fold_ge b ds B (0 * b + d)%N) as GE. rewrite E in GE.
    assert (P : (b ^ N.of_nat k <= b ^ N.of_nat (length ds))%N) by (apply N.pow_le_mono_r; lia). nia.
Qed.

Lemma long_text v def : v <> [] -> length v <= 63 -> (match v with _ :: x :: _ => Ascii.eqb x "x" = false /\ Ascii.eqb x "X" = false | _ => True end) ->
  long_of (Some v) def = let '(n, suf) := strtol 10 v in match suf with [] => n | _ => def end.
Proof.
  intros NE L X. unfold long_of. destruct v as [|z r]; [congruence|]. destruct (Nat.ltb_spec 64 (length (z :: r) + 1)); [lia|]. destruct r as [|x r]; [reflexivity|].
  destruct X as [-> ->]. rewrite andb_false_r. reflexivity.
Qed.
Lemma second_char b n s : (b <= 16)%N -> numeral b n s -> match s with x :: _ => Ascii.eqb x "x" = false /\ Ascii.eqb x "X" = false | [] => False end.
Proof.
  intros B (ds & NE & F & _ & _ & ->). destruct ds as [|d ds]; [congruence|]. cbn. pose proof (Forall_inv F) as H. cbv beta in H. destruct (figure_plain d ltac:(lia)) as (_ & _ & _ & A & C). split; [exact A|exact C].
Qed.
Lemma tail_char b n s : (b <= 16)%N -> numeral b n s -> match s with _ :: x :: _ => Ascii.eqb x "x" = false /\ Ascii.eqb x "X" = false | _ => True end.
Proof.
  intros B (ds & NE & F & _ & _ & ->). destruct ds as [|d [|e ds]]; [congruence|exact I|]. cbn. pose proof (Forall_inv (Forall_inv_tail F)) as H. cbv beta in H. destruct (figure_plain e ltac:(lia)) as (_ & _ & _ & A & C). split; [exact A|exact C].
Qed.
Lemma long_round z def : (LONG_MIN <= z <= LONG_MAX)%Z -> length (print_long z) <= 20 /\ long_of (Some (print_long z)) def = z.
Proof.
  unfold LONG_MIN, LONG_MAX. intros H.
  assert (X : exists neg n s, print_long z = (if neg : bool then bs "-" else []) ++ s /\ numeral 10 n s /\ z = (if neg then - Z.of_N n else Z.of_N n)%Z).
  { unfold print_long. destruct (Z.ltb_spec z 0).
    - exists true, (Z.to_N (- z)), (print_num 10 (Z.to_N (- z))). split; [reflexivity|]. split; [apply print_numeral; lia|lia].
    - exists false, (Z.to_N z), (print_num 10 (Z.to_N z)). split; [reflexivity|]. split; [apply print_numeral; lia|lia]. }
  destruct X as (neg & n & s & -> & N & E).
  assert (L : length s <= 19) by (apply (numeral_length 10 n s 19); [lia|exact N|lia|change (10 ^ N.of_nat 19)%N with 10000000000000000000%N; destruct neg; lia]).
  assert (LT : length ((if neg then bs "-" else []) ++ s) <= 20) by (rewrite app_length; destruct neg; cbn [length]; change (length (bs "-")) with 1; lia).
  split; [exact LT|]. rewrite long_text.
  - rewrite (strtol_numeral 10 n s neg ltac:(lia) N). rewrite <- E. unfold clamp_long, LONG_MAX, LONG_MIN. destruct (Z.ltb_spec 9223372036854775807 z); [lia|]. destruct (Z.ltb_spec z (-9223372036854775808)); [lia|reflexivity].
  - pose proof (second_char 10 n s ltac:(lia) N). destruct s; [contradiction|]. destruct neg; discriminate.
  - lia.
  - destruct neg; cbn [app]; [pose proof (second_char 10 n s ltac:(lia) N); destruct s; [contradiction|exact H0]|apply (tail_char 10 n s ltac:(lia) N)].
Qed.
Lemma hex_round z def : length (print_hex z) <= 18 /\ long_of (Some (print_hex z)) def = clamp_long (z mod 18446744073709551616).
Proof.
  unfold print_hex. set (u := (z mod 18446744073709551616)%Z). assert (U : (0 <= u < 18446744073709551616)%Z) by (apply Z.mod_pos_bound; lia). clearbody u.
  pose proof (print_numeral 16 (Z.to_N u) ltac:(lia)) as N. set (s := print_num 16 (Z.to_N u)) in *. clearbody s.
  assert (L : length s <= 16) by (apply (numeral_length 16 (Z.to_N u) s 16); [lia|exact N|lia|change (16 ^ N.of_nat 16)%N with 18446744073709551616%N; lia]).
  change (bs "0x" ++ s) with ("0"%char :: "x"%char :: s). split; [cbn [length]; lia|].
  unfold long_of. destruct (Nat.ltb_spec 64 (length ("0"%char :: "x"%char :: s) + 1)) as [C|_]; [cbn [length] in C; lia|].
  change (Ascii.eqb "0" "0" && (Ascii.eqb "x" "x" || Ascii.eqb "x" "X")) with true. cbv iota.
  pose proof (strtol_numeral 16 (Z.to_N u) s false ltac:(lia) N) as ST. cbn [app] in ST.
  destruct s as [|c s]; [destruct N as (ds & NE & _ & _ & _ & X); destruct ds; [congruence|discriminate]|]. rewrite ST. rewrite Z2N.id by lia. reflexivity.
Qed.

(** * Doubles *)
Lemma six_length n : length (six_digits n) = 6.
Proof. reflexivity. Qed.
Lemma double_length x : length (print_double x) = (if db_neg x then 1 else 0) + length (print_num 10 (millionths x / 1000000)) + 7.
Proof. unfold print_double. rewrite !app_length, six_length. change (length (bs ".")) with 1. destruct (db_neg x); [change (length (bs "-")) with 1|change (length (@nil ascii)) with 0]; lia. Qed.
Lemma millionths_near x : let d := (2 ^ Z.to_N (- db_e x))%N in (db_e x < 0)%Z ->
  (2 * (db_m x * 1000000) <= 2 * (millionths x * d) + d /\ 2 * (millionths x * d) <= 2 * (db_m x * 1000000) + d)%N.
Proof.
  intros d E. unfold millionths. destruct (Z.leb_spec 0 (db_e x)); [lia|]. fold d. cbv zeta.
  assert (D : (d <> 0)%N) by (apply N.pow_nonzero; lia). pose proof (N.div_mod (db_m x * 1000000) d D) as DM. pose proof (N.mod_lt (db_m x * 1000000) d D) as ML.
  set (q := (db_m x * 1000000 / d)%N) in *. set (r := ((db_m x * 1000000) mod d)%N) in *. clearbody q r d.
  destruct (N.ltb_spec d (2 * r)); cbn [orb].
  - rewrite DM. nia.
  - destruct (N.eqb_spec (2 * r) d); cbn [andb]; [destruct (N.odd q); rewrite DM; nia|rewrite DM; nia].
Qed.
(** a tie goes to the even one *)
Lemma millionths_even x : let d := (2 ^ Z.to_N (- db_e x))%N in (db_e x < 0)%Z ->
  (2 * (db_m x * 1000000) = 2 * (millionths x * d) + d \/ 2 * (millionths x * d) = 2 * (db_m x * 1000000) + d)%N -> N.odd (millionths x) = false.
Proof.
  intros d E. unfold millionths. destruct (Z.leb_spec 0 (db_e x)); [lia|]. fold d. cbv zeta.
  assert (D : (d <> 0)%N) by (apply N.pow_nonzero; lia). pose proof (N.div_mod (db_m x * 1000000) d D) as DM. pose proof (N.mod_lt (db_m x * 1000000) d D) as ML.
  set (q := (db_m x * 1000000 / d)%N) in *. set (r := ((db_m x * 1000000) mod d)%N) in *. clearbody q r d. rewrite DM.
  destruct (N.ltb_spec d (2 * r)); cbn [orb].
  - intros [T|T]; exfalso; nia.
  - destruct (N.eqb_spec (2 * r) d); cbn [andb]; [|intros [T|T]; exfalso; nia].
    destruct (N.odd q) eqn:O; intros _; [|exact O]. replace (q + 1)%N with (N.succ q) by lia. rewrite N.odd_succ, <- N.negb_odd, O. reflexivity.
Qed.
