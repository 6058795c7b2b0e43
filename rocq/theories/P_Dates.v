From Verif Require Import Base CTypes Dates P_Base Spec_Dates.

Lemma digit_iff c : isdigit c = true <-> (48 <= Z.of_N (N_of_ascii c) <= 57)%Z.
Proof. unfold isdigit, code. rewrite andb_true_iff, !N.leb_le. lia. Qed.
Lemma digit_plain c : isdigit c = true -> isspace c = false /\ Ascii.eqb c "-"%char = false /\ Ascii.eqb c "+"%char = false /\ nonnul c = true.
Proof.
  assert (H : forall c, negb (isdigit c) || (negb (isspace c) && negb (Ascii.eqb c "-"%char) && negb (Ascii.eqb c "+"%char) && nonnul c) = true) by (apply byte_sweep; vm_compute; reflexivity).
  intros E. specialize (H c). rewrite E in H. cbn [negb orb] in H. rewrite !andb_true_iff, !negb_true_iff in H. tauto.
Qed.

Lemma take_digits_spec s rest acc : all_digits s -> take_digits (length s) (s ++ rest) acc = (decimal_from acc s, length s, rest).
Proof.
  intros F. revert acc; induction F as [|c s Hc F IH]; intros acc; [cbn; destruct rest; reflexivity|].
  cbn [length app take_digits decimal_from]. rewrite (proj2 (digit_iff c) Hc). unfold code.
  replace (acc * 10 + Z.of_N (N_of_ascii c - 48))%Z with (10 * acc + (Z.of_N (N_of_ascii c) - 48))%Z by lia.
  rewrite IH. reflexivity.
Qed.
Lemma scan_int_spec s rest : all_digits s -> s <> [] -> scan_int (length s) (s ++ rest) = Some (decimal s, rest).
Proof.
  intros F Hne. unfold scan_int. destruct s as [|c s]; [congruence|].
  assert (Hd : isdigit c = true) by (apply digit_iff; inversion F; assumption).
  destruct (digit_plain c Hd) as [H1 [H2 [H3 _]]]. cbn [app drop_while]. rewrite H1, H2, H3.
  rewrite (take_digits_spec (c :: s) rest 0%Z F : take_digits (length (c :: s)) (c :: s ++ rest) 0 = _). reflexivity.
Qed.
Lemma digits_nul_free s : all_digits s -> nul_free s.
Proof. unfold nul_free. induction 1 as [|c s H F IH]; [reflexivity|]. cbn [forallb]. apply digit_iff, digit_plain in H as [_ [_ [_ ->]]]. exact IH. Qed.

Lemma parse_plain y m d : all_digits y -> all_digits m -> all_digits d -> length y = 4 -> length m = 2 -> length d = 2 ->
  parse_date (y ++ m ++ d) = Ok (decimal y, decimal m, decimal d).
Proof.
  intros Fy Fm Fd Ly Lm Ld. unfold parse_date. rewrite !app_length, Ly, Lm, Ld. cbn [Nat.add Nat.eqb].
  rewrite cstr_id. 2: { unfold nul_free. rewrite !forallb_app, !digits_nul_free by assumption. reflexivity. }
  unfold scan_plain. rewrite <- Ly, scan_int_spec by (assumption || (intros ->; discriminate)). cbn [obind].
  rewrite <- Lm, scan_int_spec by (assumption || (intros ->; discriminate)). cbn [obind].
  rewrite Lm, <- Ld. rewrite <- (app_nil_r d) at 2. rewrite scan_int_spec by (assumption || (intros ->; discriminate)). reflexivity.
Qed.
Lemma scan_sep_spec sep y m d : all_digits y -> all_digits m -> all_digits d -> length y = 4 -> length m = 2 -> length d = 2 ->
  scan_sep sep (y ++ sep :: m ++ sep :: d) = Some (decimal y, decimal m, decimal d).
Proof.
  intros Fy Fm Fd Ly Lm Ld. unfold scan_sep. rewrite <- Ly, scan_int_spec by (assumption || (intros ->; discriminate)). cbn [obind scan_lit].
  rewrite Ascii.eqb_refl. cbn [obind]. rewrite <- Lm, scan_int_spec by (assumption || (intros ->; discriminate)). cbn [obind scan_lit].
  rewrite Ascii.eqb_refl. cbn [obind]. rewrite Lm, <- Ld. rewrite <- (app_nil_r d) at 2. rewrite scan_int_spec by (assumption || (intros ->; discriminate)). reflexivity.
Qed.
Lemma scan_sep_other sep sep' y r : all_digits y -> length y = 4 -> Ascii.eqb sep' sep = false -> scan_sep sep (y ++ sep' :: r) = None.
Proof.
  intros Fy Ly Hs. unfold scan_sep. rewrite <- Ly, scan_int_spec by (assumption || (intros ->; discriminate)). cbn [obind scan_lit]. rewrite Hs. reflexivity.
Qed.
Lemma parse_sep sep y m d : sep = "-"%char \/ sep = "/"%char -> all_digits y -> all_digits m -> all_digits d -> length y = 4 -> length m = 2 -> length d = 2 ->
  parse_date (y ++ sep :: m ++ sep :: d) = Ok (decimal y, decimal m, decimal d).
Proof.
  intros Hs Fy Fm Fd Ly Lm Ld. unfold parse_date. rewrite !app_length. cbn [length]. rewrite app_length. cbn [length]. rewrite Ly, Lm, Ld. cbn [Nat.add Nat.eqb].
  rewrite cstr_id. 2: { unfold nul_free. rewrite forallb_app. cbn [forallb]. rewrite forallb_app. cbn [forallb]. rewrite !digits_nul_free by assumption. destruct Hs as [->| ->]; reflexivity. }
  destruct Hs as [->| ->].
  - rewrite scan_sep_spec by assumption. reflexivity.
  - rewrite (scan_sep_other "-" "/") by (assumption || reflexivity). rewrite scan_sep_spec by assumption. reflexivity.
Qed.
Lemma parse_length s : length s <> 8 -> length s <> 10 -> parse_date s = Throw ExInvalidArg.
Proof. intros H8 H10. unfold parse_date. destruct (Nat.eqb_spec (length s) 8); [congruence|]. destruct (Nat.eqb_spec (length s) 10); [congruence|reflexivity]. Qed.
Lemma parse_outcome s : parse_date s = Throw ExInvalidArg \/ exists d, parse_date s = Ok d.
Proof.
  unfold parse_date. destruct (Nat.eqb _ 8); [destruct (scan_plain _); eauto|]. destruct (Nat.eqb _ 10); [|auto].
  destruct (scan_sep "-" _); [eauto|]. destruct (scan_sep "/" _); eauto.
Qed.

(** ** the calendar *)
Local Open Scope Z_scope.
Lemma leap_dec y : {leap y} + {~ leap y}.
Proof.
  unfold leap. destruct (Z.eq_dec (y mod 4) 0); [|right; tauto]. destruct (Z.eq_dec (y mod 100) 0); [|left; tauto].
  destruct (Z.eq_dec (y mod 400) 0); [left; tauto|right; tauto].
Qed.
Lemma month_range y m n : month_length y m n -> 1 <= m <= 12 /\ 28 <= n <= 31.
Proof. destruct 1 as [y m H|y m H| |]; cbn in H; lia. Qed.

Definition first_of (y m : Z) : Z := days_from_civil (y + (m - 1) / 12) ((m - 1) mod 12 + 1) 1.
Lemma utc_first y m d : mktime_utc y m d = 86400 * (first_of y m + (d - 1)).
Proof. reflexivity. Qed.

Lemma leap_step y : y / 4 - y / 100 + y / 400 - ((y - 1) / 4 - (y - 1) / 100 + (y - 1) / 400) = if leap_dec y then 1 else 0.
Proof.
  destruct (leap_dec y) as [H|H]; unfold leap in H.
  - Z.to_euclidean_division_equations. lia.
  - assert (y mod 4 <> 0 \/ y mod 100 = 0 /\ y mod 400 <> 0) as H' by lia. clear H. Z.to_euclidean_division_equations. lia.
Qed.
Ltac eval_const :=
  repeat match goal with
  | |- context [Z.leb ?a 2] => let v := eval vm_compute in (Z.leb a 2) in change (Z.leb a 2) with v
  | |- context [(153 * ?b + 2) / 5] => let v := eval vm_compute in ((153 * b + 2) / 5) in change ((153 * b + 2) / 5) with v
  end; cbv iota.
Lemma first_next y m n : month_length y m n -> m < 12 -> first_of y (m + 1) = first_of y m + n.
Proof.
  intros H Hm. unfold first_of.
  assert (E : forall k, 1 <= k <= 12 -> days_from_civil (y + (k - 1) / 12) ((k - 1) mod 12 + 1) 1 = days_from_civil y k 1).
  { intros k Hk. rewrite Z.div_small, Z.mod_small by lia. f_equal; lia. }
  pose proof (month_range _ _ _ H). rewrite !E by lia. clear E.
  destruct H as [y m Hin|y m Hin|y Hl|y Hl].
  1: assert (m = 1 \/ m = 3 \/ m = 5 \/ m = 7 \/ m = 8 \/ m = 10) as C by (cbn in Hin; lia).
  2: assert (m = 4 \/ m = 6 \/ m = 9 \/ m = 11) as C by (cbn in Hin; lia).
  1,2: repeat destruct C as [->|C]; try subst m; unfold days_from_civil; eval_const; lia.
  all: pose proof (leap_step y) as Hs; destruct (leap_dec y); try contradiction; unfold days_from_civil;
    change (2 + 1 <=? 2) with false; change (2 <=? 2) with true; change ((2 + 1 + 9) mod 12) with 0; change ((2 + 9) mod 12) with 11;
    change ((153 * 0 + 2) / 5) with 0; change ((153 * 11 + 2) / 5) with 337; cbv iota; lia.
Qed.
Lemma first_year y : first_of (y + 1) 1 = first_of y 12 + 31.
Proof.
  unfold first_of. change ((1 - 1) / 12) with 0. change ((12 - 1) / 12) with 0. change ((1 - 1) mod 12 + 1) with 1. change ((12 - 1) mod 12 + 1) with 12.
  rewrite !Z.add_0_r. unfold days_from_civil. change (1 <=? 2) with true. change (12 <=? 2) with false. cbv iota.
  change ((153 * ((1 + 9) mod 12) + 2) / 5) with 306. change ((153 * ((12 + 9) mod 12) + 2) / 5) with 275.
  replace (y + 1 - 1) with y by lia. lia.
Qed.
Lemma utc_epoch : mktime_utc 1970 1 1 = 0.
Proof. reflexivity. Qed.
Lemma utc_next a b : next_day a b -> let '(y, m, d) := a in let '(y', m', d') := b in mktime_utc y' m' d' = mktime_utc y m d + 86400.
Proof.
  destruct 1 as [y m d n H Hd|y m n H Hm|y]; rewrite !utc_first.
  - lia.
  - rewrite (first_next _ _ _ H Hm). lia.
  - rewrite first_year. lia.
Qed.

(** months counted from year 0 *)
Definition month_no (y m : Z) : Z := 12 * y + (m - 1).
Definition first_no (k : Z) : Z := first_of (k / 12) (k mod 12 + 1).
Lemma first_no_eq y m : 1 <= m <= 12 -> first_no (month_no y m) = first_of y m.
Proof.
  intros H. unfold first_no, month_no. replace ((12 * y + (m - 1)) / 12) with y by (apply (Z.div_unique _ _ _ (m - 1)); lia).
  replace ((12 * y + (m - 1)) mod 12) with (m - 1) by (apply (Z.mod_unique _ _ y); lia). f_equal; lia.
Qed.
Lemma month_length_ex y m : 1 <= m <= 12 -> exists n, month_length y m n.
Proof.
  intros H. assert (m = 1 \/ m = 2 \/ m = 3 \/ m = 4 \/ m = 5 \/ m = 6 \/ m = 7 \/ m = 8 \/ m = 9 \/ m = 10 \/ m = 11 \/ m = 12) as C by lia.
  destruct (Z.eq_dec m 2) as [->|]; [destruct (leap_dec y); [exists 29|exists 28]; constructor; assumption|].
  repeat destruct C as [->|C]; try subst m; try congruence; first [exists 31; apply ml_31; cbn; tauto|exists 30; apply ml_30; cbn; tauto].
Qed.
Lemma month_length_fun y m n n' : month_length y m n -> month_length y m n' -> n = n'.
Proof. intros H H'. destruct H as [y m H|y m H| |]; inversion H' as [? ? H2|? ? H2| |]; subst; cbn in *; try contradiction; try reflexivity; lia. Qed.
Lemma first_no_step k : exists n, month_length (k / 12) (k mod 12 + 1) n /\ first_no (k + 1) = first_no k + n.
Proof.
  assert (Hr : 0 <= k mod 12 < 12) by (apply Z.mod_pos_bound; lia).
  destruct (month_length_ex (k / 12) (k mod 12 + 1)) as [n Hn]; [lia|]. exists n. split; [exact Hn|]. unfold first_no.
  destruct (Z.eq_dec (k mod 12) 11) as [E|E].
  - assert ((k + 1) / 12 = k / 12 + 1 /\ (k + 1) mod 12 = 0) as [-> ->] by (Z.to_euclidean_division_equations; lia).
    rewrite E in *. change (0 + 1) with 1. change (11 + 1) with 12 in *. rewrite first_year.
    assert (n = 31) as -> by (eapply month_length_fun; [exact Hn|constructor; cbn; tauto]). reflexivity.
  - assert ((k + 1) / 12 = k / 12 /\ (k + 1) mod 12 = k mod 12 + 1) as [-> ->] by (Z.to_euclidean_division_equations; lia).
    apply first_next; [exact Hn|lia].
Qed.
Lemma first_no_mono k j : first_no k <= first_no (k + Z.of_nat j).
Proof.
  induction j as [|j IH]; [rewrite Z.add_0_r; lia|]. replace (k + Z.of_nat (S j)) with (k + Z.of_nat j + 1) by lia.
  destruct (first_no_step (k + Z.of_nat j)) as [n [Hn E]]. apply month_range in Hn. lia.
Qed.
Lemma utc_mono y m d y' m' d' : valid_date y m d -> valid_date y' m' d' -> earlier (y, m, d) (y', m', d') -> mktime_utc y m d < mktime_utc y' m' d'.
Proof.
  intros [n [Hn Hd]] [n' [Hn' Hd']] H. rewrite !utc_first. pose proof (month_range _ _ _ Hn). pose proof (month_range _ _ _ Hn'). cbn in H.
  rewrite <- !first_no_eq by lia. destruct (Z.eq_dec (month_no y m) (month_no y' m')) as [E|E].
  - rewrite E. unfold month_no in E. assert (y = y' /\ m = m') as [-> ->] by lia. lia.
  - assert (L : month_no y m + 1 <= month_no y' m') by (unfold month_no in *; lia).
    destruct (first_no_step (month_no y m)) as [k [Hk Ek]].
    assert (k = n) as ->.
    { eapply month_length_fun; [exact Hk|]. unfold month_no. replace ((12 * y + (m - 1)) / 12) with y by (apply (Z.div_unique _ _ _ (m - 1)); lia).
      replace ((12 * y + (m - 1)) mod 12 + 1) with m; [exact Hn|]. rewrite <- (Z.mod_unique (12 * y + (m - 1)) 12 y (m - 1)); lia. }
    pose proof (first_no_mono (month_no y m + 1) (Z.to_nat (month_no y' m' - (month_no y m + 1)))) as M.
    rewrite Z2Nat.id in M by lia. replace (month_no y m + 1 + (month_no y' m' - (month_no y m + 1))) with (month_no y' m') in M by lia. lia.
Qed.
