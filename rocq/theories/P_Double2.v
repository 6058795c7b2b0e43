(** Rounding to the nearest double, with rational numbers. *)
From Coq Require Import Lia QArith Qabs Qpower Qfield.
From Verif Require Import Base IniEdit StrToD Spec_Double P_Double1.
Local Open Scope Q_scope.

Lemma pow_nat (r k : N) : inject_Z (Z.of_N r) ^ Z.of_N k == inject_Z (Z.of_N (r ^ k)).
Proof.
  rewrite N2Z.inj_pow. rewrite <- (Zpower_Qpower (Z.of_N r) (Z.of_N k)) by apply N2Z.is_nonneg. reflexivity.
Qed.
Definition unit_ : Q := inject_Z (2 ^ 1074).
Lemma unit_pos : 0 < unit_.
Proof. unfold unit_. change 0 with (inject_Z 0). rewrite <- Zlt_Qlt. apply Z.pow_pos_nonneg; [reflexivity|discriminate]. Qed.
(** in units of 2 ^ -1074 *)
Definition units (x : double) : N := (db_m x * 2 ^ Z.to_N (db_e x + 1074))%N.
Lemma mag_units x : (-1074 <= db_e x)%Z -> magnitude x * unit_ == inject_Z (Z.of_N (units x)).
Proof.
  intros E. unfold magnitude, unit_, units. rewrite (Zpower_Qpower 2 1074) by discriminate. change (inject_Z 2) with 2.
  rewrite <- Qmult_assoc, <- Qpower_plus by (intros H; discriminate H). rewrite N2Z.inj_mul, inject_Z_mult, N2Z.inj_pow, Z2N.id by lia.
  rewrite (Zpower_Qpower (Z.of_N 2)) by lia. reflexivity.
Qed.
Lemma inject_abs z : Qabs (inject_Z z) == inject_Z (Z.abs z).
Proof. reflexivity. Qed.
Lemma scaled n d q x : (0 < d)%N -> q * inject_Z (Z.of_N d) == inject_Z (Z.of_N n) -> (-1074 <= db_e x)%Z ->
  Qabs (q - magnitude x) * (inject_Z (Z.of_N d) * unit_) == inject_Z (Z.abs (Z.of_N (n * 2 ^ 1074) - Z.of_N (d * units x))).
Proof.
  intros D H E. assert (P : 0 < inject_Z (Z.of_N d) * unit_).
  { apply Qmult_lt_0_compat; [change 0 with (inject_Z 0); rewrite <- Zlt_Qlt; lia|apply unit_pos]. }
  rewrite <- (Qabs_pos (inject_Z (Z.of_N d) * unit_)) by (apply Qlt_le_weak; exact P). rewrite <- Qabs_Qmult, <- inject_abs. apply Qabs_wd.
  unfold Zminus. rewrite inject_Z_plus, inject_Z_opp. rewrite !N2Z.inj_mul, !inject_Z_mult. rewrite <- H. rewrite <- (mag_units x E).
  replace (inject_Z (Z.of_N (2 ^ 1074))) with unit_ by (unfold unit_; rewrite N2Z.inj_pow; reflexivity). ring.
Qed.
Lemma scale_le k a b : 0 < k -> (a <= b <-> a * k <= b * k).
Proof. intros K. symmetry. apply Qmult_le_r. exact K. Qed.
Lemma scale_eq k a b : 0 < k -> (a == b <-> a * k == b * k).
Proof.
  intros K. split; intros H; [rewrite H; reflexivity|]. apply (Qmult_inj_r a b k); [|exact H]. intros Z. rewrite Z in K. discriminate K.
Qed.

(** the number n / d *)
Lemma nearest_rounded neg n d q : (0 < d)%N -> q * inject_Z (Z.of_N d) == inject_Z (Z.of_N n) ->
  stands_for neg q (match nearest_double n d with Some (m, s) => Num {| db_neg := neg; db_m := m; db_e := Z.of_N s - 1074 |} | None => Infinite neg end).
Proof.
  intros D H. destruct (nearest_spec n d D) as (m & s & E & M & NF & OV & NEAR). rewrite E.
  assert (P : 0 < inject_Z (Z.of_N d) * unit_).
  { apply Qmult_lt_0_compat; [change 0 with (inject_Z 0); rewrite <- Zlt_Qlt; lia|apply unit_pos]. }
  assert (LIM : (2 ^ 53 - (1 # 2)) * 2 ^ 971 * (inject_Z (Z.of_N d) * unit_) == inject_Z (Z.of_N (d * ((2 ^ 54 - 1) * 2 ^ 2044)))).
  { unfold unit_. rewrite (Zpower_Qpower 2 1074) by discriminate. change (inject_Z 2) with 2.
    rewrite N2Z.inj_mul, inject_Z_mult. rewrite (N2Z.inj_mul (2 ^ 54 - 1)), inject_Z_mult, N2Z.inj_pow, Zpower_Qpower by discriminate.
    change (inject_Z (Z.of_N 2)) with 2. change (Z.of_N 2044) with (971 + 1074 + -1)%Z. rewrite !(Qpower_plus 2) by (intros X; discriminate X).
    change (2 ^ (-1)) with (1 # 2). replace (Z.of_N (2 ^ 54 - 1)) with (2 * (2 ^ 53 - 1) + 1)%Z by reflexivity.
    rewrite inject_Z_plus, inject_Z_mult. change (inject_Z (2 ^ 53 - 1)) with (2 ^ 53 - 1). set (a := 2 ^ 53). set (b := 2 ^ 971). set (c := 2 ^ 1074). clearbody a b c.
    change (inject_Z 2) with 2. change (inject_Z 1) with 1. field. }
  assert (QE : q * (inject_Z (Z.of_N d) * unit_) == inject_Z (Z.of_N (n * 2 ^ 1074))).
  { rewrite N2Z.inj_mul, inject_Z_mult, <- H. replace (inject_Z (Z.of_N (2 ^ 1074))) with unit_ by (unfold unit_; rewrite N2Z.inj_pow; reflexivity). ring. }
  destruct (N.ltb_spec 2045 s) as [S|S]; cbn [stands_for db_neg].
  - split; [|reflexivity]. apply (scale_le _ _ _ P). rewrite LIM, QE, <- Zle_Qle. apply OV in S. lia.
  - split; [|split; [reflexivity|]].
    + apply Qnot_le_lt. rewrite (scale_le _ _ _ P), LIM, QE, <- Zle_Qle. intros X. assert (2045 < s)%N by (apply OV; lia). lia.
    + split; [split; cbn [db_m db_e]; [exact M|lia]|]. split; [destruct NF as [NF|NF]; [left; exact NF|right; cbn [db_e]; lia]|].
      intros y [Y1 Y2]. set (x := {| db_neg := neg; db_m := m; db_e := Z.of_N s - 1074 |}).
      assert (X : (-1074 <= db_e x)%Z) by (cbn [x db_e]; lia).
      assert (UX : units x = (m * 2 ^ s)%N) by (unfold units; cbn [x db_m db_e]; f_equal; f_equal; lia).
      pose proof (scaled n d q x D H X) as SX. pose proof (scaled n d q y D H ltac:(lia)) as SY. rewrite UX in SX. unfold units in SY.
      destruct (NEAR (db_m y) (Z.to_N (db_e y + 1074)) Y1) as [N1 N2]. split.
      * apply (scale_le _ _ _ P). rewrite SX, SY, <- Zle_Qle. exact N1.
      * rewrite (scale_eq _ _ _ P), SX, SY. intros EQ. assert (EQ' : Z.abs (Z.of_N (n * 2 ^ 1074) - Z.of_N (d * (m * 2 ^ s))) = Z.abs (Z.of_N (n * 2 ^ 1074) - Z.of_N (d * (db_m y * 2 ^ Z.to_N (db_e y + 1074))))).
        { apply Z.le_antisymm; rewrite Zle_Qle; [rewrite EQ|rewrite <- EQ]; apply Qle_refl. }
        destruct (N2 EQ') as [U|U]; [left|right; exact U]. apply (scale_eq unit_ _ _ unit_pos). rewrite !mag_units by lia. unfold units at 1. rewrite U, UX. reflexivity.
Qed.
Lemma round_number_ok neg radix v e : (0 < radix)%N ->
  stands_for neg (inject_Z (Z.of_N v) * inject_Z (Z.of_N radix) ^ e) (round_number neg radix v e).
Proof.
  intros R. unfold round_number. apply nearest_rounded; [apply N.neq_0_lt_0, N.pow_nonzero; lia|].
  assert (RN : ~ inject_Z (Z.of_N radix) == 0) by (intros H; assert (0 < inject_Z (Z.of_N radix)) by (change 0 with (inject_Z 0); rewrite <- Zlt_Qlt; lia); rewrite H in H0; discriminate H0).
  rewrite N2Z.inj_mul, inject_Z_mult, <- !pow_nat. rewrite <- Qmult_assoc, <- Qpower_plus by exact RN. destruct (Z.le_gt_cases 0 e).
  - rewrite (Z2N.id e) by lia. replace (Z.to_N (- e)) with 0%N by lia. replace (e + Z.of_N 0)%Z with e by lia. reflexivity.
  - replace (Z.to_N e) with 0%N by lia. rewrite (Z2N.id (- e)) by lia. replace (e + - e)%Z with 0%Z by lia. reflexivity.
Qed.
